(** Specification vocabulary for spending from a recovered wallet (C117).  It
    uses the types of calls, outcomes and tables of [StoreModel] and the
    histories of [ReplicaStore]. *)
From Verif Require Import Prelude PricingModel StoreModel StoreSpec ReplicaModel ReplicaStore.
From Coq Require Import Sorting.Permutation.

(** The calls of a history are answered by SQLite in any order of rows. *)
Definition fair_event (e : wevent) : Prop :=
  match e with WCall o | WCallKill o => fair o | _ => True end.

(** A token of the wallet that can be spent and is not set aside for a call. *)
Definition idle (d : db) (t : Z) : Prop := stored d true t /\ ~ In t (in_use d).

(** Asking the wallet for [n] tokens works. *)
Definition gives (d : db) (n : Z) : Prop :=
  forall scan, (forall l, Permutation (scan l) l) ->
  exists toks, fst (StoreModel.step d (OExtract scan n)) = Ok (RTokens toks) /\ lenZ toks = n.

(** What the wallet gives are tokens of [b], each once. *)
Definition gives_only_tokens_of (b d : db) : Prop :=
  forall scan n toks, (forall l, Permutation (scan l) l) ->
  fst (StoreModel.step d (OExtract scan n)) = Ok (RTokens toks) ->
  NoDup toks /\ forall t, In t toks -> stored b true t.

(** From now on the two wallets answer every sequence of calls alike. *)
Definition indistinguishable (d d' : db) : Prop :=
  forall os, fst (steps d os) = fst (steps d' os).
