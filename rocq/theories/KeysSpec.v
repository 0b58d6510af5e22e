(** Specification for C143: a node whose settings are changed in the course of its life. *)
From Verif Require Import Prelude StoreModel StoreSpec ControllerModel ControllerSpec.
Set Implicit Arguments.

(** The settings: the number of tokens a voucher is taken to be for, and the keys whose
    tokens may be spent. *)
Definition settings := (Z * list Z)%type.

(** The event brings tokens signed with the key, in answer to an open request. *)
Definition brings (c : ctl) (te : timed) (toks : list Z) (pk : Z) : Prop :=
  exists i f now gen, nth_error (c_flights c) i = Some f /\
    (te = (EAnswer i (ASuccess toks pk), now, gen) \/ te = (EKillAfterAnswer i (ASuccess toks pk), now, gen)).

Section Keys.
Variable groups : Z.
(** A life with the settings in force at each event.  Those of a node change when it is
    started again (resource.py:137-180 reads them once, with storage_common.py:123-140);
    here they may change at any time. *)
Fixpoint living (c : ctl) (h : list (settings * timed)) : ctl :=
  match h with
  | [] => c
  | (k, te) :: rest => living (snd (controller_step groups (fst k) (snd k) c te)) rest
  end.
Definition proper_life (h : list (settings * timed)) : Prop := Forall (fun e => proper (snd e)) h.

(** In the course of the life the token came with an answer to an open request, signed
    with the key, while the listed keys were allowed. *)
Definition received (c : ctl) (h : list (settings * timed)) (t pk : Z) (allowed : list Z) : Prop :=
  exists h1 n te h2 toks, h = h1 ++ ((n, allowed), te) :: h2 /\ brings (living c h1) te toks pk /\ In t toks.

(** The wallet was told that the token was spent, or invalid. *)
Definition taken (h : list (settings * timed)) (t : Z) : Prop :=
  exists k now gen,
    (exists ts, In t ts /\ In (k, (EWallet (ODiscard ts), now, gen)) h) \/
    (exists reason ts, In t ts /\ In (k, (EWallet (OInvalidate reason ts), now, gen)) h).
End Keys.
