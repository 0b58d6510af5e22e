(** Specification for C140: the purse a node should have, counted from what happened
    to it. *)
From Verif Require Import Prelude StoreModel StoreSpec ControllerModel ControllerSpec.
Set Implicit Arguments.

(** Tokens with the mark whether they may be spent. *)
Definition purse := list (Z * bool).
Definition given (o : list output) : purse :=
  flat_map (fun x => match x with Credited _ _ toks s => map (fun t => (t, s)) toks | _ => [] end) o.
Definition without (ts : list Z) (p : purse) : purse := filter (fun x => negb (memZ (fst x) ts)) p.
Definition succeeds (d : db) (o : op) : bool := match fst (StoreModel.step d o) with Ok _ => true | Err _ => false end.

Section Purse.
Variables (groups dflt : Z) (allowed : list Z).
(** The purse and what was ever declared invalid.  What is stored of an answer goes
    in; what a call to the wallet declares spent or invalid goes out, and at such a
    time also what was declared invalid before, should the issuer have given it again.
    Nothing else changes it. *)
Definition purse_step (c : ctl) (te : timed) (p : purse * list Z) : purse * list Z :=
  let '(have, bad) := p in
  match fst (fst te) with
  | EWallet (ODiscard ts) => (without ts have, bad)
  | EWallet (OInvalidate reason ts) =>
      if succeeds (c_db c) (OInvalidate reason ts) then (without (bad ++ ts) have, bad ++ ts) else p
  | _ => (have ++ given (fst (controller_step groups dflt allowed c te)), bad)
  end.
Fixpoint purse_after (c : ctl) (p : purse * list Z) (es : list timed) : purse * list Z :=
  match es with
  | [] => p
  | te :: rest => purse_after (snd (controller_step groups dflt allowed c te)) (purse_step c te p) rest
  end.
(** A node's purse after its whole life. *)
Definition purse_of (es : list timed) : purse := fst (purse_after new_node ([], []) es).
End Purse.

(** The issuer gave the token, signed with the key. *)
Definition issued (es : list timed) (t pk : Z) : Prop :=
  exists i toks now gen, In t toks /\
    (In (EAnswer i (ASuccess toks pk), now, gen) es \/ In (EKillAfterAnswer i (ASuccess toks pk), now, gen) es).
