(** Specification for C144: the number of tokens a voucher is redeemed for, on a node
    whose settings are changed in the course of its life. *)
From Verif Require Import Prelude StoreModel StoreSpec ControllerModel ControllerSpec KeysSpec.
Set Implicit Arguments.

Section Worth.
Variable groups : Z.
(** What the node does in the course of its life. *)
Fixpoint done (c : ctl) (h : list (settings * timed)) : list output :=
  match h with
  | [] => []
  | (k, te) :: rest => fst (controller_step groups (fst k) (snd k) c te) ++ done (snd (controller_step groups (fst k) (snd k) c te)) rest
  end.

(** The voucher is submitted when it was not known, for this many tokens: those asked
    for, or else the number that was the default then. *)
Definition submitted (h : list (settings * timed)) (v n : Z) : Prop :=
  exists h1 dflt allowed asked now gen h2,
    h = h1 ++ ((dflt, allowed), (ESubmit v asked, now, gen)) :: h2 /\
    (forall r, row (living groups new_node h1) r -> v_number r <> v) /\
    n = match asked with Some m => m | None => dflt end.

(** The answers to requests for the voucher, with the request. *)
Definition all_answers_from (c : ctl) (h : list (settings * timed)) (v : Z) (P : flight -> answer -> Prop) : Prop :=
  forall h1 k i a now gen h2 f,
  (h = h1 ++ (k, (EAnswer i a, now, gen)) :: h2 \/ h = h1 ++ (k, (EKillAfterAnswer i a, now, gen)) :: h2) ->
  nth_error (c_flights (living groups c h1)) i = Some f -> f_voucher f = v -> P f a.
Definition all_answers := all_answers_from new_node.
(** The voucher is not called unpaid. *)
Definition not_unpaid (_ : flight) (a : answer) : Prop := a <> AUnpaid.
(** An answer with tokens has as many as were asked for. *)
Definition in_full (f : flight) (a : answer) : Prop :=
  match a with ASuccess toks _ => length toks = length (f_tokens f) | _ => True end.
(** It is never called unpaid. *)
Definition always_paid h v := all_answers h v not_unpaid.
(** Every answer with tokens has as many as were asked for. *)
Definition answered_in_full h v := all_answers h v in_full.
End Worth.
