(** Specification vocabulary for C135: two histories that differ in the tokens
    only.  [tau] says which random token of the second history stands for which
    of the first, [ups] the same for the tokens the issuer gives.  Uses the types
    of the models but none of their functions. *)
From Verif Require Import Prelude StoreModel ControllerModel.
Set Implicit Arguments.

Definition one_to_one (f : Z -> Z) : Prop := forall x y, f x = f y -> x = y.

Section Alike.
Variables tau ups : Z -> Z.

Inductive alike_answer : answer -> answer -> Prop :=
| alike_success toks pk : alike_answer (ASuccess toks pk) (ASuccess (map ups toks) pk)
| alike_spent : alike_answer AAlreadySpent AAlreadySpent
| alike_unpaid : alike_answer AUnpaid AUnpaid
| alike_error e : alike_answer (AError e) (AError e).

(** Uses of the wallet with other tokens, read in the corresponding order. *)
Inductive alike_op : op -> op -> Prop :=
| alike_add v n k toks now : alike_op (OAdd v n k toks now) (OAdd v n k (map tau toks) now)
| alike_insert v pk toks c s now : alike_op (OInsert v pk toks c s now) (OInsert v pk (map ups toks) c s now)
| alike_extract scan1 scan2 n : (forall l, scan2 (map ups l) = map ups (scan1 l)) ->
    alike_op (OExtract scan1 n) (OExtract scan2 n)
| alike_discard toks : alike_op (ODiscard toks) (ODiscard (map ups toks))
| alike_invalidate r toks : alike_op (OInvalidate r toks) (OInvalidate r (map ups toks))
| alike_reset toks : alike_op (OReset toks) (OReset (map ups toks))
| alike_other o :
    match o with
    | ODouble _ _ | OGet _ | OList | OCount | OCountRandom | OMaintStart _ | OMaintObserve _ _ _
    | OMaintFinish _ _ | OLatest | ORestart => True
    | _ => False
    end -> alike_op o o.

Inductive alike_event : event -> event -> Prop :=
| alike_submit v n : alike_event (ESubmit v n) (ESubmit v n)
| alike_answered i a1 a2 : alike_answer a1 a2 -> alike_event (EAnswer i a1) (EAnswer i a2)
| alike_timer : alike_event ETimer ETimer
| alike_start : alike_event EStart EStart
| alike_wallet o1 o2 : alike_op o1 o2 -> alike_event (EWallet o1) (EWallet o2)
| alike_kill_answer i a1 a2 : alike_answer a1 a2 -> alike_event (EKillAfterAnswer i a1) (EKillAfterAnswer i a2)
| alike_kill_timer n : alike_event (EKillInTimer n) (EKillInTimer n)
| alike_kill_start n : alike_event (EKillInStart n) (EKillInStart n).

(** The same event at the same time, with other random tokens made up. *)
Definition alike_timed (a b : timed) : Prop :=
  let '(e1, now1, gen1) := a in
  let '(e2, now2, gen2) := b in
  alike_event e1 e2 /\ now2 = now1 /\ forall v k n, gen2 v k n = map tau (gen1 v k n).

(** The same requests to the issuer and the same groups received, with the other
    tokens. *)
Inductive alike_output : output -> output -> Prop :=
| alike_requested v k toks : alike_output (Requested v k toks) (Requested v k (map tau toks))
| alike_credited v k toks s : alike_output (Credited v k toks s) (Credited v k (map ups toks) s)
| alike_died e : alike_output (Died e) (Died e).
End Alike.

(** What the wallet tells about itself. *)
Definition question (o : op) : Prop :=
  match o with OGet _ | OList | OCount | OCountRandom | OLatest => True | _ => False end.
