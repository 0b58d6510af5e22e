(** Specification vocabulary for calls in progress at the same time (C109,
    C110): who presented, holds, spent or lost a pass, read off the answers each
    call got.  Uses none of the functions implementing the loop. *)
From Verif Require Import Prelude StoreModel StoreSpec PricingModel PricingSpec SpendModel SpendSpec ConcurrentModel.
Set Implicit Arguments.

Section Spec.
Variable P : Type.
Implicit Types (t : task P) (ts : list (task P)) (x : Z).

(** A call waiting for an answer presented [x] and nothing is known about it yet. *)
Definition holds t x : Prop := exists g p, t_phase t = Waiting g /\ In (x, p) g.

(** A call presented [x], now or in an earlier attempt. *)
Definition presented t x : Prop := holds t x \/ taken (t_past t) x.

(** The passes a call owes for result [r] when it presented [g]: all, or for an
    allocation as many of the first ones as the storage in fact allocated costs. *)
Definition owes (k : kind) (r : result) (g : group P) x : Prop :=
  match k with
  | SpendAll => exists p, In (x, p) g
  | SpendForBuckets pv size =>
      exists n i p, exact_price pv (repeat size (length (snd r))) n /\
        nth_error g i = Some (x, p) /\ Z.of_nat i < n
  end.

(** A call succeeded and [x] is one of the passes that paid for it. *)
Definition paid_with t x : Prop :=
  exists r g, t_phase t = Done (Ok r) /\ accepted (t_past t) r g /\ owes (c_kind (t_call t)) r g x.

(** A server rejected [x] when a call presented it. *)
Definition rejected_by t x : Prop := rejected (t_past t) x.

Definition some (Q : task P -> Z -> Prop) ts x : Prop := exists t, In t ts /\ Q t x.

(** Other uses of the wallet: receiving passes never presented before, and
    everything which does not concern passes.  In particular the process goes on
    running. *)
Definition harmless ts (d : db) (o : op) : Prop :=
  match o with
  | ORestart | ODiscard _ | OInvalidate _ _ | OReset _ | OExtract _ _ => False
  | OInsert _ _ new _ _ _ =>
      forall x, In x new -> ~ some presented ts x /\ ~ In x (map fst (invalid d))
  | _ => True
  end.

(** What may happen: rows are seen in any order, servers answer anything at any
    time, other uses of the wallet are harmless. *)
Definition may_happen (s : system P) (e : event) : Prop :=
  match e with
  | Start scan c => (forall l, Permutation (scan l) l) /\
      match c_kind c with SpendAll => True | SpendForBuckets pv _ => 0 < pv end
  | Answer scan _ _ => forall l, Permutation (scan l) l
  | Other o => harmless (s_tasks s) (s_db s) o
  end.
Fixpoint may_run (to_pass : Z -> Z -> res exn P) (s : system P) (es : list event) : Prop :=
  match es with
  | [] => True
  | e :: rest => may_happen s e /\ may_run to_pass (happen to_pass s e) rest
  end.

(** How many passes were received meanwhile. *)
Fixpoint received (to_pass : Z -> Z -> res exn P) (s : system P) (es : list event) : Z :=
  match es with
  | [] => 0
  | e :: rest =>
      match e with
      | Other (OInsert _ _ new _ _ _ as o) =>
          match fst (step (s_db s) o) with Ok _ => lenZ new | Err _ => 0 end
      | _ => 0
      end + received to_pass (happen to_pass s e) rest
  end.

(** The passes all calls together asked for. *)
Fixpoint asked_for ts : Z :=
  match ts with [] => 0 | t :: rest => c_num (t_call t) + asked_for rest end.

(** A call which ended because the wallet had too few passes. *)
Definition ran_short t : Prop := t_phase t = Done (Err (Raised NotEnoughTokens)).

(** [l] lists the tokens satisfying [Q], each once. *)
Definition lists (l : list Z) (Q : Z -> Prop) : Prop := NoDup l /\ forall x, In x l <-> Q x.

(** The process with no call made yet, on a wallet from which nothing is in use. *)
Definition starts (s : system P) : Prop :=
  fresh_reachable (s_db s) /\ in_use (s_db s) = [] /\ s_tasks s = [].
End Spec.
