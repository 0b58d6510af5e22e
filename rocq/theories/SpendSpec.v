(** Specification vocabulary for spending (C21-C25): what a call did, read off
    the attempts it made and the tables before and after.  Uses the types of
    the models but none of the functions implementing the loop. *)
From Verif Require Import Prelude StoreModel StoreSpec SpendModel.
Set Implicit Arguments.

(** ** Starting points *)

(** Contents reached by calls none of which received a token already declared
    invalid. *)
Definition fresh_reachable (d : db) : Prop :=
  exists os rs, (forall o, In o os -> fair o) /\ fresh_history [] os /\ steps empty_db os = (rs, d).

(** ** What other tasks may do with the store while a call waits *)

(** They do not touch tokens handed to this call, do not receive tokens already
    known invalid, and the process does not restart. *)
Definition polite (mine : list Z) (d : db) (o : op) : Prop :=
  fair o /\
  match o with
  | ORestart => False
  | ODiscard ts | OInvalidate _ ts | OReset ts => forall t, In t ts -> ~ In t mine
  | OInsert _ _ ts _ _ _ => forall t, In t ts -> ~ In t (map fst (invalid d))
  | _ => True
  end.
Fixpoint polite_run (mine : list Z) (d : db) (os : list op) : Prop :=
  match os with
  | [] => True
  | o :: rest => polite mine d o /\ polite_run mine (snd (step d o)) rest
  end.

Section Spec.
Variables P R : Type.
Notation attempt := (attempt P R).

(** Any server, any politely behaving other tasks. *)
Definition polite_server (server : list attempt -> group P -> db -> list op * response R) : Prop :=
  forall past g d, polite_run (map fst g) d (fst (server past g d)).
(** Nothing else uses the wallet meanwhile. *)
Definition lone_server (server : list attempt -> group P -> db -> list op * response R) : Prop :=
  forall past g d, fst (server past g d) = [].
(** Every refusal which names indices names at least one pass that was presented. *)
Definition honest_indices (server : list attempt -> group P -> db -> list op * response R) : Prop :=
  forall past g d v q failed, snd (server past g d) = Refuse v q failed -> failed <> [] ->
  exists i, In i failed /\ 0 <= i < Z.of_nat (length g).

(** Rows may come in any order. *)
Definition fair_scan (scan : nat -> list Z -> list Z) : Prop :=
  forall n l, Permutation (scan n l) l.
(** The redeemer can turn every token into a pass for this message. *)
Definition convertible (to_pass : Z -> Z -> res exn P) (message : Z) : Prop :=
  forall t, exists p, to_pass message t = Ok p.

(** ** What happened *)

(** Every token presented in some attempt. *)
Definition taken (tr : list attempt) (t : Z) : Prop :=
  exists g resp p, In (g, resp) tr /\ In (t, p) g.

(** Some attempt presented [t] at an index its refusal listed. *)
Definition rejected (tr : list attempt) (t : Z) : Prop :=
  exists g v q failed i p,
    In (g, Refuse v q failed) tr /\ nth_error g i = Some (t, p) /\ In (Z.of_nat i) failed.

(** The last attempt was accepted with result [x], presenting [g]. *)
Definition accepted (tr : list attempt) (x : R) (g : group P) : Prop :=
  exists past, tr = past ++ [(g, Accept x)].

End Spec.

(** ** Where a token is *)
Definition is_spent (d : db) (t : Z) : Prop :=
  ~ In t (map u_token (unblinded d)) /\ ~ In t (map fst (invalid d)).
Definition is_invalid (d : db) (t : Z) : Prop :=
  In t (map fst (invalid d)) /\ ~ In t (map u_token (unblinded d)).
Definition is_available (d : db) (t : Z) : Prop :=
  stored d true t /\ ~ In t (in_use d) /\ ~ In t (map fst (invalid d)).

(** How many spendable tokens are not handed out. *)
Definition available_count (d : db) (n : nat) : Prop :=
  exists toks, NoDup toks /\ (forall t, In t toks <-> stored d true t /\ ~ In t (in_use d)) /\ length toks = n.

(** ** The end of a call *)

(** [t] is in exactly one of the three places a used token can end up in, and
    not in use. *)
Definition accounted (d : db) (t : Z) : Prop :=
  ~ In t (in_use d) /\
  ((is_spent d t /\ ~ is_invalid d t /\ ~ is_available d t) \/
   (~ is_spent d t /\ is_invalid d t /\ ~ is_available d t) \/
   (~ is_spent d t /\ ~ is_invalid d t /\ is_available d t)).

(** The tables say the same about [t]. *)
Definition same_about (t : Z) (d d' : db) : Prop :=
  (forall b, stored d' b t <-> stored d b t) /\
  (In t (in_use d') <-> In t (in_use d)) /\
  (In t (map fst (invalid d')) <-> In t (map fst (invalid d))).
