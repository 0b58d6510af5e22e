(** Vocabulary for lease maintenance: C52-C57, C63, C77-C79. *)
From Verif Require Import Prelude BytesModel CborModel PricingModel PricingSpec ContainerModel StoreModel LeaseModel.
Set Implicit Arguments.

(** * Directories *)

(** [b] is listed in the directory [a]. *)
Definition child (graph : Z -> node) (a b : Z) : Prop :=
  exists names name, n_children (graph a) = Some (Ok names) /\ In (name, b) names.
(** In one or more steps. *)
Inductive below (graph : Z -> node) : Z -> Z -> Prop :=
| below_child a b : child graph a b -> below graph a b
| below_step a b c : child graph a b -> below graph b c -> below graph a c.
Definition reachable (graph : Z -> node) (roots : list Z) (n : Z) : Prop :=
  In n roots \/ exists r, In r roots /\ below graph r n.
Definition readable (graph : Z -> node) (n : Z) : Prop :=
  forall e, n_children (graph n) <> Some (Err e).

(** * Leases *)

(** Some share of a storage index has less than this left. *)
Definition is_due (remaining now : Z) (shares : dict share_stat) : bool :=
  existsb (fun ns => lease_expiration (snd ns) * 1000000 - now <? remaining) shares.

(** What a run asked for, what it recorded, and what it was told. *)
Definition asked (t : list act) : list (Z * bytes) :=
  flat_map (fun a => match a with Asked server si _ _ => [(server, si)] | _ => [] end) t.
Definition observed (t : list act) : list (list Z) :=
  flat_map (fun a => match a with Observed sizes => [sizes] | _ => [] end) t.
Definition told (t : list act) : list (Z * Z * list bytes * list (dict share_stat)) :=
  flat_map (fun a => match a with Stated now server sis answer => [(now, server, sis, answer)] | _ => [] end) t.

(** The renewals that an answer calls for. *)
Definition due_on (remaining : Z) (x : Z * Z * list bytes * list (dict share_stat)) : list (Z * bytes) :=
  let '(now, server, sis, answer) := x in
  map (fun p => (server, fst p)) (filter (fun p => is_due remaining now (snd p)) (combine sis answer)).
(** The sizes of the shares in an answer, by storage index. *)
Definition sizes_on (x : Z * Z * list bytes * list (dict share_stat)) : list (list Z) :=
  let '(now, server, sis, answer) := x in
  filter nonempty (map (fun p => map (fun ns => size (snd ns)) (snd p)) (combine sis answer)).

(** * The record of a run *)

(** The price of what was observed for this run. *)
Fixpoint recorded_cost (pass_value id : Z) (os : list op) : Z :=
  match os with
  | OMaintObserve pv (Some id') sizes :: rest =>
      (if (pv =? pass_value) && (id' =? id) then sumZ (map (fun s => cdiv s pass_value) sizes) else 0)
      + recorded_cost pass_value id rest
  | _ :: rest => recorded_cost pass_value id rest
  | [] => 0
  end.

(** The observations recorded for this run. *)
Definition recorded_for (id : Z) (os : list op) : list (list Z) :=
  flat_map (fun o => match o with
                     | OMaintObserve _ (Some id') sizes => if id' =? id then [sizes] else []
                     | _ => []
                     end) os.
(** The sizes of all shares in an answer. *)
Definition all_sizes (x : Z * Z * list bytes * list (dict share_stat)) : list Z :=
  flat_map (fun shares => map (fun ns => size (snd ns)) shares) (snd x).

(** * Time *)

(** When an event happens; for a stop or the end of the process it does not matter. *)
Definition time_of (default : Z) (e : tevent) : Z :=
  match e with Boot now _ | Fire now | Done now _ => now | Stop | Kill => default end.
(** No interval that [random.uniform] gives is shorter than [lo]. *)
Definition long_enough (lo : Z) (e : tevent) : Prop :=
  match e with Boot _ sample | Done _ sample => lo <= sample | _ => True end.

(** A configuration of whole seconds. *)
Definition whole_seconds (us : Z) : Prop := exists s, us = s * 1000000.
Definition seconds_of (us : Z) (s : Z) : Prop := s * 1000000 <= us < (s + 1) * 1000000.
