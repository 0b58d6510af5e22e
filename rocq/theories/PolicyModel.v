(** When a new snapshot is worth its price: _plugin.py:115-148 and replicate.py:1007-1036, on
    top of [ReplicaModel], where the decision is arbitrary.

    The replica directory holds files only, as there: a directory in it named like an event
    stream would be weighed too (replicate.py:1030-1036, [or] binds less tightly than [and]). *)
From Verif Require Import Prelude PricingModel StoreModel ReplicaModel.
Set Implicit Arguments.

Section Policy.
(** [bytes_per_pass] and [encoding] of [_CostBasedPolicy], _plugin.py:126-128 *)
Variables bytes_per_pass needed total : Z.
(** _plugin.py:233, the factor *)
Definition FACTOR : Z := 10.

(** _plugin.py:132-137 [_required_passes]; [sum] of 147 *)
Definition cost (size : Z) : res price_error Z := required_passes_for_data bytes_per_pass needed total size.
Fixpoint costs (sizes : list Z) : res price_error Z :=
  match sizes with
  | [] => Ok 0
  | s :: rest => c <- cost s ;; cs <- costs rest ;; Ok (c + cs)
  end.

(** _plugin.py:139-148 [should_snapshot] *)
Definition should_snapshot (snapshot_size : Z) (replica_sizes : list Z) : res price_error bool :=
  snapshot_cost <- cost snapshot_size ;;
  replica_cost <- costs replica_sizes ;;
  Ok (snapshot_cost * FACTOR <? replica_cost).

Section Replica.
Variables D S : Type.
Variable exec : S -> D -> res exn D.
Variable fresh : D -> D.
Variable text_size : S -> Z.
Variable stream_size : list (change S) -> Z.
(** The sizes of the files uploaded for a snapshot and for a stream. *)
Variable snapshot_bytes : D -> Z.
Variable stream_bytes : list (change S) -> Z.

(** replicate.py:1023-1036 [_replica_size] *)
Definition replica_sizes (r : replica D S) : list Z :=
  match r_snapshot r with Some d => [snapshot_bytes d] | None => [] end ++
  map (fun kv => stream_bytes (snd kv)) (r_streams r).

(** replicate.py:1007-1015 [_do_consider_snapshot], with 1017-1021 [_new_snapshot_size]; a price
    that cannot be computed fails the operation, which is not a decision. *)
Definition decision (s : system D S) : bool :=
  match should_snapshot (snapshot_bytes (fresh (n_db (fst s)))) (replica_sizes (snd s)) with
  | Ok b => b
  | Err _ => false
  end.

(** The node goes on with its work, deciding that way, while nothing else happens. *)
Fixpoint left_alone (k : nat) (s : system D S) : system D S :=
  match k with
  | O => s
  | Datatypes.S k' => left_alone k' (step exec fresh text_size stream_size s (Done (decision s)))
  end.
End Replica.
End Policy.
