(** What keeping a replica costs. *)
From Verif Require Import Prelude PricingSpec ReplicaModel.
From Verif Require BytesModel CborModel StreamModel StreamSpec.
From Coq Require Strings.String.
Import Coq.Strings.String.StringSyntax.
Set Implicit Arguments.

(** An object of [size] bytes, split in [total] shares any [needed] of which give it back, is
    paid for share by share, a pass buying [v] bytes. *)
Definition object_price (v needed total size : Z) : Z := total * cdiv (cdiv size needed) v.

(** The files of a replica: its snapshot, if there is one, and its streams *)
Definition replica_price D S (v needed total : Z) (snapshot_bytes : D -> Z) (stream_bytes : list (change S) -> Z)
    (r : replica D S) : Z :=
  (match r_snapshot r with Some d => object_price v needed total (snapshot_bytes d) | None => 0 end) +
  sumZ (map (fun stream => object_price v needed total (stream_bytes (snd stream))) (r_streams r)).

(** The replication service is uploading changes, or weighing the replica after that. *)
Definition after_changes D S (w : work D S) : Prop :=
  match w with Sending _ _ | Weighing => True | _ => False end.

(** The replica directory on the grid: a file for the snapshot, one for each stream, and
    other entries whose names are neither. *)
Inductive shows D S (snapshot_bytes : D -> Z) (stream_bytes : list (change S) -> Z) :
    list (CborModel.text * StreamModel.entry) -> option D -> dict (list (change S)) -> Prop :=
| shows_nil : shows snapshot_bytes stream_bytes [] None []
| shows_snapshot d content entries streams :
    shows snapshot_bytes stream_bytes entries None streams ->
    shows snapshot_bytes stream_bytes
      ((StreamModel.str "snapshot", StreamModel.File (snapshot_bytes d) content) :: entries) (Some d) streams
| shows_stream n s content entries snapshot before after :
    shows snapshot_bytes stream_bytes entries snapshot (before ++ after) ->
    shows snapshot_bytes stream_bytes
      ((StreamModel.str "event-stream-" ++ CborModel.ascii (BytesModel.dec n), StreamModel.File (stream_bytes s) content) :: entries)
      snapshot (before ++ (n, s) :: after)
| shows_other name e entries snapshot streams :
    ~ StreamSpec.stream_like name -> name <> StreamModel.str "snapshot" ->
    shows snapshot_bytes stream_bytes entries snapshot streams ->
    shows snapshot_bytes stream_bytes ((name, e) :: entries) snapshot streams.
