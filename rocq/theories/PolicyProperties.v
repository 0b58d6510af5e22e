(** The snapshot policy: C96. *)
From Verif Require Import Prelude PricingModel PricingSpec StoreModel ReplicaModel ReplicaSpec ReplicaStore ReplicaProperties
  PolicyModel PolicySpec PolicyProofs.
From Coq Require Strings.String.
Import Coq.Strings.String.StringSyntax.

(** * C96: a replica costs at most ten times a snapshot *)

(** A new snapshot is called for exactly if the files of the replica cost more than ten of it. *)
Theorem C96_snapshot_when_ten_times_dearer :
  forall v needed total size sizes, 0 < v -> 0 < needed -> 0 < total ->
  should_snapshot v needed total size sizes =
  Ok (10 * object_price v needed total size <? sumZ (map (object_price v needed total) sizes)).
Proof. intros. now apply should_snapshot_eq. Qed.
Print Assumptions C96_snapshot_when_ten_times_dearer.

(** What is weighed is the listing of the replica directory: whatever else is in it and in
    whatever order it is listed, the decision is about the price of the replica. *)
Theorem C96_the_directory_is_weighed :
  forall v needed total (D S : Type) (snapshot_bytes : D -> Z) (stream_bytes : list (change S) -> Z) entries r size,
  0 < v -> 0 < needed -> 0 < total ->
  shows snapshot_bytes stream_bytes entries (r_snapshot r) (r_streams r) ->
  should_snapshot v needed total size (StreamModel.replica_size entries) =
  Ok (10 * object_price v needed total size <? replica_price v needed total snapshot_bytes stream_bytes r).
Proof.
  intros v needed total D S sb tb entries r size Hv Hn Ht H. rewrite should_snapshot_eq by assumption.
  now rewrite (listing_price v needed total H).
Qed.
Print Assumptions C96_the_directory_is_weighed.

Definition ex_change (k : Z) : change unit := Change k tt false.
Definition ex_replica : replica unit unit :=
  Replica (Some tt) [(2, map ex_change [1; 2]); (12, map ex_change [3; 4; 5; 6; 7; 8; 9; 10; 11; 12])].
Definition ex_listing : list (CborModel.text * StreamModel.entry) :=
  [(StreamModel.str "event-stream-12", StreamModel.File 1000 []); (StreamModel.str "lost+found", StreamModel.Dir);
   (StreamModel.str "snapshot", StreamModel.File 100 []); (StreamModel.str "event-stream-2", StreamModel.File 200 [])].
Example C96_example_directory :
  shows (fun _ => 100) (fun l => 100 * lenZ l) ex_listing (r_snapshot ex_replica) (r_streams ex_replica) /\
  should_snapshot 100 1 1 100 (StreamModel.replica_size ex_listing) = Ok true /\
  should_snapshot 100 1 1 200 (StreamModel.replica_size ex_listing) = Ok false.
Proof.
  split; [|split; vm_compute; reflexivity]. unfold ex_listing, ex_replica. cbn [r_snapshot r_streams].
  refine (@shows_stream unit unit (fun _ => 100) (fun l => 100 * lenZ l) 12 (map ex_change [3; 4; 5; 6; 7; 8; 9; 10; 11; 12]) [] _ (Some tt) [(2, map ex_change [1; 2])] [] _).
  apply shows_other; [intros [rest H]; apply (f_equal (@hd Z 0)) in H; vm_compute in H; discriminate|discriminate|].
  refine (@shows_snapshot unit unit (fun _ => 100) (fun l => 100 * lenZ l) tt [] _ [(2, map ex_change [1; 2])] _).
  refine (@shows_stream unit unit (fun _ => 100) (fun l => 100 * lenZ l) 2 (map ex_change [1; 2]) [] _ None [] [] _). apply shows_nil.
Qed.

(** Any database, any history, any sizes of files: when changes have been handed to the
    uploader and nothing goes wrong or changes meanwhile, the service gets idle with a replica
    that costs no more than ten snapshots of the database as it is. *)
Theorem C96_replica_cost_settles :
  forall v needed total (D S : Type) (exec : S -> D -> res exn D) (fresh : D -> D) text_size stream_size
         (snapshot_bytes : D -> Z) (stream_bytes : list (change S) -> Z),
  0 < v -> 0 < needed -> 0 < total -> (forall d, 0 <= snapshot_bytes d) ->
  forall d es n r, run exec fresh text_size stream_size (new_system S d) es = (n, r) ->
  after_changes (n_work n) ->
  exists k n' r',
    left_alone v needed total exec fresh text_size stream_size snapshot_bytes stream_bytes k (n, r) = (n', r') /\
    n_work n' = Idle /\ n_db n' = n_db n /\
    replica_price v needed total snapshot_bytes stream_bytes r' <= 10 * object_price v needed total (snapshot_bytes (fresh (n_db n))).
Proof.
  intros v needed total D S exec fresh ts ss sb tb Hv Hn Ht Hs d es n r E W.
  destruct (@settles v needed total Hv Hn Ht D S exec fresh ts ss sb tb Hs d es n r E W) as (k & H). cbv zeta in H.
  exists k. destruct (left_alone _ _ _ _ _ _ _ _ _ _ _) as [n' r']. exists n', r'. auto.
Qed.
Print Assumptions C96_replica_cost_settles.

(** A pass buys 100 bytes, a snapshot costs one pass, a stream one pass per change; 12 changes
    are being uploaded.  They are followed by a snapshot, after which the stream is removed. *)
Definition snapshot100 (d : db) : Z := 100.
Definition dear : list wevent :=
  [WSetUp; WDone false; WDone false; WDone false; WCall (OAdd 1 4 0 [11; 12; 13; 14; 15; 16; 17; 18; 19; 20; 21] 1000)].
Definition alone := left_alone 100 1 1 sexec restart size10 size100 snapshot100 size100.
Example C96_example :
  let s := w dear in
  after_changes (n_work (fst s)) /\
  replica_price 100 1 1 snapshot100 size100 (snd s) = 1 /\
  replica_price 100 1 1 snapshot100 size100 (snd (alone 1 s)) = 13 /\
  should_snapshot 100 1 1 100 (replica_sizes snapshot100 size100 (snd (alone 1 s))) = Ok true /\
  map fst (r_streams (snd (alone 4 s))) = [12] /\ n_work (fst (alone 4 s)) <> Idle /\
  n_work (fst (alone 5 s)) = Idle /\ replica_price 100 1 1 snapshot100 size100 (snd (alone 5 s)) = 1.
Proof. vm_compute. repeat split; discriminate. Qed.
