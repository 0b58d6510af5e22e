(** Specification vocabulary for replication (C39-C43, C45, C48, C49, C72).
    It speaks about transactions, the log, the directory and what is being done,
    and uses none of the functions of [ReplicaModel] except execution of
    statements and the run of a history. *)
From Verif Require Import Prelude StoreModel ReplicaModel.
From Coq Require Import Sorting.Sorted Sorting.Permutation.
Set Implicit Arguments.

Section Spec.
Variables D S : Type.
Variable exec : S -> D -> res exn D.
Variable fresh : D -> D.
Variable text_size : S -> Z.
Variable stream_size : list (change S) -> Z.
Notation system := (system D S).
Notation node := (node D S).
Notation replica := (replica D S).
Notation event := (event S).
Notation run := (run exec fresh text_size stream_size).
Notation rows := (exec_rows exec).

(** ** Transactions *)

(** All rows of all calls, in order of execution. *)
Definition executed (b : body S) : list S := flat_map (@c_rows S) b.
(** Those of the calls which count as mutating. *)
Definition mutating (b : body S) : list S := flat_map (fun c => if c_mutates c then c_rows c else []) b.
(** Nothing in it counts as mutating. *)
Definition read_only (b : body S) : Prop := Forall (fun c => c_mutates c = false) b.
(** What does not count as mutating indeed changes nothing. *)
Definition honest (b : body S) : Prop :=
  Forall (fun c => c_mutates c = false -> forall d d', rows (c_rows c) d = Ok d' -> d' = d) b.
Definition valuable (b : body S) : bool := existsb (fun c => c_mutates c && c_important c) b.

(** ** What a replica is good for *)

(** A relation between what a recovery makes and the original contents, which
    statements preserve.  [ok]: the contents between transactions. *)
Record faithful (sim : D -> D -> Prop) (ok : D -> Prop) : Prop := {
  faithful_fresh : forall b, ok b -> sim (fresh b) b;
  faithful_exec : forall s a b b', sim a b -> exec s b = Ok b' -> exists a', exec s a = Ok a' /\ sim a' b';
  faithful_ok : forall b, ok b -> ok (fresh b) }.
(** It also holds when the original node is restarted, if its contents are
    [settled]. *)
Definition restartable (sim : D -> D -> Prop) (ok settled : D -> Prop) : Prop :=
  forall a b, ok b -> settled b -> sim a b -> sim a (fresh b).

(** Contents the database had at some point of a history. *)
Definition at_some_time (s0 : system) (es : list event) (d : D) : Prop :=
  exists es1 es2, es = es1 ++ es2 /\ n_db (fst (run s0 es1)) = d.

(** ** Histories *)

(** Whether old streams are being removed: the snapshot is newer than them. *)
Definition pruning (w : work D S) : Prop :=
  match w with ListingOld _ | Unlinking _ _ => True | _ => False end.

(** A snapshot is being uploaded from before the first change ever recorded. *)
Definition first_snapshot (n : node) : Prop :=
  n_seq n = None /\ match n_work n with SendingSnapshot _ _ => True | _ => False end.

(** Nothing goes wrong: transactions commit, are told to the observer, and the
    process does not end once replication is set up. *)
Definition calm (ok : D -> Prop) (s : system) (e : event) : Prop :=
  let '(n, _) := s in
  match e with
  | Txn b true =>
      honest b /\
      (exists d, rows (executed b) (n_db n) = Ok d /\ ok d) /\
      (n_replicating n = true -> n_observing n = true \/ read_only b) /\
      (first_snapshot n -> read_only b)
  | Txn b false => n_replicating n = true -> read_only b
  | TxnKill b => n_setup n = false /\ (forall d, rows (executed b) (n_db n) = Ok d -> ok d)
  | Kill _ => n_setup n = false
  | SetUpKill => False
  | Fail _ => False
  | _ => True
  end.

(** As [calm], or the process ends, or a remote operation fails, before that
    operation has taken effect and while no old streams are being removed; it is
    started again with settled contents. *)
Definition harmless (ok settled : D -> Prop) (s : system) (e : event) : Prop :=
  let '(n, _) := s in
  match e with
  | Open => n_up n = false -> n_setup n = false \/ settled (n_db n)
  | Kill false | Fail false => ~ pruning (n_work n)
  | SetUpKill => True
  | TxnKill b => (n_setup n = false \/ read_only b /\ honest b /\ ~ pruning (n_work n)) /\
                 (forall d, rows (executed b) (n_db n) = Ok d -> ok d)
  | _ => calm ok s e
  end.

(** Every event of a history meets a condition in the state it finds. *)
Fixpoint all_along (P : system -> event -> Prop) (s : system) (es : list event) : Prop :=
  match es with
  | [] => True
  | e :: rest => P s e /\ all_along P (step exec fresh text_size stream_size s e) rest
  end.

(** ** The log *)

Definition increasing (l : list Z) : Prop := StronglySorted Z.lt l.
(** The largest number given to a change so far. *)
Definition last_number (n : node) : Z := match n_seq n with Some x => x | None => 0 end.
(** [news] are new changes: these statements in this order, numbered on. *)
Definition records (n : node) (ss : list S) (imp : bool) (news : list (change S)) : Prop :=
  map (@statement S) news = ss /\
  forall i c, nth_error news i = Some c -> sequence c = last_number n + 1 + Z.of_nat i /\ important c = imp.

(** All changes recorded along a history: those with a new number, step by step. *)
Fixpoint journal (s : system) (es : list event) : list (change S) :=
  match es with
  | [] => []
  | e :: rest =>
      let s' := step exec fresh text_size stream_size s e in
      filter (fun c => last_number (fst s) <? sequence c) (n_log (fst s')) ++ journal s' rest
  end.

(** The mutating statements of the transactions committed while observed. *)
Fixpoint committed_while_observed (s : system) (es : list event) : list S :=
  match es with
  | [] => []
  | e :: rest =>
      match e with
      | Txn b true =>
          match n_observing (fst s), rows (executed b) (n_db (fst s)) with
          | true, Ok _ => mutating b
          | _, _ => []
          end
      | _ => []
      end ++ committed_while_observed (step exec fresh text_size stream_size s e) rest
  end.

(** ** Jobs *)

(** What it means that a job has been begun, in the state that leaves.  An
    upload of no events at all is over at once. *)
Definition begun (j : job) (n : node) : Prop :=
  match j with
  | JStartup => n_work n = Listing
  | JEvents => n_log n = [] \/ exists h, n_work n = Sending (n_log n) h
  | JSnapshot => exists q, n_work n = SendingSnapshot q (fresh (n_db n))
  | JConsider => n_work n = Weighing
  end.

(** The total size of statements. *)
Definition total_size (ss : list S) : Z := sumZ (map text_size ss).
End Spec.
