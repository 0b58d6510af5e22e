(** Model of replication (replicate.py) and of replaying a replica (recover.py).

    The database is abstract: [D] is what its application tables hold, the
    temporary ones included, a statement with one row of arguments is an element
    of [S], and executing it is a function that may raise.  [fresh] is what a new
    connection to the same persistent tables sees, which is also what
    [recover_snapshot] (recover.py:266-322) makes of a snapshot: the text of
    the dump is not modelled.  The table [event-stream] and its counter in
    [sqlite_sequence] are kept apart.

    The remote operations a replication job awaits are events: the operation
    completes, or fails, or the process dies meanwhile.  Uploading and linking
    (replicate.py:583-598) is one operation, of which only the linking can be
    seen. *)
From Verif Require Import Prelude StoreModel.
Set Implicit Arguments.

(** replicate.py:150-172 [ReplicationJob] *)
Inductive job := JStartup | JEvents | JSnapshot | JConsider.

Definition job_eqb (a b : job) : bool :=
  match a, b with
  | JStartup, JStartup | JEvents, JEvents | JSnapshot, JSnapshot | JConsider, JConsider => true
  | _, _ => false
  end.

Section Replica.
Variables D S : Type.
Variable exec : S -> D -> res exn D.
Variable fresh : D -> D.
(** [len(sql)] in replicate.py:792, and the length of the serialised events in
    replicate.py:773-774 *)
Variable text_size : S -> Z.

(** replicate.py:176-202 [Change], a row of [event-stream] (schema.py:225-235, 277) *)
Record change := Change { sequence : Z; statement : S; important : bool }.
Variable stream_size : list change -> Z.

(** What the replication loop (replicate.py:903-919) is doing: the [await] it
    is suspended at.  [Stopped]: it was not started or has ended. *)
Inductive work :=
| Stopped
| Idle                                                (* 909, the queue is empty *)
| Listing                                             (* 930, 1097 *)
| Sending (events : list change) (high_seq : Z)       (* 998 *)
| SendingSnapshot (seqnum : Z) (snap : D)             (* 956 *)
| ListingOld (seqnum : Z)                             (* 641, called by 981 *)
| Unlinking (seqnum : Z) (names : list Z)             (* 644, the first name is being unlinked *)
| Weighing.                                           (* 1028, called by 1013 *)

(** The node: the database file, whether the replica's capability is stored
    (replicate.py:313-318), and the attributes of the connection wrapper
    (replicate.py:406-410) and of the service (replicate.py:826-832). *)
Record node := Node {
  n_db : D;
  n_log : list change;
  n_seq : option Z;                    (* sqlite_sequence of [event-stream] *)
  n_setup : bool;
  n_up : bool;                         (* a process is running *)
  n_replicating : bool;
  n_observing : bool;
  n_mutations : list (bool * list S);
  n_important : bool;                  (* [_changes] *)
  n_size : Z;
  n_jobs : list job;                   (* [_jobs.pending] *)
  n_work : work }.

(** Record update (no counterpart in /repo). *)
Definition with_db x n := Node x (n_log n) (n_seq n) (n_setup n) (n_up n) (n_replicating n) (n_observing n) (n_mutations n) (n_important n) (n_size n) (n_jobs n) (n_work n).
Definition with_log x s n := Node (n_db n) x s (n_setup n) (n_up n) (n_replicating n) (n_observing n) (n_mutations n) (n_important n) (n_size n) (n_jobs n) (n_work n).
Definition with_mutations x n := Node (n_db n) (n_log n) (n_seq n) (n_setup n) (n_up n) (n_replicating n) (n_observing n) x (n_important n) (n_size n) (n_jobs n) (n_work n).
Definition with_changes i s n := Node (n_db n) (n_log n) (n_seq n) (n_setup n) (n_up n) (n_replicating n) (n_observing n) (n_mutations n) i s (n_jobs n) (n_work n).
Definition with_jobs x n := Node (n_db n) (n_log n) (n_seq n) (n_setup n) (n_up n) (n_replicating n) (n_observing n) (n_mutations n) (n_important n) (n_size n) x (n_work n).
Definition with_work x n := Node (n_db n) (n_log n) (n_seq n) (n_setup n) (n_up n) (n_replicating n) (n_observing n) (n_mutations n) (n_important n) (n_size n) (n_jobs n) x.

(** The replica directory: the snapshot and the event streams, by the number in
    their name, in the order a listing gives them. *)
Record replica := Replica { r_snapshot : option D; r_streams : dict (list change) }.
Definition empty_replica := Replica None [].

(** * The event log *)

(** [AUTOINCREMENT]: one more than the largest number ever used. *)
Definition next_seq (seq : option Z) : Z := match seq with Some s => s + 1 | None => 1 end.

(** replicate.py:683-703 [add_events] with its [executemany] *)
Fixpoint add_events (log : list change) (seq : option Z) (rows : list S) (imp : bool)
  : list change * option Z :=
  match rows with
  | [] => (log, seq)
  | s :: rest => add_events (log ++ [Change (next_seq seq) s imp]) (Some (next_seq seq)) rest imp
  end.

(** replicate.py:706-724 [get_events] is the log itself.
    replicate.py:727-740 [prune_events_to] *)
Definition prune_events_to (seq : Z) (log : list change) : list change :=
  filter (fun c => negb (sequence c <=? seq)) log.

(** replicate.py:218-225 [EventStream.highest_sequence] *)
Definition highest_sequence (l : list change) : option Z :=
  match l with
  | [] => None
  | c :: rest => Some (fold_left Z.max (map sequence rest) (sequence c))
  end.

(** * The job queue *)

Definition mem_job (j : job) (l : list job) : bool := existsb (job_eqb j) l.

(** The loop takes the next jobs, up to an [await] (replicate.py:908-919 with the
    beginnings of 921-930, 936-956, 984-998 and 1007-1013). *)
Fixpoint take_jobs (jobs : list job) (n : node) : node :=
  match jobs with
  | [] => with_work Idle (with_jobs [] n)
  | j :: rest =>
      let n := with_jobs rest n in
      match j with
      | JStartup => with_work Listing n
      | JConsider => with_work Weighing n
      | JSnapshot =>
          let seqnum := match n_seq n with Some s => s | None => 1 end in
          with_work (SendingSnapshot seqnum (fresh (n_db n))) n
      | JEvents =>
          match highest_sequence (n_log n) with
          | None => take_jobs rest n
          | Some high_seq => with_work (Sending (n_log n) high_seq) n
          end
      end
  end.

(** replicate.py:879-885 [queue_job] while the loop is running a job or dead *)
Definition append_job (j : job) (n : node) : node :=
  if mem_job j (n_jobs n) then n else with_jobs (n_jobs n ++ [j]) n.
(** ... and when it may be waiting: putting a job wakes it up. *)
Definition queue_job (j : job) (n : node) : node :=
  match n_work n with
  | Idle => if mem_job j (n_jobs n) then n else take_jobs [j] n
  | _ => append_job j n
  end.

(** replicate.py:1100-1105 [should_upload_eventstream] *)
Definition UPLOAD_SIZE : Z := 570000.
Definition should_upload_eventstream (imp : bool) (size : Z) : bool := imp || (size >=? UPLOAD_SIZE).

(** * Transactions *)

(** A transaction body: each call of [execute] (one row) or [executemany], with
    the cursor's important flag and the verdict of [statement_mutates]
    (sql.py:289-296) on its text. *)
Record call := Call { c_important : bool; c_mutates : bool; c_rows : list S }.
Definition body := list call.
(** replicate.py:410 [_mutations] *)
Definition mutations := list (bool * list S).

Fixpoint exec_rows (rows : list S) (d : D) : res exn D :=
  match rows with [] => Ok d | s :: rest => d1 <- exec s d ;; exec_rows rest d1 end.

(** Run the statements: what was recorded (replicate.py:519-531 and 542-546: only
    after success, only when replicating, only if the statement mutates) and the contents at the
    end, or the exception of the first one that fails. *)
Fixpoint run_body (replicating : bool) (b : body) (d : D) : mutations * res exn D :=
  match b with
  | [] => ([], Ok d)
  | c :: rest =>
      match exec_rows (c_rows c) d with
      | Err e => ([], Err e)
      | Ok d1 =>
          let '(rec, r) := run_body replicating rest d1 in
          (if replicating && c_mutates c then (c_important c, c_rows c) :: rec else rec, r)
      end
  end.

(** What the observer of replicate.py:1051-1082 does with the mutations, and
    1084-1091 [_complete_upload], which runs after the transaction. *)
Definition all_rows (b : mutations) : list S := flat_map snd b.
Definition any_important (b : mutations) : bool := existsb fst b.
Definition observed (b : mutations) (n : node) : node :=
  let '(log, seq) := add_events (n_log n) (n_seq n) (all_rows b) (any_important b) in
  let imp := n_important n || any_important b in
  let size := n_size n + sumZ (map text_size (all_rows b)) in
  let n1 := with_changes imp size (with_log log seq n) in
  if should_upload_eventstream imp size then with_changes false 0 (queue_job JEvents n1) else n1.

(** replicate.py:441-474 [__exit__] with an exception: the transaction is rolled
    back, what was recorded stays recorded ... *)
Definition rolled_back (rec : mutations) (n : node) : node := with_mutations (n_mutations n ++ rec) n.
(** ... and without: it is committed, then the observer, if any, is told. *)
Definition signal (n : node) : node :=
  match n_mutations n with
  | [] => n
  | b => let n1 := with_mutations [] n in if n_observing n then observed b n1 else n1
  end.
Definition committed (rec : mutations) (d : D) (n : node) : node :=
  signal (with_mutations (n_mutations n ++ rec) (with_db d n)).

(** * The process *)

Definition down (n : node) : node :=
  Node (n_db n) (n_log n) (n_seq n) (n_setup n) false false false [] false 0 [] Stopped.

(** _plugin.py:199-218 [_get_store]: a new connection, replicating if the replica is set
    up.  The statements of [initialize_database] (model.py:146-210) are recorded and,
    there being no observer yet, forgotten; the schema is up to date. *)
Definition opened (n : node) : node :=
  Node (fresh (n_db n)) (n_log n) (n_seq n) (n_setup n) true (n_setup n) false [] false 0 [] Stopped.

(** replicate.py:842-861 [startService]: observe, replicate, load [_changes], queue
    the startup job and enter the loop. *)
Definition started (n : node) : node :=
  take_jobs [JStartup]
    (Node (n_db n) (n_log n) (n_seq n) true true true true (n_mutations n)
       (existsb important (n_log n)) (stream_size (n_log n)) [] Stopped).

(** * Remote operations *)

(** [del d[k]] *)
Definition ddel {V} (k : Z) (d : dict V) : dict V := filter (fun kv => negb (fst kv =? k)) d.

(** What the operation being awaited does to the directory. *)
Definition remote_effect (w : work) (r : replica) : replica :=
  match w with
  | Sending events high_seq => Replica (r_snapshot r) (dset high_seq events (r_streams r))
  | SendingSnapshot _ snap => Replica (Some snap) (r_streams r)
  | Unlinking _ (name :: _) => Replica (r_snapshot r) (ddel name (r_streams r))
  | _ => r
  end.

(** The rest of the job, up to the next [await]: replicate.py:930-933, 956-981 with
    641-644, 998-1005, 1012-1015.  [r] is the directory after the operation;
    [policy] the decision of [should_snapshot]. *)
Definition carry_on (policy : bool) (r : replica) (n : node) : node :=
  match n_work n with
  | Stopped | Idle => n
  | Listing =>
      let n1 := match r_snapshot r with
                | None => append_job JSnapshot n
                | Some _ => if should_upload_eventstream (n_important n) (n_size n)
                            then append_job JEvents n else n
                end in
      take_jobs (n_jobs n1) n1
  | Sending _ high_seq =>
      let n1 := append_job JConsider (with_log (prune_events_to high_seq (n_log n)) (n_seq n) n) in
      take_jobs (n_jobs n1) n1
  | SendingSnapshot seqnum _ =>
      with_work (ListingOld seqnum) (with_log (prune_events_to seqnum (n_log n)) (n_seq n) n)
  | ListingOld seqnum =>
      match filter (fun name => name <=? seqnum) (dkeys (r_streams r)) with
      | [] => take_jobs (n_jobs n) n
      | names => with_work (Unlinking seqnum names) n
      end
  | Unlinking seqnum names =>
      match tl names with
      | [] => take_jobs (n_jobs n) n
      | rest => with_work (Unlinking seqnum rest) n
      end
  | Weighing =>
      let n1 := if policy then append_job JSnapshot n else n in take_jobs (n_jobs n1) n1
  end.

(** * Histories *)

Inductive event :=
| Txn (b : body) (ok : bool)       (* a transaction; [ok]: its body does not raise *)
| TxnKill (b : body)               (* killed after the commit, before the observer is told *)
| Open                             (* a process opens the database *)
| SetUp                            (* the user sets up replication *)
| SetUpKill                        (* killed when the capability has been stored *)
| Start                            (* the service is started, in a process that found it set up *)
| Done (policy : bool)             (* the operation being awaited completes *)
| Fail (applied : bool)            (* it raises, perhaps after having taken effect *)
| Kill (applied : bool).           (* the process ends; the operation may have taken effect *)

Definition system := (node * replica)%type.

Definition transaction (b : body) (ok : bool) (n : node) : node :=
  match run_body (n_replicating n) b (n_db n) with
  | (rec, Ok d) => if ok then committed rec d n else rolled_back rec n
  | (rec, Err _) => rolled_back rec n
  end.

Definition step (s : system) (e : event) : system :=
  let '(n, r) := s in
  match e with
  | Txn b ok => if n_up n then (transaction b ok n, r) else s
  | TxnKill b =>
      if n_up n then
        match run_body (n_replicating n) b (n_db n) with
        | (_, Ok d) => (down (with_db d n), r)
        | (_, Err _) => (down n, r)
        end
      else s
  | Open => if n_up n then s else (opened n, r)
  | SetUp => if n_up n && negb (n_setup n) then (started n, r) else s
  | SetUpKill =>
      if n_up n && negb (n_setup n)
      then (down (Node (n_db n) (n_log n) (n_seq n) true true false false [] false 0 [] Stopped), r) else s
  | Start => if n_up n && n_setup n && negb (n_observing n) then (started n, r) else s
  | Done policy => let r1 := remote_effect (n_work n) r in (carry_on policy r1 n, r1)
  | Fail applied =>
      match n_work n with
      | Stopped | Idle => s
      | w => (with_work Stopped n, if applied then remote_effect w r else r)
      end
  | Kill applied => (down n, if applied then remote_effect (n_work n) r else r)
  end.

Definition run (s : system) (es : list event) : system := fold_left step es s.

(** A node on which replication was never set up, running. *)
Definition new_node (d : D) : node := Node d [] None false true false false [] false 0 [] Stopped.
Definition new_system (d : D) : system := (new_node d, empty_replica).

(** * Recovery *)

(** recover.py:257-263 [recover_event_stream]; there are no BEGIN and COMMIT
    statements among the changes of this program. *)
Definition replay (l : list change) (d : D) : res exn D := exec_rows (map statement l) d.

(** Python's [sorted] with a key: insertion keeps equal keys in order. *)
Fixpoint insert_by {A} (key : A -> Z) (x : A) (l : list A) : list A :=
  match l with
  | [] => [x]
  | y :: rest => if key x <=? key y then x :: l else y :: insert_by key x rest
  end.
Definition sorted_by {A} (key : A -> Z) (l : list A) : list A := fold_right (insert_by key) [] l.

(** recover.py:231-243 [sorted_event_streams] *)
Definition sort_key (l : list change) : Z := match highest_sequence l with Some s => s | None => 0 end.
Definition sorted_event_streams (ls : list (list change)) : list (list change) :=
  sorted_by sort_key (filter (fun l => match l with [] => false | _ => true end) ls).

Fixpoint replay_all (ls : list (list change)) (d : D) : res exn D :=
  match ls with [] => Ok d | l :: rest => d1 <- replay l d ;; replay_all rest d1 end.

(** recover.py:219-228 [recover] on what recover.py:325-351 downloads; a missing
    snapshot makes the download fail.  Statements are executed as a plain SQLite
    cursor does; for what the node's own connection does see RecoverModel. *)
Definition recover (r : replica) : res exn D :=
  match r_snapshot r with
  | None => Err OtherError
  | Some d => replay_all (sorted_event_streams (dvalues (r_streams r))) d
  end.
End Replica.

Arguments Stopped {D S}.
Arguments Idle {D S}.
Arguments Listing {D S}.
Arguments Sending {D S}.
Arguments SendingSnapshot {D S}.
Arguments ListingOld {D S}.
Arguments Unlinking {D S}.
Arguments Weighing {D S}.
Arguments Open {S}.
Arguments SetUp {S}.
Arguments SetUpKill {S}.
Arguments Start {S}.
Arguments Done {S}.
Arguments Fail {S}.
Arguments Kill {S}.
