(** Model of a recovery as one node process sees it: the transaction it runs in
    (model.py:217-237, 369-389), the import of a downloaded replica
    (recover.py:101-322), the downloader (recover.py:325-351) and the WebSocket
    clients that start and watch it (resource.py:262-433).

    The database is abstract: [D] is what its tables hold.  Not modelled: what
    the connection records for replication, errors that make SQLite roll the
    transaction back by itself, and the text of failure reasons (the exception
    stands for it).  A remote operation of the downloader is an [await]: while it
    is pending other parts of the process may use the same connection. *)
From Verif Require Import Prelude BytesModel CborModel StreamModel.
From Coq Require Strings.String.
Import Coq.Strings.String.StringSyntax.
Set Implicit Arguments.

Inductive rexn :=
| Undecodable (e : sexn)      (* reading a snapshot or stream *)
| SqlError                    (* sqlite3.Error *)
| NotEmpty                    (* model.py:92-96 *)
| AssertionError
| DownloadError.              (* whatever a remote operation raised *)

(** recover.py:36-61 [RecoveryStages] *)
Inductive stage :=
| inactive | started | inspect_replica | downloading | importing | succeeded
| download_failed | import_failed.

(** recover.py:64-77 [RecoveryState] *)
Record rstate := RState { r_stage : stage; failure_reason : option rexn }.

Section Recover.
Variable D : Type.
(** SQLite: executing a statement with a sequence of arguments ... *)
Variable exec : text -> cval -> D -> res rexn D.
(** ... the tables in [sqlite_master] ... *)
Variable tables : D -> list text.
(** ... whether the deferred constraints hold when a transaction is committed ... *)
Variable consistent : D -> bool.
(** ... and whether the sqlite3 module opens a transaction by itself before this
    statement, the isolation level being IMMEDIATE (model.py:141). *)
Variable begins : text -> bool.
(** Whether [VoucherStore.list] gives any voucher. *)
Variable occupied : D -> res rexn bool.
(** Whether Python's assertions are on (it runs without -O). *)
Variable checked : bool.

(** * The connection *)

(** What is stored, and the contents as the open transaction sees them. *)
Record conn := Conn { stored : D; txn : option D }.

Definition view (c : conn) : D := match txn c with Some d => d | None => stored c end.

(** [sqlite3.Cursor.execute] *)
Definition raw_execute (sql : text) (args : cval) (c : conn) : conn * option rexn :=
  match txn c with
  | Some d =>
      match exec sql args d with
      | Ok d1 => (Conn (stored c) (Some d1), None)
      | Err e => (c, Some e)
      end
  | None =>
      match exec sql args (stored c), begins sql with
      | Ok d1, true => (Conn (stored c) (Some d1), None)
      | Err e, true => (Conn (stored c) (Some (stored c)), Some e)
      | Ok d1, false => (Conn d1 None, None)
      | Err e, false => (c, Some e)
      end
  end.

(** [sqlite3.Connection.__exit__]: without an exception the transaction is
    committed, or rolled back if it cannot be; with one it is rolled back. *)
Definition commit (c : conn) : conn * option rexn :=
  match txn c with
  | None => (c, None)
  | Some d => if consistent d then (Conn d None, None) else (Conn (stored c) None, Some SqlError)
  end.
Definition rollback (c : conn) : conn := Conn (stored c) None.

(** Any other call of the store (model.py:240-263 [with_cursor]); [f] is what its
    body does.  Within a transaction BEGIN raises, and [__exit__] rolls that
    transaction back. *)
Definition other_call (f : D -> res rexn D) (c : conn) : conn :=
  match txn c with
  | Some _ => rollback c
  | None =>
      match f (stored c) with
      | Ok d => fst (commit (Conn (stored c) (Some d)))
      | Err _ => c
      end
  end.

(** * The import *)

(** replicate.py:519-531 [_ReplicationCapableCursor.execute], not replicating,
    with the empty tuple as arguments *)
Definition execute (sql : text) (c : conn) : conn * option rexn := raw_execute sql (CArr []) c.

Fixpoint execute_all (l : list text) (c : conn) : conn * option rexn :=
  match l with
  | [] => (c, None)
  | sql :: rest =>
      match execute sql c with
      | (c1, None) => execute_all rest c1
      | (c1, Some e) => (c1, Some e)
      end
  end.

(** Do [k] next if there was no exception. *)
Definition andthen (r : conn * option rexn) (k : conn -> conn * option rexn) : conn * option rexn :=
  match r with
  | (c, None) => k c
  | (c, Some e) => (c, Some e)
  end.
Definition raising (o : option rexn) (c : conn) : conn * option rexn := (c, o).

(** sql.py:265-269 [escape_identifier], in recover.py:284 *)
Definition drop_table (name : text) : text := str "DROP TABLE '" ++ name ++ str "'".
Definition defer_foreign_keys : text := str "PRAGMA defer_foreign_keys = ON".

(** recover.py:266-322 [recover_snapshot] on the statements that the iterator
    gives, and the exception it raises at its end, if any *)
Definition recover_snapshot (given : list text * option sexn) (c : conn) : conn * option rexn :=
  let names := filter (fun n => negb (text_eqb n (str "sqlite_sequence"))) (tables (view c)) in
  andthen (execute_all (map drop_table names) c) (fun c =>
  andthen (execute defer_foreign_keys c) (fun c =>
  andthen (execute_all (ddl (fst given)) c) (fun c =>
  andthen (raising (match snd given with None => None | Some e => Some (Undecodable e) end) c) (fun c =>
  execute_all (dml (fst given)) c)))).

(** recover.py:263, by way of replicate.py:525, which requires a tuple: cbor2
    gives lists. *)
Definition execute_change (ch : change) (c : conn) : conn * option rexn :=
  if checked then (c, Some AssertionError)
  else match statement ch with
       | CText sql => raw_execute sql (arguments ch) c
       | _ => (c, Some (Undecodable TypeError))
       end.

Fixpoint execute_changes (l : list change) (c : conn) : conn * option rexn :=
  match l with
  | [] => (c, None)
  | ch :: rest => andthen (execute_change ch c) (execute_changes rest)
  end.

(** recover.py:219-228 [recover] *)
Definition import (snapshot : bytes) (streams : list bytes) (c : conn) : conn * option rexn :=
  match statements_from_snapshot snapshot with
  | Err e => (c, Some (Undecodable e))
  | Ok given =>
      andthen (recover_snapshot given c) (fun c =>
      match replay_streams streams with
      | Err e => (c, Some (Undecodable e))
      | Ok changes => execute_changes changes c
      end)
  end.

(** * The process *)

(** The [await] the recovery is suspended at (recover.py:335, 339, 346; resource.py:334
    [recovering_d] is set in every phase but the first); [rest] are the names of the
    streams still to be downloaded after this one. *)
Inductive phase :=
| Unstarted
| Listing
| GettingSnapshot (names : list text)
| GettingStream (snapshot : bytes) (got : list bytes) (rest : list text)
| Over.

(** What is sent to a client: an update, the end of the connection, the end with
    an error (resource.py:310-313), or nothing because [self.sendClose] in
    resource.py:399 raises AttributeError: the factory has no such method. *)
Inductive output :=
| Update (client : Z) (u : rstate)
| Closed (client : Z)
| Rejected (client : Z)
| Raised (client : Z).

(** resource.py:319-338 [RecoverFactory] with its recoverer, and everything sent so
    far *)
Record process := Process {
  p_conn : conn;
  p_state : rstate;                (* recover.py:107 *)
  p_phase : phase;
  p_cap : option Z;                (* [recovering_cap] *)
  p_clients : list Z;
  p_sent : list rstate;            (* [sent_updates] *)
  p_out : list output
}.
Definition with_conn c p := Process c (p_state p) (p_phase p) (p_cap p) (p_clients p) (p_sent p) (p_out p).
Definition with_phase x p := Process (p_conn p) (p_state p) x (p_cap p) (p_clients p) (p_sent p) (p_out p).
Definition with_cap x p := Process (p_conn p) (p_state p) (p_phase p) x (p_clients p) (p_sent p) (p_out p).
Definition with_clients x p := Process (p_conn p) (p_state p) (p_phase p) (p_cap p) x (p_sent p) (p_out p).
Definition with_out x p := Process (p_conn p) (p_state p) (p_phase p) (p_cap p) (p_clients p) (p_sent p) (p_out p ++ x).

(** recover.py:147-153 [_set_state] with the listener resource.py:347-354 *)
Definition set_state (s : rstate) (p : process) : process :=
  Process (p_conn p) s (p_phase p) (p_cap p) (p_clients p) (p_sent p ++ [s])
    (p_out p ++ map (fun c => Update c s) (p_clients p)).

(** resource.py:375-394: the callbacks of [recovering_d] *)
Definition disconnect (p : process) : process :=
  with_phase Over (with_out (map Closed (p_clients p)) p).
Definition err (e : rexn) (p : process) : process :=
  disconnect (set_state (RState import_failed (Some e)) p).

(** [recover] has returned: model.py:228-235 ends the transaction. *)
Definition returned (p : process) : process :=
  match commit (p_conn p) with
  | (c, None) => disconnect (with_conn c p)
  | (c, Some e) => err e (with_conn c p)
  end.

(** recover.py:127-134: a remote operation has raised. *)
Definition failed (p : process) : process :=
  returned (set_state (RState download_failed (Some DownloadError)) p).

(** recover.py:137-145: everything has been downloaded. *)
Definition downloaded (snapshot : bytes) (streams : list bytes) (p : process) : process :=
  match import snapshot streams (p_conn p) with
  | (c, Some e) => returned (set_state (RState import_failed (Some e)) (with_conn c p))
  | (c, None) => returned (set_state (RState succeeded None) (with_conn c p))
  end.

(** recover.py:341-351: the next stream, or the end of the download. *)
Definition next (snapshot : bytes) (got : list bytes) (names : list text) (p : process) : process :=
  match names with
  | [] => downloaded snapshot got p
  | _ :: rest => with_phase (GettingStream snapshot got rest) p
  end.

(** recover.py:342-343: the entries that are downloaded *)
Definition stream_names (entries : list (text * entry)) : list text :=
  flat_map (fun ne =>
    match ne with
    | (name, File _ _) => if startswith stream_prefix name then [name] else []
    | (_, Dir) => []
    end) entries.

(** recover.py:110-126 [StatefulRecoverer.recover] up to the first [await]
    (recover.py:334-335) *)
Definition begin_recovery (p : process) : process :=
  match r_stage (p_state p) with
  | inactive =>
      with_phase Listing
        (set_state (RState inspect_replica None) (set_state (RState started None) p))
  | _ => returned p
  end.

(** model.py:369-389 [call_if_empty], called by resource.py:419-433 *)
Definition call_if_empty (p : process) : process :=
  let c := p_conn p in
  match txn c with
  | Some _ => err SqlError (with_conn (rollback c) p)
  | None =>
      let d := stored c in
      match occupied d with
      | Err e => err e (with_conn (rollback c) p)
      | Ok true => err NotEmpty (with_conn (rollback c) p)
      | Ok false => begin_recovery (with_conn (Conn d (Some d)) p)
      end
  end.

(** resource.py:356-409 [initiate_recovery] *)
Definition initiate_recovery (cap client : Z) (p : process) : process :=
  let p := with_clients (p_clients p ++ [client]) p in
  match p_cap p with
  | None => call_if_empty (with_cap (Some cap) p)
  | Some cap1 =>
      if negb (cap1 =? cap) then with_out [Raised client] p
      else with_out (map (Update client) (p_sent p)) p
  end.

(** [list.remove]: the first occurrence *)
Fixpoint remove_first (x : Z) (l : list Z) : list Z :=
  match l with
  | [] => []
  | y :: l' => if x =? y then l' else y :: remove_first x l'
  end.

(** What happens to the process.  A client is a connection, a capability is
    compared for equality only. *)
Inductive event :=
| Ask (client cap : Z)                     (* onMessage with a good request, resource.py:316-317 *)
| AskBadly (client : Z)                    (* onMessage with another one, resource.py:308-314 *)
| Leave (client : Z)                       (* onClose, resource.py:279-288 *)
| Listed (entries : list (text * entry))   (* the directory has been listed *)
| Got (content : bytes)                    (* the snapshot or stream has been downloaded *)
| Failed                                   (* the operation has raised *)
| Use (f : D -> res rexn D).               (* another call of the store *)

Definition step (p : process) (e : event) : process :=
  match e with
  | Ask client cap => initiate_recovery cap client p
  | AskBadly client => with_out [Rejected client] p
  | Leave client => with_clients (remove_first client (p_clients p)) p
  | Listed entries =>
      match p_phase p with
      | Listing => with_phase (GettingSnapshot (stream_names entries)) (set_state (RState downloading None) p)
      | _ => p
      end
  | Got content =>
      match p_phase p with
      | GettingSnapshot names => next content [] names p
      | GettingStream snapshot got rest => next snapshot (got ++ [content]) rest p
      | _ => p
      end
  | Failed =>
      match p_phase p with
      | Listing | GettingSnapshot _ | GettingStream _ _ _ => failed p
      | _ => p
      end
  | Use f => with_conn (other_call f (p_conn p)) p
  end.

Definition run (p : process) (es : list event) : process := fold_left step es p.

(** A new process on a database; also what a process that is killed leaves, with
    [stored] as the database. *)
Definition new_process (d : D) : process :=
  Process (Conn d None) (RState inactive None) Unstarted None [] [] [].
End Recover.

Arguments Ask {D}.
Arguments AskBadly {D}.
Arguments Leave {D}.
Arguments Listed {D}.
Arguments Got {D}.
Arguments Failed {D}.
