(** Uploads and the connections they are made over: the bookkeeping of the storage server that
    ends an upload when its connection is lost, around ServerModel.

    The wrapped server's bucket writers are objects; here each has a number of its own.  Tahoe's
    [BucketWriter]: [close] puts the share in its place, [abort] forgets it, either of them once; then the handlers registered
    with [register_bucket_writer_close_handler] are called; [disconnected] is [abort] unless the writer is closed.
    Foolscap: [canary.notifyOnDisconnect(callback)] remembers the callback with the connection and gives
    a marker, [dontNotifyOnDisconnect(marker)] forgets it, and when the connection is lost the callbacks are called
    in order.  The marker is the callback, and a callback is a method of a bucket writer: both are here the
    number of the bucket writer.  Nothing happens between the callbacks of one connection. *)
From Verif Require Import Prelude BytesModel ContainerModel TahoeModel ServerModel.
Set Implicit Arguments.

(** The server; how many bucket writers have been made; those that are not closed, with the share they write;
    [_bucket_writer_disconnect_markers] (_storage_server.py:244-248); what is to be called for lost connections. *)
Record front := Front {
  fr_server : server;
  fr_made : Z;
  fr_open : dict (bytes * Z);
  fr_markers : dict Z;
  fr_watchers : list (Z * Z)
}.
Definition empty_front : front := Front empty_server 0 [] [] [].

(** [del d[k]], [d.pop(k)] *)
Definition dpop {V} (k : Z) (d : dict V) : dict V := filter (fun kv => negb (fst kv =? k)) d.
(** [list.remove] *)
Fixpoint remove_first (c w : Z) (l : list (Z * Z)) : list (Z * Z) :=
  match l with
  | [] => []
  | (c', w') :: rest => if (c =? c') && (w =? w') then rest else (c', w') :: remove_first c w rest
  end.

(** _storage_server.py:258-270 [_bucket_writer_closed] *)
Definition bucket_writer_closed (w : Z) (f : front) : front :=
  match dget w (fr_markers f) with
  | None => f
  | Some canary =>
      Front (fr_server f) (fr_made f) (fr_open f) (dpop w (fr_markers f)) (remove_first canary w (fr_watchers f))
  end.

(** _storage_server.py:401-408, for the bucket writers of an accepted request *)
Fixpoint watch_writers (canary : Z) (si : bytes) (nums : list Z) (f : front) : front :=
  match nums with
  | [] => f
  | n :: rest =>
      let w := fr_made f in
      watch_writers canary si rest
        (Front (fr_server f) (w + 1) (dset w (si, n) (fr_open f)) (dset w canary (fr_markers f)) (fr_watchers f ++ [(canary, w)]))
  end.

Section Front.
Variable signed : bytes -> bytes -> bytes -> bool.
Variables pass_value immutable_version mutable_version : Z.

(** Tahoe's [BucketWriter.close], [abort] and [disconnected]; _storage_server.py:272-276
    registers the handler. *)
Definition writer_close (w : Z) (content : bytes) (f : front) : front :=
  match dget w (fr_open f) with
  | None => f
  | Some (si, n) =>
      bucket_writer_closed w
        (Front (with_storage (close_bucket immutable_version si n content (sv_storage (fr_server f))) (fr_server f))
           (fr_made f) (dpop w (fr_open f)) (fr_markers f) (fr_watchers f))
  end.
Definition writer_abort (w : Z) (f : front) : front :=
  match dget w (fr_open f) with
  | None => f
  | Some (si, n) =>
      bucket_writer_closed w
        (Front (with_storage (drop_incoming si n (sv_storage (fr_server f))) (fr_server f))
           (fr_made f) (dpop w (fr_open f)) (fr_markers f) (fr_watchers f))
  end.
Definition writer_disconnected (w : Z) (f : front) : front :=
  match dget w (fr_open f) with None => f | Some _ => writer_abort w f end.

(** Foolscap calls what is to be called, and forgets it. *)
Definition connection_lost (canary : Z) (f : front) : front :=
  let mine := filter (fun cw => fst cw =? canary) (fr_watchers f) in
  let f1 := fold_left (fun f cw => writer_disconnected (snd cw) f) mine f in
  Front (fr_server f1) (fr_made f1) (fr_open f1) (fr_markers f1) (filter (fun cw => negb (fst cw =? canary)) (fr_watchers f1)).

(** What happens: a request over a connection, the end of an upload by its bucket writer (also when it
    has been idle for too long), the removal of a share, the loss of a connection. *)
Inductive front_event :=
| FRequest (canary : Z) (now : Z) (room : Z -> bool) (passes : list bytes) (q : request)
| FClose (w : Z) (content : bytes)
| FAbort (w : Z)
| FDelete (si : bytes) (n : Z)
| FLost (canary : Z).

(** _storage_server.py:330-415 with 401-408 *)
Definition front_step (f : front) (e : front_event) : option (res server_error reply) * front :=
  match e with
  | FRequest canary now room passes q =>
      let '(r, sv) := serve signed pass_value mutable_version now room passes q (fr_server f) in
      let f1 := Front sv (fr_made f) (fr_open f) (fr_markers f) (fr_watchers f) in
      (Some r,
       match q, r with
       | Allocate si _ _ _ _, Ok (Allocated _ bucketwriters) => watch_writers canary si bucketwriters f1
       | _, _ => f1
       end)
  | FClose w content => (None, writer_close w content f)
  | FAbort w => (None, writer_abort w f)
  | FDelete si n =>
      (None, Front (with_storage (delete_share si n (sv_storage (fr_server f))) (fr_server f))
               (fr_made f) (fr_open f) (fr_markers f) (fr_watchers f))
  | FLost canary => (None, connection_lost canary f)
  end.
Fixpoint front_run (f : front) (es : list front_event) : list (option (res server_error reply)) * front :=
  match es with
  | [] => ([], f)
  | e :: rest =>
      let '(o, f1) := front_step f e in
      let '(os, f2) := front_run f1 rest in
      (o :: os, f2)
  end.
End Front.
