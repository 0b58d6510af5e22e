(** Model of what the storage server writes to its log while it serves the paid
    requests (_storage_server.py, storage_common.py): the functions of
    [ServerModel] once more, each also giving the messages logged, in order.

    Abstractions: those of [ServerModel].  A message is its type and its fields;
    the time, the task and the level Eliot adds are left out, and so is what the
    wrapped Tahoe server logs by itself. *)
From Verif Require Import Prelude BytesModel PassModel PricingModel ContainerModel TahoeModel ServerModel.
Set Implicit Arguments.

(** [TestWriteVectorSummary]: storage_common.py:319-322; the operator is left
    out as in [tw_vector]. *)
Record tw_summary := Summary { sm_test : list (Z * Z * Z); sm_data : list (Z * Z); sm_new_length : option Z }.

(** [summarize]: storage_common.py:325-338 *)
Definition summarize (tw : tw_vectors) : dict tw_summary :=
  map (fun '(sharenum, v) =>
         (sharenum,
          Summary (map (fun '(offset, length, specimen) => (offset, length, lenZ specimen)) (tw_test v))
                  (map (fun '(offset, data) => (offset, lenZ data)) (tw_data v))
                  (tw_new_length v))) tw.

Inductive line :=
| RemoteAllocate (si : bytes) (sharenums : list Z) (allocated_size : Z)  (* _storage_server.py:325-329 *)
| RemoteAddLease (si : bytes)                                            (* _storage_server.py:434-438 *)
| RemoteWritev (si : bytes)                                              (* _storage_server.py:532-536 *)
| GetShareSizes (si : bytes) (sharenums : list Z)                        (* _storage_server.py:774-777 *)
| ShareSizes (sizes : list (Z * Z))                                      (* the same action ends well *)
| ShareSizesFailed (e : file_error)
| MutablePassesRequired (current_sizes : dict Z) (summary : dict tw_summary)
    (current_passes : Z) (new_sizes : dict Z) (new_passes : Z)           (* storage_common.py:309-315 *)
| Succeeded                                                              (* the request's action ends well *)
| Failed (e : server_error).                                             (* or by an exception *)

Definition logged (A : Type) := (list line * A)%type.

Section Log.
Variable signed : bytes -> bytes -> bytes -> bool.
Variable pass_value : Z.
Variable mutable_version : Z.

(** [get_share_sizes] as decorated: _storage_server.py:774-797 *)
Definition log_get_share_sizes (si : bytes) (dir : directory) (sharenums : list Z) : logged (res file_error (list (Z * Z))) :=
  let r := get_share_sizes dir (Some sharenums) in
  ([GetShareSizes si sharenums; match r with Ok sizes => ShareSizes sizes | Err e => ShareSizesFailed e end], r).

(** [check_pass_quantity_for_lease]: _storage_server.py:668-696 *)
Definition log_check_for_lease (si : bytes) (dir : directory) (v : validation) : logged (res server_error (dict Z)) :=
  match log_get_share_sizes si dir (get_all_share_numbers dir) with
  | (l, Err e) => (l, Err (BadFile e))
  | (l, Ok sizes) =>
      let allocated_sizes := dict_of sizes in
      (l, _ <- check_pass_quantity pass_value v (dvalues allocated_sizes) ;; Ok allocated_sizes)
  end.

(** [get_required_new_passes_for_mutable_write]: storage_common.py:272-316 *)
Definition log_required_new_passes (current_sizes : dict Z) (tw : tw_vectors) : logged (res price_error Z) :=
  match required_passes pass_value (dvalues current_sizes) with
  | Err e => ([], Err e)
  | Ok current_passes =>
      let new_sizes := updated_sizes current_sizes tw in
      match required_passes pass_value (dvalues new_sizes) with
      | Err e => ([], Err e)
      | Ok new_passes =>
          ([MutablePassesRequired current_sizes (summarize tw) current_passes new_sizes new_passes],
           Ok (new_passes - current_passes))
      end
  end.

(** [get_writev_price]: _storage_server.py:1033-1075 *)
Definition log_writev_price (si : bytes) (dir : directory) (tw : tw_vectors) (now : Z) : logged (res server_error Z) :=
  match log_get_share_sizes si dir (get_write_sharenums tw) with
  | (l, Err e) => (l, Err (BadFile e))
  | (l, Ok sizes) =>
      let current_sizes := dict_of sizes in
      match inactive_shares dir now (dkeys current_sizes) with
      | Err e => (l, Err (BadFile e))
      | Ok inactive =>
          let current_sizes := fold_left (fun d k => dset k 0 d) inactive current_sizes in
          let '(l1, r) := log_required_new_passes current_sizes tw in (l ++ l1, lift BadPrice r)
      end
  end.

(** [remote_allocate_buckets] without the action around it: _storage_server.py:330-415 *)
Definition log_allocate_buckets (now : Z) (room : Z -> bool) (passes : list bytes)
  (si renew cancel : bytes) (sharenums : list Z) (allocated_size : Z) (sv : server)
  : logged (res server_error reply * server) :=
  ([], remote_allocate_buckets signed pass_value now room passes si renew cancel sharenums allocated_size sv).

(** [remote_add_lease]: _storage_server.py:439-468 *)
Definition log_add_lease (now : Z) (room : Z -> bool) (passes : list bytes)
  (si renew cancel : bytes) (sv : server) : logged (res server_error reply * server) :=
  match validate_passes signed (make_message KLease si) passes with
  | Err e => ([], (Err e, sv))
  | Ok v =>
  match log_check_for_lease si (dir_of (sv_storage sv) si) v with
  | (l, Err e) => (l, (Err e, sv))
  | (l, Ok _) =>
  match tahoe_add_lease room now si renew cancel (sv_storage sv) with
  | (Err e, st) => (l, (Err (FromTahoe e), with_storage st sv))
  | (Ok _, st) =>
      (l, (Ok LeaseAdded, observe (lenZ (valid v)) (mark_as_spent (valid v) (with_storage st sv))))
  end end end.

(** [_slot_testv_and_readv_and_writev]: _storage_server.py:550-623 *)
Definition log_slot_writev (now : Z) (room : Z -> bool) (passes : list bytes)
  (si we renew cancel : bytes) (tw : tw_vectors) (rv : list (Z * Z)) (sv : server)
  : logged (res server_error reply * server) :=
  match first_new_length tw with
  | Some n => ([], (Err (NewLengthRejected n), sv))
  | None =>
  match validate_passes signed (make_message KWritev si) passes with
  | Err e => ([], (Err e, sv))
  | Ok v =>
  match log_writev_price si (dir_of (sv_storage sv) si) tw now with
  | (l, Err e) => (l, (Err e, sv))
  | (l, Ok required_new_passes) =>
  if required_new_passes >? lenZ (valid v) then (l, (raise_for v required_new_passes, sv)) else
  match tahoe_writev mutable_version si we tw rv (sv_storage sv) with
  | (Err e, st) => (l, (Err (FromTahoe e), with_storage st sv))
  | (Ok (good, read), st) =>
  match add_leases_for_writev room si renew cancel tw now st with
  | (Err e, st') => (l, (Err e, with_storage st' sv))
  | (Ok _, st') =>
      (l, (Ok (Written good read),
           observe required_new_passes (mark_as_spent (valid v) (with_storage st' sv))))
  end end end end end.

(** The action around a request: _storage_server.py:325-329, 434-438, 532-536 *)
Definition action_start (q : request) : line :=
  match q with
  | Allocate si _ _ sharenums size => RemoteAllocate si sharenums size
  | AddLease si _ _ => RemoteAddLease si
  | Writev si _ _ _ _ _ => RemoteWritev si
  end.
Definition action_end (r : res server_error reply) : line :=
  match r with Ok _ => Succeeded | Err e => Failed e end.

Definition log_serve (now : Z) (room : Z -> bool) (passes : list bytes) (q : request) (sv : server)
  : logged (res server_error reply * server) :=
  let '(l, (r, sv')) :=
    match q with
    | Allocate si renew cancel sharenums size =>
        log_allocate_buckets now room passes si renew cancel sharenums size sv
    | AddLease si renew cancel => log_add_lease now room passes si renew cancel sv
    | Writev si we renew cancel tw rv => log_slot_writev now room passes si we renew cancel tw rv sv
    end in
  ([action_start q] ++ l ++ [action_end r], (r, sv')).
End Log.
