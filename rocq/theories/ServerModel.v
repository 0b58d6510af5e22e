(** Model of ZKAPAuthorizerStorageServer (_storage_server.py), on top of the
    wrapped Tahoe server.

    The check of one pass's signature (lines 129-157, challenge_bypass_ristretto)
    is the function [signed].  Foolscap references, logging and the bookkeeping
    of disconnection markers are left out; what a disconnect does is the event
    [EAbort].  [room] says for which share numbers the disk has room. *)
From Verif Require Import Prelude BytesModel PassModel PricingModel ContainerModel TahoeModel.
Set Implicit Arguments.

Inductive server_error :=
| MorePassesRequired (valid_count required_count : Z) (signature_check_failed : list Z)
| NewLengthRejected (n : Z)
| BadPass                   (* TypeError or ValueError of Pass.from_bytes *)
| BadPrice (e : price_error)
| BadFile (e : file_error)
| FromTahoe (e : tahoe_error).

Definition lift {E E' A} (f : E -> E') (r : res E A) : res E' A :=
  match r with Ok a => Ok a | Err e => Err (f e) end.

(** The stored shares, the preimages recorded by the spender
    (server/spending.py:53-56, for the one public key of the server), and the
    values observed by the spending histogram. *)
Record server := Server { sv_storage : storage; sv_spent : list bytes; sv_metric : list Z }.
Definition with_storage (st : storage) (sv : server) : server :=
  Server st (sv_spent sv) (sv_metric sv).

Inductive request :=
| Allocate (si renew cancel : bytes) (sharenums : list Z) (allocated_size : Z)
| AddLease (si renew cancel : bytes)
| Writev (si write_enabler renew cancel : bytes) (tw : tw_vectors) (rv : list (Z * Z)).

Inductive reply :=
| Allocated (alreadygot bucketwriters : list Z)
| LeaseAdded
| Written (testv_is_good : bool) (read : dict (list bytes)).

(** _storage_server.py:115-127 [_ValidationResult] *)
Record validation := Validation { valid : list bytes; signature_check_failed : list Z }.

(** [l[:n]] *)
Definition slice_to {A} (n : Z) (l : list A) : list A :=
  firstn (Z.to_nat (if n <? 0 then lenZ l + n else n)) l.

Section Server.
(** message, preimage, signature *)
Variable signed : bytes -> bytes -> bytes -> bool.
Variable pass_value : Z.
(** The container versions the wrapped server writes. *)
Variables immutable_version mutable_version : Z.

(** _storage_server.py:129-157 [_is_invalid_pass] *)
Definition is_invalid_pass (message : bytes) (p : pass) : bool :=
  negb (signed message (p_preimage p) (p_signature p)).

(** _storage_server.py:159-184 [validate_passes] *)
Fixpoint validate_loop (message : bytes) (idx : Z) (passes : list bytes) : res server_error validation :=
  match passes with
  | [] => Ok (Validation [] [])
  | s :: rest =>
      match from_bytes s with
      | None => Err BadPass
      | Some p =>
          v <- validate_loop message (idx + 1) rest ;;
          Ok (if is_invalid_pass message p
              then Validation (valid v) (idx :: signature_check_failed v)
              else Validation (p_preimage p :: valid v) (signature_check_failed v))
      end
  end.
Definition validate_passes (message : bytes) (passes : list bytes) : res server_error validation :=
  validate_loop message 0 passes.

(** _storage_server.py:186-195 [raise_for] *)
Definition raise_for {A} (v : validation) (required : Z) : res server_error A :=
  Err (MorePassesRequired (lenZ (valid v)) required (signature_check_failed v)).

(** _storage_server.py:642-665 [check_pass_quantity] *)
Definition check_pass_quantity (v : validation) (share_sizes : list Z) : res server_error unit :=
  required <- lift BadPrice (required_passes pass_value share_sizes) ;;
  if lenZ (valid v) <? required then raise_for v required else Ok tt.

(** _storage_server.py:668-696 [check_pass_quantity_for_lease] *)
Definition check_pass_quantity_for_lease (dir : directory) (v : validation)
  : res server_error (dict Z) :=
  sizes <- lift BadFile (get_share_sizes dir (Some (get_all_share_numbers dir))) ;;
  let allocated_sizes := dict_of sizes in
  _ <- check_pass_quantity v (dvalues allocated_sizes) ;;
  Ok allocated_sizes.

(** _storage_server.py:699-722 [check_pass_quantity_for_write] *)
Definition check_pass_quantity_for_write (v : validation) (sharenums : list Z) (allocated_size : Z)
  : res server_error unit :=
  check_pass_quantity v (repeat allocated_size (length sharenums)).

(** _storage_server.py:1033-1075 [get_writev_price]; the set comprehension of
    1056-1067 walks the keys of [current_sizes]. *)
Fixpoint inactive_shares (dir : directory) (now : Z) (ks : list Z) : res file_error (list Z) :=
  match ks with
  | [] => Ok []
  | k :: rest =>
      active <- share_has_active_leases dir k now ;;
      more <- inactive_shares dir now rest ;;
      Ok (if active : bool then more else k :: more)
  end.
Definition get_writev_price (dir : directory) (tw : tw_vectors) (now : Z) : res server_error Z :=
  sizes <- lift BadFile (get_share_sizes dir (Some (get_write_sharenums tw))) ;;
  let current_sizes := dict_of sizes in
  inactive <- lift BadFile (inactive_shares dir now (dkeys current_sizes)) ;;
  let current_sizes := fold_left (fun d k => dset k 0 d) inactive current_sizes in
  lift BadPrice (get_required_new_passes_for_mutable_write pass_value current_sizes tw).

(** _storage_server.py:225 [LEASE_PERIOD] *)
Definition LEASE_PERIOD_SECONDS : Z := 31 * 24 * 60 * 60.

(** _storage_server.py:981 [datav or (new_length is not None)] *)
Definition is_write (v : tw_vector) : bool :=
  nonempty (tw_data v) || match tw_new_length v with None => false | Some _ => true end.

(** _storage_server.py:968-1000 [add_leases_for_writev]: one share after the
    other, so an exception leaves the earlier leases in place. *)
Fixpoint add_leases_loop (room : Z -> bool) (renew cancel : bytes) (tw : tw_vectors) (now : Z)
  (d : dict share) : res server_error unit * dict share :=
  match d with
  | [] => (Ok tt, [])
  | (n, s) :: rest =>
      let '(r, s') :=
        match dget n tw with
        | None => (Ok tt, s)
        | Some v =>
            if is_write v then
              if existsb (fun l => l_expiration l * hz >? now) (s_leases s) then (Ok tt, s)
              else match add_or_renew_lease (room n) 1 renew cancel
                           (now + LEASE_PERIOD_SECONDS * hz) s with
                   | Ok s' => (Ok tt, s')
                   | Err e => (Err (FromTahoe e), s)
                   end
            else (Ok tt, s)
        end in
      match r with
      | Err e => (Err e, (n, s') :: rest)
      | Ok _ =>
          let '(r', rest') := add_leases_loop room renew cancel tw now rest in
          (r', (n, s') :: rest')
      end
  end.
Definition add_leases_for_writev (room : Z -> bool) (si renew cancel : bytes) (tw : tw_vectors)
  (now : Z) (st : storage) : res server_error unit * storage :=
  let '(r, d) := add_leases_loop room renew cancel tw now (dirs st si) in (r, set_dir si d st).

(** server/spending.py:53-56 [mark_as_spent] *)
Definition mark_as_spent (ps : list bytes) (sv : server) : server :=
  Server (sv_storage sv) (sv_spent sv ++ ps) (sv_metric sv).
Definition observe (n : Z) (sv : server) : server :=
  Server (sv_storage sv) (sv_spent sv) (sv_metric sv ++ [n]).

(** _storage_server.py:330-415 [remote_allocate_buckets] *)
Definition remote_allocate_buckets (now : Z) (room : Z -> bool) (passes : list bytes)
  (si renew cancel : bytes) (sharenums : list Z) (allocated_size : Z) (sv : server)
  : res server_error reply * server :=
  match validate_passes (make_message KAllocate si) passes with
  | Err e => (Err e, sv)
  | Ok v =>
  match check_pass_quantity_for_write v sharenums allocated_size with
  | Err e => (Err e, sv)
  | Ok _ =>
  match tahoe_allocate_buckets room now si renew cancel sharenums allocated_size (sv_storage sv) with
  | (Err e, st) => (Err (FromTahoe e), with_storage st sv)
  | (Ok (alreadygot, bucketwriters), st) =>
  match required_passes pass_value (repeat allocated_size (length bucketwriters)) with
  | Err e => (Err (BadPrice e), with_storage st sv)
  | Ok spent_passes =>
      (Ok (Allocated alreadygot bucketwriters),
       mark_as_spent (slice_to spent_passes (valid v)) (observe spent_passes (with_storage st sv)))
  end end end end.

(** _storage_server.py:439-468 [remote_add_lease] *)
Definition remote_add_lease (now : Z) (room : Z -> bool) (passes : list bytes)
  (si renew cancel : bytes) (sv : server) : res server_error reply * server :=
  match validate_passes (make_message KLease si) passes with
  | Err e => (Err e, sv)
  | Ok v =>
  match check_pass_quantity_for_lease (dir_of (sv_storage sv) si) v with
  | Err e => (Err e, sv)
  | Ok _ =>
  match tahoe_add_lease room now si renew cancel (sv_storage sv) with
  | (Err e, st) => (Err (FromTahoe e), with_storage st sv)
  | (Ok _, st) =>
      (Ok LeaseAdded, observe (lenZ (valid v)) (mark_as_spent (valid v) (with_storage st sv)))
  end end end.

(** _storage_server.py:563-565 *)
Fixpoint first_new_length (tw : tw_vectors) : option Z :=
  match tw with
  | [] => None
  | (_, v) :: rest => match tw_new_length v with Some n => Some n | None => first_new_length rest end
  end.

(** _storage_server.py:502-623 [remote_slot_testv_and_readv_and_writev] *)
Definition remote_slot_writev (now : Z) (room : Z -> bool) (passes : list bytes)
  (si we renew cancel : bytes) (tw : tw_vectors) (rv : list (Z * Z)) (sv : server)
  : res server_error reply * server :=
  match first_new_length tw with
  | Some n => (Err (NewLengthRejected n), sv)
  | None =>
  match validate_passes (make_message KWritev si) passes with
  | Err e => (Err e, sv)
  | Ok v =>
  match get_writev_price (dir_of (sv_storage sv) si) tw now with
  | Err e => (Err e, sv)
  | Ok required_new_passes =>
  if required_new_passes >? lenZ (valid v) then (raise_for v required_new_passes, sv) else
  match tahoe_writev mutable_version si we tw rv (sv_storage sv) with
  | (Err e, st) => (Err (FromTahoe e), with_storage st sv)
  | (Ok (good, read), st) =>
  match add_leases_for_writev room si renew cancel tw now st with
  | (Err e, st') => (Err e, with_storage st' sv)
  | (Ok _, st') =>
      (Ok (Written good read),
       observe required_new_passes (mark_as_spent (valid v) (with_storage st' sv)))
  end end end end end.

Definition serve (now : Z) (room : Z -> bool) (passes : list bytes) (q : request) (sv : server)
  : res server_error reply * server :=
  match q with
  | Allocate si renew cancel sharenums size =>
      remote_allocate_buckets now room passes si renew cancel sharenums size sv
  | AddLease si renew cancel => remote_add_lease now room passes si renew cancel sv
  | Writev si we renew cancel tw rv => remote_slot_writev now room passes si we renew cancel tw rv sv
  end.

(** _storage_server.py:483-492 [remote_share_sizes] *)
Definition remote_share_sizes (sv : server) (si : bytes) (sharenums : option (list Z))
  : res file_error (dict Z) :=
  sizes <- get_share_sizes (dir_of (sv_storage sv) si) sharenums ;; Ok (dict_of sizes).

(** _storage_server.py:494-500 [remote_stat_shares], for one storage index *)
Definition remote_stat_shares (sv : server) (si : bytes) : res file_error (dict share_stat) :=
  stats <- get_share_stats (dir_of (sv_storage sv) si) None ;; Ok (dict_of stats).

(** ** Histories *)

(** What can happen to a server: a request, the end of an upload by a client or
    by its disconnection, the removal of a share. *)
Inductive event :=
| ERequest (now : Z) (room : Z -> bool) (passes : list bytes) (q : request)
| EClose (si : bytes) (n : Z) (content : bytes)
| EAbort (si : bytes) (n : Z)
| EDelete (si : bytes) (n : Z).

Definition server_step (sv : server) (e : event) : option (res server_error reply) * server :=
  match e with
  | ERequest now room passes q => let '(r, sv') := serve now room passes q sv in (Some r, sv')
  | EClose si n content =>
      (None, with_storage (close_bucket immutable_version si n content (sv_storage sv)) sv)
  | EAbort si n => (None, with_storage (drop_incoming si n (sv_storage sv)) sv)
  | EDelete si n => (None, with_storage (delete_share si n (sv_storage sv)) sv)
  end.
Fixpoint server_run (sv : server) (es : list event) : list (option (res server_error reply)) * server :=
  match es with
  | [] => ([], sv)
  | e :: rest =>
      let '(o, sv1) := server_step sv e in
      let '(os, sv2) := server_run sv1 rest in
      (o :: os, sv2)
  end.
End Server.

Definition empty_server : server := Server (Storage (fun _ => []) []) [] [].
