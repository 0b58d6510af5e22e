(** The Tahoe-LAFS storage server that ZKAPAuthorizerStorageServer wraps
    ([self._original]).  Its code (tahoe-lafs 1.18, setup.cfg:58) is not in /repo:
    this file is part of the trusted base.  It describes
    allmydata/storage/{server,immutable,mutable,lease}.py as far as the wrapper
    can tell the difference. *)
From Verif Require Import Prelude BytesModel PassModel PricingModel ContainerModel.
Set Implicit Arguments.

Record lease := Lease { l_owner : Z; l_renew : bytes; l_cancel : bytes; l_expiration : Z }.
Inductive container :=
| CImmutable (version : Z)
| CMutable (version : Z) (write_enabler : bytes).
Record share := Share { s_container : container; s_data : bytes; s_leases : list lease }.

(** A bucket writer that was created and not closed yet. *)
Record upload := Upload { up_si : bytes; up_num : Z; up_size : Z; up_lease : lease }.

(** The shares of every storage index, and the incoming ones. *)
Record storage := Storage { dirs : bytes -> dict share; incoming : list upload }.

Inductive tahoe_error :=
| NoSpace
| PackError            (* struct.error *)
| WrongContainer       (* an immutable share where a mutable one is expected or vice versa *)
| BadWriteEnabler
| NegativeOffset
| DataTooLarge.

(** ** Files *)

(** lease.py: 72 bytes in immutable containers, 92 in mutable ones. *)
Definition immutable_lease (l : lease) : bytes :=
  be 4 (l_owner l) ++ pack_s 32 (l_renew l) ++ pack_s 32 (l_cancel l) ++ be 4 (l_expiration l).
Definition mutable_lease (l : lease) : bytes :=
  be 4 (l_owner l) ++ be 4 (l_expiration l) ++ pack_s 32 (l_renew l) ++ pack_s 32 (l_cancel l)
  ++ pack_s 20 [].

(** The file of a share.  The node id is left blank. *)
Definition share_file (s : share) : bytes :=
  match s_container s with
  | CImmutable v =>
      immutable_file v (lenZ (s_leases s)) (s_data s) (flat_map immutable_lease (s_leases s))
  | CMutable v we =>
      mutable_file v [] we (468 + lenZ (s_data s)) (flat_map mutable_lease (firstn 4 (s_leases s)))
        (s_data s)
        (be 4 (lenZ (skipn 4 (s_leases s))) ++ flat_map mutable_lease (skipn 4 (s_leases s)))
  end.
Definition share_entry (ns : Z * share) : entry :=
  Entry (dec (fst ns)) (share_file (snd ns)) (Ok (map l_expiration (s_leases (snd ns)))).
(** The directory of a storage index. *)
Definition dir_of (st : storage) (si : bytes) : directory := Some (map share_entry (dirs st si)).

Definition set_dir (si : bytes) (d : dict share) (st : storage) : storage :=
  Storage (fun si' => if bytes_eqb si si' then d else dirs st si') (incoming st).

(** ** Leases *)

(** server.py DEFAULT_RENEWAL_TIME = 31 days *)
Definition RENEWAL_SECONDS : Z := 31 * 24 * 60 * 60.

(** What [struct.pack(">L", ...)] accepts. *)
Definition packable (n : Z) : bool := (0 <=? n) && (n <? 2 ^ 32).

(** [renew_lease]: the first lease with this renew secret gets the new time
    unless that is earlier. *)
Fixpoint renew_lease (renew : bytes) (expiration : Z) (ls : list lease)
  : option (res tahoe_error (list lease)) :=
  match ls with
  | [] => None
  | l :: rest =>
      if bytes_eqb (l_renew l) renew then
        Some (if expiration >? l_expiration l * hz then
                let e := Z.quot expiration hz in
                if packable e then Ok (Lease (l_owner l) (l_renew l) (l_cancel l) e :: rest)
                else Err PackError
              else Ok (l :: rest))
      else option_map (fun r => more <- r ;; Ok (l :: more)) (renew_lease renew expiration rest)
  end.

(** [add_or_renew_lease]; [space]: whether there is room for one more lease.
    [expiration] is a clock value, stored as whole seconds. *)
Definition add_or_renew_lease (space : bool) (owner : Z) (renew cancel : bytes) (expiration : Z)
  (s : share) : res tahoe_error share :=
  match renew_lease renew expiration (s_leases s) with
  | Some r => ls <- r ;; Ok (Share (s_container s) (s_data s) ls)
  | None =>
      if negb space then Err NoSpace else
      let e := Z.quot expiration hz in
      if packable e && packable (lenZ (s_leases s) + 1)
      then Ok (Share (s_container s) (s_data s) (s_leases s ++ [Lease owner renew cancel e]))
      else Err PackError
  end.

(** [StorageServer.add_lease]: all shares of the storage index, one by one. *)
Fixpoint add_lease_loop (room : Z -> bool) (renew cancel : bytes) (expiration : Z) (d : dict share)
  : res tahoe_error unit * dict share :=
  match d with
  | [] => (Ok tt, [])
  | (n, s) :: rest =>
      match add_or_renew_lease (room n) 1 renew cancel expiration s with
      | Err e => (Err e, (n, s) :: rest)
      | Ok s' =>
          let '(r, rest') := add_lease_loop room renew cancel expiration rest in
          (r, (n, s') :: rest')
      end
  end.
Definition tahoe_add_lease (room : Z -> bool) (now : Z) (si renew cancel : bytes) (st : storage)
  : res tahoe_error unit * storage :=
  let '(r, d) := add_lease_loop room renew cancel (now + RENEWAL_SECONDS * hz) (dirs st si) in
  (r, set_dir si d st).

(** ** Immutable uploads *)

Definition is_mutable (s : share) : bool :=
  match s_container s with CMutable _ _ => true | CImmutable _ => false end.
Definition is_incoming (st : storage) (si : bytes) (n : Z) : bool :=
  existsb (fun u => bytes_eqb (up_si u) si && (up_num u =? n)) (incoming st).

(** [StorageServer.allocate_buckets] with [renew_leases=False]: the shares the
    server already has (all of them, asked about or not), and a bucket writer
    for each other share that is not being uploaded and has [room]. *)
Definition tahoe_allocate_buckets (room : Z -> bool) (now : Z) (si renew cancel : bytes)
  (sharenums : list Z) (allocated_size : Z) (st : storage)
  : res tahoe_error (list Z * list Z) * storage :=
  if existsb (fun '(_, s) => is_mutable s) (dirs st si) then (Err WrongContainer, st) else
  let alreadygot := dkeys (dirs st si) in
  let bucketwriters :=
    filter (fun n => negb (memZ n alreadygot) && negb (is_incoming st si n) && room n) sharenums in
  let e := Z.quot (now + RENEWAL_SECONDS * hz) hz in
  if (match bucketwriters with [] => false | _ => true end) && negb (packable e)
  then (Err PackError, st) else
  (Ok (alreadygot, bucketwriters),
   Storage (dirs st)
     (incoming st ++ map (fun n => Upload si n allocated_size (Lease 0 renew cancel e)) bucketwriters)).

(** [BucketWriter.close]: the share, as large as was allocated, appears in its
    place.  [BucketWriter.abort] (also on disconnect): it is forgotten. *)
Definition drop_incoming (si : bytes) (n : Z) (st : storage) : storage :=
  Storage (dirs st)
    (filter (fun u => negb (bytes_eqb (up_si u) si && (up_num u =? n))) (incoming st)).
Definition close_bucket (version : Z) (si : bytes) (n : Z) (content : bytes) (st : storage) : storage :=
  match find (fun u => bytes_eqb (up_si u) si && (up_num u =? n)) (incoming st) with
  | None => st
  | Some u =>
      set_dir si
        (dset n (Share (CImmutable version) (pack_s (Z.to_nat (up_size u)) content) [up_lease u])
           (dirs st si))
        (drop_incoming si n st)
  end.
(** The lease checker or the operator removes a share. *)
Definition delete_share (si : bytes) (n : Z) (st : storage) : storage :=
  set_dir si (filter (fun kv => negb (fst kv =? n)) (dirs st si)) st.

(** ** Mutable slots *)

Definition read_at (offset len : Z) (data : bytes) : bytes :=
  firstn (Z.to_nat len) (skipn (Z.to_nat offset) data).
(** Gaps are filled with zero bytes. *)
Definition write_at (offset : nat) (d data : bytes) : bytes :=
  firstn offset (data ++ repeat x00 (offset - length data)) ++ d ++ skipn (offset + length d) data.

(** MutableShareFile.MAX_SIZE *)
Definition MAX_SIZE : Z := 69105 * 1000 * 1000 * 1000 * 1000.

(** [MutableShareFile.writev]; with an error the earlier writes stay. *)
Fixpoint write_data (dv : data_vector) (data : bytes) : res tahoe_error unit * bytes :=
  match dv with
  | [] => (Ok tt, data)
  | (offset, d) :: rest =>
      if offset <? 0 then (Err NegativeOffset, data)
      else if offset + lenZ d >? MAX_SIZE then (Err DataTooLarge, data)
      else write_data rest (write_at (Z.to_nat offset) d data)
  end.
Definition truncate (new_length : option Z) (data : bytes) : bytes :=
  match new_length with
  | None => data
  | Some n => if n <? lenZ data then firstn (Z.to_nat n) data else data
  end.

(** [_collect_mutable_shares_for_storage_index]: every share must be mutable
    and have this write enabler. *)
Fixpoint collect_mutable (we : bytes) (d : dict share) : res tahoe_error unit :=
  match d with
  | [] => Ok tt
  | (_, s) :: rest =>
      match s_container s with
      | CImmutable _ => Err WrongContainer
      | CMutable _ we' => if bytes_eqb we we' then collect_mutable we rest else Err BadWriteEnabler
      end
  end.

(** [_evaluate_test_vectors]: an absent share reads as empty. *)
Definition share_data (d : dict share) (n : Z) : bytes :=
  match dget n d with Some s => s_data s | None => [] end.
Definition check_testv (data : bytes) (tv : test_vector) : bool :=
  forallb (fun '(offset, len, specimen) => bytes_eqb (read_at offset len data) specimen) tv.
Definition evaluate_test_vectors (tw : tw_vectors) (d : dict share) : bool :=
  forallb (fun '(n, v) => check_testv (share_data d n) (tw_test v)) tw.

(** [_evaluate_read_vectors] *)
Definition evaluate_read_vectors (rv : list (Z * Z)) (d : dict share) : dict (list bytes) :=
  map (fun '(n, s) => (n, map (fun '(o, len) => read_at o len (s_data s)) rv)) d.

(** [_evaluate_write_vectors]: a missing share is created, without a lease, even
    if there is nothing to write. *)
Fixpoint evaluate_write_vectors (version : Z) (we : bytes) (tw : tw_vectors) (d : dict share)
  : res tahoe_error unit * dict share :=
  match tw with
  | [] => (Ok tt, d)
  | (n, v) :: rest =>
      match tw_new_length v with
      | Some 0 => evaluate_write_vectors version we rest (filter (fun kv => negb (fst kv =? n)) d)
      | nl =>
          let s := match dget n d with Some s => s | None => Share (CMutable version we) [] [] end in
          match write_data (tw_data v) (s_data s) with
          | (Err e, data) => (Err e, dset n (Share (s_container s) data (s_leases s)) d)
          | (Ok _, data) =>
              evaluate_write_vectors version we rest
                (dset n (Share (s_container s) (truncate nl data) (s_leases s)) d)
          end
      end
  end.

(** [StorageServer.slot_testv_and_readv_and_writev] with [renew_leases=False] *)
Definition tahoe_writev (version : Z) (si we : bytes) (tw : tw_vectors) (rv : list (Z * Z))
  (st : storage) : res tahoe_error (bool * dict (list bytes)) * storage :=
  let d := dirs st si in
  match collect_mutable we d with
  | Err e => (Err e, st)
  | Ok _ =>
      let good := evaluate_test_vectors tw d in
      let read := evaluate_read_vectors rv d in
      if good then
        let '(r, d') := evaluate_write_vectors version we tw d in
        (_ <- r ;; Ok (good, read), set_dir si d' st)
      else (Ok (good, read), st)
  end.
