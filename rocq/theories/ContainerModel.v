(** Share container files: their layout, and the functions of
    _storage_server.py that read sizes out of them and list a directory of
    them.

    A file is a byte string.  The leases Tahoe reads out of a file
    ([get_share_file(path).get_leases()]) are Tahoe's business: a directory entry
    carries them beside the file content. *)
From Verif Require Import Prelude BytesModel PassModel.
From Coq Require Import Strings.String.
Set Implicit Arguments.

(** ** Layout written by Tahoe-LAFS 1.18 (not in /repo) *)

(** [struct.pack("32s", s)]: cut or padded with zero bytes. *)
Definition pack_s (width : nat) (s : bytes) : bytes := firstn width (s ++ repeat x00 width).

(** An immutable container, as documented in the comment of
    _storage_server.py:841-861: version, truncated data length, number of leases,
    data, leases (72 bytes each, here opaque). *)
Definition immutable_file (version nleases : Z) (data leases : bytes) : bytes :=
  be 4 version ++ be 4 (Z.of_nat (List.length data)) ++ be 4 nleases ++ data ++ leases.

(** The 32 bytes a mutable container starts with; version 1 has five fixed
    bytes at the end, version 2 the first five of SHA-256 of the text. *)
Definition mutable_magic (version : Z) : bytes :=
  ascii "Tahoe mutable container v" ++ [digit version; x0a] ++
  (if version =? 1 then [x75; x09; x44; x03; x8e] else [x22; xea; x86; xa9; x1d]).

(** A mutable container (allmydata/storage/mutable.py): magic (32 bytes), node
    id (20), write enabler (32), data length (8), offset of the extra leases
    (8), four lease slots (368 bytes), data, then the rest (number of extra
    leases and the extra leases). *)
Definition mutable_file (version : Z) (nodeid write_enabler : bytes) (extra_offset : Z)
  (slots data rest : bytes) : bytes :=
  mutable_magic version ++ pack_s 20 nodeid ++ pack_s 32 write_enabler
  ++ be 8 (Z.of_nat (List.length data)) ++ be 8 extra_offset ++ pack_s 368 slots ++ data ++ rest.

(** allmydata.storage.immutable.ShareFile.is_valid_header and
    allmydata.storage.mutable.MutableShareFile.is_valid_header *)
Definition immutable_header_ok (header : bytes) : bool :=
  let version := unbe (firstn 4 header) in (version =? 1) || (version =? 2).
Definition mutable_header_ok (header : bytes) : bool :=
  bytes_eqb (firstn 32 header) (mutable_magic 1) || bytes_eqb (firstn 32 header) (mutable_magic 2).

(** ** The readers of _storage_server.py *)

(** [ValueError]s and [struct.error]s, told apart by where they are raised, and
    what Tahoe raises while opening a container. *)
Inductive file_error :=
| ShortHeader          (* _storage_server.py:869-875, 956-959 *)
| UnknownVersion       (* 885-887, 965 *)
| StructError          (* 941 *)
| NoSuchFile           (* open of a missing path *)
| BadContainer.        (* raised by Tahoe's get_share_file or get_leases *)

(** _storage_server.py:833-887 [get_storage_index_share_size] *)
Definition get_storage_index_share_size (file : bytes) : res file_error Z :=
  let share_file_size := Z.of_nat (List.length file) in
  let header := firstn 12 file in
  if negb (Nat.eqb (List.length header) 12) then Err ShortHeader else
  let version := unbe (firstn 4 header) in
  let number_of_leases := unbe (skipn 8 header) in
  if (version =? 1) || (version =? 2)
  then Ok (share_file_size - 12 - number_of_leases * (4 + 32 + 32 + 4))
  else Err UnknownVersion.

(** [s[-n:]] for a positive [n] *)
Definition last_bytes (n : nat) (s : bytes) : bytes := skipn (List.length s - n) s.

(** _storage_server.py:931-943 [get_slot_share_size] *)
Definition get_slot_share_size (file : bytes) : res file_error Z :=
  let share_data_length_bytes := last_bytes 8 (firstn 92 file) in
  if Nat.eqb (List.length share_data_length_bytes) 8
  then Ok (unbe share_data_length_bytes) else Err StructError.

(** A directory entry: its name, the content of the file, and the expiration
    times (whole seconds) of the leases Tahoe finds in it. *)
Record entry := Entry { e_name : bytes; e_file : bytes; e_leases : res file_error (list Z) }.

(** _storage_server.py:914-928 [get_lease_expiration] *)
Definition get_lease_expiration (e : entry) : res file_error (option Z) :=
  leases <- e_leases e ;;
  Ok (match leases with [] => None | x :: l => Some (fold_left Z.max l x) end).

(** storage_common.py via foolscap.py:44-58 [ShareStat] *)
Record share_stat := ShareStat { size : Z; lease_expiration : Z }.

(** [x or 0] *)
Definition or_0 (x : option Z) : Z := match x with Some v => v | None => 0 end.

(** _storage_server.py:890-899 [stat_bucket] and 902-911 [stat_slot] *)
Definition stat_bucket (e : entry) : res file_error share_stat :=
  sz <- get_storage_index_share_size (e_file e) ;;
  exp <- get_lease_expiration e ;;
  Ok (ShareStat sz (or_0 exp)).
Definition stat_slot (e : entry) : res file_error share_stat :=
  sz <- get_slot_share_size (e_file e) ;;
  exp <- get_lease_expiration e ;;
  Ok (ShareStat sz (or_0 exp)).

(** _storage_server.py:946-965 [get_stat] *)
Definition get_stat (e : entry) : res file_error (entry -> res file_error share_stat) :=
  let magic := firstn 32 (e_file e) in
  if Nat.ltb (List.length magic) 32 then Err ShortHeader
  else if immutable_header_ok magic then Ok stat_bucket
  else if mutable_header_ok magic then Ok stat_slot
  else Err UnknownVersion.

(** A directory, in the order [listdir] yields it; [None] when it does not
    exist. *)
Definition directory := option (list entry).

(** _storage_server.py:725-754 [get_all_share_paths]; a path is the entry. *)
Fixpoint numeric_entries (contents : list entry) : list (Z * entry) :=
  match contents with
  | [] => []
  | candidate :: rest =>
      match py_int (e_name candidate) with
      | None => numeric_entries rest
      | Some sharenum => (sharenum, candidate) :: numeric_entries rest
      end
  end.
Definition get_all_share_paths (dir : directory) : list (Z * entry) :=
  match dir with None => [] | Some contents => numeric_entries contents end.

(** _storage_server.py:757-771 [get_all_share_numbers] *)
Definition get_all_share_numbers (dir : directory) : list Z := map fst (get_all_share_paths dir).

(** [sharenums is None or sharenum in sharenums] *)
Definition wanted (sharenums : option (list Z)) (sharenum : Z) : bool :=
  match sharenums with None => true | Some l => memZ sharenum l end.

(** _storage_server.py:800-830 [get_share_stats]: [stat] is chosen by the first
    entry and kept. *)
Fixpoint share_stats_loop (stat : option (entry -> res file_error share_stat))
  (paths : list (Z * entry)) (sharenums : option (list Z)) : res file_error (list (Z * share_stat)) :=
  match paths with
  | [] => Ok []
  | (sharenum, e) :: rest =>
      st <- match stat with Some st => Ok st | None => get_stat e end ;;
      if wanted sharenums sharenum then
        info <- st e ;;
        more <- share_stats_loop (Some st) rest sharenums ;;
        Ok ((sharenum, info) :: more)
      else share_stats_loop (Some st) rest sharenums
  end.
Definition get_share_stats (dir : directory) (sharenums : option (list Z))
  : res file_error (list (Z * share_stat)) :=
  share_stats_loop None (get_all_share_paths dir) sharenums.

(** _storage_server.py:778-797 [get_share_sizes] *)
Definition get_share_sizes (dir : directory) (sharenums : option (list Z))
  : res file_error (list (Z * Z)) :=
  stats <- get_share_stats dir sharenums ;;
  Ok (map (fun '(n, s) => (n, size s)) stats).

(** Opening [bucket/"{sharenum}"]: _storage_server.py:1003-1015
    [get_share_path]. *)
Definition get_share_path (dir : directory) (sharenum : Z) : res file_error entry :=
  match dir with
  | None => Err NoSuchFile
  | Some contents =>
      match find (fun e => bytes_eqb (e_name e) (dec sharenum)) contents with
      | Some e => Ok e
      | None => Err NoSuchFile
      end
  end.

(** Clock values are in units of 2^-29 second: every floating-point number of
    seconds from 2^23 (97 days after the epoch) to 2^53 is a whole number of
    them. *)
Definition hz : Z := 2 ^ 29.

(** _storage_server.py:1018-1030 [share_has_active_leases] *)
Definition share_has_active_leases (dir : directory) (sharenum now : Z) : res file_error bool :=
  e <- get_share_path dir sharenum ;;
  leases <- e_leases e ;;
  Ok (existsb (fun exp => exp * hz >? now) leases).
