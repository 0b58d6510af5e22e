(** The storage client when the server may answer anything: what it checks of an
    answer, and what it goes on to do with it (_storage_client.py).

    Simplifications, for the whole file: floats are no values; an exception is
    its class; [callRemote] raising anything but MorePassesRequired is one
    exception; log calls and [assert isinstance(rref, RemoteReference)] are left
    out.  Database contents are those at the moment the price is known. *)
From Coq Require Strings.String. Import Coq.Strings.String.StringSyntax.
From Verif Require Import Prelude BytesModel PassModel PricingModel ContainerModel StoreModel SpendModel.
Set Implicit Arguments.

(** What Foolscap can deliver.  Text is its code points; a set and a dict list
    their elements in iteration order; [PStat] is a ShareStat with its two
    attributes, which the sender may have left out (foolscap.py:54-58,
    [setCopyableState] takes the sender's state as it comes); [PObject] is
    anything else, such as a remote reference. *)
Inductive pyval :=
| PNone
| PBool (b : bool)
| PInt (n : Z)
| PBytes (s : bytes)
| PText (s : list Z)
| PList (l : list pyval)
| PTuple (l : list pyval)
| PSet (l : list pyval)
| PDict (items : list (pyval * pyval))
| PStat (size lease_expiration : option pyval)
| PObject (id : Z).

Inductive refusal := ValueErr | TypeErr | AttributeErr | IncorrectReference | RemoteErr.
(** The exception as the failure of a call that takes tokens. *)
Definition code (e : refusal) : Z :=
  match e with RemoteErr => 0 | ValueErr => 1 | TypeErr => 2 | AttributeErr => 3 | IncorrectReference => 4 end.

(** ** Python *)

(** [isinstance(v, int)] and the number; a bool is an int. *)
Definition as_int (v : pyval) : option Z :=
  match v with PInt n => Some n | PBool b => Some (if b then 1 else 0) | _ => None end.
Definition is_int (v : pyval) : bool := match as_int v with Some _ => true | None => false end.
Definition is_bytes (v : pyval) : bool := match v with PBytes _ => true | _ => false end.
Definition is_stat (v : pyval) : bool := match v with PStat _ _ => true | _ => false end.
(** The number where [is_int] was checked. *)
Definition int_value (v : pyval) : Z := match as_int v with Some n => n | None => 0 end.

(** [a == b] for two ints or two byte strings, the keys that pass the checks *)
Definition key_eqb (a b : pyval) : bool :=
  match as_int a, as_int b with
  | Some m, Some n => m =? n
  | _, _ => match a, b with PBytes x, PBytes y => bytes_eqb x y | _, _ => false end
  end.
(** [d[k] = v]: an existing key stays as it is. *)
Fixpoint assign (k v : pyval) (d : list (pyval * pyval)) : list (pyval * pyval) :=
  match d with
  | [] => [(k, v)]
  | (k', v') :: rest => if key_eqb k k' then (k', v) :: rest else (k', v') :: assign k v rest
  end.

(** [a, b = v] *)
Definition unpack_two (v : pyval) : res refusal (pyval * pyval) :=
  match v with
  | PList l | PTuple l | PSet l => match l with [a; b] => Ok (a, b) | _ => Err ValueErr end
  | PDict items => match items with [a; b] => Ok (fst a, fst b) | _ => Err ValueErr end
  | PBytes s => match s with [a; b] => Ok (PInt (bz a), PInt (bz b)) | _ => Err ValueErr end
  | PText s => match s with [a; b] => Ok (PText [a], PText [b]) | _ => Err ValueErr end
  | PNone | PBool _ | PInt _ | PStat _ _ | PObject _ => Err TypeErr
  end.
(** [len(v)] *)
Definition py_len (v : pyval) : res refusal nat :=
  match v with
  | PList l | PTuple l | PSet l => Ok (length l)
  | PDict items => Ok (length items)
  | PBytes s => Ok (length s)
  | PText s => Ok (length s)
  | PNone | PBool _ | PInt _ | PStat _ _ | PObject _ => Err TypeErr
  end.

(** ** The checks *)

(** The loop over [items()] in the checks below: every item is checked, then
    stored in a new dict. *)
Fixpoint known_items (okay : pyval -> pyval -> bool) (items known : list (pyval * pyval))
  : res refusal (list (pyval * pyval)) :=
  match items with
  | [] => Ok known
  | (k, v) :: rest => if okay k v then known_items okay rest (assign k v known) else Err ValueErr
  end.

(** _storage_client.py:421-433, in [get_version] *)
Definition check_version (v : pyval) : res refusal pyval :=
  match v with
  | PDict items => known <- known_items (fun k _ => is_bytes k) items [] ;; Ok (PDict known)
  | _ => Err ValueErr
  end.

(** _storage_client.py:516-528, in [get_buckets] *)
Definition check_buckets (v : pyval) : res refusal pyval :=
  match v with
  | PDict items => known <- known_items (fun k _ => is_int k) items [] ;; Ok (PDict known)
  | _ => Err ValueErr
  end.

(** _storage_client.py:257-283 [stat_shares] *)
Fixpoint known_stats (l : list pyval) : res refusal (list pyval) :=
  match l with
  | [] => Ok []
  | PDict items :: rest =>
      known <- known_items (fun k s => is_int k && is_stat s) items [] ;;
      others <- known_stats rest ;;
      Ok (PDict known :: others)
  | _ :: _ => Err ValueErr
  end.
Definition check_stats (v : pyval) : res refusal pyval :=
  match v with
  | PList l => known <- known_stats l ;; Ok (PList known)
  | _ => Err ValueErr
  end.

(** _storage_client.py:286-306 [get_share_sizes] *)
Definition check_sizes (v : pyval) : res refusal pyval :=
  match v with
  | PDict items => known <- known_items (fun k s => is_int k && is_int s) items [] ;; Ok (PDict known)
  | _ => Err ValueErr
  end.

(** _storage_client.py:326-357, in [slot_testv_and_readv_and_writev] *)
Fixpoint known_data (items known : list (pyval * pyval)) : res refusal (list (pyval * pyval)) :=
  match items with
  | [] => Ok known
  | (k, PList l) :: rest =>
      if is_int k && forallb is_bytes l then known_data rest (assign k (PList l) known) else Err ValueErr
  | _ :: _ => Err ValueErr
  end.
Definition check_writev (v : pyval) : res refusal pyval :=
  match v with
  | PTuple l =>
      match l with
      | [PBool okay; PDict data_v] =>
          known <- known_data data_v [] ;; Ok (PTuple [PBool okay; PDict known])
      | _ => Err ValueErr
      end
  | _ => Err ValueErr
  end.

(** ** Calls that cost nothing *)

(** _storage_client.py:385-387 [_expected_remote_interface_name] *)
Definition expected_interface : bytes :=
  ascii "RIPrivacyPassAuthorizedStorageServer.tahoe.privatestorage.io".

(** _storage_client.py:218-245 [with_rref] with 396-414 [_rref]; [name] is the
    interface name of the reference. *)
Definition with_rref {A} (name : bytes) (f : res refusal A) : res refusal A :=
  if bytes_eqb name expected_interface then f else Err IncorrectReference.

(** What [callRemote] delivers; [None] if it raises. *)
Definition call_remote (answer : option pyval) : res refusal pyval :=
  match answer with Some v => Ok v | None => Err RemoteErr end.

(** _storage_client.py:416-433, 506-528, 558-562, 564-581, 663-679 *)
Definition wire_get_version name answer : res refusal pyval :=
  with_rref name (v <- call_remote answer ;; check_version v).
Definition wire_get_buckets name answer : res refusal pyval :=
  with_rref name (v <- call_remote answer ;; check_buckets v).
Definition wire_stat_shares name answer : res refusal pyval :=
  with_rref name (v <- call_remote answer ;; check_stats v).
Definition wire_advise_corrupt_share name answer : res refusal pyval :=
  with_rref name (v <- call_remote answer ;; Ok PNone).
Definition wire_slot_readv name answer : res refusal pyval :=
  with_rref name (call_remote answer).

(** ** Calls that take passes *)

(** [stat.size], [stat.lease_expiration] *)
Definition attribute (v : option pyval) : res refusal pyval :=
  match v with Some x => Ok x | None => Err AttributeErr end.
(** [v > now], [now] being a number; clocks show multiples of 1/[hz] seconds. *)
Definition later (v : pyval) (now : Z) : res refusal bool :=
  match as_int v with Some n => Ok (n * hz >? now) | None => Err TypeErr end.

(** The comprehension of _storage_client.py:625-633 *)
Fixpoint wire_current_sizes (now : Z) (write_sharenums : list Z) (stats : list (pyval * pyval))
  : res refusal (list (Z * pyval)) :=
  match stats with
  | [] => Ok []
  | (k, PStat size expiration) :: rest =>
      e <- attribute expiration ;;
      active <- later e now ;;
      if active && memZ (int_value k) write_sharenums then
        s <- attribute size ;;
        others <- wire_current_sizes now write_sharenums rest ;;
        Ok ((int_value k, s) :: others)
      else wire_current_sizes now write_sharenums rest
  | (_, _) :: rest => Err AttributeErr
  end.

(** Sizes that are no ints raise TypeError in [divmod] (storage_common.py:163);
    simplified: before any ZeroDivisionError. *)
Fixpoint int_sizes (sizes : list (Z * pyval)) : res refusal (dict Z) :=
  match sizes with
  | [] => Ok []
  | (k, s) :: rest =>
      match as_int s with
      | Some n => others <- int_sizes rest ;; Ok ((k, n) :: others)
      | None => Err TypeErr
      end
  end.

Definition failure_of (e : refusal) : failure := Remote (code e).

(** _storage_client.py:593-642: the number of passes for
    [slot_testv_and_readv_and_writev] *)
Definition wire_write_price (pass_value now : Z) (stats_answer : option pyval) (tw : tw_vectors)
  : res failure Z :=
  let write_sharenums := get_write_sharenums tw in
  if lenZ write_sharenums >? 0 then
    match (v <- call_remote stats_answer ;; check_stats v) with
    | Err e => Err (failure_of e)
    | Ok (PList [PDict stats]) =>
        match (sizes <- wire_current_sizes now write_sharenums stats ;; int_sizes sizes) with
        | Err e => Err (failure_of e)
        | Ok current_sizes =>
            match get_required_new_passes_for_mutable_write pass_value current_sizes tw with
            | Ok n => Ok n
            | Err _ => Err (Raised ZeroDivisionError)
            end
        end
    | Ok _ => Err (failure_of ValueErr)
    end
  else Ok 0.

(** _storage_client.py:538-539: the number of passes for [add_lease] *)
Definition wire_lease_price (pass_value : Z) (sizes_answer : option pyval) : res failure Z :=
  match (v <- call_remote sizes_answer ;; check_sizes v) with
  | Err e => Err (failure_of e)
  | Ok (PDict known) =>
      match required_passes pass_value (map (fun ks => int_value (snd ks)) known) with
      | Ok n => Ok n
      | Err _ => Err (Raised ZeroDivisionError)
      end
  | Ok _ => Err (failure_of ValueErr)
  end.

(** The answer as the [call] function handed to the retry loop returns it: a
    failed check is an exception like those of the remote method. *)
Definition checked {R} (check : pyval -> res refusal R) (resp : response pyval) : response R :=
  match resp with
  | Accept v => match check v with Ok r => Accept r | Err e => Fail (code e) end
  | Refuse valid required failed => Refuse valid required failed
  | Fail _ => Fail (code RemoteErr)
  end.

Section Paid.
Variable P : Type.
Variable to_pass : Z -> Z -> res exn P.
Variable scan : nat -> list Z -> list Z.
Variables message pass_value : Z.

(** The remote method, answering anything, and what other tasks do meanwhile. *)
Definition remote (R : Type) := list (attempt P R) -> group P -> db -> list op * response pyval.
Definition remotely {R} (check : pyval -> res refusal R) (server : remote R)
  (past : list (attempt P R)) (g : group P) (d : db) : list op * response R :=
  let '(others, resp) := server past g d in (others, checked check resp).

(** _rref for a call that takes passes *)
Definition paid_with_rref {R} (name : bytes) (d : db) (f : option (res failure R * db * list (attempt P R)))
  : option (res failure R * db * list (attempt P R)) :=
  if bytes_eqb name expected_interface then f else Some (Err (failure_of IncorrectReference), d, []).

(** _storage_client.py:530-556 [add_lease]; the answer to the paid call is not
    looked at (542-549). *)
Definition wire_add_lease (name : bytes) (sizes_answer : option pyval) (server : remote unit)
  (fuel : nat) (d : db) : option (res failure unit * db * list (attempt P unit)) :=
  paid_with_rref name d
    (match wire_lease_price pass_value sizes_answer with
     | Err f => Some (Err f, d, [])
     | Ok num_passes =>
         call_with_passes to_pass (remotely (fun _ => Ok tt) server) scan message num_passes fuel d
     end).

(** _storage_client.py:583-661 [slot_testv_and_readv_and_writev] *)
Definition wire_writev (name : bytes) (now : Z) (stats_answer : option pyval) (tw : tw_vectors)
  (server : remote pyval) (fuel : nat) (d : db) : option (res failure pyval * db * list (attempt P pyval)) :=
  paid_with_rref name d
    (match wire_write_price pass_value now stats_answer tw with
     | Err f => Some (Err f, d, [])
     | Ok num_passes =>
         call_with_passes to_pass (remotely check_writev server) scan message num_passes fuel d
     end).

(** _storage_client.py:435-466 [_spend_for_allocate_buckets]; of the bucket
    writers only [len] is used. *)
Definition wire_spend_for_allocate (allocated_size : Z) (result : pyval * pyval) (g : group P) (d : db)
  : res exn unit * db :=
  match py_len (snd result) with
  | Err _ => (Err OtherError, d)
  | Ok n => spend_for_allocate_buckets pass_value allocated_size ([], repeat (0, 0) n) g d
  end.

(** _storage_client.py:468-504 [allocate_buckets] *)
Definition wire_allocate (name : bytes) (sharenums : list Z) (allocated_size : Z) (server : remote (pyval * pyval))
  (fuel : nat) (d : db)
  : option (res failure (pyval * pyval) * db * list (attempt P (pyval * pyval))) :=
  paid_with_rref name d
    (match required_passes pass_value (repeat allocated_size (length sharenums)) with
     | Err _ => Some (Err (Raised ZeroDivisionError), d, [])
     | Ok num_passes =>
         call_with_passes_with_manual_spend to_pass (remotely unpack_two server) scan message num_passes
           (wire_spend_for_allocate allocated_size) fuel d
     end).
End Paid.
