(** Model of the pricing arithmetic shared by client and server.
    Python [int] is [Z].  Python's [divmod] rounds toward minus infinity with
    the remainder taking the divisor's sign, as [Z.div]/[Z.modulo] do; the
    zero divisor, where Python raises, is an explicit error here. *)
From Verif Require Import Prelude.
From Coq Require Export Strings.Byte.

(** Errors raised by the arithmetic: [divmod(x, 0)] (storage_common.py:163,
    util [div_ceil] via storage_common.py:201) and [max([])]
    (storage_common.py:242-248). *)
Inductive price_error := ZeroDivision | EmptyMax.

(** storage_common.py:163 [divmod(x, bytes_per_pass)] *)
Definition divmod (x y : Z) : res price_error (Z * Z) :=
  if y =? 0 then Err ZeroDivision else Ok (x / y, x mod y).

(** storage_common.py:162-166, the body of the loop and its accumulator. *)
Fixpoint required_passes_loop (bytes_per_pass zkaps : Z) (share_sizes : list Z)
  : res price_error Z :=
  match share_sizes with
  | [] => Ok zkaps
  | x :: rest =>
      qr <- divmod x bytes_per_pass ;;
      let '(result, b) := qr in
      let result := if b >? 0 then result + 1 else result in
      required_passes_loop bytes_per_pass (zkaps + result) rest
  end.

(** storage_common.py:141-169 [required_passes].  The type check of lines
    155-160 is discharged by typing (only lists are passed). *)
Definition required_passes (bytes_per_pass : Z) (share_sizes : list Z)
  : res price_error Z :=
  required_passes_loop bytes_per_pass 0 share_sizes.

(** storage_common.py:70 [BYTES_PER_PASS = 1024 * 1024] *)
Definition BYTES_PER_PASS : Z := 1024 * 1024.

(** storage_common.py:185,201: pyutil's [div_ceil(n, d)] is
    [int((n // d) + (n % d != 0))]. *)
Definition div_ceil (n d : Z) : res price_error Z :=
  if d =? 0 then Err ZeroDivision
  else Ok (n / d + (if n mod d =? 0 then 0 else 1)).

(** storage_common.py:188-201 [share_size_for_data] *)
Definition share_size_for_data (shares_needed datasize : Z) : res price_error Z :=
  div_ceil datasize shares_needed.

(** Python's [[x] * n]: empty for a negative [n]. *)
Definition list_times (x n : Z) : list Z := repeat x (Z.to_nat n).

(** tahoe.py:853-858 [share_sizes_for_data] *)
Definition share_sizes_for_data (needed total data_size : Z) : res price_error (list Z) :=
  sz <- share_size_for_data needed data_size ;; Ok (list_times sz total).

(** tahoe.py:840-850 [required_passes_for_data] *)
Definition required_passes_for_data (bytes_per_pass needed total data_size : Z)
  : res price_error Z :=
  szs <- share_sizes_for_data needed total data_size ;;
  required_passes bytes_per_pass szs.

(** pricecalculator.py:54-69 [PriceCalculator.calculate]: two nested generators
    consumed by [sum], so file sizes are processed one after another. *)
Fixpoint calculate_sum (needed total pass_value acc : Z) (sizes : list Z) : res price_error Z :=
  match sizes with
  | [] => Ok acc
  | size :: rest =>
      share_size <- share_size_for_data needed size ;;
      n <- required_passes pass_value (list_times share_size total) ;;
      calculate_sum needed total pass_value (acc + n) rest
  end.

Definition calculate (needed total pass_value : Z) (sizes : list Z) : res price_error Z :=
  calculate_sum needed total pass_value 0 sizes.

(** storage_common.py:173-176: wire format of one share's test vector
    [(offset, length, operator, specimen)], data vector and new length.  The
    operator is always [b"eq"] (_storage_client.py:601) and is left out. *)
Definition test_vector := list (Z * Z * list byte).
Definition data_vector := list (Z * list byte).
Record tw_vector := TW { tw_test : test_vector; tw_data : data_vector; tw_new_length : option Z }.
Definition tw_vectors := dict tw_vector.

Definition lenZ {A} (l : list A) : Z := Z.of_nat (length l).

(** [max(offset + len(data) for ...)] over a non-empty vector, storage_common.py:244,264 *)
Fixpoint max_end (m : Z) (dv : data_vector) : Z :=
  match dv with
  | [] => m
  | (offset, data) :: rest => max_end (Z.max m (offset + lenZ data)) rest
  end.

(** storage_common.py:251-269 [get_implied_data_length] *)
Definition get_implied_data_length (dv : data_vector) (new_length : option Z) : Z :=
  let data_based_size :=
    match dv with
    | [] => 0
    | (offset, data) :: rest => max_end (offset + lenZ data) rest
    end in
  match new_length with
  | None => data_based_size
  | Some n => Z.min n data_based_size
  end.

(** Truthiness of a data vector: [if data]. *)
Definition nonempty {A} (l : list A) : bool := match l with [] => false | _ => true end.

(** storage_common.py:204-214 [has_writes] *)
Definition has_writes (tw : tw_vectors) : bool :=
  existsb (fun '(_, v) => nonempty (tw_data v) ||
             match tw_new_length v with None => false | Some _ => true end) tw.

(** storage_common.py:217-232 [get_write_sharenums]: only shares with data. *)
Definition get_write_sharenums (tw : tw_vectors) : list Z :=
  map fst (filter (fun '(_, v) => nonempty (tw_data v)) tw).

(** storage_common.py:235-248 [get_allocated_size]: raises on [max([])]. *)
Definition get_allocated_size (tw : tw_vectors) : res price_error Z :=
  match filter (fun '(_, v) => nonempty (tw_data v)) tw with
  | [] => Err EmptyMax
  | (k, v) :: rest =>
      Ok (fold_left (fun m '(_, v') => Z.max m (get_implied_data_length (tw_data v') None))
            rest (get_implied_data_length (tw_data v) None))
  end.

(** storage_common.py:294-301: copy of the current sizes with the updates. *)
Definition updated_sizes (current_sizes : dict Z) (tw : tw_vectors) : dict Z :=
  fold_left
    (fun new_sizes '(sharenum, v) =>
       let size := get_implied_data_length (tw_data v) (tw_new_length v) in
       if size >? dget_or 0 sharenum new_sizes then dset sharenum size new_sizes else new_sizes)
    tw current_sizes.

(** storage_common.py:272-316 [get_required_new_passes_for_mutable_write];
    the log message of lines 309-315 is left out. *)
Definition get_required_new_passes_for_mutable_write
  (pass_value : Z) (current_sizes : dict Z) (tw : tw_vectors) : res price_error Z :=
  current_passes <- required_passes pass_value (dvalues current_sizes) ;;
  new_passes <- required_passes pass_value (dvalues (updated_sizes current_sizes tw)) ;;
  Ok (new_passes - current_passes).
