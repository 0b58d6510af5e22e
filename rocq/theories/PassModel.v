(** Passes on the wire and the messages binding them to requests. *)
From Verif Require Import Prelude BytesModel.
From Coq Require Import Strings.String.
Set Implicit Arguments.

(** ASCII text written as a string literal. *)
Definition ascii (s : string) : bytes := list_byte_of_string s.

(** model.py:1026-1033 [Pass]; values only arise through [make_pass]. *)
Record pass := Pass { p_preimage : bytes; p_signature : bytes }.

(** What the attrs validators of [Pass] check: validators.py:153-171
    [base64_bytes(length=88)].  [is_base64_encoded(urlsafe_b64decode)] on line
    159 is a validator function, hence true, whatever the value; only the length
    (line 164) is checked.  [None] is the ValueError or, for the wrong number of
    parts, the TypeError of calling the constructor. *)
Definition base64_bytes (len : nat) (value : bytes) : bool := Nat.eqb (List.length value) len.
Definition make_pass (preimage signature : bytes) : option pass :=
  if base64_bytes 88 preimage && base64_bytes 88 signature
  then Some (Pass preimage signature) else None.

(** model.py:1035-1046 [Pass.pass_bytes] *)
Definition pass_bytes (p : pass) : bytes := p_preimage p ++ x20 :: p_signature p.

(** model.py:1048-1050 [Pass.from_bytes] *)
Definition from_bytes (s : bytes) : option pass :=
  match split_on x20 s with
  | [a; b] => make_pass a b
  | _ => None
  end.

(** The three operations that cost passes. *)
Inductive kind := KAllocate | KLease | KWritev.

(** storage_common.py:62-66, the labels *)
Definition label (k : kind) : bytes :=
  match k with
  | KAllocate => ascii "allocate_buckets"
  | KLease => ascii "add_lease"
  | KWritev => ascii "slot_testv_and_readv_and_writev"
  end.

(** storage_common.py:50-57 [_message_maker] *)
Definition make_message (k : kind) (storage_index : bytes) : bytes :=
  label k ++ x20 :: b64encode storage_index.
