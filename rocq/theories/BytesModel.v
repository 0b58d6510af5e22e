(** Byte strings: [bytes] is [list byte].  Big-endian integers as written and
    read by Python's [struct] (formats L and Q), decimal text as written by
    "{}".format and read by [int], base64, and the operations on byte strings
    the code uses.  Standard-library behaviour, no function of /repo. *)
From Verif Require Import Prelude.
From Coq Require Export Strings.Byte.
Set Implicit Arguments.

Definition bytes := list byte.

(** The value of a byte, and the byte of a value (taken modulo 256). *)
Definition bz (b : byte) : Z := Z.of_N (Byte.to_N b).
Definition zb (z : Z) : byte :=
  match Byte.of_N (Z.to_N (z mod 256)) with Some b => b | None => x00 end.

Fixpoint bytes_eqb (a b : bytes) : bool :=
  match a, b with
  | [], [] => true
  | x :: a', y :: b' => Byte.eqb x y && bytes_eqb a' b'
  | _, _ => false
  end.

(** [struct.pack(">L", n)] is [be 4 n], [struct.pack(">Q", n)] is [be 8 n]. *)
Fixpoint be (width : nat) (n : Z) : bytes :=
  match width with
  | O => []
  | S w => be w (n / 256) ++ [zb n]
  end.

(** [struct.unpack]: the number a byte string stands for, big-endian. *)
Definition unbe (s : bytes) : Z := fold_left (fun acc b => acc * 256 + bz b) s 0.

(** [s.split(sep)] for a one-byte separator. *)
Fixpoint split_on (sep : byte) (s : bytes) : list bytes :=
  match s with
  | [] => [[]]
  | c :: s' =>
      if Byte.eqb c sep then [] :: split_on sep s'
      else match split_on sep s' with
           | w :: ws => (c :: w) :: ws
           | [] => [[c]]
           end
  end.

(** ** Decimal text *)

Definition digit (n : Z) : byte := zb (48 + n).
Definition is_digit (b : byte) : bool := (48 <=? bz b) && (bz b <=? 57).

Fixpoint dec_loop (fuel : nat) (n : Z) (acc : bytes) : bytes :=
  match fuel with
  | O => acc
  | S f => if n <? 10 then digit n :: acc else dec_loop f (n / 10) (digit (n mod 10) :: acc)
  end.
(** ["{}".format(n)] for an integer. *)
Definition dec (n : Z) : bytes :=
  if n <? 0 then x2d :: dec_loop (S (Z.to_nat (Z.log2 (- n)))) (- n) []
  else dec_loop (S (Z.to_nat (Z.log2 n))) n [].

(** Characters [int] strips at both ends (ASCII ones: tab, newline, vertical
    tab, form feed, carriage return, the separators 28-31, space). *)
Definition is_space (b : byte) : bool :=
  ((9 <=? bz b) && (bz b <=? 13)) || ((28 <=? bz b) && (bz b <=? 32)).
Fixpoint lstrip (s : bytes) : bytes :=
  match s with
  | c :: s' => if is_space c then lstrip s' else s
  | [] => []
  end.
Definition strip (s : bytes) : bytes := rev (lstrip (rev (lstrip s))).

(** Digits with single underscores between them, at least one digit.
    [after_digit]: an underscore or the end may come now. *)
Fixpoint int_digits (after_digit : bool) (acc : Z) (s : bytes) : option Z :=
  match s with
  | [] => if after_digit then Some acc else None
  | c :: s' =>
      if is_digit c then int_digits true (acc * 10 + (bz c - 48)) s'
      else if Byte.eqb c x5f && after_digit then int_digits false acc s'
      else None
  end.

(** [int(s)] for ASCII text; [None] is ValueError. *)
Definition py_int (s : bytes) : option Z :=
  match strip s with
  | [] => None
  | c :: s' =>
      if Byte.eqb c x2d then option_map Z.opp (int_digits false 0 s')
      else if Byte.eqb c x2b then int_digits false 0 s'
      else int_digits false 0 (c :: s')
  end.

(** ** Base64 (RFC 4648, standard alphabet), [base64.b64encode] *)
Definition b64char (n : Z) : byte :=
  if n <? 26 then zb (65 + n)
  else if n <? 52 then zb (97 + (n - 26))
  else if n <? 62 then zb (48 + (n - 52))
  else if n =? 62 then x2b else x2f.

Fixpoint b64encode (s : bytes) : bytes :=
  match s with
  | [] => []
  | [a] => [b64char (bz a / 4); b64char (bz a mod 4 * 16); x3d; x3d]
  | [a; b] =>
      [b64char (bz a / 4); b64char (bz a mod 4 * 16 + bz b / 16);
       b64char (bz b mod 16 * 4); x3d]
  | a :: b :: c :: s' =>
      b64char (bz a / 4) :: b64char (bz a mod 4 * 16 + bz b / 16)
      :: b64char (bz b mod 16 * 4 + bz c / 64) :: b64char (bz c mod 64)
      :: b64encode s'
  end.
