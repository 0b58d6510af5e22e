(** What is a JSON text, and what does it say: the grammar of RFC 8259, with what Python adds to it (NaN, Infinity and
    -Infinity; strings may hold lone surrogates; of equal names in an object the last counts; integers have
    at most so many digits).  [json_text n s j]: the text [s], in which arrays and objects are nested at most [n] deep,
    says [j]. *)
From Verif Require Import Prelude BytesModel CborModel StreamModel JsonModel.
From Coq Require Strings.String.
Import Coq.Strings.String.StringSyntax.
Set Implicit Arguments.

Definition blank (s : text) : Prop := forall c, In c s -> c = 32 \/ c = 9 \/ c = 10 \/ c = 13.

(** ** Strings *)

Definition hex_digits : list (Z * Z) :=
  [(48, 0); (49, 1); (50, 2); (51, 3); (52, 4); (53, 5); (54, 6); (55, 7); (56, 8); (57, 9);
   (97, 10); (98, 11); (99, 12); (100, 13); (101, 14); (102, 15); (65, 10); (66, 11); (67, 12); (68, 13); (69, 14); (70, 15)].
(** Backslash, u, and four digits *)
Definition unit_escape (s : text) (u : Z) : Prop :=
  exists a b c d x y z w, s = [92; 117; a; b; c; d] /\
    In (a, x) hex_digits /\ In (b, y) hex_digits /\ In (c, z) hex_digits /\ In (d, w) hex_digits /\
    u = x * 4096 + y * 256 + z * 16 + w.
(** Backslash and one character *)
Definition short_escapes : list (Z * Z) := [(34, 34); (92, 92); (47, 47); (98, 8); (102, 12); (110, 10); (114, 13); (116, 9)].
Definition high_surrogate (u : Z) : Prop := 55296 <= u <= 56319.
Definition low_surrogate (u : Z) : Prop := 56320 <= u <= 57343.

(** What is between the quotes, and the string *)
Inductive string_text : text -> text -> Prop :=
| st_end : string_text [] []
| st_plain c s t : 32 <= c -> c <> 34 -> c <> 92 -> string_text s t -> string_text (c :: s) (c :: t)
| st_short e x s t : In (e, x) short_escapes -> string_text s t -> string_text (92 :: e :: s) (x :: t)
| st_unit e u s t : unit_escape e u ->
    (high_surrogate u -> forall e2 v s2, unit_escape e2 v -> low_surrogate v -> s <> e2 ++ s2) ->
    string_text s t -> string_text (e ++ s) (u :: t)
| st_pair e u e2 v s t : unit_escape e u -> high_surrogate u -> unit_escape e2 v -> low_surrogate v ->
    string_text s t -> string_text (e ++ e2 ++ s) (65536 + (u - 55296) * 1024 + (v - 56320) :: t).

(** ** Numbers *)

Definition all_digits (s : text) : Prop := forall c, In c s -> 48 <= c <= 57.
(** 0, or digits of which the first is not 0 *)
Definition whole_text (s : text) : Prop :=
  s = [48] \/ exists c s', s = c :: s' /\ 49 <= c <= 57 /\ all_digits s'.
Inductive decimal : text -> Z -> Prop :=
| decimal_none : decimal [] 0
| decimal_digit s n c : decimal s n -> decimal (s ++ [c]) (10 * n + (c - 48)).
Definition fraction_text (s : text) : Prop :=
  s = [] \/ exists d, s = 46 :: d /\ d <> [] /\ all_digits d.
Definition exponent_text (s : text) : Prop :=
  s = [] \/ exists e g d, s = e :: g ++ d /\ (e = 101 \/ e = 69) /\ (g = [] \/ g = [43] \/ g = [45]) /\ d <> [] /\ all_digits d.

(** ** Objects *)

(** Names stay where they first were and have the last of their values. *)
Inductive object_from (V : Type) : list (text * V) -> list (text * V) -> Prop :=
| of_none : object_from [] []
| of_new l d k v : object_from l d -> ~ In k (map fst d) -> object_from (l ++ [(k, v)]) (d ++ [(k, v)])
| of_again l d1 d2 k v v0 : object_from l (d1 ++ (k, v0) :: d2) -> object_from (l ++ [(k, v)]) (d1 ++ (k, v) :: d2).

Section Grammar.
Variable F : Type.
Variable float_of : text -> F.
Variable max_digits : nat.

Inductive json_text : nat -> text -> json F -> Prop :=
| jt_null n : json_text n (str "null") JNull
| jt_true n : json_text n (str "true") (JBool true)
| jt_false n : json_text n (str "false") (JBool false)
| jt_nan n : json_text n (str "NaN") (JFloat (float_of (str "nan")))
| jt_infinity n : json_text n (str "Infinity") (JFloat (float_of (str "inf")))
| jt_minus_infinity n : json_text n (str "-Infinity") (JFloat (float_of (str "-inf")))
| jt_int n w z : whole_text w -> decimal w z -> (length w <= max_digits)%nat -> json_text n w (JInt z)
| jt_minus n w z : whole_text w -> decimal w z -> (length w <= max_digits)%nat -> json_text n (45 :: w) (JInt (- z))
| jt_float n g w f e : g = [] \/ g = [45] -> whole_text w -> fraction_text f -> exponent_text e -> f <> [] \/ e <> [] ->
    json_text n (g ++ w ++ f ++ e) (JFloat (float_of (g ++ w ++ f ++ e)))
| jt_string n s t : string_text s t -> json_text n (34 :: s ++ [34]) (JStr t)
| jt_no_items n b : blank b -> json_text (S n) (91 :: b ++ [93]) (JArr [])
| jt_items n s l : items_text n s l -> json_text (S n) (91 :: s ++ [93]) (JArr l)
| jt_no_members n b : blank b -> json_text (S n) (123 :: b ++ [125]) (JObj [])
| jt_members n s l d : members_text n s l -> object_from l d -> json_text (S n) (123 :: s ++ [125]) (JObj d)
with items_text : nat -> text -> list (json F) -> Prop :=
| it_last n a s b j : blank a -> json_text n s j -> blank b -> items_text n (a ++ s ++ b) [j]
| it_more n a s b j rest l : blank a -> json_text n s j -> blank b -> items_text n rest l ->
    items_text n (a ++ s ++ b ++ 44 :: rest) (j :: l)
with members_text : nat -> text -> list (text * json F) -> Prop :=
| mt_last n a ks k b c s e j : blank a -> string_text ks k -> blank b -> blank c -> json_text n s j -> blank e ->
    members_text n (a ++ 34 :: ks ++ 34 :: b ++ 58 :: c ++ s ++ e) [(k, j)]
| mt_more n a ks k b c s e j rest l : blank a -> string_text ks k -> blank b -> blank c -> json_text n s j -> blank e ->
    members_text n rest l ->
    members_text n (a ++ 34 :: ks ++ 34 :: b ++ 58 :: c ++ s ++ e ++ 44 :: rest) ((k, j) :: l).

(** A whole document *)
Definition json_document (n : nat) (s : text) (j : json F) : Prop :=
  exists a t b, s = a ++ t ++ b /\ blank a /\ blank b /\ json_text n t j.
(** A document in a message *)
Definition json_body (decode : bytes -> option text) (n : nat) (b : bytes) (j : json F) : Prop :=
  exists s, decode b = Some s /\ json_document n s j.
End Grammar.

(** How many arrays and objects a text can open at most *)
Definition brackets (s : text) : nat := length (filter (fun c => (c =? 91) || (c =? 123)) s).

(** ** UTF-8 *)

(** The bytes of one character: as few as it needs, and none for surrogates *)
Inductive utf8_char_text : Z -> list Z -> Prop :=
| ut_one c : 0 <= c < 128 -> utf8_char_text c [c]
| ut_two x y : 0 <= y < 64 -> 128 <= 64 * x + y < 2048 -> utf8_char_text (64 * x + y) [192 + x; 128 + y]
| ut_three x y z : 0 <= y < 64 -> 0 <= z < 64 -> let c := 4096 * x + 64 * y + z in
    2048 <= c < 65536 -> ~ 55296 <= c <= 57343 -> utf8_char_text c [224 + x; 128 + y; 128 + z]
| ut_four x y z w : 0 <= y < 64 -> 0 <= z < 64 -> 0 <= w < 64 -> let c := 262144 * x + 4096 * y + 64 * z + w in
    65536 <= c < 1114112 -> utf8_char_text c [240 + x; 128 + y; 128 + z; 128 + w].
Inductive utf8_text : bytes -> text -> Prop :=
| ut_none : utf8_text [] []
| ut_char u c b s : utf8_char_text c (map bz u) -> utf8_text b s -> utf8_text (u ++ b) (c :: s).
