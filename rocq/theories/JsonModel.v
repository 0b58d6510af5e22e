(** JSON texts: _json.py on top of Python's [json].  [loads] follows the scanner of CPython
    (grammar, escapes, surrogate pairs, later values of a repeated key, limit on nesting and on
    digits); [dumps] writes as with the default arguments.

    Python's floats are left abstract; so is the decoding of bytes to text, which is UTF-8, -16
    or -32, whatever [json.detect_encoding] guesses. *)
From Verif Require Import Prelude BytesModel CborModel StreamModel.
From Coq Require Strings.String.
Import Coq.Strings.String.StringSyntax.
Set Implicit Arguments.

Section Json.
Variable F : Type.
Variable float_of : text -> F.       (* [float(s)] *)
Variable float_repr : F -> text.
(** [sys.get_int_max_str_digits()] *)
Variable max_digits : nat.

Inductive json :=
| JNull
| JBool (b : bool)
| JInt (n : Z)
| JFloat (f : F)
| JStr (s : text)
| JArr (l : list json)
| JObj (l : list (text * json)).

Inductive jexn := BadJson | TooDeep.    (* ValueError, RecursionError *)

(** * Writing *)

Definition hexdigit (n : Z) : Z := if n <? 10 then 48 + n else 87 + n.
Definition hex4 (n : Z) : text :=
  [hexdigit (n / 4096 mod 16); hexdigit (n / 256 mod 16); hexdigit (n / 16 mod 16); hexdigit (n mod 16)].
Definition u_escape (n : Z) : text := 92 :: 117 :: hex4 n.

Definition dump_char (c : Z) : text :=
  if c =? 34 then [92; 34]
  else if c =? 92 then [92; 92]
  else if c =? 10 then [92; 110]
  else if c =? 13 then [92; 114]
  else if c =? 9 then [92; 116]
  else if c =? 12 then [92; 102]
  else if c =? 8 then [92; 98]
  else if (32 <=? c) && (c <=? 126) then [c]
  else if c <? 65536 then u_escape c
  else u_escape (55296 + (c - 65536) / 1024) ++ u_escape (56320 + (c - 65536) mod 1024).
Definition dump_string (s : text) : text := 34 :: flat_map dump_char s ++ [34].

Fixpoint joined (l : list text) : text :=
  match l with
  | [] => []
  | [x] => x
  | x :: l' => x ++ 44 :: 32 :: joined l'
  end.

Fixpoint dumps (j : json) : text :=
  match j with
  | JNull => str "null"
  | JBool true => str "true"
  | JBool false => str "false"
  | JInt n => ascii (dec n)
  | JFloat f => float_repr f
  | JStr s => dump_string s
  | JArr l => 91 :: joined (map dumps l) ++ [93]
  | JObj l => 123 :: joined (map (fun kv => dump_string (fst kv) ++ 58 :: 32 :: dumps (snd kv)) l) ++ [125]
  end.

(** _json.py:22-26 [dumps_utf8] *)
Definition dumps_utf8 (j : json) : bytes := map zb (dumps j).

(** * Reading *)

Definition is_ws (c : Z) : bool := (c =? 32) || (c =? 9) || (c =? 10) || (c =? 13).
Fixpoint skip_ws (s : text) : text :=
  match s with
  | c :: s' => if is_ws c then skip_ws s' else s
  | [] => []
  end.

Definition hex_value (c : Z) : option Z :=
  if (48 <=? c) && (c <=? 57) then Some (c - 48)
  else if (97 <=? c) && (c <=? 102) then Some (c - 87)
  else if (65 <=? c) && (c <=? 70) then Some (c - 55)
  else None.
Definition hex4_value (a b c d : Z) : option Z :=
  match hex_value a, hex_value b, hex_value c, hex_value d with
  | Some x, Some y, Some z, Some w => Some (((x * 16 + y) * 16 + z) * 16 + w)
  | _, _, _, _ => None
  end.
Definition is_high (c : Z) : bool := (55296 <=? c) && (c <? 56320).
Definition is_low (c : Z) : bool := (56320 <=? c) && (c <? 57344).
Definition join_surrogates (h l : Z) : Z := 65536 + (h - 55296) * 1024 + (l - 56320).

Definition simple_escape (e : Z) : option Z :=
  if e =? 34 then Some 34 else if e =? 92 then Some 92 else if e =? 47 then Some 47
  else if e =? 98 then Some 8 else if e =? 102 then Some 12 else if e =? 110 then Some 10
  else if e =? 114 then Some 13 else if e =? 116 then Some 9 else None.

Definition push (c : Z) (r : option (text * text)) : option (text * text) :=
  match r with Some (s, rest) => Some (c :: s, rest) | None => None end.

(** The rest of a string after the opening quote. *)
Fixpoint string_body (s : text) : option (text * text) :=
  match s with
  | [] => None
  | c :: s1 =>
      if c =? 34 then Some ([], s1)
      else if c =? 92 then
        match s1 with
        | [] => None
        | e :: s2 =>
            if e =? 117 then
              match s2 with
              | h1 :: h2 :: h3 :: h4 :: s3 =>
                  match hex4_value h1 h2 h3 h4 with
                  | None => None
                  | Some u =>
                      if is_high u then
                        match s3 with
                        | b1 :: u1 :: k1 :: k2 :: k3 :: k4 :: s4 =>
                            match (if (b1 =? 92) && (u1 =? 117) then hex4_value k1 k2 k3 k4 else None) with
                            | Some v => if is_low v then push (join_surrogates u v) (string_body s4)
                                        else push u (string_body s3)
                            | None => push u (string_body s3)
                            end
                        | _ => push u (string_body s3)
                        end
                      else push u (string_body s3)
                  end
              | _ => None
              end
            else match simple_escape e with
                 | Some x => push x (string_body s2)
                 | None => None
                 end
        end
      else if c <? 32 then None
      else push c (string_body s1)
  end.

Definition digit_char (c : Z) : bool := (48 <=? c) && (c <=? 57).
Fixpoint span_digits (s : text) : text * text :=
  match s with
  | c :: s' => if digit_char c then let '(d, r) := span_digits s' in (c :: d, r) else ([], s)
  | [] => ([], [])
  end.
Definition number_value (ds : text) : Z := fold_left (fun acc c => acc * 10 + (c - 48)) ds 0.

Definition fraction (s : text) : text * text :=
  match s with
  | c :: s' => if c =? 46 then match span_digits s' with
                               | ([], _) => ([], s)
                               | (d, r) => (c :: d, r)
                               end
               else ([], s)
  | [] => ([], [])
  end.
Definition exponent (s : text) : text * text :=
  match s with
  | c :: s' =>
      if (c =? 101) || (c =? 69) then
        match s' with
        | g :: s'' =>
            if (g =? 43) || (g =? 45) then
              match span_digits s'' with ([], _) => ([], s) | (d, r) => (c :: g :: d, r) end
            else match span_digits s' with ([], _) => ([], s) | (d, r) => (c :: d, r) end
        | [] => ([], s)
        end
      else ([], s)
  | [] => ([], [])
  end.

Definition whole (s : text) : text * text :=
  match s with
  | c :: s' => if c =? 48 then ([c], s') else span_digits s
  | [] => ([], [])
  end.
Definition number (s : text) : res jexn (json * text) :=
  let '(sign, s1) := match s with c :: s' => if c =? 45 then ([45], s') else ([], s) | [] => ([], s) end in
  match whole s1 with
  | ([], _) => Err BadJson
  | (d, s2) =>
      let '(f, s3) := fraction s2 in
      let '(e, s4) := exponent s3 in
      match f, e with
      | [], [] => if Nat.ltb max_digits (length d) then Err BadJson
                  else Ok (JInt (match sign with [] => number_value d | _ => - number_value d end), s4)
      | _, _ => Ok (JFloat (float_of (sign ++ d ++ f ++ e)), s4)
      end
  end.

Fixpoint strip_prefix (p s : text) : option text :=
  match p, s with
  | [], _ => Some s
  | a :: p', b :: s' => if a =? b then strip_prefix p' s' else None
  | _, [] => None
  end.
Definition constant (p : text) (j : json) (s : text) : res jexn (json * text) :=
  match strip_prefix p s with Some r => Ok (j, r) | None => Err BadJson end.

(** [d[k] = v] *)
Fixpoint jset (k : text) (v : json) (d : list (text * json)) : list (text * json) :=
  match d with
  | [] => [(k, v)]
  | (k', v') :: d' => if text_eqb k k' then (k', v) :: d' else (k', v') :: jset k v d'
  end.
Definition object_of (l : list (text * json)) : list (text * json) :=
  fold_left (fun d kv => jset (fst kv) (snd kv) d) l [].

(** The members of an object and the items of an array, up to the closing bracket; [n]
    bounds their number. *)
Section Loops.
Variable rec : text -> res jexn (json * text).
Fixpoint members (n : nat) (s : text) : res jexn (list (text * json) * text) :=
  match n, s with
  | S n', q :: s1 =>
      if q =? 34 then
        match string_body s1 with
        | None => Err BadJson
        | Some (k, s2) =>
            match skip_ws s2 with
            | o :: s3 =>
                if o =? 58 then
                  vr <- rec (skip_ws s3) ;;
                  match skip_ws (snd vr) with
                  | c :: s4 =>
                      if c =? 44 then more <- members n' (skip_ws s4) ;; Ok ((k, fst vr) :: fst more, snd more)
                      else if c =? 125 then Ok ([(k, fst vr)], s4)
                      else Err BadJson
                  | [] => Err BadJson
                  end
                else Err BadJson
            | [] => Err BadJson
            end
        end
      else Err BadJson
  | _, _ => Err BadJson
  end.
Fixpoint items (n : nat) (s : text) : res jexn (list json * text) :=
  match n with
  | O => Err BadJson
  | S n' =>
      vr <- rec s ;;
      match skip_ws (snd vr) with
      | c :: s4 =>
          if c =? 44 then more <- items n' (skip_ws s4) ;; Ok (fst vr :: fst more, snd more)
          else if c =? 93 then Ok ([fst vr], s4)
          else Err BadJson
      | [] => Err BadJson
      end
  end.
End Loops.

(** The scanner; [depth]: how many more arrays and objects it may enter. *)
Fixpoint value (depth : nat) (s : text) : res jexn (json * text) :=
  match s with
  | [] => Err BadJson
  | c :: s1 =>
      if c =? 34 then match string_body s1 with Some (t, r) => Ok (JStr t, r) | None => Err BadJson end
      else if c =? 123 then
        match depth with
        | O => Err TooDeep
        | S depth' =>
            match skip_ws s1 with
            | [] => Err BadJson
            | c :: s2 =>
                if c =? 125 then Ok (JObj [], s2)
                else r <- members (value depth') (S (length s2)) (c :: s2) ;; Ok (JObj (object_of (fst r)), snd r)
            end
        end
      else if c =? 91 then
        match depth with
        | O => Err TooDeep
        | S depth' =>
            match skip_ws s1 with
            | [] => Err BadJson
            | c :: s2 =>
                if c =? 93 then Ok (JArr [], s2)
                else r <- items (value depth') (S (length s2)) (c :: s2) ;; Ok (JArr (fst r), snd r)
            end
        end
      else if c =? 110 then constant (str "null") JNull s
      else if c =? 116 then constant (str "true") (JBool true) s
      else if c =? 102 then constant (str "false") (JBool false) s
      else if c =? 78 then constant (str "NaN") (JFloat (float_of (str "nan"))) s
      else if c =? 73 then constant (str "Infinity") (JFloat (float_of (str "inf"))) s
      else match strip_prefix (str "-Infinity") s with
           | Some r => Ok (JFloat (float_of (str "-inf")), r)
           | None => number s
           end
  end.

Definition loads_text (depth : nat) (s : text) : res jexn json :=
  r <- value depth (skip_ws s) ;;
  match skip_ws (snd r) with [] => Ok (fst r) | _ => Err BadJson end.

(** _json.py:29-38 [loads]; [decode] is [s.decode(detect_encoding(s), "surrogatepass")]. *)
Variable decode : bytes -> option text.
Definition loads (depth : nat) (b : bytes) : res jexn json :=
  match decode b with
  | Some s => loads_text depth s
  | None => Err BadJson
  end.

(** [k in d], [d[k]] *)
Fixpoint jget (k : text) (d : list (text * json)) : option json :=
  match d with
  | [] => None
  | (k', v) :: d' => if text_eqb k k' then Some v else jget k d'
  end.
End Json.
Arguments JNull {F}. Arguments JBool {F} b. Arguments JInt {F} n. Arguments JStr {F} s.
Arguments JFloat {F} f. Arguments JArr {F} l. Arguments JObj {F} l.
