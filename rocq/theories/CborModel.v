(** Python text, UTF-8 and the CBOR encoding (RFC 8949) as cbor2 5.x writes it.
    Library behaviour, no function of /repo: [cbor2.dumps] and [cbor2.load] are
    called at replicate.py:232, 255, 563, 696, 721 and recover.py:201.

    Simplifications: a dict whose keys are equal in Python without being the same
    value (1 and True) keeps both pairs; the decoder only reads what the encoder
    writes (definite lengths; of the half-width floats only the infinities and
    NaN; dates only in UTC), anything else is a decoding error. *)
From Verif Require Import Prelude BytesModel.
Set Implicit Arguments.

(** [str]: the code points.  Surrogates are possible, and are refused by the
    encoder as [str.encode] does. *)
Definition text := list Z.

(** The text of an ASCII byte string. *)
Definition ascii (s : bytes) : text := map bz s.

Fixpoint text_eqb (a b : text) : bool :=
  match a, b with
  | [], [] => true
  | x :: a', y :: b' => (x =? y) && text_eqb a' b'
  | _, _ => false
  end.

(** [s.startswith(p)] *)
Fixpoint startswith (p s : text) : bool :=
  match p, s with
  | [], _ => true
  | x :: p', y :: s' => (x =? y) && startswith p' s'
  | _, _ => false
  end.

(** ** UTF-8 *)

(** A Unicode scalar value: a code point that is no surrogate. *)
Definition is_scalar (c : Z) : bool :=
  ((0 <=? c) && (c <? 55296)) || ((57344 <=? c) && (c <? 1114112)).

Definition utf8_char (c : Z) : bytes :=
  if c <? 128 then [zb c]
  else if c <? 2048 then [zb (192 + c / 64); zb (128 + c mod 64)]
  else if c <? 65536 then
    [zb (224 + c / 4096); zb (128 + c / 64 mod 64); zb (128 + c mod 64)]
  else
    [zb (240 + c / 262144); zb (128 + c / 4096 mod 64); zb (128 + c / 64 mod 64);
     zb (128 + c mod 64)].

(** [s.encode("utf-8")]; [None] is UnicodeEncodeError. *)
Fixpoint utf8_encode (s : text) : option bytes :=
  match s with
  | [] => Some []
  | c :: s' =>
      if is_scalar c then option_map (app (utf8_char c)) (utf8_encode s') else None
  end.

Definition is_cont (b : byte) : bool := (128 <=? bz b) && (bz b <? 192).
Definition cont (b : byte) : Z := bz b - 128.

(** [s.decode("utf-8")]; [None] is UnicodeDecodeError. *)
Fixpoint utf8_decode (s : bytes) : option text :=
  match s with
  | [] => Some []
  | a :: s1 =>
      if bz a <? 128 then option_map (cons (bz a)) (utf8_decode s1)
      else if (194 <=? bz a) && (bz a <? 224) then
        match s1 with
        | b :: s2 =>
            if is_cont b then
              option_map (cons ((bz a - 192) * 64 + cont b)) (utf8_decode s2)
            else None
        | _ => None
        end
      else if (224 <=? bz a) && (bz a <? 240) then
        match s1 with
        | b :: c :: s3 =>
            let u := (bz a - 224) * 4096 + cont b * 64 + cont c in
            if is_cont b && is_cont c && (2048 <=? u) && is_scalar u then
              option_map (cons u) (utf8_decode s3)
            else None
        | _ => None
        end
      else if (240 <=? bz a) && (bz a <? 245) then
        match s1 with
        | b :: c :: d :: s4 =>
            let u := (bz a - 240) * 262144 + cont b * 4096 + cont c * 64 + cont d in
            if is_cont b && is_cont c && is_cont d && (65536 <=? u) && is_scalar u then
              option_map (cons u) (utf8_decode s4)
            else None
        | _ => None
        end
      else None
  end.

(** ** Dates *)

(** An aware [datetime] in UTC; the wallet's clock gives no others
    (model.py:86-90). *)
Record date := Date {
  d_year : Z; d_month : Z; d_day : Z; d_hour : Z; d_minute : Z; d_second : Z; d_micro : Z }.

Definition is_leap (y : Z) : bool :=
  (y mod 4 =? 0) && (negb (y mod 100 =? 0) || (y mod 400 =? 0)).
Definition days_in_month (y m : Z) : Z :=
  if m =? 2 then (if is_leap y then 29 else 28)
  else if memZ m [4; 6; 9; 11] then 30 else 31.

(** What the constructor of [datetime] accepts. *)
Definition date_ok (d : date) : bool :=
  (1 <=? d_year d) && (d_year d <=? 9999) && (1 <=? d_month d) && (d_month d <=? 12) &&
  (1 <=? d_day d) && (d_day d <=? days_in_month (d_year d) (d_month d)) &&
  (0 <=? d_hour d) && (d_hour d <? 24) && (0 <=? d_minute d) && (d_minute d <? 60) &&
  (0 <=? d_second d) && (d_second d <? 60) && (0 <=? d_micro d) && (d_micro d <? 1000000).

(** [w] decimal digits of [n]. *)
Fixpoint digits (w : nat) (n : Z) : bytes :=
  match w with
  | O => []
  | S w' => digits w' (n / 10) ++ [digit (n mod 10)]
  end.

(** [value.isoformat().replace("+00:00", "Z")] *)
Definition isoformat (d : date) : bytes :=
  digits 4 (d_year d) ++ [x2d] ++ digits 2 (d_month d) ++ [x2d] ++ digits 2 (d_day d) ++
  [x54] ++ digits 2 (d_hour d) ++ [x3a] ++ digits 2 (d_minute d) ++ [x3a] ++
  digits 2 (d_second d) ++
  (if d_micro d =? 0 then [] else x2e :: digits 6 (d_micro d)) ++ [x5a].

(** Reading [w] digits, or one given character. *)
Definition take_digits (w : nat) (s : bytes) : option (Z * bytes) :=
  let d := firstn w s in
  if (Nat.eqb (length d) w) && forallb is_digit d then
    option_map (fun n => (n, skipn w s)) (int_digits false 0 d)
  else None.
Definition take_char (c : byte) (s : bytes) : option bytes :=
  match s with
  | x :: s' => if Byte.eqb x c then Some s' else None
  | [] => None
  end.
Notation "'let?' p := r 'in' k" := (match r with Some p => k | None => None end)
  (at level 200, p pattern, r at level 100, k at level 200).

Definition parse_date (s : bytes) : option date :=
  let? (y, s) := take_digits 4 s in let? s := take_char x2d s in
  let? (mo, s) := take_digits 2 s in let? s := take_char x2d s in
  let? (da, s) := take_digits 2 s in let? s := take_char x54 s in
  let? (h, s) := take_digits 2 s in let? s := take_char x3a s in
  let? (mi, s) := take_digits 2 s in let? s := take_char x3a s in
  let? (se, s) := take_digits 2 s in
  let? (us, s) :=
    match take_char x2e s with
    | Some s' => take_digits 6 s'
    | None => Some (0, s)
    end in
  let? s := take_char x5a s in
  match s with
  | [] => let d := Date y mo da h mi se us in if date_ok d then Some d else None
  | _ => None
  end.

(** ** CBOR values *)

(** What can be encoded; tuples and lists are both arrays.  A float is its
    64-bit IEEE pattern. *)
Inductive cval :=
| CInt (n : Z)
| CBytes (s : bytes)
| CText (s : text)
| CArr (l : list cval)
| CMap (l : list (cval * cval))
| CBool (b : bool)
| CNull
| CFloat (bits : Z)
| CDate (d : date).

Definition two64 : Z := 2 ^ 64.

(** The head of an item: major type and argument. *)
Definition head (major n : Z) : option bytes :=
  if n <? 24 then Some [zb (major * 32 + n)]
  else if n <? 256 then Some (zb (major * 32 + 24) :: be 1 n)
  else if n <? 65536 then Some (zb (major * 32 + 25) :: be 2 n)
  else if n <? 4294967296 then Some (zb (major * 32 + 26) :: be 4 n)
  else if n <? two64 then Some (zb (major * 32 + 27) :: be 8 n)
  else None.

Definition oapp (a b : option bytes) : option bytes :=
  match a, b with Some x, Some y => Some (x ++ y) | _, _ => None end.

(** [n.to_bytes((n.bit_length() + 7) // 8, "big")] for a positive [n] *)
Definition int_bytes (n : Z) : bytes := be (Z.to_nat ((Z.log2 n + 8) / 8)) n.

Definition inf_bits : Z := 9218868437227405312.           (* 0x7ff0000000000000 *)
Definition neg_inf_bits : Z := 18442240474082181120.      (* 0xfff0000000000000 *)
Definition nan_bits : Z := 9221120237041090560.           (* 0x7ff8000000000000 *)
Definition is_nan (bits : Z) : bool := inf_bits <? bits mod 9223372036854775808.

Definition lenN {A} (l : list A) : Z := Z.of_nat (length l).

(** [cbor2.dumps]; [None] stands for its exceptions: surrogates in text, and
    lengths that do not fit in 64 bits. *)
Fixpoint encode (v : cval) : option bytes :=
  match v with
  | CInt n =>
      if (0 <=? n) && (n <? two64) then head 0 n
      else if (n <? 0) && (- two64 <=? n) then head 1 (- n - 1)
      else if 0 <=? n then
        oapp (Some [xc2]) (oapp (head 2 (lenN (int_bytes n))) (Some (int_bytes n)))
      else
        oapp (Some [xc3])
          (oapp (head 2 (lenN (int_bytes (- n - 1)))) (Some (int_bytes (- n - 1))))
  | CBytes s => oapp (head 2 (lenN s)) (Some s)
  | CText s =>
      match utf8_encode s with
      | Some u => oapp (head 3 (lenN u)) (Some u)
      | None => None
      end
  | CArr l =>
      oapp (head 4 (lenN l))
        ((fix all (l : list cval) : option bytes :=
            match l with [] => Some [] | x :: l' => oapp (encode x) (all l') end) l)
  | CMap l =>
      oapp (head 5 (lenN l))
        ((fix all (l : list (cval * cval)) : option bytes :=
            match l with
            | [] => Some []
            | (k, x) :: l' => oapp (encode k) (oapp (encode x) (all l'))
            end) l)
  | CBool b => Some [if b then xf5 else xf4]
  | CNull => Some [xf6]
  | CFloat bits =>
      if is_nan bits then Some [xf9; x7e; x00]
      else if bits =? inf_bits then Some [xf9; x7c; x00]
      else if bits =? neg_inf_bits then Some [xf9; xfc; x00]
      else Some (xfb :: be 8 bits)
  | CDate d => oapp (Some [xc0]) (oapp (head 3 (lenN (isoformat d))) (Some (isoformat d)))
  end.

(** ** Decoding *)

(** Exactly [n] bytes. *)
Definition take_bytes (n : Z) (s : bytes) : option (bytes * bytes) :=
  if n <=? lenN s then Some (firstn (Z.to_nat n) s, skipn (Z.to_nat n) s) else None.

(** First byte, argument, and the rest. *)
Definition read_head (s : bytes) : option (Z * Z * bytes) :=
  match s with
  | [] => None
  | b :: s' =>
      let info := bz b mod 32 in
      let more (w : Z) := let? (a, s'') := take_bytes w s' in Some (bz b, unbe a, s'') in
      if info <? 24 then Some (bz b, info, s')
      else if info =? 24 then more 1
      else if info =? 25 then more 2
      else if info =? 26 then more 4
      else if info =? 27 then more 8
      else None
  end.

Fixpoint pairs (l : list cval) : option (list (cval * cval)) :=
  match l with
  | [] => Some []
  | k :: x :: l' => option_map (cons (k, x)) (pairs l')
  | _ => None
  end.

(** One item, and [n] items.  The fuel bounds the nesting and the number of
    items; [load] below gives enough. *)
Fixpoint decode (fuel : nat) (s : bytes) : option (cval * bytes) :=
  match fuel with
  | O => None
  | S f =>
      let? (first, n, s') := read_head s in
      let major := first / 32 in
      if major =? 0 then Some (CInt n, s')
      else if major =? 1 then Some (CInt (- n - 1), s')
      else if major =? 2 then
        let? (a, s'') := take_bytes n s' in Some (CBytes a, s'')
      else if major =? 3 then
        let? (a, s'') := take_bytes n s' in
        let? t := utf8_decode a in Some (CText t, s'')
      else if major =? 4 then
        let? (l, s'') := decode_items f n s' in Some (CArr l, s'')
      else if major =? 5 then
        let? (l, s'') := decode_items f (2 * n) s' in
        let? kvs := pairs l in Some (CMap kvs, s'')
      else if major =? 6 then
        let? (x, s'') := decode f s' in
        match x with
        | CBytes a =>
            if n =? 2 then Some (CInt (unbe a), s'')
            else if n =? 3 then Some (CInt (- unbe a - 1), s'') else None
        | CText t =>
            if n =? 0 then
              let? u := utf8_encode t in
              let? d := parse_date u in Some (CDate d, s'')
            else None
        | _ => None
        end
      else if first =? 244 then Some (CBool false, s')
      else if first =? 245 then Some (CBool true, s')
      else if first =? 246 then Some (CNull, s')
      else if first =? 249 then
        if n =? 32256 then Some (CFloat nan_bits, s')
        else if n =? 31744 then Some (CFloat inf_bits, s')
        else if n =? 64512 then Some (CFloat neg_inf_bits, s') else None
      else if first =? 251 then Some (CFloat n, s')
      else None
  end
with decode_items (fuel : nat) (n : Z) (s : bytes) : option (list cval * bytes) :=
  match fuel with
  | O => None
  | S f =>
      if n <=? 0 then Some ([], s)
      else
        let? (x, s') := decode f s in
        let? (l, s'') := decode_items f (n - 1) s' in Some (x :: l, s'')
  end.

(** [cbor2.load]: the first item; what follows it is left unread. *)
Definition load (s : bytes) : option cval :=
  option_map fst (decode (2 + 2 * length s) s).

(** [d.get(k)] on what was decoded: of equal keys the last one counts. *)
Fixpoint map_get (k : text) (l : list (cval * cval)) : option cval :=
  match l with
  | [] => None
  | (CText k', x) :: l' =>
      match map_get k l' with
      | Some y => Some y
      | None => if text_eqb k k' then Some x else None
      end
  | _ :: l' => map_get k l'
  end.
