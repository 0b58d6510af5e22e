(** Vouchers as the program holds them and their JSON and database forms (model.py,
    validators.py), and the times in the database and in the lease maintenance file. *)
From Verif Require Import Prelude BytesModel CborModel StreamModel DateModel JsonModel.
From Coq Require Strings.String.
Import Coq.Strings.String.StringSyntax.
Set Implicit Arguments.

(** What goes wrong: [ValueError] with its subclasses, [KeyError], [AttributeError],
    [AssertionError], [TypeError], [RecursionError].  [Foreign] stands for a value that the
    program accepts although it is not of the annotated type: [token_count] and [details]
    are not validated. *)
Inductive vexn := VValue | VKey | VAttribute | VAssertion | VType | VRecursion | Foreign.

(** ** Texts *)

(** [s.decode("ascii")] *)
Definition decode_ascii (s : bytes) : option text :=
  if forallb (fun b => bz b <? 128) s then Some (ascii s) else None.
(** [s.encode("ascii")] *)
Definition encode_ascii (s : text) : option bytes :=
  if forallb (fun c => (0 <=? c) && (c <? 128)) s then Some (map zb s) else None.

Definition or_err {A} (e : vexn) (o : option A) : res vexn A := match o with Some x => Ok x | None => Err e end.

(** [t.isoformat()] *)
Definition isoformat (t : stamp) : text := ascii (stamp_text x54 t).
(** [parse_datetime(s)], [parse_datetime(s, delimiter=" ")] *)
Definition parse_datetime (sep : byte) (s : text) : res vexn stamp :=
  b <- or_err VValue (encode_ascii s) ;; or_err VValue (parse_stamp sep b).

(** ** Values *)

(** model.py:1063-1208 [Pending], ..., [Error] *)
Inductive vstate :=
| Pending (counter : Z)
| Redeeming (started : stamp) (counter : Z)
| Redeemed (finished : stamp) (token_count : Z)
| DoubleSpend (finished : stamp)
| Unpaid (finished : stamp)
| Error (finished : stamp) (details : text).

(** model.py:1215-1253 [Voucher] *)
Record voucher := Voucher { number : bytes; expected_tokens : Z; created : option stamp; state : vstate }.

(** validators.py:47-64 [aware_datetime_validator] *)
Definition check_aware (t : stamp) : res vexn unit := if aware t then Ok tt else Err VType.
(** validators.py:129-150 [bounded_integer] *)
Definition check_above (min_bound n : Z) : res vexn unit := if min_bound <? n then Ok tt else Err VValue.
(** validators.py:153-171 [base64_bytes].  [is_base64_encoded(urlsafe_b64decode)] there is a
    function, thus true: of the value only the length is checked. *)
Definition check_base64_bytes (length : nat) (s : bytes) : res vexn unit :=
  if Nat.eqb (List.length s) length then Ok tt else Err VValue.

(** The constructors of the states with their validators *)
Definition make_pending (counter : Z) : res vexn vstate :=
  _ <- check_above (-1) counter ;; Ok (Pending counter).
Definition make_redeeming (started : stamp) (counter : Z) : res vexn vstate :=
  _ <- check_aware started ;; _ <- check_above (-1) counter ;; Ok (Redeeming started counter).
Definition make_redeemed (finished : stamp) (token_count : Z) : res vexn vstate :=
  _ <- check_aware finished ;; Ok (Redeemed finished token_count).
Definition make_double_spend (finished : stamp) : res vexn vstate :=
  _ <- check_aware finished ;; Ok (DoubleSpend finished).
Definition make_unpaid (finished : stamp) : res vexn vstate :=
  _ <- check_aware finished ;; Ok (Unpaid finished).
Definition make_error (finished : stamp) (details : text) : res vexn vstate :=
  _ <- check_aware finished ;; Ok (Error finished details).
(** The constructor of a voucher; the state is constructed already. *)
Definition make_voucher (number : bytes) (expected_tokens : Z) (created : option stamp) (state : vstate) : res vexn voucher :=
  _ <- check_base64_bytes 44 number ;;
  _ <- check_above 0 expected_tokens ;;
  _ <- match created with Some t => check_aware t | None => Ok tt end ;;
  Ok (Voucher number expected_tokens created state).

(** ** JSON *)
Section Json.
Variable F : Type.
Variable float_of : text -> F.
Variable float_repr : F -> text.
Variable max_digits : nat.
Variable decode : bytes -> option text.
Notation json := (json F).

(** model.py:1080-1202 [to_json_v1] of the states *)
Definition state_json (s : vstate) : json :=
  match s with
  | Pending counter => JObj [(str "name", JStr (str "pending")); (str "counter", JInt counter)]
  | Redeeming started counter =>
      JObj [(str "name", JStr (str "redeeming")); (str "started", JStr (isoformat started)); (str "counter", JInt counter)]
  | Redeemed finished token_count =>
      JObj [(str "name", JStr (str "redeemed")); (str "finished", JStr (isoformat finished)); (str "token-count", JInt token_count)]
  | DoubleSpend finished => JObj [(str "name", JStr (str "double-spend")); (str "finished", JStr (isoformat finished))]
  | Unpaid finished => JObj [(str "name", JStr (str "unpaid")); (str "finished", JStr (isoformat finished))]
  | Error finished details =>
      JObj [(str "name", JStr (str "error")); (str "finished", JStr (isoformat finished)); (str "details", JStr details)]
  end.

(** model.py:1358-1370 [marshal], [to_json_v1] *)
Definition to_json_v1 (v : voucher) : res vexn json :=
  number <- or_err VValue (decode_ascii (number v)) ;;
  Ok (JObj [(str "number", JStr number);
            (str "expected-tokens", JInt (expected_tokens v));
            (str "created", match created v with None => JNull | Some t => JStr (isoformat t) end);
            (str "state", state_json (state v));
            (str "version", JInt 1)]).

(** model.py:1355-1356 [to_json] *)
Definition to_json (v : voucher) : res vexn bytes :=
  j <- to_json_v1 v ;; Ok (dumps_utf8 float_repr j).

(** [d[k]] *)
Definition field (k : String.string) (d : list (text * json)) : res vexn json := or_err VKey (jget (str k) d).
Arguments field k%string d.
(** An argument the validator accepts if it is an [int]; [True] and [False] are. *)
Definition int_of (e : vexn) (j : json) : res vexn Z :=
  match j with JInt n => Ok n | JBool b => Ok (if b then 1 else 0) | _ => Err e end.
(** [parse_datetime(j)]; other values than texts have no method [count]. *)
Definition time_of (j : json) : res vexn stamp :=
  match j with JStr s => parse_datetime x54 s | _ => Err VType end.
Definition token_count_of (j : json) : res vexn Z := int_of Foreign j.
Definition details_of (j : json) : res vexn text := match j with JStr s => Ok s | _ => Err Foreign end.

Definition is_text (j : json) (s : String.string) : bool :=
  match j with JStr t => text_eqb t (str s) | _ => false end.
Arguments is_text j s%string.

(** model.py:1309-1340 *)
Definition state_of_json (d : list (text * json)) : res vexn vstate :=
  name <- field "name" d ;;
  if is_text name "pending" then
    c <- field "counter" d ;; c <- int_of VValue c ;; make_pending c
  else if is_text name "redeeming" then
    t <- field "started" d ;; t <- time_of t ;; c <- field "counter" d ;; c <- int_of VValue c ;; make_redeeming t c
  else if is_text name "double-spend" then
    t <- field "finished" d ;; t <- time_of t ;; make_double_spend t
  else if is_text name "redeemed" then
    t <- field "finished" d ;; t <- time_of t ;; c <- field "token-count" d ;; c <- token_count_of c ;; make_redeemed t c
  else if is_text name "unpaid" then
    t <- field "finished" d ;; t <- time_of t ;; make_unpaid t
  else if is_text name "error" then
    t <- field "finished" d ;; t <- time_of t ;; m <- field "details" d ;; m <- details_of m ;; make_error t m
  else Err VValue.

(** model.py:1305-1353 [from_json_v1] *)
Definition from_json_v1 (d : list (text * json)) : res vexn voucher :=
  s <- field "state" d ;;
  s <- match s with JObj sd => state_of_json sd | _ => Err VAssertion end ;;
  n <- field "number" d ;;
  n <- match n with JStr t => Ok t | _ => Err VAssertion end ;;
  e <- field "expected-tokens" d ;;
  e <- int_of VAssertion e ;;
  n <- or_err VValue (encode_ascii n) ;;
  c <- field "created" d ;;
  c <- match c with JNull => Ok None | _ => t <- time_of c ;; Ok (Some t) end ;;
  make_voucher n e c s.

(** ["from_json_v{}".format(version)] names a method of the class for the number and for the
    text 1. *)
Definition is_version_1 (j : json) : bool :=
  match j with JInt n => n =? 1 | JStr s => text_eqb s (str "1") | _ => false end.

(** model.py:1295-1303 [from_json]; [depth]: how deep the reader of JSON may go. *)
Definition from_json (depth : nat) (b : bytes) : res vexn voucher :=
  match loads float_of max_digits decode depth b with
  | Err BadJson => Err VValue
  | Err TooDeep => Err VRecursion
  | Ok (JObj d) =>
      version <- field "version" d ;;
      if is_version_1 version then from_json_v1 d else Err VAttribute
  | Ok _ => Err VValue
  end.
End Json.
Arguments field {F} k%string d.
Arguments is_text {F} j s%string.

(** ** The database *)

(** A value in a database: [None], [int], [str], [bytes]. *)
Inductive sqlv := SNull | SInt (n : Z) | STxt (s : text) | SBlob (s : bytes).

(** A time as an argument of a statement: [sqlite3] writes [t.isoformat(" ")]. *)
Definition sql_time (t : stamp) : sqlv := STxt (ascii (stamp_text x20 t)).

Definition text_of (e : vexn) (v : sqlv) : res vexn text := match v with STxt s => Ok s | _ => Err e end.
Definition number_of (e : vexn) (v : sqlv) : res vexn Z := match v with SInt n => Ok n | _ => Err e end.

(** model.py:1257-1276 [state_from_row] *)
Definition state_from_row (state : text) (finished token_count public_key counter : sqlv) : res vexn vstate :=
  if text_eqb state (str "pending") then
    c <- number_of VAssertion counter ;; make_pending c
  else if text_eqb state (str "double-spend") then
    t <- text_of VAssertion finished ;; t <- parse_datetime x20 t ;; make_double_spend t
  else if text_eqb state (str "redeemed") then
    c <- number_of VAssertion token_count ;;
    t <- text_of VType finished ;; t <- parse_datetime x20 t ;; make_redeemed t c
  else Err VValue.

(** model.py:1255-1293 [from_row], the columns in the order of the query of [get] and [list]
    (model.py:400-403) *)
Definition from_row (row : list sqlv) : res vexn voucher :=
  match row with
  | [number; created; expected_tokens; state; finished; token_count; public_key; counter] =>
      n <- text_of VAssertion number ;;
      e <- number_of VAssertion expected_tokens ;;
      c <- text_of VAssertion created ;;
      s <- text_of VAssertion state ;;
      n <- or_err VValue (encode_ascii n) ;;
      c <- parse_datetime x20 c ;;
      s <- state_from_row s finished token_count public_key counter ;;
      make_voucher n e (Some c) s
  | _ => Err VValue
  end.

(** ** Times *)

(** lease_maintenance.py:599-607 [write_time_to_path], the content *)
Definition time_file (t : stamp) : bytes := stamp_text x54 t.
(** lease_maintenance.py:610-629 [read_time_from_path], the file being there *)
Definition read_time_file (content : bytes) : res vexn stamp :=
  s <- or_err VValue (decode_ascii content) ;; parse_datetime x54 s.

(** What SQLite sorts texts by: their bytes in UTF-8, which for ASCII are the characters. *)
Fixpoint text_compare (a b : text) : comparison :=
  match a, b with
  | [], [] => Eq
  | [], _ => Lt
  | _, [] => Gt
  | x :: a', y :: b' => match x ?= y with Eq => text_compare a' b' | c => c end
  end.
