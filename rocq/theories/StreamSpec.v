(** Specification vocabulary for the serialised replica (C44, C45, C74, C75). *)
From Verif Require Import Prelude BytesModel CborModel StreamModel.
From Coq Require Import Sorting.Sorted.
From Coq Require Strings.String.
Import Coq.Strings.String.StringSyntax.
Set Implicit Arguments.

(** A date and time of the Gregorian calendar, in the years Python has. *)
Definition leap_year (y : Z) : Prop := (4 | y) /\ (~ (100 | y) \/ (400 | y)).
Definition month_has (y m n : Z) : Prop :=
  nth_error [31; 28; 31; 30; 31; 30; 31; 31; 30; 31; 30; 31] (Z.to_nat (m - 1)) = Some n /\ ~ (m = 2 /\ leap_year y) \/
  m = 2 /\ leap_year y /\ n = 29.
Definition calendar_date (d : date) : Prop :=
  1 <= d_year d <= 9999 /\ 1 <= d_month d /\ (exists n, month_has (d_year d) (d_month d) n /\ 1 <= d_day d <= n) /\
  0 <= d_hour d < 24 /\ 0 <= d_minute d < 60 /\ 0 <= d_second d < 60 /\ 0 <= d_micro d < 1000000.

(** What a map has under a key: of equal keys the last one counts. *)
Definition under (kvs : list (cval * cval)) (k : text) (v : cval) : Prop :=
  exists l1 l2, kvs = l1 ++ (CText k, v) :: l2 /\ forall v', ~ In (CText k, v') l2.

(** A value Python can hold as an SQL value: no list or dict; real dates; floats
    of 64 bits with one NaN. *)
Definition sql_value (v : cval) : Prop :=
  match v with
  | CArr _ | CMap _ => False
  | CFloat n => 0 <= n < 2 ^ 64 /\ (2047 * 2 ^ 52 < n mod 2 ^ 63 -> n = 2047 * 2 ^ 52 + 2 ^ 51)
  | CDate d => calendar_date d
  | _ => True
  end.

(** A change as the node makes them: an integer, a text, SQL values, and a flag
    (a boolean or, read back from SQLite, 0 or 1). *)
Definition real_change (c : change) : Prop :=
  (exists n, sequence c = CInt n) /\
  (exists s, statement c = CText s) /\
  (exists l, arguments c = CArr l /\ Forall sql_value l) /\
  (exists b, important c = CBool b \/ important c = CInt (Z.b2z b)).

(** Text and bytes whose encoded length fits in 64 bits; the text is valid
    Unicode. *)
Definition writable_text (s : text) : Prop := (forall c, In c s -> 0 <= c < 55296 \/ 57344 <= c < 1114112) /\ 4 * lenN s < 2 ^ 64.
Definition writable_value (v : cval) : Prop :=
  match v with
  | CText s => writable_text s
  | CBytes s => lenN s < 2 ^ 64
  | CInt n => Z.log2 (Z.abs n) < 2 ^ 64
  | _ => True
  end.
Definition writable_change (c : change) : Prop :=
  match sequence c, statement c, arguments c with
  | CInt n, CText s, CArr l => Z.log2 (Z.abs n) < 2 ^ 64 /\ writable_text s /\ lenN l < 2 ^ 64 /\ Forall writable_value l
  | _, _, _ => False
  end.

Definition numbered (c : change) (n : Z) : Prop := sequence c = CInt n.
(** [n] is the largest number in the stream. *)
Definition largest (s : list change) (n : Z) : Prop :=
  (exists c, In c s /\ numbered c n) /\ (forall c m, In c s -> numbered c m -> m <= n).

(** The name begins with "event-stream-". *)
Definition stream_like (name : text) : Prop := exists rest, name = str "event-stream-" ++ rest.

(** The directory holds exactly these streams, each under its name and with its
    number, next to any other entries: files whose name is not like that of a
    stream, and directories. *)
Inductive holds : list (text * entry) -> list (Z * list change) -> Prop :=
| holds_nil : holds [] []
| holds_stream n s size data entries streams :
    Forall real_change s -> largest s n -> to_bytes s = Ok data ->
    holds entries streams ->
    holds ((str "event-stream-" ++ ascii (dec n), File size data) :: entries) ((n, s) :: streams)
| holds_other name e entries streams :
    ~ stream_like name \/ e = Dir ->
    holds entries streams -> holds ((name, e) :: entries) streams.

(** Statements that only begin or end a transaction. *)
Definition control (s : text) : bool :=
  text_eqb s (str "BEGIN TRANSACTION;") || text_eqb s (str "COMMIT;").
Definition control_change (c : change) : bool :=
  match statement c with CText s => control s | _ => false end.
