(** What is said about databases of older versions and their upgrade. *)
From Verif Require Import Prelude BytesModel CborModel StreamModel DateModel VoucherModel VoucherSpec SchemaModel.
From Coq Require Strings.String.
Import Coq.Strings.String.StringSyntax.
Set Implicit Arguments.

(** The tables, with the version that brought them, and their columns, likewise. *)
Definition history : list (string * Z * list (Z * column)) :=
  [("version"%string, 0, [(0, plain "version")]);
   ("vouchers"%string, 1,
    [(1, plain "number"); (1, plain "created"); (1, Column "state" false (STxt (str "pending")));
     (1, plain "finished"); (1, plain "token-count"); (2, plain "public-key");
     (3, Column "counter" false (SInt 0)); (4, Column "expected-tokens" true (SInt 32768));
     (6, Column "sequestered-count" true (SInt 0))]);
   ("tokens"%string, 1, [(1, plain "text"); (1, plain "voucher"); (4, Column "counter" true (SInt 0))]);
   ("unblinded-tokens"%string, 1, [(1, plain "token"); (6, Column "redemption-group" false (SInt 1))]);
   ("lease-maintenance-spending"%string, 1, [(1, plain "id"); (1, plain "started"); (1, plain "finished"); (1, plain "count")]);
   ("invalid-unblinded-tokens"%string, 5, [(5, plain "token"); (5, plain "reason")]);
   ("redemption-groups"%string, 6, [(6, plain "rowid"); (6, plain "voucher"); (6, plain "spendable"); (6, plain "public-key")]);
   ("event-stream"%string, 7,
    [(7, plain "sequence-number"); (7, plain "statement"); (7, plain "important");
     (9, Column "serialized_arguments" false (SBlob [x80]))])].

Definition schema (v : Z) : list (string * list column) :=
  map (fun e => (fst (fst e), map snd (filter (fun c => fst c <=? v) (snd e))))
      (filter (fun e => snd (fst e) <=? v) history).
Fixpoint columns_in (name : string) (s : list (string * list column)) : option (list column) :=
  match s with
  | [] => None
  | (n, cols) :: s' => if String.eqb name n then Some cols else columns_in name s'
  end.

(** Every row has as many values as there are columns. *)
Definition filled (t : table) : Prop := forall row, In row (t_rows t) -> length row = length (t_cols t).

(** A database of a version: exactly the tables and columns of the version, any rows, and the
    version on record. *)
Definition of_version (v : Z) (d : database) : Prop :=
  (forall name, option_map t_cols (lookup name d) = columns_in name (schema v)) /\
  (forall name t, lookup name d = Some t -> filled t) /\
  exists t, lookup "version" d = Some t /\ t_rows t = [[SInt v]].

(** The rows of a table are all there, in order: old columns hold what they held (converted
    by [conv]), new columns their default. *)
Definition carried (conv : string -> sqlv -> sqlv) (t t' : table) : Prop :=
  Forall2 (fun r r' =>
      (forall c v, cell t r c = Some v -> cell t' r' c = Some (conv c v)) /\
      (forall col, In col (t_cols t') -> ~ In (c_name col) (names t) -> cell t' r' (c_name col) = Some (c_default col)))
    (t_rows t) (t_rows t').
Definition as_is (c : string) (v : sqlv) : sqlv := v.

Section Utc.
Variable utc : text -> option text.
(** A column of local times turned to UTC *)
Definition converted (v : sqlv) : sqlv :=
  match v with
  | STxt s => match utc s with Some u => STxt (u ++ str "+00:00") | None => SNull end
  | _ => SNull
  end.
(** What happens to the columns of a table of a database older than version 8 *)
Definition times_converted (name c : string) (v : sqlv) : sqlv :=
  if String.eqb name "vouchers" && String.eqb c "created" then converted v
  else if String.eqb name "lease-maintenance-spending" && (String.eqb c "started" || String.eqb c "finished") then converted v
  else v.
(** For the times in a database: texts without a timezone, which SQLite turns into a date. *)
Definition local_time (d u : date) : Prop :=
  date_ok u = true /\ utc (ascii (stamp_text x20 (Stamp d None))) = Some (ascii (stamp_text x20 (Stamp u None))).
End Utc.

(** ** Tokens *)

(** The token is in the wallet and in a group that may be spent. *)
Definition spendable (d : database) (token : sqlv) : Prop :=
  exists ts gs row group n, lookup "unblinded-tokens" d = Some ts /\ lookup "redemption-groups" d = Some gs /\
    In row (t_rows ts) /\ In group (t_rows gs) /\
    cell ts row "token" = Some token /\ cell ts row "redemption-group" = Some n /\
    cell gs group "rowid" = Some n /\ cell gs group "spendable" = Some (SInt 1).
(** The token is in the wallet; before version 6 this is all there is to it. *)
Definition in_wallet (d : database) (token : sqlv) : Prop :=
  exists ts row, lookup "unblinded-tokens" d = Some ts /\ In row (t_rows ts) /\ cell ts row "token" = Some token.
Definition some_redeemed (d : database) : Prop :=
  exists t row, lookup "vouchers" d = Some t /\ In row (t_rows t) /\ cell t row "state" = Some (STxt (str "redeemed")).

(** ** Vouchers *)

(** Reading a row of the table as [get] and [list] do *)
Definition read_voucher (t : table) (row : list sqlv) : res vexn voucher :=
  let value c := match cell t row c with Some v => v | None => SNull end in
  from_row [value "number"%string; value "created"%string; value "expected-tokens"%string; value "state"%string;
            value "finished"%string; value "token-count"%string; value "public-key"%string; value "counter"%string].
(** A voucher waiting to be redeemed, in a database of version [v]: its row holds the number,
    the local time it was added at, and, as far as the version has the columns, the counter
    and the number of tokens to expect. *)
Definition waiting (v : Z) (t : table) (row : list sqlv) (num : bytes) (local : date) (counter expected : Z) : Prop :=
  all_ascii num /\ length num = 44%nat /\ cell t row "number" = Some (STxt (ascii num)) /\
  cell t row "created" = Some (STxt (ascii (stamp_text x20 (Stamp local None)))) /\
  cell t row "state" = Some (STxt (str "pending")) /\
  0 <= counter /\ (3 <= v -> cell t row "counter" = Some (SInt counter)) /\ (v < 3 -> counter = 0) /\
  0 < expected /\ (4 <= v -> cell t row "expected-tokens" = Some (SInt expected)) /\ (v < 4 -> expected = 32768).
(** A voucher that is done with, at a local time *)
Definition finished_locally (t : table) (row : list sqlv) (local : date) : Prop :=
  date_ok local = true /\
  (cell t row "state" = Some (STxt (str "redeemed")) \/ cell t row "state" = Some (STxt (str "double-spend"))) /\
  cell t row "finished" = Some (STxt (ascii (stamp_text x20 (Stamp local None)))).
