(** Schema versions and upgrades: schema.py and [initialize_database] of model.py, on tables
    of rows.  Keys, foreign keys and type affinities are not modelled (the upgrades neither
    violate nor need them), nor are the temporary tables created after the upgrades.

    SQLite's [datetime(x, "utc")], which depends on the timezone of the machine, is the
    parameter [utc]: the text it makes of a text, if any. *)
From Verif Require Import Prelude BytesModel CborModel StreamModel DateModel VoucherModel.
From Coq Require Strings.String.
Import Coq.Strings.String.StringSyntax.
Set Implicit Arguments.

Notation string := String.string.
Bind Scope string_scope with String.string.

Record column := Column { c_name : string; c_notnull : bool; c_default : sqlv }.
(** The values of a row are in the order of the columns. *)
Record table := Table { t_cols : list column; t_rows : list (list sqlv) }.
Definition database := list (string * table).

Inductive sqlerr := TableExists | NoSuchTable | DuplicateColumn | NoSuchColumn | NullDefault | BadVersion.

Fixpoint lookup (name : string) (d : database) : option table :=
  match d with
  | [] => None
  | (n, t) :: d' => if String.eqb name n then Some t else lookup name d'
  end.
Fixpoint replace (name : string) (t : table) (d : database) : database :=
  match d with
  | [] => []
  | (n, t') :: d' => if String.eqb name n then (n, t) :: d' else (n, t') :: replace name t d'
  end.
Definition names (t : table) : list string := map c_name (t_cols t).
Definition has_column (name : string) (t : table) : bool := existsb (String.eqb name) (names t).

(** The value of a row in a column *)
Fixpoint cell_in (cols : list column) (row : list sqlv) (name : string) : option sqlv :=
  match cols, row with
  | c :: cols', v :: row' => if String.eqb name (c_name c) then Some v else cell_in cols' row' name
  | _, _ => None
  end.
Definition cell (t : table) (row : list sqlv) (name : string) : option sqlv := cell_in (t_cols t) row name.
(** [UPDATE t SET name = f(name)] *)
Fixpoint update_cell (cols : list column) (name : string) (f : sqlv -> sqlv) (row : list sqlv) : list sqlv :=
  match cols, row with
  | c :: cols', v :: row' => if String.eqb name (c_name c) then f v :: row' else v :: update_cell cols' name f row'
  | _, _ => row
  end.

(** The statements of the upgrades *)
Inductive stmt :=
| CreateTable (name : string) (cols : list column)
| AddColumn (name : string) (c : column)
| InsertGroups                                       (* into [redemption-groups] *)
| SetUtc (name col : string) (only_not_null : bool)  (* SET col = datetime(col, "utc") || "+00:00" *)
| Increment.                                         (* the version *)

Definition sqlv_eqb (a b : sqlv) : bool :=
  match a, b with
  | SNull, SNull => true
  | SInt m, SInt n => m =? n
  | STxt s, STxt t => text_eqb s t
  | SBlob s, SBlob t => bytes_eqb s t
  | _, _ => false
  end.

Section Upgrades.
Variable utc : text -> option text.

(** [datetime(v, "utc") || "+00:00"] for texts; NULL for NULL (and what is no date) *)
Definition to_utc (v : sqlv) : sqlv :=
  match v with
  | STxt s => match utc s with Some u => STxt (u ++ str "+00:00") | None => SNull end
  | _ => SNull
  end.
Definition to_utc_where (only_not_null : bool) (v : sqlv) : sqlv :=
  match v with SNull => if only_not_null then v else to_utc v | _ => to_utc v end.

(** [SELECT DISTINCT([number]), [public-key], 1 FROM [vouchers] WHERE [state] = "redeemed"] *)
Definition redeemed_row (t : table) (row : list sqlv) : bool :=
  match cell t row "state" with Some v => sqlv_eqb v (STxt (str "redeemed")) | None => false end.
Definition pair_eqb (a b : option sqlv * option sqlv) : bool :=
  let eq x y := match x, y with Some u, Some v => sqlv_eqb u v | None, None => true | _, _ => false end in
  eq (fst a) (fst b) && eq (snd a) (snd b).
Fixpoint distinct (l : list (option sqlv * option sqlv)) : list (option sqlv * option sqlv) :=
  match l with
  | [] => []
  | x :: l' => x :: filter (fun y => negb (pair_eqb x y)) (distinct l')
  end.
Definition redeemed_vouchers (t : table) : list (option sqlv * option sqlv) :=
  distinct (map (fun row => (cell t row "number", cell t row "public-key")) (filter (redeemed_row t) (t_rows t))).

(** The row of [INSERT INTO t (...)]; columns that are not mentioned get their default. *)
Definition new_row (cols : list column) (values : list (string * sqlv)) : list sqlv :=
  map (fun c => match find (fun nv => String.eqb (c_name c) (fst nv)) values with Some nv => snd nv | None => c_default c end) cols.
(** SQLite numbers the rows. *)
Fixpoint next_rowid (t : table) (rows : list (list sqlv)) : Z :=
  match rows with
  | [] => 1
  | row :: rows' => Z.max (match cell t row "rowid" with Some (SInt n) => n + 1 | _ => 1 end) (next_rowid t rows')
  end.
Fixpoint insert_groups (t : table) (l : list (option sqlv * option sqlv)) : table :=
  match l with
  | [] => t
  | (number, key) :: l' =>
      let value o := match o with Some v => v | None => SNull end in
      insert_groups (Table (t_cols t) (t_rows t ++
        [new_row (t_cols t) [("rowid"%string, SInt (next_rowid t (t_rows t))); ("voucher"%string, value number);
                             ("public-key"%string, value key); ("spendable"%string, SInt 1)]])) l'
  end.

Definition increment (v : sqlv) : sqlv := match v with SInt n => SInt (n + 1) | _ => SNull end.

Definition update_all (t : table) (col : string) (f : sqlv -> sqlv) : table :=
  Table (t_cols t) (map (update_cell (t_cols t) col f) (t_rows t)).

Definition exec (s : stmt) (d : database) : res sqlerr database :=
  match s with
  | CreateTable name cols =>
      match lookup name d with Some _ => Err TableExists | None => Ok (d ++ [(name, Table cols [])]) end
  | AddColumn name c =>
      match lookup name d with
      | None => Err NoSuchTable
      | Some t =>
          if has_column (c_name c) t then Err DuplicateColumn
          else if c_notnull c && sqlv_eqb (c_default c) SNull then Err NullDefault
          else Ok (replace name (Table (t_cols t ++ [c]) (map (fun row => row ++ [c_default c]) (t_rows t))) d)
      end
  | InsertGroups =>
      match lookup "redemption-groups" d, lookup "vouchers" d with
      | Some g, Some v =>
          if forallb (fun n => has_column n g) ["voucher"%string; "public-key"%string; "spendable"%string] &&
             forallb (fun n => has_column n v) ["number"%string; "public-key"%string; "state"%string]
          then Ok (replace "redemption-groups" (insert_groups g (redeemed_vouchers v)) d)
          else Err NoSuchColumn
      | _, _ => Err NoSuchTable
      end
  | SetUtc name col only =>
      match lookup name d with
      | None => Err NoSuchTable
      | Some t => if has_column col t then Ok (replace name (update_all t col (to_utc_where only)) d) else Err NoSuchColumn
      end
  | Increment =>
      match lookup "version" d with
      | None => Err NoSuchTable
      | Some t => if has_column "version" t then Ok (replace "version" (update_all t "version" increment) d) else Err NoSuchColumn
      end
  end.

(** schema.py:75-280 [_UPGRADES] *)
Definition plain (name : string) : column := Column name false SNull.
Definition upgrade (version : Z) : option (list stmt) :=
  if version =? 0 then Some
    [CreateTable "vouchers" [plain "number"; plain "created"; Column "state" false (STxt (str "pending"));
                             plain "finished"; plain "token-count"];
     CreateTable "tokens" [plain "text"; plain "voucher"];
     CreateTable "unblinded-tokens" [plain "token"];
     CreateTable "lease-maintenance-spending" [plain "id"; plain "started"; plain "finished"; plain "count"]]
  else if version =? 1 then Some [AddColumn "vouchers" (plain "public-key")]
  else if version =? 2 then Some [AddColumn "vouchers" (Column "counter" false (SInt 0))]
  else if version =? 3 then Some
    [AddColumn "tokens" (Column "counter" true (SInt 0));
     AddColumn "vouchers" (Column "expected-tokens" true (SInt 32768))]
  else if version =? 4 then Some [CreateTable "invalid-unblinded-tokens" [plain "token"; plain "reason"]]
  else if version =? 5 then Some
    [CreateTable "redemption-groups" [plain "rowid"; plain "voucher"; plain "spendable"; plain "public-key"];
     InsertGroups;
     AddColumn "vouchers" (Column "sequestered-count" true (SInt 0));
     AddColumn "unblinded-tokens" (Column "redemption-group" false (SInt 1))]
  else if version =? 6 then Some
    [CreateTable "event-stream" [plain "sequence-number"; plain "statement"; plain "important"]]
  else if version =? 7 then Some
    [SetUtc "vouchers" "created" false;
     SetUtc "lease-maintenance-spending" "started" false;
     SetUtc "lease-maintenance-spending" "finished" true]
  else if version =? 8 then Some [AddColumn "event-stream" (Column "serialized_arguments" false (SBlob [x80]))]
  else None.

(** schema.py:40-52 [get_schema_upgrades]; the loop ends after at most [fuel] rounds as no
    version above 8 has an upgrade (SchemaProofs.v shows that more fuel changes nothing). *)
Fixpoint upgrades_from (fuel : nat) (version : Z) : list stmt :=
  match fuel with
  | O => []
  | S f => match upgrade version with
           | Some ss => ss ++ Increment :: upgrades_from f (version + 1)
           | None => []
           end
  end.
Definition get_schema_upgrades (version : Z) : list stmt := upgrades_from 10 version.

(** schema.py:23-37 [get_schema_version]: the statement that creates the table, and the query *)
Definition ensure_version (d : database) : database :=
  match lookup "version" d with
  | Some _ => d
  | None => d ++ [("version"%string, Table [plain "version"] [[SInt 0]])]
  end.
Definition schema_version (d : database) : option Z :=
  match lookup "version" d with
  | Some t => match t_rows t with
              | [row] => match cell t row "version" with Some (SInt v) => Some v | _ => None end
              | _ => None
              end
  | None => None
  end.

(** ** Transactions *)

(** Python's [sqlite3] (of Python 3.9 and 3.10, which the project uses) opens a transaction
    before a statement whose text begins with INSERT, UPDATE, DELETE or REPLACE, after white
    space only; the INSERT of the upgrades begins with a comment.  Other statements outside of
    a transaction are committed at once. *)
Definition opens_transaction (s : stmt) : bool :=
  match s with SetUtc _ _ _ | Increment => true | _ => false end.

(** [disk]: what is left after a crash; [open]: the state inside of the transaction *)
Record conn := Conn { disk : database; open : option database }.
Definition current (c : conn) : database := match open c with Some d => d | None => disk c end.
(** [cursor.execute] *)
Definition execute (s : stmt) (c : conn) : res sqlerr conn :=
  d <- exec s (current c) ;;
  if opens_transaction s then Ok (Conn (disk c) (Some d))
  else match open c with
       | Some _ => Ok (Conn (disk c) (Some d))
       | None => Ok (Conn d None)
       end.
(** schema.py:55-65 [run_schema_upgrades]; on an error the connection is left as it is. *)
Fixpoint execute_all (ss : list stmt) (c : conn) : res sqlerr unit * conn :=
  match ss with
  | [] => (Ok tt, c)
  | s :: ss' => match execute s c with
                | Ok c' => execute_all ss' c'
                | Err e => (Err e, c)
                end
  end.

(** model.py:146-211 [initialize_database], with the outcome and what is on disk; [with conn]
    commits, or rolls back after an error. *)
Definition initialize (d : database) : res sqlerr unit * database :=
  let d := ensure_version d in
  match schema_version d with
  | None => (Err BadVersion, d)
  | Some v =>
      match execute_all (get_schema_upgrades v) (Conn d None) with
      | (Ok _, c) => (Ok tt, current c)
      | (Err e, c) => (Err e, disk c)
      end
  end.
(** The same, but the process dies after [n] statements of the upgrades. *)
Definition interrupted (n : nat) (d : database) : database :=
  let d := ensure_version d in
  match schema_version d with
  | None => d
  | Some v => disk (snd (execute_all (firstn n (get_schema_upgrades v)) (Conn d None)))
  end.
End Upgrades.
