(** Specification vocabulary for recovery (C46, C47, C76). *)
From Verif Require Import Prelude BytesModel CborModel StreamModel StreamSpec RecoverModel.
From Coq Require Import Sorting.Sorted.
From Coq Require Strings.String.
Import Coq.Strings.String.StringSyntax.
Set Implicit Arguments.

(** The files in the replica directory that are named like event streams. *)
Inductive stream_files : list (text * entry) -> list text -> Prop :=
| stream_files_nil : stream_files [] []
| stream_files_stream name size content entries names :
    stream_like name -> stream_files entries names ->
    stream_files ((name, File size content) :: entries) (name :: names)
| stream_files_other name e entries names :
    ~ stream_like name \/ e = Dir -> stream_files entries names ->
    stream_files ((name, e) :: entries) names.

Section RecoverSpec.
Variable D : Type.
Variable exec : text -> cval -> D -> res rexn D.
Variable tables : D -> list text.
Variable consistent : D -> bool.

(** Executing all of these statements, one after the other, takes the database
    from the first state to the second. *)
Inductive performs : list (text * cval) -> D -> D -> Prop :=
| performs_nil d : performs [] d d
| performs_cons sql args rest d d1 d2 :
    exec sql args d = Ok d1 -> performs rest d1 d2 -> performs ((sql, args) :: rest) d d2.

Definition without_arguments (l : list text) : list (text * cval) := map (fun sql => (sql, CArr [])) l.

(** Importing a snapshot: drop all tables, then the table definitions, then the
    other statements ... *)
Definition snapshot_script (d : D) (statements : list text) : list (text * cval) :=
  without_arguments
    (map (fun name => str "DROP TABLE '" ++ name ++ str "'")
         (filter (fun name => negb (text_eqb name (str "sqlite_sequence"))) (tables d)) ++
     str "PRAGMA defer_foreign_keys = ON" ::
     filter (startswith (str "CREATE TABLE")) statements ++
     filter (fun s => negb (startswith (str "CREATE TABLE") s || control s)) statements).
(** ... then the changes. *)
Definition same_statement (c : change) (sa : text * cval) : Prop :=
  statement c = CText (fst sa) /\ arguments c = snd sa.

(** What the other calls of the store alone make of the database. *)
Fixpoint uses (es : list (event D)) (d : D) : D :=
  match es with
  | [] => d
  | Use f :: rest => uses rest (match f d with Ok d1 => if consistent d1 then d1 else d | Err _ => d end)
  | _ :: rest => uses rest d
  end.
Definition is_use (e : event D) : bool := match e with Use _ => true | _ => false end.

(** The event has to do with this client. *)
Definition concerns (c : Z) (e : event D) : bool :=
  match e with
  | Ask c1 _ | AskBadly c1 | Leave c1 => c1 =? c
  | _ => false
  end.
End RecoverSpec.

(** The order of the stages: a recovery only ever moves on, and nothing follows
    its end. *)
Definition rank (s : stage) : Z :=
  match s with
  | inactive => 0 | started => 1 | inspect_replica => 2 | downloading => 3 | importing => 4
  | succeeded | download_failed | import_failed => 5
  end.
Definition moves_on (l : list stage) : Prop := StronglySorted (fun a b => rank a < rank b) l.
Definition final (s : stage) : bool := rank s =? 5.
Definition ended (sent : list rstate) : bool := existsb (fun u => final (r_stage u)) sent.

(** What one client gets. *)
Definition for_client (c : Z) (out : list output) : list output :=
  filter (fun o => match o with Update c1 _ | Closed c1 | Rejected c1 | Raised c1 => c1 =? c end) out.
