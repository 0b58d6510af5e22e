(** What is said about operations on the grid. *)
From Verif Require Import Prelude BytesModel CborModel StreamModel JsonModel GridModel.
From Coq Require Strings.String.
Import Coq.Strings.String.StringSyntax.
Set Implicit Arguments.

(** The text has the other one in it, contiguously. *)
Definition shows (s secret : text) : Prop := exists before after, s = before ++ secret ++ after.

(** ** Paths of URLs as a server reads them *)
Fixpoint segments (s : text) : list text :=
  match s with
  | [] => [[]]
  | c :: s' => if c =? 47 then [] :: segments s'
               else match segments s' with x :: l => (c :: x) :: l | [] => [[c]] end
  end.
Fixpoint unquote (s : text) : option bytes :=
  match s with
  | [] => Some []
  | c :: s' =>
      if c =? 37 then
        match s' with
        | a :: b :: s'' => match hex_value a, hex_value b with
                           | Some x, Some y => option_map (cons (zb (16 * x + y))) (unquote s'')
                           | _, _ => None
                           end
        | _ => None
        end
      else option_map (cons (zb c)) (unquote s')
  end.
Definition read_segment (s : text) : option text := match unquote s with Some b => utf8_decode b | None => None end.
(** The path, up to the query *)
Fixpoint up_to (c : Z) (s : text) : text := match s with [] => [] | x :: s' => if x =? c then [] else x :: up_to c s' end.
Definition read_path (s : text) : list (option text) := map read_segment (tl (segments (up_to 63 s))).
Definition all_scalar (s : text) : Prop := forall c, In c s -> 0 <= c < 55296 \/ 57344 <= c < 1114112.

(** A node's API is at the root of its URL, with or without the slash. *)
Definition at_root (u : url) : Prop := (u_path u = [] \/ u_path u = [[]]) /\ u_query u = [].

(** ** Retries *)
Definition again {A} (matchers : list (gexn -> bool)) (r : res gexn A) : Prop :=
  exists e m, r = Err e /\ In m matchers /\ m e = true.

(** ** Listings *)
Section Listing.
Variables file_cap dir_cap F : Type.
Variable file_text : file_cap -> text.
Variable dir_text : dir_cap -> text.
(** What the node says about an entry: at least this *)
Inductive describes : json F -> node file_cap dir_cap F -> Prop :=
| DescribesFile o size c : jget (str "size") o = Some size -> jget (str "ro_uri") o = Some (JStr (file_text c)) ->
    describes (JArr [JStr (str "filenode"); JObj o]) (FileNode dir_cap size c)
| DescribesDirectory o d : jget (str "ro_uri") o = Some (JStr (dir_text d)) ->
    describes (JArr [JStr (str "dirnode"); JObj o]) (DirectoryNode file_cap F d).

(** ** Children *)
Variable list_dir : dir_cap -> res gexn (list (text * node file_cap dir_cap F)).
(** A path leads from a directory, through others, to a file. *)
Inductive leads : dir_cap -> list text -> list dir_cap -> file_cap -> Prop :=
| LeadsFile d p l size c : list_dir d = Ok l -> tget p l = Some (FileNode dir_cap size c) -> leads d [p] [d] c
| LeadsOn d p l d' path ds c : list_dir d = Ok l -> tget p l = Some (DirectoryNode file_cap F d') -> path <> [] -> leads d' path ds c ->
    leads d (p :: path) (d :: ds) c.
End Listing.

(** ** Downloads *)
(** What of the body of a response arrived: all of it if the end is sure, otherwise a first
    part. *)
Definition arrived (body : bytes) (chunks : list bytes) (e : ending) : Prop :=
  match e with
  | Complete => concat chunks = body
  | _ => exists rest, body = concat chunks ++ rest
  end.
