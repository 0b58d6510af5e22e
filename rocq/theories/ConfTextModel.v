(** Generated configuration texts (configutil.py) and the parser that reads
    them: [configparser.ConfigParser(strict=False)] as
    [allmydata.util.configutil] uses it, with [read_string] and [get].

    Text is a list of code points.  A [dict] is an insertion-ordered list of
    pairs.  Simplifications: [str.lower] is modelled for ASCII letters only, and
    a value with a reference [%(name)s] to another option is not followed (no
    generated text contains one). *)
From Verif Require Import Prelude BytesModel CborModel StreamModel.
From Coq Require Strings.String.
Import Coq.Strings.String.StringSyntax.
Set Implicit Arguments.

(** * Writing: configutil.py *)

(** [d[k] = v] for a [dict] with text keys. *)
Fixpoint put {V} (k : text) (v : V) (d : list (text * V)) : list (text * V) :=
  match d with
  | [] => [(k, v)]
  | (k', v') :: d' => if text_eqb k k' then (k', v) :: d' else (k', v') :: put k v d'
  end.
(** [result.update(d)] *)
Definition update {V} (result d : list (text * V)) : list (text * V) :=
  fold_left (fun r kv => put (fst kv) (snd kv) r) d result.
(** configutil.py:25-37 *)
Definition merge_dictionaries {V} (dictionaries : list (list (text * V))) : list (text * V) :=
  fold_left update dictionaries [].

(** configutil.py:40-48: [text.replace("%", "%%")] *)
Definition tahoe_config_quote (t : text) : text :=
  flat_map (fun c => if c =? 37 then [37; 37] else [c]) t.

(** ["\n".join(l)] *)
Fixpoint joined_lines (l : list text) : text :=
  match l with
  | [] => []
  | [x] => x
  | x :: l' => x ++ 10 :: joined_lines l'
  end.

(** configutil.py:70-73: ["{key} = {value}"] *)
Definition item_text (kv : text * text) : text := fst kv ++ str " = " ++ tahoe_config_quote (snd kv).
(** configutil.py:68-74: ["[{name}]\n{items}\n"] *)
Definition section_text (s : text * list (text * text)) : text :=
  91 :: fst s ++ 93 :: 10 :: joined_lines (map item_text (snd s)) ++ [10].
(** configutil.py:51-76 *)
Definition config_string_from_sections (divided_sections : list (list (text * list (text * text)))) : text :=
  flat_map section_text (merge_dictionaries divided_sections).

(** * Reading: CPython's configparser *)

(** [str.isspace], [\s] *)
Definition blank (c : Z) : bool :=
  ((9 <=? c) && (c <=? 13)) || ((28 <=? c) && (c <=? 32)) || (c =? 133) || (c =? 160) || (c =? 5760)
  || ((8192 <=? c) && (c <=? 8202)) || (c =? 8232) || (c =? 8233) || (c =? 8239) || (c =? 8287) || (c =? 12288).
Fixpoint ltrim (s : text) : text :=
  match s with [] => [] | c :: s' => if blank c then ltrim s' else s end.
Definition rtrim (s : text) : text := rev (ltrim (rev s)).
(** [s.strip()] *)
Definition trim (s : text) : text := rtrim (ltrim s).
(** [NONSPACECRE.search(line).start()] *)
Fixpoint indentation (s : text) : nat :=
  match s with [] => O | c :: s' => if blank c then S (indentation s') else O end.

(** The lines of [io.StringIO(s)]; [cur] is the line begun. *)
Fixpoint lines_from (cur : text) (s : text) : list text :=
  match s with
  | [] => match cur with [] => [] | _ => [cur] end
  | c :: s' => if c =? 10 then cur :: lines_from [] s' else lines_from (cur ++ [c]) s'
  end.
Definition lines (s : text) : list text := lines_from [] s.

(** [str.lower] *)
Definition lower (s : text) : text := map (fun c => if (65 <=? c) && (c <=? 90) then c + 32 else c) s.

(** What follows the first [c], what precedes it. *)
Fixpoint cut (stop : Z -> bool) (s : text) : option (text * text) :=
  match s with
  | [] => None
  | c :: s' =>
      if stop c then Some ([], s')
      else match cut stop s' with Some (a, b) => Some (c :: a, b) | None => None end
  end.
(** [SECTCRE]: [\[(?P<header>.+)\]] *)
Definition header (s : text) : option text :=
  match s with
  | c :: s' =>
      if c =? 91 then
        match cut (Z.eqb 93) (rev s') with
        | Some (_, h) => match h with [] => None | _ => Some (rev h) end
        | None => None
        end
      else None
  | [] => None
  end.
(** [OPTCRE]: the name is what precedes the first = or :, stripped and in lower case; the value
    is what follows, stripped. *)
Definition option_line (s : text) : option (text * text) :=
  match cut (fun c => (c =? 61) || (c =? 58)) s with
  | Some (o, v) => match rtrim o with [] => None | o' => Some (lower o', trim v) end
  | None => None
  end.

Inductive parse_error := MissingSectionHeader | ParsingError.

Record parser := Parser {
  ps_sections : list (text * list (text * list text));
  ps_section : option text;
  ps_option : option text;
  ps_indent : nat }.

Fixpoint get {V} (k : text) (d : list (text * V)) : option V :=
  match d with
  | [] => None
  | (k', v) :: d' => if text_eqb k k' then Some v else get k d'
  end.
Definition get_or {V} (dflt : V) (k : text) (d : list (text * V)) : V :=
  match get k d with Some v => v | None => dflt end.

(** [cursect[optname].append(value)] *)
Definition append_value (p : parser) (section name value : text) : parser :=
  let s := get_or [] section (ps_sections p) in
  Parser (put section (put name (get_or [] name s ++ [value]) s) (ps_sections p)) (ps_section p) (ps_option p) (ps_indent p).

(** The body of the loop of [RawConfigParser._read]. *)
Definition read_line (p : parser) (line : text) : res parse_error parser :=
  let comment := match trim line with c :: _ => (c =? 35) || (c =? 59) | [] => false end in
  match (if comment then [] else trim line) with
  | [] =>
      match comment, ps_section p, ps_option p with
      | false, Some s, Some o => Ok (append_value p s o [])
      | _, _, _ => Ok p
      end
  | value =>
      let level := indentation line in
      match ps_section p, ps_option p, Nat.ltb (ps_indent p) level with
      | Some s, Some o, true => Ok (append_value p s o value)
      | _, _, _ =>
          match header value with
          | Some name =>
              Ok (Parser (match get name (ps_sections p) with
                          | Some _ => ps_sections p
                          | None => ps_sections p ++ [(name, [])] end)
                         (Some name) None level)
          | None =>
              match ps_section p with
              | None => Err MissingSectionHeader
              | Some s =>
                  match option_line value with
                  | Some (o, v) =>
                      Ok (Parser (put s (put o [v] (get_or [] s (ps_sections p))) (ps_sections p)) (Some s) (Some o) level)
                  | None => Err ParsingError
                  end
              end
          end
      end
  end.
Fixpoint read_lines (p : parser) (l : list text) : res parse_error parser :=
  match l with [] => Ok p | x :: l' => p' <- read_line p x ;; read_lines p' l' end.

(** [_read] with [_join_multiline_values]. *)
Definition read_string (s : text) : res parse_error (list (text * list (text * text))) :=
  p <- read_lines (Parser [] None None 0) (lines s) ;;
  Ok (map (fun sec => (fst sec, map (fun kv => (fst kv, rtrim (joined_lines (snd kv)))) (snd sec))) (ps_sections p)).

(** [BasicInterpolation.before_get] *)
Fixpoint interpolate (s : text) : option text :=
  match s with
  | [] => Some []
  | c :: s' =>
      if c =? 37 then
        match s' with
        | d :: s'' => if d =? 37 then match interpolate s'' with Some t => Some (37 :: t) | None => None end else None
        | [] => None
        end
      else match interpolate s' with Some t => Some (c :: t) | None => None end
  end.

Inductive get_error := NoSection | NoOption | Interpolation.
Definition DEFAULT : text := str "DEFAULT".
(** [parser.get(section, option)] *)
Definition get_config (c : list (text * list (text * text))) (section name : text) : res get_error text :=
  match get section c, text_eqb section DEFAULT with
  | None, false => Err NoSection
  | s, _ =>
      match (match s with Some d => get (lower name) d | None => None end) with
      | Some v => match interpolate v with Some t => Ok t | None => Err Interpolation end
      | None =>
          match get (lower name) (get_or [] DEFAULT c) with
          | Some v => match interpolate v with Some t => Ok t | None => Err Interpolation end
          | None => Err NoOption
          end
      end
  end.
