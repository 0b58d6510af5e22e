(** Specification vocabulary for generated configurations (C118). *)
From Verif Require Import Prelude BytesModel CborModel StreamModel.
From Coq Require Strings.String.
Import Coq.Strings.String.StringSyntax.
Set Implicit Arguments.

(** A configuration: for each section the values of its options. *)
Definition sections := list (text * list (text * text)).

Definition spaces : list Z :=
  [9; 10; 11; 12; 13; 28; 29; 30; 31; 32; 133; 160; 5760; 8192; 8193; 8194; 8195; 8196; 8197; 8198; 8199; 8200;
   8201; 8202; 8232; 8233; 8239; 8287; 12288].
Definition tight (s : text) : Prop :=
  forall c, (hd_error s = Some c \/ hd_error (rev s) = Some c) -> ~ In c spaces.
(** What may be written in one line, in the place of a section, an option, a value. *)
Definition section_name (s : text) : Prop := s <> [] /\ ~ In 10 s /\ ~ In 93 s /\ s <> str "DEFAULT".
Definition option_name (s : text) : Prop :=
  s <> [] /\ tight s /\ (forall c, In c s -> c <> 10 /\ c <> 61 /\ c <> 58 /\ ~ (65 <= c <= 90)) /\
  forall c, hd_error s = Some c -> c <> 35 /\ c <> 59 /\ c <> 91.
Definition option_value (s : text) : Prop := tight s /\ ~ In 10 s.

Definition is_dict {V} (d : list (text * V)) : Prop := NoDup (map fst d).
Definition proper (c : sections) : Prop :=
  is_dict c /\
  forall s d, In (s, d) c -> section_name s /\ is_dict d /\ forall k v, In (k, v) d -> option_name k /\ option_value v.

(** Option [k] of section [s] has value [v]. *)
Definition gives (c : sections) (s k v : text) : Prop := exists d, In (s, d) c /\ In (k, v) d.
Definition mentions (c : sections) (s : text) : Prop := exists d, In (s, d) c.

(** What the documentation promises: the items of sections given several times are
    merged, and of several values the last one counts. *)
Definition merged (cs : list sections) (s k v : text) : Prop :=
  exists before c after, cs = before ++ c :: after /\ gives c s k v /\
  forall c' v', In c' after -> ~ gives c' s k v'.
(** What is done: of several sections with one name the last one counts. *)
Definition last_section (cs : list sections) (s k v : text) : Prop :=
  exists before c after, cs = before ++ c :: after /\ gives c s k v /\
  forall c', In c' after -> ~ mentions c' s.
(** No section is given twice. *)
Definition disjoint (cs : list sections) : Prop :=
  forall l1 c1 l2 c2 l3 s, cs = l1 ++ c1 :: l2 ++ c2 :: l3 -> mentions c1 s -> ~ mentions c2 s.
