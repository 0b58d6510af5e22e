(** Vocabulary for C103 to C105: how a list is written in tahoe.cfg. *)
From Verif Require Import Prelude BytesModel PassModel ConfigModel.
From Coq Require Strings.String.
Import Coq.Strings.String.StringSyntax.
Set Implicit Arguments.

Definition blank (b : byte) : Prop := 9 <= bz b <= 13 \/ 28 <= bz b <= 32.
Definition blanks (s : bytes) : Prop := forall b, In b s -> blank b.

(** [w] as it may be written: with blanks around it *)
Definition padded (w v : bytes) : Prop := exists a b, blanks a /\ blanks b /\ v = a ++ w ++ b.

(** A word: no comma in it, no blank in it. *)
Definition word (w : bytes) : Prop := forall b, In b w -> ~ blank b /\ b <> x2c.

(** [v] is the list [ws] written with commas, every item as [item] allows. *)
Inductive comma_list (item : bytes -> bytes -> Prop) : list bytes -> bytes -> Prop :=
| CLast : forall w v, item w v -> comma_list item [w] v
| CMore : forall w v ws t, item w v -> comma_list item ws t -> comma_list item (w :: ws) (v ++ [x2c] ++ t).

(** The option of the client's section of the plugin says [v]. *)
Definition plugin_option (c : node_config) (name : bytes) (v : option bytes) : Prop :=
  c (ascii "storageclient.plugins.privatestorageio-zkapauthz-v2") name = v.

(** [v] is not a number: something in it is no digit, sign, underscore or blank, or there is no digit. *)
Definition digit (b : byte) : Prop := 48 <= bz b <= 57.
Definition not_a_number (v : bytes) : Prop :=
  (exists b, In b v /\ ~ digit b /\ ~ blank b /\ b <> x2b /\ b <> x2d /\ b <> x5f) \/ (forall b, In b v -> ~ digit b).
