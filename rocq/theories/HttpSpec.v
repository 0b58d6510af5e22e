(** What is said about the HTTP interface. *)
From Verif Require Import Prelude BytesModel CborModel StreamModel PricingModel PricingSpec JsonModel HttpModel.
From Coq Require Strings.String.
Import Coq.Strings.String.StringSyntax.
Set Implicit Arguments.

(** The same letters but for upper case. *)
Definition same_letter (a b : byte) : Prop := a = b \/ 65 <= bz a <= 90 /\ bz b = bz a + 32.
Definition spells (a b : bytes) : Prop := Forall2 same_letter a b.

(** The header that opens the door. *)
Definition opens (secret header : bytes) : Prop :=
  exists name, spells name (map zb (str "tahoe-lafs")) /\ header = name ++ x20 :: secret.

(** ** The price *)

(** A size in a request: an integer that is not negative; Python counts [true] and [false]
    among the integers. *)
Section Price.
Variable F : Type.
Variable is_one : F -> bool.
Inductive means_size : json F -> Z -> Prop :=
| means_int n : 0 <= n -> means_size (JInt n) n
| means_true : means_size (JBool true) 1
| means_false : means_size (JBool false) 0.
Definition means_one (j : json F) : Prop :=
  j = JInt 1 \/ j = JBool true \/ exists f, j = JFloat f /\ is_one f = true.

(** The request asks for the price of files of these sizes. *)
Definition asks_price (body : json F) (sizes : list Z) : Prop :=
  exists d version l, body = JObj d /\
    jget (str "version") d = Some version /\ means_one version /\
    jget (str "sizes") d = Some (JArr l) /\ Forall2 means_size l sizes.
End Price.

(** What storing one file costs: every share takes the passes that cover it. *)
Definition file_price (needed total pass_value size : Z) : Z := total * cdiv (cdiv size needed) pass_value.
Definition price_of (needed total pass_value : Z) (sizes : list Z) : Z :=
  sumZ (map (file_price needed total pass_value) sizes).

(** ** Vouchers *)

(** 44 characters: letters, digits, minus and underscore, then at most two equals signs. *)
Definition urlsafe (c : Z) : Prop := 65 <= c <= 90 \/ 97 <= c <= 122 \/ 48 <= c <= 57 \/ c = 45 \/ c = 95.
Definition voucher_text (s : text) : Prop :=
  length s = 44%nat /\ exists data pad, s = data ++ pad /\ (forall c, In c data -> urlsafe c) /\
    (pad = [] \/ pad = [61] \/ pad = [61; 61]).

(** ** Replication *)

Definition codes (code : Z) (l : list (Z * (Z * option text))) : list (Z * (Z * option text)) :=
  filter (fun a => fst (snd a) =? code) l.
