(** Specification for C142: what C141 asks of the issuer, for a history that starts
    with any controller, in particular with the one of a recovered node. *)
From Verif Require Import Prelude BytesModel PassModel CborModel StreamModel JsonModel RedeemModel
  StoreModel ControllerModel LossSpec.
Set Implicit Arguments.

Section Outlive.
Variable L : library.
Variable F : Type.
Variable float_of : text -> F.
Variable float_repr : F -> text.
Variable float_zero : F -> bool.
Variable max_digits : nat.
Variable decode : bytes -> option text.
Variable depth : nat.
Variable token_text : Z -> bytes.
Variable key_text : Z -> text.
Variable random_text : Z -> bytes.
Variable voucher_text : Z -> bytes.
Variables (groups dflt : Z) (allowed : list Z).

(** What the controller receives for a request is what the redeemer returned for that
    request, on some answer of the issuer's. *)
Definition redeemer_at_work (c0 : ctl) (es : list timed) : Prop :=
  forall v, answers_about groups dflt allowed v c0 es (fun _ f a =>
  match a with
  | ASuccess toks pk => exists answer,
      RedeemModel.redeem (F:=F) L float_of float_repr float_zero max_digits decode depth
        (voucher_text (f_voucher f)) (f_counter f) (map random_text (f_tokens f)) answer = Ok (map token_text toks, key_text pk)
  | _ => True
  end).

(** All tokens received for the voucher are signed with keys that are allowed. *)
Definition signed_as_allowed (v : Z) (c0 : ctl) (es : list timed) : Prop :=
  answers_about groups dflt allowed v c0 es (fun _ _ a => match a with ASuccess _ pk => In pk allowed | _ => True end).
End Outlive.
