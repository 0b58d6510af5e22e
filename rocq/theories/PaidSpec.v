(** Vocabulary for C122: a wallet whose tokens all came from redemptions.  The store's tokens and
    keys are numbered (StoreModel); here each number has the text the redemption returned. *)
From Verif Require Import Prelude BytesModel PassModel CborModel StreamModel JsonModel RedeemModel RedeemSpec
  StoreModel StoreSpec SpendSpec.
From Coq Require Strings.String.
Import Coq.Strings.String.StringSyntax.
Set Implicit Arguments.

Section Spec.
Variable L : library.
Variable F : Type.
Variable float_of : text -> F.
Variable float_repr : F -> text.
Variable float_zero : F -> bool.
Variable max_digits : nat.
Variable decode : bytes -> option text.
Variable depth : nat.
(** The texts of the tokens and of the public keys in the store *)
Variable token_text : Z -> bytes.
Variable key_text : Z -> text.

(** Every group of tokens put into the store is the result of one redemption, and is spendable
    exactly if its key is among the allowed ones. *)
Definition came_from_redemptions (allowed : list text) (os : list op) : Prop :=
  forall v pk toks c s now, In (OInsert v pk toks c s now) os ->
    (s = true <-> In (key_text pk) allowed) /\
    exists number counter rts answer,
      redeem (F:=F) L float_of float_repr float_zero max_digits decode depth number counter rts answer
        = Ok (map token_text toks, key_text pk) /\
      (forall rt t r, In rt rts -> random_of L rt t r -> invertible L r).

(** A wallet reached from an empty one, filled by redemptions only *)
Definition redeemed_wallet (allowed : list text) (d : db) : Prop :=
  exists os rs, (forall o, In o os -> fair o) /\ fresh_history [] os /\ steps empty_db os = (rs, d) /\
    came_from_redemptions allowed os.

(** The pass the client makes of one token of its wallet; tokens that are no tokens are given
    something that is not a pass of anybody's. *)
Definition pass_of (message : bytes) (t : Z) : pass :=
  match tokens_to_passes L message [token_text t] with
  | Some [p] => p
  | _ => Pass (repeat x41 88) (repeat x41 88)
  end.
Definition preimage_of (t : Z) : bytes := p_preimage (pass_of [] t).
Definition signature_for (message : bytes) (t : Z) : bytes := p_signature (pass_of message t).
End Spec.
