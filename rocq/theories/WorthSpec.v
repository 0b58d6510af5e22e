(** Specification for C141: a node that redeems vouchers with the real redeemer.  The
    numbers of the controller's and the store's models stand for texts. *)
From Verif Require Import Prelude BytesModel PassModel CborModel StreamModel JsonModel RedeemModel RedeemSpec
  StoreModel StoreSpec ControllerModel ControllerSpec PurseSpec.
Set Implicit Arguments.

Section Worth.
Variable L : library.
Variable F : Type.
Variable float_of : text -> F.
Variable float_repr : F -> text.
Variable float_zero : F -> bool.
Variable max_digits : nat.
Variable decode : bytes -> option text.
Variable depth : nat.
(** The texts of tokens received, of public keys, of random tokens and of vouchers *)
Variable token_text : Z -> bytes.
Variable key_text : Z -> text.
Variable random_text : Z -> bytes.
Variable voucher_text : Z -> bytes.
Variables (groups dflt : Z) (allowed : list Z).

(** Whenever the controller receives tokens for a request, they are what the redeemer
    returned for that request, on some answer of the issuer's. *)
Definition really_redeemed (es : list timed) : Prop :=
  forall es1 i toks pk now gen es2 out c f,
  (es = es1 ++ (EAnswer i (ASuccess toks pk), now, gen) :: es2 \/
   es = es1 ++ (EKillAfterAnswer i (ASuccess toks pk), now, gen) :: es2) ->
  controller_run groups dflt allowed new_node es1 = (out, c) -> nth_error (c_flights c) i = Some f ->
  exists answer,
    RedeemModel.redeem (F:=F) L float_of float_repr float_zero max_digits decode depth
      (voucher_text (f_voucher f)) (f_counter f) (map random_text (f_tokens f)) answer = Ok (map token_text toks, key_text pk).

(** All tokens received for the voucher are signed with keys that are allowed. *)
Definition allowed_keys_only (v : Z) (es : list timed) : Prop :=
  forall es1 i toks pk now gen es2 out c f,
  (es = es1 ++ (EAnswer i (ASuccess toks pk), now, gen) :: es2 \/
   es = es1 ++ (EKillAfterAnswer i (ASuccess toks pk), now, gen) :: es2) ->
  controller_run groups dflt allowed new_node es1 = (out, c) -> nth_error (c_flights c) i = Some f ->
  f_voucher f = v -> In pk allowed.
End Worth.

(** What was declared invalid is not given again. *)
Definition never_again (es : list timed) : Prop :=
  forall es1 reason ts now gen es2 t pk,
  es = es1 ++ (EWallet (OInvalidate reason ts), now, gen) :: es2 -> In t ts -> ~ issued es2 t pk.

(** Nothing has used the wallet but redemption. *)
Definition unused (es : list timed) : Prop := forall te o, In te es -> fst (fst te) <> EWallet o.

(** The redeemer makes random tokens that can be unblinded. *)
Definition good_random (L : library) (random_text : Z -> bytes) : Prop :=
  forall t preimage r, random_of L (random_text t) preimage r -> invertible L r.

(** The number of tokens the user is shown. *)
Definition shows (d : db) (k : Z) : Prop := fst (StoreModel.step d OCount) = Ok (RNum k).

(** What vouchers are worth: the tokens they were submitted for. *)
Definition worth (rows : list voucher_row) : Z := sumZ (map v_expected rows).
