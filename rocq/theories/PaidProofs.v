(** Lemmas for C122. *)
From Verif Require Import Prelude PreludeFacts BytesModel BytesProofs PassModel PricingModel CborModel StreamModel JsonModel
  RedeemModel RedeemSpec RedeemProofs RedeemProperties ServerModel ServerSpec
  StoreModel StoreSpec StoreProofs SpendModel SpendSpec SpendProofs ClientModel ClientProofs EnoughSpec PaidSpec.
From Coq Require Strings.String.
Import Coq.Strings.String.StringSyntax.
Set Implicit Arguments.

(** Spendable tokens were put in as such. *)
Lemma spendable_source_step d o t : wf d -> fair o -> stored (snd (step d o)) true t ->
  stored d true t \/ exists v pk toks c now, o = OInsert v pk toks c true now /\ In t toks.
Proof.
  intros W Fo S.
  assert (K : (exists v pk toks c s now, o = OInsert v pk toks c s now /\ In t toks) \/ ~ reinserted t [o]).
  { destruct o as [| v pk toks c s now| | | | | | | | | | | | | |];
      try (right; intros (v' & pk' & ts' & c' & s' & now' & [Ho|[]] & _); discriminate Ho).
    destruct (in_dec Z.eq_dec t toks) as [I|I]; [left; exists v, pk, toks, c, s, now; auto|].
    right. intros (v' & pk' & ts' & c' & s' & now' & [Ho|[]] & It). injection Ho as <- <- <- <- <- <-. contradiction. }
  destruct K as [(v & pk & toks & c & s & now & -> & I)|K].
  - destruct s; [right; exists v, pk, toks, c, now; auto|].
    destruct (step d (OInsert v pk toks c false now)) as [[a|e] d1] eqn:E; cbn [snd] in S.
    + exfalso. exact (proj2 (@sequestered_not_spendable d v pk toks c now a d1 t W E I) S).
    + rewrite step_insert_eq in E by exact W. destruct (filter _ (vouchers d)); [injection E as _ <-; auto|]. cbv zeta in E.
      destruct (exec_muts _ _); [discriminate|]. injection E as _ <-. auto.
  - destruct (in_dec Z.eq_dec t (available (restart d))) as [A|A].
    + left. apply in_available in A. exact (proj1 A).
    + left. assert (N : stored d true t \/ ~ stored d true t).
      { right. intros X. apply A. apply in_available. split; [exact X|]. cbn. auto. }
      destruct N as [N|N]; [exact N|]. exfalso. exact (@unspendable_step d o t W Fo N K S).
Qed.

Lemma spendable_source os : forall d t, wf d -> (forall o, In o os -> fair o) -> stored (snd (steps d os)) true t ->
  stored d true t \/ exists v pk toks c now, In (OInsert v pk toks c true now) os /\ In t toks.
Proof.
  induction os as [|o os IH]; intros d t W Fo S; [left; exact S|]. cbn [steps] in S.
  pose proof (@wf_step _ _ W (Fo o (or_introl eq_refl))) as W1.
  pose proof (@spendable_source_step d o t W (Fo o (or_introl eq_refl))) as K.
  destruct (step d o) as [r d1]. cbn [snd] in *.
  specialize (IH d1 t W1 (fun o' Ho => Fo o' (or_intror Ho))).
  destruct (steps d1 os) as [rs2 d2]. cbn [snd] in *. destruct (IH S) as [S1|(v & pk & toks & c & now & I & J)].
  - destruct (K S1) as [S0|(v & pk & toks & c & now & -> & J)]; [left; exact S0|].
    right. exists v, pk, toks, c, now. split; [left; reflexivity|exact J].
  - right. exists v, pk, toks, c, now. split; [right; exact I|exact J].
Qed.

Section Passes.
Variable L : library.
Hypothesis Law : lawful L.
Variable token_text : Z -> bytes.

Lemma pass_of_cases m t :
  (exists u, read_unblinded L (token_text t) = Some u /\ length (u_preimage u) = 64%nat /\
     pass_of L token_text m t = Pass (b64encode (u_preimage u)) (b64encode (token_signature u m))) \/
  (read_unblinded L (token_text t) = None /\ pass_of L token_text m t = Pass (repeat x41 88) (repeat x41 88)).
Proof.
  unfold pass_of, RedeemModel.tokens_to_passes. cbn [all_some]. destruct (read_unblinded L (token_text t)) as [u|] eqn:E; cbn [bind_o].
  - left. exists u. split; [reflexivity|].
    assert (Lu : length (u_preimage u) = 64%nat).
    { unfold read_unblinded in E. destruct (read64 L 96 (token_text t)) as [b|] eqn:R; [|discriminate].
      apply read64_Some in R as [_ R]. destruct (read_point L (skipn 64 b)); [|discriminate]. injection E as <-. change (length (firstn 64 b) = 64%nat).
      rewrite firstn_length. lia. }
    split; [exact Lu|]. cbn [all_some]. unfold token_to_pass, make_pass, base64_bytes. rewrite !b64_88 by (exact Lu || apply (law_mac_size Law)). reflexivity.
  - right. split; reflexivity.
Qed.

Lemma wallet_sound : sound_passes (preimage_of L token_text) (signature_for L token_text).
Proof.
  assert (A : length (repeat x41 88) = 88%nat /\ ~ In x20 (repeat x41 88)).
  { split; [apply repeat_length|]. intros I. apply repeat_spec in I. discriminate. }
  split; [intros t|intros m t]; unfold preimage_of, signature_for.
  - destruct (pass_of_cases [] t) as [(u & _ & Lu & ->)|[_ ->]]; [|exact A]. cbn [p_preimage].
    split; [apply b64_88, Lu|apply b64encode_no_space].
  - destruct (pass_of_cases m t) as [(u & _ & Lu & ->)|[_ ->]]; [|exact A]. cbn [p_signature].
    split; [apply b64_88, (law_mac_size Law)|apply b64encode_no_space].
Qed.

(** A token made by the holder of the key is good. *)
Lemma token_good k p m t : length p = 64%nat -> token_text t = token_for L k p ->
  signed_by L k m (preimage_of L token_text t) (signature_for L token_text m t) = true.
Proof.
  intros Lp E. unfold preimage_of, signature_for, pass_of. rewrite E.
  pose proof (@passes_of_tokens L Law [] k [p] (Forall_cons _ Lp (Forall_nil _))) as E1.
  pose proof (@passes_of_tokens L Law m k [p] (Forall_cons _ Lp (Forall_nil _))) as E2. cbn [map] in E1, E2.
  rewrite E1, E2. cbn [p_preimage p_signature]. rewrite signed_by_eq; [apply bytes_eqb_refl|exact Law|exact Lp|apply (law_mac_size Law)].
Qed.
End Passes.

Section Wallet.
Variable L : library.
Hypothesis Law : lawful L.
Hypothesis Hs : sound_proofs L.
Hypothesis Hg : generates L.
Variable F : Type.
Variable float_of : text -> F.
Variable float_repr : F -> text.
Variable float_zero : F -> bool.
Variable max_digits : nat.
Variable decode : bytes -> option text.
Variable depth : nat.
Variable token_text : Z -> bytes.
Variable key_text : Z -> text.
Variable allowed : list text.
Variable server_key : scalar L.
Hypothesis Hk : forall key, In key allowed -> public_key L key (smul L server_key (base_point L)).
Notation wallet := (redeemed_wallet L float_of float_repr float_zero max_digits decode depth token_text key_text allowed).

Lemma same_key key p q : public_key L key p -> public_key L key q -> p = q.
Proof.
  intros (kb & b & -> & U & _ & R) (kb' & b' & E & U' & _ & R').
  assert (kb = kb') as <-. { clear - E. revert kb' E. induction kb as [|x kb IH]; intros [|y kb'] E; try discriminate E; [reflexivity|].
    cbn in E. injection E as Ex E. f_equal; [apply bz_inj, Ex|apply IH, E]. }
  congruence.
Qed.

Lemma wallet_good d m t : wallet d -> stored d true t ->
  signed_by L server_key m (preimage_of L token_text t) (signature_for L token_text m t) = true.
Proof.
  intros (os & rs & Fo & Fh & E & Cf) S. pose proof (@spendable_source os empty_db t wf_empty Fo) as K. rewrite E in K. cbn [snd] in K.
  destruct (K S) as [X|(v & pk & toks & c & now & I & J)].
  { destruct X as (g & v & pk & [] & _). }
  destruct (Cf _ _ _ _ _ _ I) as [[Sp _] (number & counter & rts & answer & R & Iv)].
  pose proof (Hk _ (Sp eq_refl)) as Hk1.
  apply C93_tokens_are_signed_by_the_named_key in R as (k & pre & Pk & Pre & Et); try assumption.
  pose proof (same_key Pk Hk1) as Ek.
  assert (It : In (token_text t) (map (token_for L k) pre)) by (rewrite <- Et; apply in_map, J).
  apply in_map_iff in It as (p & Ep & Ip).
  assert (Lp : length p = 64%nat).
  { clear - Pre Ip. induction Pre as [|rt p' rts pre (r & rb & _ & Lp & _) Pre IH]; [destruct Ip|].
    destruct Ip as [<-|Ip]; [exact Lp|exact (IH Ip)]. }
  apply (@token_good L Law token_text server_key p m t Lp). rewrite <- Ep. unfold token_for. rewrite (Hg _ _ Ek). reflexivity.
Qed.

Lemma wallet_fresh d : wallet d -> fresh_reachable d.
Proof. intros (os & rs & Fo & Fh & E & _). exists os, rs. auto. Qed.

Lemma wallet_good_tokens d q k : wallet d -> available_count d k ->
  good_tokens (signed_by L server_key) (preimage_of L token_text) (signature_for L token_text) q d (Z.of_nat k).
Proof.
  intros W (toks & N & A & <-). exists toks. split; [exact N|]. split; [reflexivity|]. intros t I. apply A in I. destruct I as [S U].
  split; [exact S|]. split; [exact U|]. unfold good_for. apply (wallet_good _ W S).
Qed.
End Wallet.
