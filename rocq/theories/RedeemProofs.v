(** Proofs about redemption. *)
From Verif Require Import Prelude PreludeFacts BytesModel BytesProofs CborModel CborProofs StreamModel JsonModel JsonProofs VoucherModel
  PassModel ServerModel ServerSpec ServerProofs RedeemModel RedeemSpec.
From Coq Require Strings.String.
Import Coq.Strings.String.StringSyntax.
Set Implicit Arguments.

(** ** Base64 *)

Lemma b64encode_length s : (3 * length (b64encode s) = 4 * (length s + (3 - length s mod 3) mod 3))%nat.
Proof.
  induction s as [|a|a b|a b c s IH] using list3_ind; try reflexivity.
  cbn [b64encode length]. replace (S (S (S (length s)))) with (length s + 1 * 3)%nat by lia.
  rewrite Nat.mod_add by lia. lia.
Qed.

Lemma b64_88 s : length s = 64%nat -> length (b64encode s) = 88%nat.
Proof. intros H. pose proof (b64encode_length s) as E. rewrite H in E. change ((3 - 64 mod 3) mod 3)%nat with 2%nat in E. lia. Qed.
Lemma b64_128 s : length s = 96%nat -> length (b64encode s) = 128%nat.
Proof. intros H. pose proof (b64encode_length s) as E. rewrite H in E. change ((3 - 96 mod 3) mod 3)%nat with 0%nat in E. lia. Qed.

(** The characters: printable, and no space. *)
Definition b64_ok (c : byte) : bool := (33 <=? bz c) && (bz c <=? 122) && negb (bz c =? 34) && negb (bz c =? 92).
Lemma b64char_ok_sweep : forallb (fun a => b64_ok (b64char a)) all64 = true.
Proof. vm_compute. reflexivity. Qed.
Lemma b64char_ok a : 0 <= a < 64 -> b64_ok (b64char a) = true.
Proof. intros H. pose proof b64char_ok_sweep as S. rewrite forallb_forall in S. exact (S a (in_all64 H)). Qed.

Lemma b64encode_ok s : forallb b64_ok (b64encode s) = true.
Proof.
  assert (P : b64_ok x3d = true) by reflexivity.
  induction s as [|a|a b|a b c s IH] using list3_ind; cbn [b64encode forallb]; b64_bounds;
    rewrite ?P, ?b64char_ok, ?IH by (Z.to_euclidean_division_equations; lia); reflexivity.
Qed.

Lemma b64encode_no_space s : ~ In x20 (b64encode s).
Proof. intros I. pose proof (b64encode_ok s) as H. rewrite forallb_forall in H. apply H in I. discriminate. Qed.

(** ** Lists *)

Lemma all_some_Forall2 A B (f : A -> option B) l r : all_some f l = Some r <-> Forall2 (fun x y => f x = Some y) l r.
Proof.
  revert r. induction l as [|x l IH]; intros r; cbn.
  - split; [intros [= <-]; constructor|intros H; inversion H; reflexivity].
  - destruct (f x) eqn:E.
    + destruct (all_some f l) eqn:E2.
      * split; [intros [= <-]; constructor; [exact E|now apply IH]|].
        intros H. inversion H as [|? ? ? ? H1 H2]; subst. rewrite E in H1. injection H1 as <-. apply IH in H2. congruence.
      * split; [discriminate|]. intros H. inversion H as [|? ? ? ? H1 H2]; subst. apply IH in H2. discriminate.
    + split; [discriminate|]. intros H. inversion H as [|? ? ? ? H1 H2]; subst. congruence.
Qed.

Lemma all_some_map A B C (g : A -> B) (f : B -> option C) (h : A -> C) l :
  (forall x, In x l -> f (g x) = Some (h x)) -> all_some f (map g l) = Some (map h l).
Proof.
  induction l as [|x l IH]; intros H; cbn; [reflexivity|]. rewrite (H x (or_introl eq_refl)).
  rewrite IH; [reflexivity|]. intros y I. apply H. right. exact I.
Qed.

Lemma firstn_exact A (a b : list A) n : length a = n -> firstn n (a ++ b) = a.
Proof. intros <-. rewrite firstn_app, Nat.sub_diag, firstn_all. cbn. apply app_nil_r. Qed.
Lemma skipn_exact A (a b : list A) n : length a = n -> skipn n (a ++ b) = b.
Proof. intros <-. rewrite skipn_app, Nat.sub_diag, skipn_all. reflexivity. Qed.

(** ** ASCII *)

Lemma ascii_ok (b : bytes) : forallb (fun c => bz c <? 128) b = true -> string_ok (CborModel.ascii b) = true.
Proof.
  intros H. unfold string_ok. apply andb_true_iff. split.
  - unfold CborModel.ascii. apply forallb_forall. intros c I. apply in_map_iff in I as (x & <- & _). pose proof (bz_range x).
    unfold char_ok. lia.
  - induction b as [|x b IH]; [reflexivity|]. cbn [CborModel.ascii map no_pairs]. cbn [forallb] in H.
    apply andb_true_iff in H as [Hx Hb]. change (map bz b) with (CborModel.ascii b). rewrite (IH Hb), andb_true_r.
    unfold CborModel.ascii. destruct b as [|y b]; cbn [map]; [reflexivity|]. unfold is_high. pose proof (bz_range x). lia.
Qed.

Lemma b64_ascii b : forallb (fun c => bz c <? 128) (b64encode b) = true.
Proof.
  pose proof (b64encode_ok b) as H. apply forallb_forall. rewrite forallb_forall in H. intros c I. apply H in I.
  unfold b64_ok in I. lia.
Qed.

Lemma decode_ascii_Some b t : decode_ascii b = Some t -> t = CborModel.ascii b /\ forallb (fun c => bz c <? 128) b = true.
Proof. unfold decode_ascii. destruct (forallb _ b); [|discriminate]. intros [= <-]. auto. Qed.

Lemma encode_ascii_ascii b : forallb (fun c => bz c <? 128) b = true -> encode_ascii (CborModel.ascii b) = Some b.
Proof.
  intros H. unfold encode_ascii, CborModel.ascii. rewrite forallb_forall in H.
  replace (forallb (fun c => (0 <=? c) && (c <? 128)) (map bz b)) with true.
  - rewrite map_map. rewrite <- (map_id b) at 2. f_equal. apply map_ext. intros x. apply zb_bz.
  - symmetry. apply forallb_forall. intros c I. apply in_map_iff in I as (x & <- & I). apply H in I. pose proof (bz_range x). lia.
Qed.

Lemma encode_ascii_Some s b : encode_ascii s = Some b -> s = CborModel.ascii b.
Proof.
  unfold encode_ascii. destruct (forallb _ s) eqn:E; [|discriminate]. intros [= <-]. unfold CborModel.ascii. rewrite map_map.
  rewrite <- (map_id s) at 1. apply map_ext_in. intros c I. rewrite forallb_forall in E. apply E in I.
  rewrite bz_zb. symmetry. apply Z.mod_small. lia.
Qed.

Section Facts.
Variable L : library.
Hypothesis Law : lawful L.

(** ** Objects of the library *)

Lemma read64_b64 n b : length b = n -> read64 L n (b64encode b) = Some b.
Proof. intros H. unfold read64. rewrite (law_unb64 Law), H, Nat.eqb_refl. reflexivity. Qed.

Lemma read64_Some n s b : read64 L n s = Some b <-> unb64 L s = Some b /\ length b = n.
Proof.
  unfold read64. destruct (unb64 L s) as [c|]; [|split; [discriminate|now intros [? _]]].
  destruct (Nat.eqb_spec (length c) n).
  - split; [intros [= <-]; split; [reflexivity|assumption]|intros [[= <-] _]; reflexivity].
  - split; [discriminate|intros [[= <-] ?]; contradiction].
Qed.

Lemma read_random_Some rt t : read_random L rt = Some t <-> random_of L rt (r_preimage t) (r_scalar t).
Proof.
  unfold read_random, random_of. destruct (read64 L 96 rt) as [b|] eqn:E.
  - apply read64_Some in E as (E & Lb). destruct (read_scalar L (skipn 64 b)) as [r|] eqn:R.
    + split.
      * intros Eq. assert (Random L (firstn 64 b) r = t) as <- by congruence. cbn [r_preimage r_scalar]. exists (skipn 64 b). rewrite firstn_skipn. repeat split; try assumption.
        -- rewrite firstn_length. lia.
        -- rewrite skipn_length. lia.
      * intros (rb & U & Lp & Lr & Rs). destruct t as [p s]. cbn [r_preimage r_scalar] in *. rewrite E in U. injection U as ->.
        rewrite skipn_exact in R by exact Lp. rewrite firstn_exact by exact Lp. congruence.
    + split; [discriminate|]. intros (rb & U & Lp & Lr & Rs). rewrite E in U. injection U as ->.
      rewrite skipn_exact in R by exact Lp. congruence.
  - split; [discriminate|]. intros (rb & U & Lp & Lr & Rs).
    assert (read64 L 96 rt = Some (r_preimage t ++ rb)).
    { apply read64_Some. split; [exact U|]. rewrite app_length. lia. }
    congruence.
Qed.

Lemma read_unblinded_token_for k t : length t = 64%nat ->
  read_unblinded L (token_for L k t) = Some (rederive L k t).
Proof.
  intros H. unfold read_unblinded, token_for. rewrite read64_b64.
  - rewrite skipn_exact by exact H. rewrite firstn_exact by exact H. rewrite (law_point Law). reflexivity.
  - rewrite app_length, (law_point_size Law). lia.
Qed.

Lemma write_unblinded_rederive k t : write_unblinded (rederive L k t) = token_for L k t.
Proof. reflexivity. Qed.

(** ** Passes *)

Lemma token_to_pass_eq message k t : length t = 64%nat ->
  token_to_pass message (rederive L k t) = Some (Pass (b64encode t) (b64encode (mac_under L k t message))).
Proof.
  intros H. unfold token_to_pass, make_pass, base64_bytes, token_signature. cbn [rederive u_preimage u_point].
  rewrite !b64_88 by (try exact H; apply (law_mac_size Law)). reflexivity.
Qed.

Lemma passes_of_tokens message k ts : Forall (fun t => length t = 64%nat) ts ->
  tokens_to_passes L message (map (token_for L k) ts) =
  Some (map (fun t => Pass (b64encode t) (b64encode (mac_under L k t message))) ts).
Proof.
  intros H. rewrite Forall_forall in H. unfold tokens_to_passes.
  rewrite (@all_some_map _ _ _ (token_for L k) _ (rederive L k)) by (intros x I; now apply read_unblinded_token_for, H).
  cbn [bind_o].
  apply all_some_map. intros x I. now apply token_to_pass_eq, H.
Qed.

Lemma signed_by_eq k m t s : length t = 64%nat -> length s = 64%nat ->
  signed_by L k m (b64encode t) (b64encode s) = bytes_eqb s (mac_under L k t m).
Proof. intros Ht Hs. unfold signed_by. rewrite !read64_b64 by assumption. reflexivity. Qed.

Lemma pass_well_formed k t m : length t = 64%nat ->
  well_formed (pass_bytes (Pass (b64encode t) (b64encode (mac_under L k t m)))).
Proof.
  intros H. exists (b64encode t), (b64encode (mac_under L k t m)). split; [reflexivity|].
  rewrite !b64_88 by (try exact H; apply (law_mac_size Law)). repeat split; apply b64encode_no_space.
Qed.

Lemma from_bytes_pass k t m : length t = 64%nat ->
  let p := Pass (b64encode t) (b64encode (mac_under L k t m)) in from_bytes (pass_bytes p) = Some p.
Proof.
  intros H p. unfold pass_bytes. rewrite from_bytes_split by apply b64encode_no_space.
  unfold make_pass, base64_bytes. cbn [p_preimage p_signature p].
  rewrite !b64_88 by (try exact H; apply (law_mac_size Law)). reflexivity.
Qed.

Lemma bytes_eqb_refl b : bytes_eqb b b = true.
Proof. destruct (bytes_eqb_spec b b); congruence. Qed.

Lemma validated k m ts i : Forall (fun t => length t = 64%nat) ts ->
  validate_loop (signed_by L k) m i
    (map (fun t => pass_bytes (Pass (b64encode t) (b64encode (mac_under L k t m)))) ts) =
  Ok (Validation (map b64encode ts) []).
Proof.
  intros H. revert i. induction H as [|t ts Ht _ IH]; intros i; [reflexivity|].
  cbn [map validate_loop]. rewrite from_bytes_pass by exact Ht. rewrite IH. cbn [bind].
  unfold is_invalid_pass. cbn [p_preimage p_signature]. rewrite signed_by_eq by (try exact Ht; apply (law_mac_size Law)).
  rewrite bytes_eqb_refl. reflexivity.
Qed.

(** ** What the redemption yields *)

Section Answer.
Variable F : Type.
Variable float_of : text -> F.
Variable float_repr : F -> text.
Variable float_zero : F -> bool.
Variable max_digits : nat.
Variable decode : bytes -> option text.
Variable depth : nat.
Notation redeem := (redeem L float_of float_repr float_zero max_digits decode depth).
Notation redeem_answer := (redeem_answer (L:=L) float_of float_zero max_digits decode depth).
Notation redeem_request := (redeem_request L float_repr).

Notation object_in := (RedeemSpec.object_in float_of max_digits decode depth).

Lemma falsy_spec j : falsy float_zero j = true <-> counts_as_false float_zero j.
Proof.
  destruct j as [|b|n|f|[|]|[|]|[|]]; cbn; try tauto; try (split; congruence).
  - destruct b; cbn; split; congruence.
  - apply Z.eqb_eq.
Qed.

Lemma falsy_success o : 
  falsy float_zero (match jget (str "success") o with Some j => j | None => JBool false end) = false <-> claims_success float_zero o.
Proof.
  unfold claims_success. destruct (jget (str "success") o) as [j|].
  - split.
    + intros H. exists j. split; [reflexivity|]. intros C. apply falsy_spec in C. congruence.
    + intros (j' & [= <-] & N). destruct (falsy float_zero j) eqn:E; [|reflexivity]. apply falsy_spec in E. contradiction.
  - split; [discriminate|]. intros (j & [=] & _).
Qed.

Lemma ror_ok A e (o : option A) x : ror e o = Ok x -> o = Some x.
Proof. destruct o; cbn; congruence. Qed.
Lemma bind_ok E A B (r : res E A) (k : A -> res E B) y : (x <- r ;; k x) = Ok y -> exists x, r = Ok x /\ k x = Ok y.
Proof. destruct r as [x|]; cbn; [eauto|discriminate]. Qed.

Definition refusal (e : rexn) : Prop := e = RAlreadySpent \/ e = RUnpaid.
Lemma bind_refusal A B (r : res rexn A) (k : A -> res rexn B) e : refusal e ->
  (forall e', r = Err e' -> ~ refusal e') -> (forall x, r = Ok x -> k x <> Err e) -> (x <- r ;; k x) <> Err e.
Proof. intros R N K. destruct r as [x|e']; cbn; [now apply K|]. intros [= <-]. exact (N _ eq_refl R). Qed.
Lemma ror_refusal A e' (o : option A) : ~ refusal e' -> forall e, ror e' o = Err e -> ~ refusal e.
Proof. intros N e. destruct o; cbn; [discriminate|]. intros [= <-]. exact N. Qed.
Lemma other_refusal : ~ refusal ROther.
Proof. intros [|]; discriminate. Qed.
Lemma proof_refusal : ~ refusal RProof.
Proof. intros [|]; discriminate. Qed.

Lemma success_no_refusal basic (o : list (text * json F)) e : refusal e -> @redeem_success L F basic o <> Err e.
Proof.
  intros R. unfold redeem_success.
  repeat (apply bind_refusal; [exact R|apply ror_refusal; first [exact other_refusal|exact proof_refusal]|intros ? _]).
  cbv zeta. destruct (forallb _ _); [|intros [= <-]; exact (other_refusal R)].
  match goal with |- match ?j with _ => _ end <> _ => destruct j; try discriminate; intros [= <-]; exact (other_refusal R) end.
Qed.

Lemma text_eqb_true a b : text_eqb a b = true <-> a = b.
Proof. destruct (text_eqb_spec a b); split; congruence. Qed.

Lemma answer_refusal basic answer :
  (redeem_answer basic answer = Err RAlreadySpent <-> refuses float_zero object_in (str "double-spend") answer) /\
  (redeem_answer basic answer = Err RUnpaid <-> refuses float_zero object_in (str "unpaid") answer).
Proof.
  assert (NN : forall r, refuses float_zero object_in r None <-> False).
  { intros r. split; [|intros []]. intros (c & b & o & [=] & _). }
  unfold RedeemModel.redeem_answer. destruct answer as [[code body]|]; [|rewrite !NN; split; split; try discriminate; intros []].
  assert (NB : forall r, refuses float_zero object_in r (Some (code, body)) <->
      exists o, object_in body = Some o /\ ~ claims_success float_zero o /\ jget (str "reason") o = Some (JStr r)).
  { intros r. split.
    - intros (c & b & o & [= -> ->] & H). exists o. exact H.
    - intros (o & H). exists code, body, o. split; [reflexivity|exact H]. }
  rewrite !NB. clear NN NB. unfold RedeemSpec.object_in.
  destruct (loads float_of max_digits decode depth body) as [[| | | | | |o]|[|]];
    try (split; split; [discriminate|intros (? & [=] & _)|discriminate|intros (? & [=] & _)]).
  cbv zeta. destruct (falsy _ _) eqn:Fs.
  - assert (NC : ~ claims_success float_zero o) by (rewrite <- falsy_success; congruence).
    assert (Q : forall r, (exists o', Some o = Some o' /\ ~ claims_success float_zero o' /\ jget (str "reason") o' = Some (JStr r))
                 <-> jget (str "reason") o = Some (JStr r)).
    { intros r. split; [intros (o' & [= <-] & _ & H); exact H|]. intros H. exists o. auto. }
    rewrite !Q. destruct (jget (str "reason") o) as [[| | | |s| |]|]; try (split; split; discriminate).
    destruct (text_eqb_spec s (str "double-spend")) as [->|N1].
    + split; split; try reflexivity; discriminate.
    + destruct (text_eqb_spec s (str "unpaid")) as [->|N2].
      * split; split; try reflexivity; discriminate.
      * split; split; try discriminate; intros [= ->]; contradiction.
  - apply falsy_success in Fs.
    split; split; try (intros H; exfalso; eapply success_no_refusal; [|exact H]; unfold refusal; auto; fail);
      intros (o' & [= <-] & N & _); contradiction.
Qed.

Lemma redeem_steps number counter rts answer e :
  redeem number counter rts answer = Err e -> refusal e ->
  exists body basic, redeem_request number counter rts = Ok body /\ all_some (read_random L) rts = Some basic /\ redeem_answer basic answer = Err e.
Proof.
  unfold RedeemModel.redeem, RedeemModel.redeem_request. intros H R.
  destruct (all_some (read_random L) rts) as [basic|] eqn:E; cbn [ror bind] in *; [|injection H as <-; elim (other_refusal R)].
  destruct (decode_ascii number); cbn [ror bind] in *; [|injection H as <-; elim (other_refusal R)].
  eexists. exists basic. split; [reflexivity|]. split; [reflexivity|exact H].
Qed.

Lemma redeem_meaning number counter rts answer body : redeem_request number counter rts = Ok body ->
  (redeem number counter rts answer = Err RAlreadySpent <-> refuses float_zero object_in (str "double-spend") answer) /\
  (redeem number counter rts answer = Err RUnpaid <-> refuses float_zero object_in (str "unpaid") answer).
Proof.
  intros R. unfold RedeemModel.redeem. rewrite R. cbn [bind].
  unfold RedeemModel.redeem_request in R. destruct (all_some (read_random L) rts) as [basic|]; [|discriminate]. cbn [ror bind].
  apply answer_refusal.
Qed.

(** ** Success *)

Lemma combine_unblind k (basic : list (random_token L)) : Forall (fun t => invertible L (r_scalar t)) basic ->
  map (fun ts => unblind (fst ts) (snd ts)) (combine basic (map (smul L k) (map (blind (L:=L)) basic))) =
  map (fun t => rederive L k (r_preimage t)) basic.
Proof.
  induction 1 as [|t basic Ht _ IH]; [reflexivity|]. cbn [map combine]. rewrite IH. f_equal.
  unfold unblind, rederive, blind. cbn [fst snd]. f_equal. rewrite (law_smul Law k). apply Ht.
Qed.

Lemma redeem_success_story basic o ts key : sound_proofs L -> Forall (fun t => invertible L (r_scalar t)) basic ->
  @redeem_success L F basic o = Ok (ts, key) ->
  exists k kb, jget (str "public-key") o = Some (JStr key) /\ encode_ascii key = Some kb /\
    read64 L 32 kb <> None /\ bind_o (read64 L 32 kb) (read_point L) = Some (smul L k (base_point L)) /\
    ts = map (fun t => token_for L k (r_preimage t)) basic.
Proof.
  intros S Iv H. unfold redeem_success in H.
  apply bind_ok in H as (pk & Hpk & H). apply ror_ok in Hpk.
  apply bind_ok in H as (mp & Hmp & H). apply ror_ok in Hmp.
  apply bind_ok in H as (sg & Hsg & H). apply ror_ok in Hsg.
  apply bind_ok in H as (ms & Hms & H). apply ror_ok in Hms.
  apply bind_ok in H as (pub & Hpub & H). apply ror_ok in Hpub.
  apply bind_ok in H as (sgn & Hsgn & H). apply ror_ok in Hsgn.
  apply bind_ok in H as (prf & Hprf & H). apply ror_ok in Hprf.
  apply bind_ok in H as (ub & Hub & H). apply ror_ok in Hub.
  cbv zeta in H. destruct (forallb _ _); [|discriminate]. destruct pk as [| | | |s| |]; try discriminate.
  apply (f_equal (fun r => match r with Ok p => p | Err _ => (ts, key) end)) in H. apply pair_equal_spec in H. destruct H as [<- <-].
  unfold invalid_or_unblind in Hub. destruct (verify L prf _ sgn pub) eqn:V; [|discriminate]. apply S in V as (k & -> & ->).
  injection Hub as <-. rewrite combine_unblind by exact Iv.
  unfold ascii_bytes in Hpub. destruct (encode_ascii s) as [kb|] eqn:Ek; [|discriminate]. cbn [bind_o] in Hpub.
  exists k, kb. split; [exact Hpk|]. split; [reflexivity|].
  unfold read_point64 in Hpub. destruct (read64 L 32 kb) as [x|]; [|discriminate]. split; [discriminate|]. split; [exact Hpub|].
  rewrite map_map. reflexivity.
Qed.

Lemma redeem_success_claimed number counter rts answer r : redeem number counter rts answer = Ok r ->
  exists code body o basic, answer = Some (code, body) /\ object_in body = Some o /\ claims_success float_zero o /\
    Forall2 (fun rt t => random_of L rt (r_preimage t) (r_scalar t)) rts basic /\ @redeem_success L F basic o = Ok r.
Proof.
  unfold RedeemModel.redeem. intros H. apply bind_ok in H as (b & _ & H). apply bind_ok in H as (basic & B & H). apply ror_ok in B.
  unfold RedeemModel.redeem_answer in H. destruct answer as [[code body]|]; [|discriminate].
  unfold RedeemSpec.object_in. destruct (loads float_of max_digits decode depth body) as [[| | | | | |o]|[|]] eqn:Lo; try discriminate.
  cbv zeta in H. destruct (falsy _ _) eqn:Fs.
  - destruct (jget (str "reason") o) as [[| | | |s| |]|]; try discriminate. destruct (text_eqb _ _); [discriminate|].
    destruct (text_eqb _ _); discriminate.
  - exists code, body, o, basic. rewrite Lo. apply falsy_success in Fs. repeat split; try assumption.
    apply all_some_Forall2 in B. clear -B. induction B; constructor; [apply read_random_Some; assumption|assumption].
Qed.

(** ** The request *)

Lemma request_eq number counter rts basic n : all_some (read_random L) rts = Some basic -> decode_ascii number = Some n ->
  redeem_request number counter rts = Ok (dumps_utf8 float_repr
    (JObj [(str "redeemVoucher", JStr n); (str "redeemCounter", JInt counter);
           (str "redeemTokens", JArr (map (fun t => JStr (CborModel.ascii (blinded_text L (r_preimage t) (r_scalar t)))) basic))])).
Proof. intros A N. unfold RedeemModel.redeem_request. rewrite A, N. reflexivity. Qed.

Lemma request_readable number counter rts body :
  decodes_ascii decode -> (2 <= depth)%nat -> (length (nat_digits counter) <= max_digits)%nat ->
  redeem_request number counter rts = Ok body ->
  exists ts, Forall2 (fun rt tr => random_of L rt (fst tr) (snd tr)) rts ts /\
  object_in body = Some [(str "redeemVoucher", JStr (CborModel.ascii number)); (str "redeemCounter", JInt counter);
     (str "redeemTokens", JArr (map (fun tr => JStr (CborModel.ascii (blinded_text L (fst tr) (snd tr)))) ts))].
Proof.
  intros Dc Dp Dg R. unfold RedeemModel.redeem_request in R.
  apply bind_ok in R as (basic & B & R). apply ror_ok in B. apply bind_ok in R as (n & N & R). apply ror_ok in N.
  injection R as <-. exists (map (fun t => (r_preimage t, r_scalar t)) basic). split.
  - apply all_some_Forall2 in B. induction B as [|rt t rts basic H _ IH]; constructor; [|exact IH]. apply read_random_Some, H.
  - apply decode_ascii_Some in N as [-> Na]. unfold RedeemSpec.object_in. rewrite loads_dumps; [|exact Dc| |].
    + rewrite map_map. reflexivity.
    + cbn [writable fst snd]. split; [|repeat split; try reflexivity].
      * repeat constructor; cbn; intuition discriminate.
      * apply ascii_ok, Na.
      * exact Dg.
      * generalize basic. intros l. induction l as [|t l IH]; cbn [map]; [exact I|]. split; [|exact IH]. apply ascii_ok, b64_ascii.
    + cbn [depth_of fst snd]. rewrite !Nat.max_0_r, !Nat.max_0_l.
      assert (Z : forall l : list (random_token L), (fix most (l : list (json F)) : nat :=
         match l with [] => O | x :: l' => Nat.max (depth_of x) (most l') end)
         (map (fun t => JStr (CborModel.ascii (write_blinded L (blind t)))) l) = O).
      { induction l as [|x l IH]; [reflexivity|]. cbn [map depth_of]. rewrite Nat.max_0_l. exact IH. }
      rewrite Z. exact Dp.
Qed.

Lemma honest_read k proof ts : decodes_ascii decode -> (2 <= depth)%nat ->
  loads float_of max_digits decode depth (dumps_utf8 float_repr (honest_answer L F k proof ts)) = Ok (honest_answer L F k proof ts).
Proof.
  intros Dc Dp. apply loads_dumps; [exact Dc| |].
  - unfold honest_answer. cbn [writable fst snd]. split; [|repeat split; try reflexivity].
    + repeat constructor; cbn; intuition discriminate.
    + apply ascii_ok, b64_ascii.
    + induction ts as [|t ts IH]; cbn [map]; [exact I|]. split; [|exact IH]. apply ascii_ok, b64_ascii.
    + apply ascii_ok, b64_ascii.
  - unfold honest_answer. cbn [depth_of fst snd]. rewrite ?Nat.max_0_r, ?Nat.max_0_l.
    match goal with |- (S (S ?m) <= _)%nat => assert (Z : m = O) end.
    { induction ts as [|x ts IH]; [reflexivity|]. cbn [map depth_of]. rewrite Nat.max_0_l. exact IH. }
    rewrite Z. exact Dp.
Qed.

Lemma read_point64_b64 p : bind_o (ascii_bytes (F:=F) (JStr (CborModel.ascii (b64encode (write_point L p))))) (read_point64 L) = Some p.
Proof.
  cbn [ascii_bytes]. rewrite encode_ascii_ascii by apply b64_ascii. cbn [bind_o]. unfold read_point64.
  rewrite read64_b64 by apply (law_point_size Law). apply (law_point Law).
Qed.

Lemma honest_redeem number counter rts ts code k proof body :
  decodes_ascii decode -> (2 <= depth)%nat ->
  redeem_request number counter rts = Ok body ->
  Forall2 (fun rt tr => random_of L rt (fst tr) (snd tr)) rts ts ->
  Forall (fun tr => invertible L (snd tr)) ts ->
  proves L proof k ts ->
  redeem number counter rts (Some (code, dumps_utf8 float_repr (honest_answer L F k proof ts))) =
  Ok (map (fun tr => token_for L k (fst tr)) ts, CborModel.ascii (b64encode (write_point L (smul L k (base_point L))))).
Proof.
  intros Dc Dp R B Iv (Lp & pr & Rp & V). unfold RedeemModel.redeem. rewrite R. cbn [bind].
  set (basic := map (fun tr => Random L (fst tr) (snd tr)) ts).
  assert (Bs : all_some (read_random L) rts = Some basic).
  { apply all_some_Forall2. unfold basic. clear -B. induction B; constructor; [apply read_random_Some; exact H|exact IHB]. }
  assert (Bd : map (blind (L:=L)) basic = map (fun tr => smul L (snd tr) (hash_to_point L (fst tr))) ts).
  { unfold basic. rewrite map_map. reflexivity. }
  assert (Len : Forall (fun tr => length (fst tr) = 64%nat) ts).
  { clear -B. induction B as [|? ? ? ? (rb & _ & Lt & _)]; constructor; assumption. }
  rewrite Bs. cbn [ror bind]. unfold RedeemModel.redeem_answer. rewrite honest_read by assumption.
  unfold honest_answer. cbv zeta.
  change (jget (str "success") _) with (Some (JBool (F:=F) true)). cbn [falsy negb].
  unfold redeem_success.
  match goal with |- context [jget (str "public-key") ?o] =>
    change (jget (str "public-key") o) with (Some (JStr (F:=F) (CborModel.ascii (b64encode (write_point L (smul L k (base_point L)))))));
    change (jget (str "proof") o) with (Some (JStr (F:=F) (CborModel.ascii (b64encode proof))));
    change (jget (str "signatures") o) with (Some (JArr (map (fun tr => JStr (F:=F) (CborModel.ascii (b64encode (write_point L (smul L k (smul L (snd tr) (hash_to_point L (fst tr)))))))) ts)))
  end.
  cbn [ror bind elements]. rewrite read_point64_b64. cbn [ror bind].
  rewrite (@all_some_map _ _ _ _ _ (fun tr => smul L k (smul L (snd tr) (hash_to_point L (fst tr))))) by (intros; apply read_point64_b64).
  cbn [ror bind].
  replace (bind_o (ascii_bytes (JStr (F:=F) (CborModel.ascii (b64encode proof)))) (read_proof L)) with (Some pr).
  2:{ cbn [ascii_bytes]. rewrite encode_ascii_ascii by apply b64_ascii. cbn [bind_o]. unfold read_proof. rewrite read64_b64 by exact Lp. auto. }
  cbn [ror bind]. unfold invalid_or_unblind. rewrite Bd.
  cbv zeta in V. rewrite map_map in V. rewrite V. cbn [ror bind].
  assert (U : map (fun ts0 => unblind (fst ts0) (snd ts0))
     (combine basic (map (fun tr => smul L k (smul L (snd tr) (hash_to_point L (fst tr)))) ts)) = map (fun tr => rederive L k (fst tr)) ts).
  { replace (map (fun tr => smul L k (smul L (snd tr) (hash_to_point L (fst tr)))) ts) with (map (smul L k) (map (blind (L:=L)) basic)).
    - rewrite combine_unblind; [unfold basic; rewrite map_map; reflexivity|]. unfold basic. apply Forall_map. exact Iv.
    - rewrite Bd, map_map. reflexivity. }
  rewrite U, map_map. cbv zeta.
  match goal with |- (if ?c then _ else _) = _ => replace c with true end; [reflexivity|].
  symmetry. apply forallb_forall. intros x I. apply in_map_iff in I as (tr & <- & I). rewrite write_unblinded_rederive.
  unfold base64_bytes, token_for. apply Nat.eqb_eq, b64_128. rewrite app_length, (law_point_size Law).
  rewrite Forall_forall in Len. change 96%nat with (64 + 32)%nat. f_equal. exact (Len _ I).
Qed.

End Answer.

(** ** Blinding *)

Section Blinding.
Variable F : Type.
Variable float_repr : F -> text.
Notation redeem_request := (redeem_request L float_repr).

Lemma rebind number counter rts body ts' :
  all_scalars L -> redeem_request number counter rts = Ok body -> length ts' = length rts ->
  Forall (fun t => length t = 64%nat /\ reaches_all L (hash_to_point L t)) ts' ->
  exists rts', Forall2 (fun rt t => exists r, random_of L rt t r) rts' ts' /\
               redeem_request number counter rts' = Ok body.
Proof.
  intros All R Len H. unfold RedeemModel.redeem_request in R.
  apply bind_ok in R as (basic & B & R). apply ror_ok in B. apply bind_ok in R as (n & N & R). apply ror_ok in N.
  injection R as <-. apply all_some_Forall2 in B.
  assert (K : exists rts' basic', Forall2 (fun rt t => exists r, random_of L rt t r) rts' ts' /\
     Forall2 (fun rt t => read_random L rt = Some t) rts' basic' /\ map (blind (L:=L)) basic' = map (blind (L:=L)) basic).
  { clear N. revert ts' Len H. induction B as [|rt t rts basic _ _ IH]; intros [|t' ts'] Len H; try discriminate Len.
    - exists [], []. repeat constructor.
    - cbn in Len. inversion H as [|? ? [Lt Rt] H']; subst. destruct (IH ts') as (rts' & basic' & A & C & D); [lia|exact H'|].
      destruct (Rt (blind t)) as (s & Es). destruct (All s) as (sb & Ls & Rs).
      assert (Ro : random_of L (b64encode (t' ++ sb)) t' s).
      { exists sb. rewrite (law_unb64 Law). auto. }
      exists (b64encode (t' ++ sb) :: rts'), (Random L t' s :: basic'). repeat split.
      + constructor; [exists s; exact Ro|exact A].
      + constructor; [|exact C]. apply read_random_Some. exact Ro.
      + cbn [map]. rewrite D. f_equal. exact Es. }
  destruct K as (rts' & basic' & A & C & D). exists rts'. split; [exact A|].
  unfold RedeemModel.redeem_request. apply all_some_Forall2 in C. rewrite C, N. cbn [ror bind].
  assert (Q : map (fun t => JStr (F:=F) (CborModel.ascii (write_blinded L (blind t)))) basic' =
              map (fun t => JStr (F:=F) (CborModel.ascii (write_blinded L (blind t)))) basic).
  { rewrite <- !(map_map (blind (L:=L)) (fun p => JStr (F:=F) (CborModel.ascii (write_blinded L p)))). rewrite D. reflexivity. }
  rewrite Q. reflexivity.
Qed.
End Blinding.
End Facts.
