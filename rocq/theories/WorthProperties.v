(** Property theorems C141: a voucher buys as much storage as it is worth. *)
From Verif Require Import Prelude PreludeFacts BytesModel BytesProofs PassModel PricingModel PricingSpec PricingProofs PricingProperties
  ContainerModel ContainerProofs TahoeModel CborModel StreamModel JsonModel RedeemModel RedeemSpec RedeemProofs RedeemProperties
  ServerModel ServerSpec ServerProofs ServerStateProofs ServerRequestProofs
  StoreModel StoreSpec StoreProofs StoreProperties SpendModel SpendSpec SpendProofs SpendProperties
  ClientModel ClientProofs ServerProperties ClientProperties EnoughSpec EnoughProofs EnoughProperties PaidSpec PaidProofs PaidProperties
  LeaseModel LeaseSpec LeaseProofs LeaseProperties BoughtSpec UpkeepModel UpkeepSpec UpkeepProofs UpkeepProperties WholeProperties
  UploadModel UploadSpec UploadProofs UploadProperties LifeProperties.
From Verif Require Import ControllerModel ControllerSpec ControllerProofs ControllerRunProofs ControllerProperties LossModel LossProofs
  PurseSpec PurseProperties WorthSpec WorthProofs.
From Coq Require Import Permutation.
From Coq Require Strings.String.
Import Coq.Strings.String.StringSyntax.

(** ** The count *)
Lemma own_in_use d o : wf d -> own o -> in_use (snd (StoreModel.step d o)) = in_use d.
Proof.
  intros W H. destruct o; cbn [own] in H; try contradiction.
  - rewrite step_add_eq by exact W. destruct (filter _ (tokens d)); [|reflexivity]. cbv zeta.
    destruct (exec_muts _ _) as [d2|x] eqn:E2; [|reflexivity]. cbn [snd].
    destruct (memZ_spec voucher (map v_number (vouchers d))) as [Hv|Hv];
      (apply ins_token_Ok in E2; [destruct E2 as (_ & _ & ->); reflexivity|]).
    + exact Hv.
    + cbn. rewrite map_app. apply in_or_app; right; left; reflexivity.
  - rewrite step_insert_eq by exact W. destruct (filter _ (vouchers d)); [reflexivity|]. cbv zeta.
    destruct (exec_muts _ _) as [d2|x] eqn:E2; [|reflexivity]. cbn [snd].
    apply ins_unblinded_Ok in E2. destruct E2 as (_ & _ & ->). reflexivity.
  - rewrite step_double_eq. cbv zeta. destruct (filter _ (vouchers d)); reflexivity.
Qed.
Lemma own_steps_in_use os : Forall own os -> forall d, wf d -> in_use d = [] -> in_use (snd (steps d os)) = [].
Proof.
  induction 1 as [|o os H Fo IH]; intros d W E; [exact E|]. cbn [steps]. pose proof (@wf_step d o W (own_fair _ H)) as W1. pose proof (@own_in_use d o W H) as E1.
  destruct (StoreModel.step d o) as [r d1]. cbn [snd] in *. specialize (IH d1 W1). destruct (steps d1 os) as [rs d2]. apply IH. congruence.
Qed.

Section Count.
Variables (groups dflt : Z) (allowed : list Z).
Notation cstep := (controller_step groups dflt allowed).
Notation crun := (controller_run groups dflt allowed).

Lemma step_in_use c te : wf (c_db c) -> (forall w, fst (fst te) <> EWallet w) -> in_use (c_db c) = [] -> in_use (c_db (snd (cstep c te))) = [].
Proof.
  intros W N E. rewrite step_db. pose proof (@calls_own groups dflt allowed c te N) as Fo. set (os := controller_calls _ _ _ _ _) in *. clearbody os.
  assert (B : in_use (begin (fst (fst te)) (c_db c)) = [] /\ wf (begin (fst (fst te)) (c_db c))).
  { unfold begin. destruct (fst (fst te)); (split; [exact E || reflexivity|]); try exact W; now apply wf_restart. }
  destruct B as [B1 B2]. pose proof (own_steps_in_use _ Fo _ B2 B1) as X. unfold finish. destruct (fst (fst te)); try exact X; reflexivity.
Qed.
(** In a wallet only redemption has used the tokens are those received, and none is in use. *)
Lemma unused_tokens es2 : forall es out c, lived groups dflt allowed es out c -> Forall proper es2 -> unused es2 ->
  in_use (c_db c) = [] -> map u_token (unblinded (c_db c)) = credited_tokens out ->
  in_use (c_db (snd (crun c es2))) = [] /\ map u_token (unblinded (c_db (snd (crun c es2)))) = credited_tokens (out ++ fst (crun c es2)).
Proof.
  induction es2 as [|te es2 IH]; intros es out c Lv P U E M; [cbn; rewrite app_nil_r; auto|]. inversion P as [|? ? P1 P2]; subst.
  assert (N : forall w, fst (fst te) <> EWallet w) by (intros w; apply U; now left).
  pose proof (@lived_step groups dflt allowed es out c te Lv P1) as L1. pose proof (@step_in_use c te (i_wf (lived_inv Lv)) N E) as E1.
  destruct (C29_received_tokens_are_stored _ _ _ _ _ _ _ _ _ Lv P1 N (surjective_pairing (cstep c te))) as (A & _).
  cbn [controller_run]. specialize (IH _ _ _ L1 P2 (fun te' o J => U te' o (or_intror J)) E1).
  destruct (cstep c te) as [o c1]. cbn [fst snd] in *. destruct (crun c1 es2) as [o2 c2]. cbn [fst snd] in *. rewrite app_assoc. apply IH.
  rewrite A, M. unfold credited_tokens. symmetry. apply flat_map_app.
Qed.

Lemma given_tokens out : map fst (given out) = credited_tokens out.
Proof.
  unfold given, credited_tokens. induction out as [|x out IH]; [reflexivity|]. cbn [flat_map]. rewrite map_app, IH. f_equal.
  destruct x as [|v k toks s|]; try reflexivity. rewrite map_map. apply map_id.
Qed.
Definition spendables (p : purse) : list Z := map fst (filter snd p).
Lemma in_spendables t p : In t (spendables p) <-> In (t, true) p.
Proof.
  unfold spendables. rewrite in_map_iff. split.
  - intros ([t' s] & <- & J). apply filter_In in J as [J E]. cbn in E. now subst s.
  - intros J. exists (t, true). split; [reflexivity|]. apply filter_In. auto.
Qed.
Lemma spendables_app a b : spendables (a ++ b) = spendables a ++ spendables b.
Proof. unfold spendables. now rewrite filter_app, map_app. Qed.
Lemma NoDup_spendables p : NoDup (map fst p) -> NoDup (spendables p).
Proof.
  unfold spendables. induction p as [|[t s] p IH]; intros N; [constructor|]. inversion N as [|? ? N1 N2]; subst. cbn. destruct s; [|exact (IH N2)].
  cbn. constructor; [|exact (IH N2)]. intros J. apply N1. cbn. apply in_map_iff in J as (x & <- & J). apply filter_In in J as [J _]. now apply in_map.
Qed.

(** Different vouchers received different tokens. *)
Definition from_one (v : Z) (x : output) : Z :=
  match x with Credited v' _ toks true => if v' =? v then Z.of_nat (length toks) else 0 | _ => 0 end.
Lemma received_cons v x out : received true v (x :: out) = from_one v x + received true v out.
Proof.
  unfold received, credits. cbn [flat_map]. destruct x as [|v' k toks s|]; try reflexivity. cbn [from_one].
  destruct (v' =? v); [|now destruct s]. cbn [app map sumZ fst snd]. destruct s; cbn; lia.
Qed.
Lemma from_one_sum vs x : NoDup vs -> sumZ (map (fun v => from_one v x) vs) <= Z.of_nat (length (spendables (given [x]))).
Proof.
  assert (Z0 : (forall v, from_one v x = 0) -> sumZ (map (fun v => from_one v x) vs) <= Z.of_nat (length (spendables (given [x])))).
  { intros H. induction vs as [|v vs IH]; cbn [map sumZ]; [lia|]. rewrite H. lia. }
  intros N. destruct x as [v k t|v k toks [|]|e]; try (apply Z0; reflexivity). clear Z0.
  assert (Ln : length (spendables (given [Credited v k toks true])) = length toks).
  { unfold spendables, given. cbn [flat_map]. rewrite app_nil_r, map_length. clear. induction toks as [|t toks IH]; [reflexivity|]. cbn. now rewrite IH. }
  rewrite Ln. clear Ln. induction N as [|v' vs Nv N IH]; [cbn; lia|]. cbn [map sumZ]. unfold from_one at 1. destruct (Z.eqb_spec v v') as [<-|]; [|lia].
  assert (Z0 : sumZ (map (fun u => from_one u (Credited v k toks true)) vs) = 0); [|lia].
  clear - Nv. induction vs as [|u vs IH]; [reflexivity|]. cbn [map sumZ]. unfold from_one at 1. destruct (Z.eqb_spec v u) as [->|]; [destruct Nv; now left|].
  rewrite IH; [reflexivity|]. intros J. apply Nv. now right.
Qed.
Lemma sum_plus (A : Type) (f g : A -> Z) l : sumZ (map (fun x => f x + g x) l) = sumZ (map f l) + sumZ (map g l).
Proof. induction l as [|x l IH]; [reflexivity|]. cbn [map sumZ]. rewrite IH. lia. Qed.
Lemma received_sum vs out : NoDup vs -> sumZ (map (fun v => received true v out) vs) <= Z.of_nat (length (spendables (given out))).
Proof.
  intros N. induction out as [|x out IH].
  - cbn. clear N. induction vs as [|v vs IH]; cbn [map sumZ]; [lia|]. cbn. exact IH.
  - rewrite (map_ext _ (fun v => from_one v x + received true v out) (fun v => received_cons v x out)), sum_plus.
    change (given (x :: out)) with (given ([x] ++ out)). unfold given at 1. rewrite flat_map_app. fold (given [x]) (given out).
    rewrite spendables_app, app_length. pose proof (@from_one_sum vs x N). lia.
Qed.

Lemma unused_purse es : forall c have bad, unused es -> fst (purse_after groups dflt allowed c (have, bad) es) = have ++ given (fst (crun c es)).
Proof.
  induction es as [|te es IH]; intros c have bad U; [cbn; now rewrite app_nil_r|]. cbn [purse_after controller_run].
  assert (E : purse_step groups dflt allowed c te (have, bad) = (have ++ given (fst (cstep c te)), bad)).
  { unfold purse_step. pose proof (U te) as N. destruct (fst (fst te)); try reflexivity. destruct (N o (or_introl eq_refl) eq_refl). }
  rewrite E, IH by (intros te' o J; apply U; now right). destruct (cstep c te) as [o1 c1]. cbn [fst snd]. destruct (crun c1 es) as [o2 c2]. cbn [fst].
  rewrite <- app_assoc. f_equal. unfold given. symmetry. apply flat_map_app.
Qed.

(** Vouchers with what was received for them; the user is shown at least so many tokens. *)
Lemma unused_count es out c vs : lived groups dflt allowed es out c -> unused es -> NoDup vs ->
  exists k, shows (c_db c) (Z.of_nat k) /\ available_count (c_db c) k /\ sumZ (map (fun v => received true v out) vs) <= Z.of_nat k.
Proof.
  intros Lv U N. assert (L0 : lived groups dflt allowed [] [] new_node) by (split; [constructor|reflexivity]).
  destruct Lv as [P R] eqn:ELv. clear ELv. destruct (@unused_tokens es [] [] new_node L0 P U eq_refl eq_refl) as [E M]. rewrite R in E, M. cbn [fst snd app] in E, M.
  assert (Lv' : lived groups dflt allowed es out c) by (split; assumption).
  pose proof (i_wf (lived_inv Lv')) as W.
  exists (length (available (c_db c))). split; [reflexivity|]. split; [exists (available (c_db c)); split; [now apply available_NoDup|]; split; [apply in_available|reflexivity]|].
  eapply Z.le_trans; [apply received_sum, N|]. apply inj_le. apply NoDup_incl_length.
  - apply NoDup_spendables. rewrite given_tokens, <- M. exact (wf_unblinded W).
  - intros t J. apply in_spendables in J. apply in_available. rewrite E. split; [|intros []].
    pose proof (@unused_purse es new_node [] [] U) as Up. rewrite R in Up. cbn [fst app] in Up. apply (proj2 (@C140_the_purse groups dflt allowed es out c Lv' t true)). rewrite <- Up in J. exact J.
Qed.
End Count.

(** ** What an answer brings *)
Section Answers.
Variables (groups dflt : Z) (allowed : list Z).
Notation cstep := (controller_step groups dflt allowed).
Notation crun := (controller_run groups dflt allowed).

Lemma settle_credited now f a c v k toks s : In (Credited v k toks s) (snd (fst (settle groups allowed now f a c))) ->
  exists pk, a = ASuccess toks pk /\ f_voucher f = v /\ s = memZ pk allowed.
Proof.
  intros Hi. unfold settle in Hi. destruct a as [ts pk| | |].
  - destruct (with_cursor _ _) as [[x|x] d]; [|contradiction]. destruct Hi as [E|[]]. injection E as <- _ <- <-. exists pk. auto.
  - destruct (with_cursor _ _) as [[x|x] d]; [contradiction|]. now destruct Hi as [E|[]].
  - contradiction.
  - contradiction.
Qed.
Lemma step_credited c te v k toks s : In (Credited v k toks s) (fst (cstep c te)) ->
  exists f pk, answer_of c te = Some (f, ASuccess toks pk) /\ f_voucher f = v /\ s = memZ pk allowed.
Proof.
  intros H. destruct te as [[e now] gen]. unfold answer_of. cbn [fst]. destruct e as [v' n|i a| | |o|i a|n|n]; cbn [controller_step] in H.
  - destruct (@redeem_silent groups dflt now gen v' n c _ H _ _ _ _ eq_refl).
  - unfold answered in H. destruct (take_at i (c_flights c)) as [[f rest]|] eqn:T; [|contradiction]. rewrite (nth_take _ _ T).
    pose proof (@settle_credited now f a (with_flights rest c) v k toks s) as Sg. destruct (settle _ _ _ _ _ _) as [[go o1] c1]. cbn [fst snd] in Sg.
    assert (H' : In (Credited v k toks s) o1).
    { destruct go; [|exact H]. pose proof (@group_silent groups now gen (f_voucher f) (f_total f) (f_counter f + 1) c1) as Gs.
      destruct (start_group _ _ _ _ _ _ _) as [o2 c2]. cbn [fst] in *. apply in_app_or in H as [H|H]; [exact H|]. destruct (Gs _ H _ _ _ _ eq_refl). }
    destruct (Sg H') as (pk & -> & Ev & Es). exists f, pk. auto.
  - unfold retry_redemption in H. destruct (c_retrying c); [|contradiction]. destruct (@retry_silent groups dflt now gen _ c _ H _ _ _ _ eq_refl).
  - destruct (@boot_silent groups dflt now gen _ c _ H _ _ _ _ eq_refl).
  - contradiction.
  - destruct (take_at i (c_flights c)) as [[f rest]|] eqn:T; [|contradiction]. rewrite (nth_take _ _ T).
    pose proof (@settle_credited now f a (with_flights rest c) v k toks s) as Sg. destruct (settle _ _ _ _ _ _) as [[go o1] c1]. cbn [fst snd] in *.
    destruct (Sg H) as (pk & -> & Ev & Es). exists f, pk. auto.
  - pose proof (@retry_silent groups dflt now gen (firstn n (dkeys (c_error c) ++ dkeys (c_unpaid c))) c) as Rs. destruct (retry_loop _ _ _ _ _ _) as [o1 c1].
    destruct (Rs _ H _ _ _ _ eq_refl).
  - destruct (@boot_silent groups dflt now gen _ c _ H _ _ _ _ eq_refl).
Qed.
Lemma run_credited v k toks s es : forall c, In (Credited v k toks s) (fst (crun c es)) ->
  exists es1 te es2 f pk, es = es1 ++ te :: es2 /\ answer_of (snd (crun c es1)) te = Some (f, ASuccess toks pk) /\ f_voucher f = v /\ s = memZ pk allowed.
Proof.
  induction es as [|te es IH]; intros c H; [destruct H|]. cbn [controller_run] in H. pose proof (@step_credited c te v k toks s) as S.
  destruct (cstep c te) as [o1 c1] eqn:Ec. specialize (IH c1). destruct (crun c1 es) as [o2 c2]. cbn [fst] in *. apply in_app_or in H as [H|H].
  - destruct (S H) as (f & pk & A & Ev & Es). exists [], te, es, f, pk. auto.
  - destruct (IH H) as (es1 & te' & es2 & f & pk & -> & A & Ev & Es). exists (te :: es1), te', es2, f, pk. split; [reflexivity|]. split; [|auto].
    cbn [controller_run]. rewrite Ec. now destruct (crun c1 es1).
Qed.
(** An answer in the words of the specifications. *)
Lemma answer_event c te f toks pk : answer_of c te = Some (f, ASuccess toks pk) ->
  exists i now gen, nth_error (c_flights c) i = Some f /\
    (te = (EAnswer i (ASuccess toks pk), now, gen) \/ te = (EKillAfterAnswer i (ASuccess toks pk), now, gen)).
Proof.
  destruct te as [[e now] gen]. unfold answer_of. cbn [fst]. intros E.
  destruct e as [v' n|i a| | |o|i a|n|n]; try discriminate E; destruct (nth_error (c_flights c) i) as [f'|] eqn:X; try discriminate E; injection E as -> ->;
    exists i, now, gen; auto.
Qed.
Lemma none_sequestered v es out c : crun new_node es = (out, c) -> allowed_keys_only groups dflt allowed v es -> received false v out = 0.
Proof.
  intros R A. assert (K : forall x, In x (credits v out) -> snd x = true).
  { intros [[k toks] s] J. unfold credits in J. apply in_flat_map in J as (x & J & K). destruct x as [|v' k' toks' s'|]; try contradiction.
    destruct (Z.eqb_spec v' v) as [->|]; [|contradiction]. destruct K as [[= -> -> ->]|[]]. cbn [snd].
    pose proof (@run_credited v k toks s es new_node) as X. rewrite R in X. destruct (X J) as (es1 & te & es2 & f & pk & -> & An & Ev & ->).
    destruct (answer_event _ _ _ _ _ An) as (i & now & gen & N & T). apply memZ_true.
    refine (A es1 i toks pk now gen es2 (fst (crun new_node es1)) (snd (crun new_node es1)) f _ (surjective_pairing _) N Ev).
    destruct T as [->| ->]; auto. }
  unfold received. revert K. generalize (credits v out). induction l as [|x l IH]; intros K; [reflexivity|]. cbn [map sumZ].
  rewrite (K x (or_introl eq_refl)), IH by (intros y J; apply K; now right). reflexivity.
Qed.
End Answers.

(** ** The theorems *)

Section Node.
Variable L : library.
Variable F : Type.
Variable float_of : text -> F.
Variable float_repr : F -> text.
Variable float_zero : F -> bool.
Variable max_digits : nat.
Variable decode : bytes -> option text.
Variable depth : nat.
Variable token_text : Z -> bytes.
Variable key_text : Z -> text.
Variable random_text : Z -> bytes.
Variable voucher_text : Z -> bytes.
Variables (groups dflt : Z) (allowed : list Z).
Hypothesis Law : lawful L.
Hypothesis Sp : sound_proofs L.
Hypothesis Iv : good_random L random_text.
Notation real := (really_redeemed (F:=F) L float_of float_repr float_zero max_digits decode depth token_text key_text random_text voucher_text groups dflt allowed).
Notation crun := (controller_run groups dflt allowed).

Lemma same_length (A B : Type) (R : A -> B -> Prop) a b : Forall2 R a b -> length a = length b.
Proof. induction 1; cbn; congruence. Qed.
Lemma real_full es v : real es -> full_answers groups dflt allowed v es.
Proof.
  intros R es1 i toks pk now gen es2 out c f E Rn N _. destruct (R es1 i toks pk now gen es2 out c f E Rn N) as (answer & X).
  apply C93_tokens_are_signed_by_the_named_key in X as (k & pre & _ & Pre & Et); [|exact Law|exact Sp|].
  - apply (f_equal (@length _)) in Et. rewrite !map_length in Et. apply same_length in Pre. rewrite map_length in Pre. congruence.
  - intros rt t r J. apply in_map_iff in J as (x & <- & _). apply Iv.
Qed.

Lemma real_wallet es out c : (forall pk, In (key_text pk) (map key_text allowed) -> In pk allowed) ->
  lived groups dflt allowed es out c -> real es -> never_again es ->
  redeemed_wallet (F:=F) L float_of float_repr float_zero max_digits decode depth token_text key_text (map key_text allowed) (c_db c).
Proof.
  intros Kt [P R] Re Na. exists (life_ops groups dflt allowed new_node es), (fst (steps empty_db (life_ops groups dflt allowed new_node es))).
  split; [exact (@life_fair groups dflt allowed es new_node P)|]. split; [apply life_fresh; [exact P|exact Na|intros t pk []]|]. split.
  - pose proof (life_ops_db groups dflt allowed es new_node) as X. rewrite R in X. cbn [snd] in X.
    change (c_db new_node) with empty_db in X. rewrite <- X. destruct (steps empty_db _). reflexivity.
  - intros v pk toks cm s now J. destruct (@life_inserted groups dflt allowed _ _ _ _ _ _ es new_node P J) as (es1 & te & es2 & f & -> & An & ->).
    split; [rewrite memZ_true; split; [apply in_map|apply Kt]|].
    destruct (answer_event _ _ _ _ _ An) as (i & now' & gen & N & T).
    destruct (Re es1 i toks pk now' gen es2 (fst (crun new_node es1)) (snd (crun new_node es1)) f) as (answer & X);
      [destruct T as [->| ->]; auto|apply surjective_pairing|exact N|].
    exists (voucher_text (f_voucher f)), (f_counter f), (map random_text (f_tokens f)), answer. split; [exact X|].
    intros rt t r K. apply in_map_iff in K as (x & <- & _). apply Iv.
Qed.

Lemma worth_received es out c rows : lived groups dflt allowed es out c -> real es ->
  (forall r, In r rows -> row c r /\ v_state r = SRedeemed /\ paid groups dflt allowed (v_number r) es /\ allowed_keys_only groups dflt allowed (v_number r) es) ->
  worth rows = sumZ (map (fun v => received true v out) (map v_number rows)).
Proof.
  intros Lv Re H. unfold worth. rewrite map_map. f_equal. apply map_ext_in. intros r J. destruct (H r J) as (Rr & St & Pd & Ak).
  pose proof (@C29_total_partial groups dflt allowed es out c r Lv Pd (@real_full es (v_number r) Re) Rr St) as T.
  rewrite (@none_sequestered groups dflt allowed (v_number r) es out c (proj2 Lv) Ak) in T. lia.
Qed.
End Node.

(** The vouchers of a new node have been redeemed, each was paid for and got tokens signed with allowed keys: the user
    is shown as many tokens as they are worth, or more if other vouchers gave some too. *)
Theorem C141_vouchers_are_worth_their_tokens :
  forall L F float_of float_repr float_zero max_digits decode depth token_text key_text random_text voucher_text groups dflt allowed
    es out c rows,
  lawful L -> sound_proofs L -> good_random L random_text ->
  lived groups dflt allowed es out c -> unused es ->
  really_redeemed (F:=F) L float_of float_repr float_zero max_digits decode depth token_text key_text random_text voucher_text groups dflt allowed es ->
  NoDup (map v_number rows) ->
  (forall r, In r rows -> row c r /\ v_state r = SRedeemed /\
     paid groups dflt allowed (v_number r) es /\ allowed_keys_only groups dflt allowed (v_number r) es) ->
  exists k, shows (c_db c) k /\ worth rows <= k.
Proof.
  intros * Law Sp Iv Lv U Re N H. destruct (@unused_count groups dflt allowed es out c _ Lv U N) as (k & Sh & _ & Le). exists (Z.of_nat k). split; [exact Sh|].
  erewrite worth_received; [exact Le|exact Law|exact Sp|exact Iv|exact Lv|exact Re|exact H].
Qed.
Print Assumptions C141_vouchers_are_worth_their_tokens.

(** With as many tokens as the user is shown, whatever has happened before, files can be uploaded and kept; provided that what
    was declared invalid was never given again. *)
Theorem C141_shown_tokens_store_files :
  forall L F float_of float_repr float_zero max_digits decode depth token_text key_text random_text voucher_text groups dflt allowed
    es out c k server_key
    pv iv mv mut room scan later content servers frh brh fch bch seed order graph (rank : Z -> nat) remaining rs cs root
    needed total files sizes rest others due w price horizon,
  let signed := signed_by L server_key in
  let preimage := preimage_of L token_text in
  let sign := signature_for L token_text in
  lawful L -> sound_proofs L -> generates L -> good_random L random_text ->
  (forall pk, In pk allowed -> public_key L (key_text pk) (smul L server_key (base_point L))) ->
  (forall pk, In (key_text pk) (map key_text allowed) -> In pk allowed) ->
  lived groups dflt allowed es out c -> never_again es ->
  really_redeemed (F:=F) L float_of float_repr float_zero max_digits decode depth token_text key_text random_text voucher_text groups dflt allowed es ->
  shows (c_db c) k -> w_db w = c_db c ->
  fair_scan scan -> 0 < pv -> 0 < needed ->
  (forall id n, room id n = true) ->
  (forall t, t <= later t) -> (forall t, t <= horizon -> later t <= horizon) ->
  w_time w <= horizon -> (forall now, In now due -> now <= horizon) -> month_after horizon < 2 ^ 32 -> 0 < w_clock w -> 0 <= remaining ->
  NoDup servers ->
  (forall id, In id servers -> reachable_server signed pv iv mv mut (w_servers w id) /\ incoming (sv_storage (w_servers w id)) = []) ->
  NoDup (map f_si files) ->
  (forall f, In f files -> placed total f /\ placed_once f /\ mut (f_si f) = false /\ 0 <= f_share_size f) ->
  (forall f id n, In f files -> goes_to f id n -> Z.of_nat (length (content (f_si f) n)) = f_share_size f) ->
  (forall f id nums, In f files -> In (id, nums) (f_places f) -> In id servers) ->
  (forall f id n s, In f files -> In id servers -> ~ has_share w id (f_si f) n s) ->
  Forall2 (fun f size => least_cover needed size (f_share_size f)) files sizes ->
  calculate needed total pv sizes = Ok price ->
  (forall l, Permutation (order l) l) -> (forall a b, child graph a b -> (rank b < rank a)%nat) ->
  all_stored graph root -> indexes_under graph root (map f_si files ++ rest) ->
  (forall id si n s, In id servers -> In si rest -> has_share w id si n s -> fits (Z.of_nat (length due)) s) ->
  Z.of_nat (length due) + 1 < 2 ^ 32 ->
  exact_price pv (sizes_everywhere servers rest w) others ->
  price + (price + others) * Z.of_nat (length due) <= k -> price + others <= SQLITE3_INTEGER_MAX ->
  exists w1, upload signed pv iv mv preimage sign room scan later content files w = Some (Ok tt, w1) /\
    exists fuel runs,
    upkeeps signed pv mv preimage sign room scan later servers frh brh fch bch seed order graph fuel remaining rs cs (Some root) due w1 = Some runs /\
    length runs = length due /\
    (forall began r w', In (began, r, w') runs -> r = Ok tt /\
     forall f id n, In f files -> goes_to f id n ->
     exists s, has_share w' id (f_si f) n s /\ s_data s = content (f_si f) n /\ lasts (began + Z.min remaining nearly_a_month) s) /\
    fine_tokens signed preimage sign (w_db (last (map snd runs) w1)) (k - price - (price + others) * Z.of_nat (length due)).
Proof.
  intros L F float_of float_repr float_zero max_digits decode depth token_text key_text random_text voucher_text groups dflt allowed
    es out c k server_key pv iv mv mut room scan later content servers frh brh fch bch seed order graph rank remaining rs cs root
    needed total files sizes rest others due w price horizon signed preimage sign
    Law Sp G Iv Hk Kt Lv Na Re Sh Ew Sc Hv Hn Hr Hl Hh Ht Hd Hm Hc Hrem Ns R Nf P Lc Ps New Sz C Po Rk A Un Ft Ld Pr Lk Mx.
  pose proof (i_wf (lived_inv Lv)) as Wf.
  assert (Av : available_count (c_db c) (length (available (c_db c)))).
  { exists (available (c_db c)). split; [now apply available_NoDup|]. split; [apply in_available|reflexivity]. }
  assert (Ek : k = Z.of_nat (length (available (c_db c)))).
  { assert (X : fst (StoreModel.step (c_db c) OCount) = Ok (RNum (Z.of_nat (length (available (c_db c)))))) by reflexivity.
    unfold shows in Sh. rewrite X in Sh. now injection Sh as <-. }
  pose proof (@real_wallet L F float_of float_repr float_zero max_digits decode depth token_text key_text random_text voucher_text groups dflt allowed
    Iv es out c Kt Lv Re Na) as W.
  rewrite <- Ew in W, Av. rewrite Ek in *.
  apply (@C131_redeemed_tokens_keep_files L F float_of float_repr float_zero max_digits decode depth token_text key_text (map key_text allowed) server_key
    pv iv mv mut room scan later content servers frh brh fch bch seed order graph rank remaining rs cs root
    needed total files sizes rest others due w (length (available (c_db c))) price horizon Law Sp G); auto.
  - intros key J. apply in_map_iff in J as (pk & <- & J). exact (Hk pk J).
  - rewrite <- Ew. exact Av.
Qed.
Print Assumptions C141_shown_tokens_store_files.

(** Such a node then uploads files whose quoted price its vouchers are worth, and keeps them for as many runs of lease
    maintenance as they are worth beyond that. *)
Theorem C141_vouchers_store_files :
  forall L F float_of float_repr float_zero max_digits decode depth token_text key_text random_text voucher_text groups dflt allowed
    es out c rows server_key
    pv iv mv mut room scan later content servers frh brh fch bch seed order graph (rank : Z -> nat) remaining rs cs root
    needed total files sizes rest others due w price horizon,
  let signed := signed_by L server_key in
  let preimage := preimage_of L token_text in
  let sign := signature_for L token_text in
  lawful L -> sound_proofs L -> generates L -> good_random L random_text ->
  (forall pk, In pk allowed -> public_key L (key_text pk) (smul L server_key (base_point L))) ->
  (forall pk, In (key_text pk) (map key_text allowed) -> In pk allowed) ->
  lived groups dflt allowed es out c -> unused es ->
  really_redeemed (F:=F) L float_of float_repr float_zero max_digits decode depth token_text key_text random_text voucher_text groups dflt allowed es ->
  NoDup (map v_number rows) ->
  (forall r, In r rows -> row c r /\ v_state r = SRedeemed /\
     paid groups dflt allowed (v_number r) es /\ allowed_keys_only groups dflt allowed (v_number r) es) ->
  w_db w = c_db c ->
  fair_scan scan -> 0 < pv -> 0 < needed ->
  (forall id n, room id n = true) ->
  (forall t, t <= later t) -> (forall t, t <= horizon -> later t <= horizon) ->
  w_time w <= horizon -> (forall now, In now due -> now <= horizon) -> month_after horizon < 2 ^ 32 -> 0 < w_clock w -> 0 <= remaining ->
  NoDup servers ->
  (forall id, In id servers -> reachable_server signed pv iv mv mut (w_servers w id) /\ incoming (sv_storage (w_servers w id)) = []) ->
  NoDup (map f_si files) ->
  (forall f, In f files -> placed total f /\ placed_once f /\ mut (f_si f) = false /\ 0 <= f_share_size f) ->
  (forall f id n, In f files -> goes_to f id n -> Z.of_nat (length (content (f_si f) n)) = f_share_size f) ->
  (forall f id nums, In f files -> In (id, nums) (f_places f) -> In id servers) ->
  (forall f id n s, In f files -> In id servers -> ~ has_share w id (f_si f) n s) ->
  Forall2 (fun f size => least_cover needed size (f_share_size f)) files sizes ->
  calculate needed total pv sizes = Ok price ->
  (forall l, Permutation (order l) l) -> (forall a b, child graph a b -> (rank b < rank a)%nat) ->
  all_stored graph root -> indexes_under graph root (map f_si files ++ rest) ->
  (forall id si n s, In id servers -> In si rest -> has_share w id si n s -> fits (Z.of_nat (length due)) s) ->
  Z.of_nat (length due) + 1 < 2 ^ 32 ->
  exact_price pv (sizes_everywhere servers rest w) others ->
  price + (price + others) * Z.of_nat (length due) <= worth rows -> price + others <= SQLITE3_INTEGER_MAX ->
  exists w1, upload signed pv iv mv preimage sign room scan later content files w = Some (Ok tt, w1) /\
    exists fuel runs,
    upkeeps signed pv mv preimage sign room scan later servers frh brh fch bch seed order graph fuel remaining rs cs (Some root) due w1 = Some runs /\
    length runs = length due /\
    (forall began r w', In (began, r, w') runs -> r = Ok tt /\
     forall f id n, In f files -> goes_to f id n ->
     exists s, has_share w' id (f_si f) n s /\ s_data s = content (f_si f) n /\ lasts (began + Z.min remaining nearly_a_month) s).
Proof.
  intros L F float_of float_repr float_zero max_digits decode depth token_text key_text random_text voucher_text groups dflt allowed
    es out c rows server_key pv iv mv mut room scan later content servers frh brh fch bch seed order graph rank remaining rs cs root
    needed total files sizes rest others due w price horizon signed preimage sign
    Law Sp G Iv Hk Kt Lv U Re N H Ew Sc Hv Hn Hr Hl Hh Ht Hd Hm Hc Hrem Ns R Nf P Lc Ps New Sz C Po Rk A Un Ft Ld Pr Lk Mx.
  destruct (@unused_count groups dflt allowed es out c _ Lv U N) as (k & Sh & _ & Le).
  pose proof (@worth_received L F float_of float_repr float_zero max_digits decode depth token_text key_text random_text voucher_text groups dflt allowed
    Law Sp Iv es out c rows Lv Re H) as Wr.
  assert (Na : never_again es).
  { intros es1 reason ts now gen es2 t pk E _ _. exact (U (EWallet (OInvalidate reason ts), now, gen) (OInvalidate reason ts) ltac:(rewrite E; apply in_elt) eq_refl). }
  destruct (@C141_shown_tokens_store_files L F float_of float_repr float_zero max_digits decode depth token_text key_text random_text voucher_text groups dflt allowed
    es out c (Z.of_nat k) server_key pv iv mv mut room scan later content servers frh brh fch bch seed order graph rank remaining rs cs root
    needed total files sizes rest others due w price horizon Law Sp G Iv Hk Kt Lv Na Re Sh Ew) as (w1 & E1 & fuel & runs & E2 & E3 & E4 & _); auto; [lia|].
  exists w1. split; [exact E1|]. exists fuel, runs. auto.
Qed.
Print Assumptions C141_vouchers_store_files.

(** ** Example *)

(** A node is started and a voucher for two tokens submitted, the answer of C93 comes, and the tokens are spent as in C131. *)
Definition wy_key (pk : Z) : text := if pk =? 55 then ex_key else [].
Definition wy_random (t : Z) : bytes := if t =? 101 then nth 0 ex_rts [] else nth 1 ex_rts [].
Definition wy_voucher (_ : Z) : bytes := voucher_number.
Definition wy_gen (_ _ n : Z) : list Z := map (fun i => 101 + Z.of_nat i) (seq 0 (Z.to_nat n)).
Definition wy_es : list timed := [(EStart, 999, wy_gen); (ESubmit 7 (Some 2), 1000, wy_gen); (EAnswer 0 (ASuccess [11; 12] 55), 1001, wy_gen)].
Definition wy_run := controller_run 1 5 [55] new_node wy_es.
Definition wy_world : world := World (fun _ => empty_server) (c_db (snd wy_run)) ux_now None.
Definition wy_upload := upload hx_signed 10 2 2 (preimage_of small px_text) (signature_for small px_text) (fun _ _ => true) (fun _ l => l) ux_slow
  ry_content [ry_file] wy_world.

(** The one answer there is *)
Lemma wy_answer es1 i toks pk now gen es2 out c f :
  wy_es = es1 ++ (EAnswer i (ASuccess toks pk), now, gen) :: es2 \/ wy_es = es1 ++ (EKillAfterAnswer i (ASuccess toks pk), now, gen) :: es2 ->
  controller_run 1 5 [55] new_node es1 = (out, c) -> nth_error (c_flights c) i = Some f ->
  toks = [11; 12] /\ pk = 55 /\ f = Flight 7 0 2 [101; 102].
Proof.
  intros E R N. assert (X : es1 = firstn 2 wy_es /\ i = 0%nat /\ toks = [11; 12] /\ pk = 55).
  { unfold wy_es in E. destruct E as [E|E].
    - destruct es1 as [|a [|b [|x [|y es1]]]]; cbn in E; try discriminate E.
      injection E as <- <- <- <- <- <- <- <-. auto.
    - destruct es1 as [|a [|b [|x [|y es1]]]]; cbn in E; discriminate E. }
  destruct X as (-> & -> & -> & ->). split; [reflexivity|]. split; [reflexivity|].
  assert (Y : nth_error (c_flights (snd (controller_run 1 5 [55] new_node (firstn 2 wy_es)))) 0 = Some (Flight 7 0 2 [101; 102])) by (vm_compute; reflexivity).
  rewrite R in Y. cbn [snd] in Y. rewrite N in Y. now injection Y.
Qed.
Lemma wy_invertible : good_random small wy_random.
Proof.
  intros x t r J. apply small_invertible. intros ->. destruct J as (rb & U & Lp & Lr & R).
  assert (Er : forall a b : bytes, length a = 64%nat -> Some (a ++ b) = Some (t ++ rb) -> rb = b).
  { intros a b La E. injection E as E. apply (f_equal (skipn 64)) in E. rewrite !skipn_app, La, Lp, (skipn_all2 a), (skipn_all2 t) in E by lia. symmetry. exact E. }
  unfold wy_random in U. destruct (x =? 101); cbn [ex_rts map ex_pairs nth fst snd] in U; cbn [unb64 small] in U; rewrite b64read_encode in U.
  - apply (Er (pre x00) _ eq_refl) in U. subst rb. discriminate R.
  - apply (Er (pre x07) _ eq_refl) in U. subst rb. discriminate R.
Qed.

Example C141_example_hypotheses :
  good_random small wy_random /\
  (forall pk, In pk [55] -> public_key small (wy_key pk) (smul small T2 (base_point small))) /\
  (forall pk, In (wy_key pk) (map wy_key [55]) -> In pk [55]) /\
  lived 1 5 [55] wy_es (fst wy_run) (snd wy_run) /\ unused wy_es /\ never_again wy_es /\
  really_redeemed (F:=unit) small ex_float ex_repr ex_zero 100 ex_decode 5 px_text wy_key wy_random wy_voucher 1 5 [55] wy_es /\
  shows (c_db (snd wy_run)) 2 /\
  exists r, row (snd wy_run) r /\ v_state r = SRedeemed /\ paid 1 5 [55] (v_number r) wy_es /\ allowed_keys_only 1 5 [55] (v_number r) wy_es /\ worth [r] = 2.
Proof.
  assert (Un : unused wy_es) by (intros te o [<-|[<-|[<-|[]]]]; discriminate).
  split; [exact wy_invertible|]. split; [intros pk [<-|[]]; apply C93_example|].
  split. { intros pk [J|[]]. unfold wy_key in J. destruct (Z.eqb_spec pk 55) as [E|E]; [left; now symmetry|discriminate J]. }
  split. { split; [|apply surjective_pairing]. assert (En : enough wy_gen) by (intros v c n Hn; unfold wy_gen; rewrite map_length, seq_length; lia). repeat constructor; exact En. }
  split; [exact Un|].
  split. { intros es1 reason ts now gen es2 t pk E _ _. exact (Un (EWallet (OInvalidate reason ts), now, gen) (OInvalidate reason ts) ltac:(rewrite E; apply in_elt) eq_refl). }
  split. { intros es1 i toks pk now gen es2 out c f E R N. destruct (wy_answer _ _ _ _ _ _ _ _ _ _ E R N) as (-> & -> & ->). exists ex_answer. vm_compute. reflexivity. }
  split; [vm_compute; reflexivity|].
  eexists. split; [left; vm_compute; reflexivity|]. cbn [v_state v_number worth map sumZ v_expected]. split; [reflexivity|]. split; [|split; [|reflexivity]].
  - intros es1 i a now gen es2 out c f E R N _ ->. unfold wy_es in E. destruct E as [E|E];
      (destruct es1 as [|x [|y [|z [|u es1]]]]; cbn in E; discriminate E).
  - intros es1 i toks pk now gen es2 out c f E R N _. destruct (wy_answer _ _ _ _ _ _ _ _ _ _ E R N) as (_ & -> & _). now left.
Qed.
(** One of the two tokens uploads the file of C131, the other keeps it. *)
Example C141_example : exists w1 w2 a, wy_upload = Some (Ok tt, w1) /\ ry_upkeeps w1 = Some [(a, Ok tt, w2)] /\
  shows (w_db w1) 1 /\ shows (w_db w2) 0 /\
  map (fun ns => s_data (snd ns)) (dirs (sv_storage (w_servers w2 3)) hx_si) = [repeat x7a 7].
Proof. do 3 eexists. split; [vm_compute; reflexivity|]. split; [vm_compute; reflexivity|]. vm_compute. auto. Qed.
