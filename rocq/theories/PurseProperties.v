(** C140 The purse of a node holds what the issuer gave and no server has taken. *)
From Verif Require Import Prelude StoreModel StoreSpec StoreProofs StoreProperties ControllerModel ControllerSpec ControllerProofs ControllerRunProofs ControllerProperties AnswerProperties LossModel LossProofs PurseSpec.
From Coq Require Import Permutation.
Set Implicit Arguments.

Lemma in_without t s ts p : In (t, s) (without ts p) <-> In (t, s) p /\ ~ In t ts.
Proof. unfold without. rewrite filter_In. cbn [fst]. rewrite Bool.negb_true_iff, memZ_false. reflexivity. Qed.
Lemma in_given t s o : In (t, s) (given o) <-> exists v k toks, In (Credited v k toks s) o /\ In t toks.
Proof.
  unfold given. rewrite in_flat_map. split.
  - intros (x & Hx & H). destruct x as [|v k toks s'|]; try contradiction. apply in_map_iff in H as (t' & E & Ht). injection E as <- <-. eauto.
  - intros (v & k & toks & H & Ht). exists (Credited v k toks s). split; [exact H|]. apply in_map_iff. eauto.
Qed.

Lemma wallet_stored d o t s : wf d -> wallet_call o ->
  (stored (snd (StoreModel.step d o)) s t <-> stored d s t /\
   match o with ODiscard ts => ~ In t ts | OInvalidate _ ts => succeeds d o = true -> ~ In t (map fst (invalid d) ++ ts) | _ => True end) /\
  map fst (invalid (snd (StoreModel.step d o))) = map fst (invalid d) ++ match o with OInvalidate _ ts => if succeeds d o then ts else [] | _ => [] end.
Proof.
  intros W H. assert (K : forall d', unblinded d' = unblinded d -> StoreModel.groups d' = StoreModel.groups d -> invalid d' = invalid d ->
    (stored d' s t <-> stored d s t /\ True) /\ map fst (invalid d') = map fst (invalid d) ++ []).
  { intros d' U G V. rewrite (@stored_same d d' s t U G), V, app_nil_r. tauto. }
  destruct o; cbn [wallet_call] in H; try contradiction.
  - apply K; rewrite step_extract_eq; (destruct (_ >? _); [reflexivity|]; cbv zeta; destruct (_ <? _); [reflexivity|];
      destruct (exec_muts _ _) as [d2|x] eqn:E2; [|reflexivity]; cbn [snd]; apply ins_in_use_Ok in E2; destruct E2 as (_ & _ & ->); reflexivity).
  - rewrite step_discard_eq by apply W. cbn [snd]. rewrite stored_minus. cbn [invalid set_in_use set_unblinded]. rewrite app_nil_r. tauto.
  - unfold succeeds. rewrite step_invalidate_eq. destruct (exec_muts _ _) as [d2|x] eqn:E2; cbn [fst snd].
    + apply ins_invalid_Ok in E2. destruct E2 as (_ & _ & ->). rewrite stored_minus.
      rewrite (@stored_same d (set_invalid _ d)) by reflexivity. cbn [invalid set_invalid set_in_use set_unblinded]. rewrite map_app, map_map, map_id. intuition.
    + rewrite app_nil_r. split; [|reflexivity]. split; [|tauto]. intros X. split; [exact X|discriminate].
  - apply K; rewrite step_reset_eq by apply W; reflexivity.
  - apply K; rewrite step_query; (reflexivity || exact I).
  - apply K; rewrite step_query; (reflexivity || exact I).
  - apply K; rewrite step_query; (reflexivity || exact I).
  - apply K; rewrite step_query; (reflexivity || exact I).
  - destruct (@step_maint (OMaintStart now) d (wf_maint W) I) as (m & -> & _). apply K; reflexivity.
  - destruct (@step_maint (OMaintObserve pass_value rowid sizes) d (wf_maint W) I) as (m & -> & _). apply K; reflexivity.
  - destruct (@step_maint (OMaintFinish rowid now) d (wf_maint W) I) as (m & -> & _). apply K; reflexivity.
  - apply K; rewrite step_query; (reflexivity || exact I).
Qed.

(** The calls the controller makes of itself leave the invalid tokens alone. *)
Definition own (o : op) : Prop := match o with OAdd _ _ _ _ _ | OInsert _ _ _ _ _ _ | ODouble _ _ => True | _ => False end.
Lemma own_fair o : own o -> fair o.
Proof. destruct o; cbn; auto; contradiction. Qed.
Lemma own_invalid d o : wf d -> own o -> invalid (snd (StoreModel.step d o)) = invalid d.
Proof.
  intros W H. destruct o; cbn [own] in H; try contradiction.
  - rewrite step_add_eq by exact W. destruct (filter _ (tokens d)); [|reflexivity]. cbv zeta.
    destruct (exec_muts _ _) as [d2|x] eqn:E2; [|reflexivity]. cbn [snd].
    destruct (memZ_spec voucher (map v_number (vouchers d))) as [Hv|Hv];
      (apply ins_token_Ok in E2; [destruct E2 as (_ & _ & ->); reflexivity|]).
    + exact Hv.
    + cbn. rewrite map_app. apply in_or_app; right; left; reflexivity.
  - rewrite step_insert_eq by exact W. destruct (filter _ (vouchers d)); [reflexivity|]. cbv zeta.
    destruct (exec_muts _ _) as [d2|x] eqn:E2; [|reflexivity]. cbn [snd].
    apply ins_unblinded_Ok in E2. destruct E2 as (_ & _ & ->). reflexivity.
  - rewrite step_double_eq. cbv zeta. destruct (filter _ (vouchers d)); reflexivity.
Qed.
Lemma own_steps os : Forall own os -> forall d, wf d -> invalid (snd (steps d os)) = invalid d /\ wf (snd (steps d os)).
Proof.
  induction 1 as [|o os H F IH]; intros d W; [auto|]. cbn [steps]. pose proof (@wf_step d o W (own_fair _ H)) as W1. pose proof (@own_invalid d o W H) as E1.
  destruct (StoreModel.step d o) as [r d1]. cbn [snd] in *. destruct (IH d1 W1) as [E2 W2]. destruct (steps d1 os) as [rs d2]. cbn [snd] in *. split; [congruence|exact W2].
Qed.

Section Node.
Variables (groups dflt : Z) (allowed : list Z).
Notation cstep := (controller_step groups dflt allowed).
Notation crun := (controller_run groups dflt allowed).

Lemma lived_step es out c te : lived groups dflt allowed es out c -> proper te ->
  lived groups dflt allowed (es ++ [te]) (out ++ fst (cstep c te)) (snd (cstep c te)).
Proof.
  intros [F R] P. split; [apply Forall_app; auto|]. clear F P. revert R. generalize new_node as c0. revert out.
  induction es as [|e es IH]; intros out c0 R; cbn [controller_run app] in *.
  - injection R as <- <-. destruct (cstep c0 te). cbn. now rewrite app_nil_r.
  - destruct (cstep c0 e) as [o1 c1]. destruct (crun c1 es) as [o2 c2] eqn:R2. injection R as <- <-. rewrite (IH _ _ R2). now rewrite app_assoc.
Qed.
Lemma group_own now gen v t k : Forall own (group_calls groups now gen v t k).
Proof. unfold group_calls. destruct (_ >=? _); [constructor|]. destruct (token_count_for_group _ _ _); constructor; [exact I|constructor]. Qed.
Lemma redeem_own now gen v n c : Forall own (redeem_calls groups dflt now gen v n c).
Proof.
  unfold redeem_calls. destruct (get_voucher c v) as [[vo s]|[]]; try constructor; [|apply group_own].
  destruct (should_start_redemption s); [|constructor]. destruct (start_at_counter s); [apply group_own|constructor].
Qed.
Lemma retry_own now gen vs : forall c, Forall own (retry_calls groups dflt now gen vs c).
Proof.
  induction vs as [|v vs IH]; intros c; [constructor|]. cbn [retry_calls]. destruct (memZ _ _); [apply IH|]. destruct (get_voucher c v) as [[vo s]|e]; [|constructor].
  destruct (should_start_redemption s); [|apply IH]. apply Forall_app. split; [apply redeem_own|apply IH].
Qed.
Lemma check_own now gen vs : forall c, Forall own (check_calls groups dflt now gen vs c).
Proof.
  induction vs as [|v vs IH]; intros c; [constructor|]. cbn [check_calls]. destruct (should_start_redemption _); [|apply IH].
  apply Forall_app. split; [apply redeem_own|apply IH].
Qed.
Lemma calls_own c te : (forall w, fst (fst te) <> EWallet w) -> Forall own (controller_calls groups dflt allowed c te).
Proof.
  destruct te as [[e now] gen]. destruct e as [v' n|i a| | |o|i a|n|n]; cbn [controller_calls fst]; intros P.
  - apply redeem_own.
  - unfold answer_calls. destruct (take_at i (c_flights c)) as [[f rest]|]; [|constructor]. apply Forall_app. split.
    + destruct a; cbn; constructor; try exact I; constructor.
    + destruct (_ && _); [apply group_own|constructor].
  - destruct (c_retrying c); [apply retry_own|constructor].
  - unfold boot_calls. destruct (fst _); [apply check_own|constructor].
  - now destruct (P o).
  - unfold answer_calls. destruct (take_at i (c_flights c)) as [[f rest]|]; [|constructor]. cbn [andb]. rewrite app_nil_r. destruct a; cbn; constructor; try exact I; constructor.
  - apply retry_own.
  - unfold boot_calls. destruct (fst _); [apply check_own|constructor].
Qed.
Lemma wf_restart d : wf d -> wf (restart d).
Proof. intros W. exact (@wf_step d ORestart W I). Qed.
Lemma step_invalid c te : wf (c_db c) -> (forall w, fst (fst te) <> EWallet w) -> invalid (c_db (snd (cstep c te))) = invalid (c_db c).
Proof.
  intros W N. rewrite step_db. pose proof (@calls_own c te N) as F. set (os := controller_calls _ _ _ _ _) in *. clearbody os.
  assert (B : invalid (begin (fst (fst te)) (c_db c)) = invalid (c_db c) /\ wf (begin (fst (fst te)) (c_db c))).
  { unfold begin. destruct (fst (fst te)); (split; [reflexivity|]); try exact W; now apply wf_restart. }
  destruct B as [B1 B2]. destruct (own_steps F B2) as [E _]. unfold finish. destruct (fst (fst te)); cbn [restart invalid]; congruence.
Qed.

Definition matches (d : db) (p : purse * list Z) : Prop :=
  (forall t s, stored d s t <-> In (t, s) (fst p)) /\ map fst (invalid d) = snd p.
Lemma step_purse es out c te p : lived groups dflt allowed es out c -> proper te -> matches (c_db c) p ->
  matches (c_db (snd (cstep c te))) (purse_step groups dflt allowed c te p).
Proof.
  intros L P [H V]. pose proof (i_wf (lived_inv L)) as W. pose proof (i_wf (lived_inv (@lived_step _ _ _ _ L P))) as W'. destruct p as [have bad]. cbn [fst snd] in H, V.
  assert (G : (forall w, fst (fst te) <> EWallet w) -> matches (c_db (snd (cstep c te))) (have ++ given (fst (cstep c te)), bad)).
  { intros N. split; [|cbn [snd]; now rewrite (@step_invalid c te W N)]. intros t s.
    destruct (C29_received_tokens_are_stored _ _ _ _ _ _ _ _ _ L P N (surjective_pairing (cstep c te))) as (A & _ & B & D). cbn [fst].
    rewrite in_app_iff, in_given. split.
    - intros St. pose proof (stored_in St) as Hi. rewrite A in Hi. apply in_app_or in Hi as [Hi|Hi].
      + left. apply H. destruct (@in_stored _ _ W Hi) as (s' & S'). now rewrite (@stored_unique _ _ _ _ W' St (D _ _ S')).
      + right. unfold credited_tokens in Hi. apply in_flat_map in Hi as (x & Hx & Ht). destruct x as [|v k toks s'|]; try contradiction.
        exists v, k, toks. destruct (B _ _ _ _ _ Hx Ht) as [S' _]. now rewrite (@stored_unique _ _ _ _ W' St S').
    - intros [Hi|(v & k & toks & Hx & Ht)]; [apply D, H, Hi|apply (B _ _ _ _ _ Hx Ht)]. }
  destruct te as [[e now] gen]. unfold purse_step. cbn [fst] in *. destruct e as [v n|i a| | |o|i a|n|n]; try (apply G; discriminate).
  clear G. destruct P as [Wc _]. cbn [controller_step fst snd c_db with_db] in *.
  assert (X : forall t s, _) by (intros t s; exact (@wallet_stored (c_db c) o t s W Wc)). cbn beta in X.
  destruct o; cbn [wallet_call] in Wc; try contradiction; cbn [given flat_map app].
  all: try (split; cbn [fst snd]; [intros t s; rewrite (proj1 (X t s)), H, app_nil_r; tauto|rewrite (proj2 (X 0 true)), V; apply app_nil_r]).
  - split; cbn [fst snd]; [intros t s; rewrite (proj1 (X t s)), H, in_without; tauto|rewrite (proj2 (X 0 true)), V; apply app_nil_r].
  - rewrite V in X. destruct (succeeds _ _).
    + split; cbn [fst snd]; [|exact (proj2 (X 0 true))]. intros t s. rewrite (proj1 (X t s)), H, in_without. intuition.
    + split; cbn [fst snd]; [|rewrite (proj2 (X 0 true)); apply app_nil_r]. intros t s. rewrite (proj1 (X t s)), H. intuition discriminate.
Qed.
Lemma run_purse es2 : forall es out c p, lived groups dflt allowed es out c -> Forall proper es2 -> matches (c_db c) p ->
  matches (c_db (snd (crun c es2))) (purse_after groups dflt allowed c p es2).
Proof.
  induction es2 as [|te es2 IH]; intros es out c p L F H; [exact H|]. inversion F as [|? ? P F']; subst.
  cbn [purse_after controller_run]. pose proof (IH _ _ _ _ (@lived_step _ _ _ _ L P) F' (@step_purse _ _ _ _ _ L P H)) as X.
  destruct (cstep c te) as [o c1]. cbn [snd] in *. destruct (crun c1 es2) as [o2 c2]. exact X.
Qed.

(** The wallet of a node has exactly the tokens of its purse. *)
Theorem C140_the_purse : forall es out c, lived groups dflt allowed es out c ->
  forall t s, stored (c_db c) s t <-> In (t, s) (purse_of groups dflt allowed es).
Proof.
  intros es out c [F R] t s. assert (L : lived groups dflt allowed [] [] new_node) by (split; [constructor|reflexivity]).
  assert (M : matches (c_db new_node) ([], [])) by (split; [|reflexivity]; intros t' s'; split; [intros (g & v & pk & [] & _)|intros []]).
  destruct (@run_purse es [] [] new_node ([], []) L F M) as [X _]. rewrite R in X. exact (X t s).
Qed.

(** The number the user sees is that of the tokens in it that may be spent and are not
    in use. *)
Theorem C140_the_count : forall es out c, lived groups dflt allowed es out c ->
  exists toks, NoDup toks /\
    (forall t, In t toks <-> In (t, true) (purse_of groups dflt allowed es) /\ ~ In t (in_use (c_db c))) /\
    fst (StoreModel.step (c_db c) OCount) = Ok (RNum (Z.of_nat (length toks))).
Proof.
  intros es out c L. exists (available (c_db c)). split; [apply available_NoDup, (i_wf (lived_inv L))|].
  split; [|reflexivity]. intros t. rewrite in_available, (C140_the_purse L t true). reflexivity.
Qed.

(** What is in it was given by the issuer, and may be spent exactly if it was signed
    with an allowed key. *)
Lemma settle_given now f a c t s : In (t, s) (given (snd (fst (settle groups allowed now f a c)))) ->
  exists toks pk, a = ASuccess toks pk /\ In t toks /\ (s = true <-> In pk allowed).
Proof.
  intros H. apply in_given in H as (v & k & toks & Hi & Ht). unfold settle in Hi. destruct a as [ts pk| | |].
  - destruct (with_cursor _ _) as [[x|x] d]; [|contradiction]. destruct Hi as [E|[]]. injection E as _ _ <- <-. exists ts, pk. rewrite memZ_true. tauto.
  - destruct (with_cursor _ _) as [[x|x] d]; [contradiction|]. now destruct Hi as [E|[]].
  - contradiction.
  - contradiction.
Qed.
Lemma group_silent now gen v total k c x : In x (fst (start_group groups now gen v total k c)) -> forall a b d s, x <> Credited a b d s.
Proof.
  unfold start_group. destruct (_ >=? _); [intros []|]. destruct (token_count_for_group _ _ _); [|intros [<-|[]]; discriminate].
  destruct (with_cursor _ _) as [[y|y] d]; [|intros [<-|[]]; discriminate]. destruct (fst (with_cursor (get v) d)); [|intros [<-|[]]; discriminate].
  destruct (state _); intros [<-|[]]; discriminate.
Qed.
Lemma redeem_silent now gen v n c x : In x (fst (redeem groups dflt now gen v n c)) -> forall a b d s, x <> Credited a b d s.
Proof.
  unfold redeem. destruct (get_voucher c v) as [[vo s]|e].
  - destruct (should_start_redemption s); [|intros []]. destruct (start_at_counter s); [apply group_silent|intros [<-|[]]; discriminate].
  - destruct e; try (intros [<-|[]]; discriminate). apply group_silent.
Qed.
Lemma retry_silent now gen vs : forall c x, In x (fst (retry_loop groups dflt now gen vs c)) -> forall a b d s, x <> Credited a b d s.
Proof.
  induction vs as [|v vs IH]; intros c x; [intros []|]. cbn [retry_loop]. destruct (memZ _ _); [apply IH|].
  destruct (get_voucher c v) as [[vo s]|e]; [|intros [<-|[]]; discriminate]. destruct (should_start_redemption s); [|apply IH].
  pose proof (@redeem_silent now gen v None c x) as Rs. destruct (redeem _ _ _ _ _ _ _) as [o1 c1]. specialize (IH c1 x). destruct (retry_loop _ _ _ _ _ _) as [o2 c2].
  cbn [fst] in *. intros H. apply in_app_or in H as [H|H]; auto.
Qed.
Lemma check_silent now gen vs : forall c x, In x (fst (check_loop groups dflt now gen vs c)) -> forall a b d s, x <> Credited a b d s.
Proof.
  induction vs as [|v vs IH]; intros c x; [intros []|]. cbn [check_loop]. destruct (should_start_redemption _); [|apply IH].
  pose proof (@redeem_silent now gen (number v) None c x) as Rs. destruct (redeem _ _ _ _ _ _ _) as [o1 c1]. specialize (IH c1 x). destruct (check_loop _ _ _ _ _ _) as [o2 c2].
  cbn [fst] in *. intros H. apply in_app_or in H as [H|H]; auto.
Qed.
Lemma boot_silent now gen upto c x : In x (fst (boot groups dflt now gen upto c)) -> forall a b d s, x <> Credited a b d s.
Proof.
  unfold boot. destruct (fst (with_cursor list_vouchers (c_db (killed c)))) as [vs|e]; [|intros [<-|[]]; discriminate]. destruct upto as [n|].
  - pose proof (@check_silent now gen (firstn n vs) (killed c) x) as Rs. destruct (check_loop _ _ _ _ _ _). exact Rs.
  - pose proof (@check_silent now gen vs (killed c) x) as Rs. destruct (check_loop _ _ _ _ _ _). exact Rs.
Qed.
Lemma step_given c te t s : In (t, s) (given (fst (cstep c te))) -> exists pk, issued [te] t pk /\ (s = true <-> In pk allowed).
Proof.
  intros H. assert (N : forall o, (forall x, In x o -> forall a b d s, x <> Credited a b d s) -> In (t, s) (given o) -> False).
  { intros o N Hi. apply in_given in Hi as (v & k & toks & Hx & _). exact (N _ Hx _ _ _ _ eq_refl). }
  destruct te as [[e now] gen]. destruct e as [v n|i a| | |o|i a|n|n]; cbn [controller_step] in H.
  - destruct (N _ (@redeem_silent now gen v n c) H).
  - unfold answered in H. destruct (take_at i (c_flights c)) as [[f rest]|]; [|contradiction].
    pose proof (@settle_given now f a (with_flights rest c) t s) as Sg. destruct (settle _ _ _ _ _ _) as [[go o1] c1]. cbn [fst snd] in Sg.
    assert (H' : In (t, s) (given o1)).
    { destruct go; [|exact H]. pose proof (@group_silent now gen (f_voucher f) (f_total f) (f_counter f + 1) c1) as Gs.
      destruct (start_group _ _ _ _ _ _ _) as [o2 c2]. cbn [fst] in *. unfold given in H. rewrite flat_map_app in H. apply in_app_or in H as [H|H]; [exact H|].
      destruct (N _ Gs H). }
    destruct (Sg H') as (toks & pk & -> & Ht & K). exists pk. split; [|exact K]. exists i, toks, now, gen. cbn. auto.
  - unfold retry_redemption in H. destruct (c_retrying c); [|contradiction]. destruct (N _ (@retry_silent now gen _ c) H).
  - destruct (N _ (@boot_silent now gen _ c) H).
  - contradiction.
  - destruct (take_at i (c_flights c)) as [[f rest]|]; [|contradiction].
    pose proof (@settle_given now f a (with_flights rest c) t s) as Sg. destruct (settle _ _ _ _ _ _) as [[go o1] c1]. cbn [fst snd] in *.
    destruct (Sg H) as (toks & pk & -> & Ht & K). exists pk. split; [|exact K]. exists i, toks, now, gen. cbn. auto.
  - pose proof (@retry_silent now gen (firstn n (dkeys (c_error c) ++ dkeys (c_unpaid c))) c) as Rs. destruct (retry_loop _ _ _ _ _ _) as [o1 c1]. destruct (N _ Rs H).
  - destruct (N _ (@boot_silent now gen _ c) H).
Qed.
Lemma issued_more a b t pk : issued a t pk -> issued (a ++ b) t pk.
Proof. intros (i & toks & now & gen & Ht & [H|H]); exists i, toks, now, gen; (split; [exact Ht|]); rewrite !in_app_iff; auto. Qed.
Lemma issued_later a b t pk : issued b t pk -> issued (a ++ b) t pk.
Proof. intros (i & toks & now & gen & Ht & [H|H]); exists i, toks, now, gen; (split; [exact Ht|]); rewrite !in_app_iff; auto. Qed.
Lemma purse_issued es : forall c p t s, In (t, s) (fst (purse_after groups dflt allowed c p es)) ->
  In (t, s) (fst p) \/ exists pk, issued es t pk /\ (s = true <-> In pk allowed).
Proof.
  induction es as [|te es IH]; intros c p t s H; [auto|]. cbn [purse_after] in H. destruct (IH _ _ _ _ H) as [Hp|(pk & Hi & K)].
  - assert (X : In (t, s) (fst p) \/ In (t, s) (given (fst (cstep c te)))).
    { unfold purse_step in Hp. destruct p as [have bad]. cbn [fst]. destruct (fst (fst te)) as [v n|i a| | |o|i a|n|n]; try (apply in_app_or in Hp; exact Hp).
      destruct o; try (apply in_app_or in Hp; exact Hp); [apply in_without in Hp; tauto|].
      destruct (succeeds _ _); [apply in_without in Hp|]; tauto. }
    destruct X as [X|X]; [auto|]. right. destruct (step_given _ _ _ _ X) as (pk & Hi & K). exists pk. split; [|exact K]. exact (@issued_more [te] es t pk Hi).
  - right. exists pk. split; [|exact K]. exact (@issued_later [te] es t pk Hi).
Qed.
Theorem C140_from_the_issuer : forall es t s, In (t, s) (purse_of groups dflt allowed es) ->
  exists pk, issued es t pk /\ (s = true <-> In pk allowed).
Proof. intros es t s H. destruct (purse_issued _ _ _ _ _ H) as [[]|X]. exact X. Qed.

(** Nothing the issuer gives is left out: the tokens of a successful answer to an open
    request go in, unless one of them is there already or comes twice. *)
Lemma purse_after_app a : forall b c p, purse_after groups dflt allowed c p (a ++ b) =
  purse_after groups dflt allowed (snd (crun c a)) (purse_after groups dflt allowed c p a) b.
Proof.
  induction a as [|e a IH]; intros b c p; [reflexivity|]. cbn [app purse_after controller_run]. rewrite IH.
  destruct (cstep c e) as [o c1]. cbn [snd]. destruct (crun c1 a). reflexivity.
Qed.
Theorem C140_nothing_given_is_left_out : forall es out c i f toks pk now gen e, lived groups dflt allowed es out c ->
  nth_error (c_flights c) i = Some f -> NoDup toks -> (forall t s, In t toks -> ~ In (t, s) (purse_of groups dflt allowed es)) ->
  e = EAnswer i (ASuccess toks pk) \/ e = EKillAfterAnswer i (ASuccess toks pk) ->
  exists s : bool, (s = true <-> In pk allowed) /\
    purse_of groups dflt allowed (es ++ [(e, now, gen)]) = purse_of groups dflt allowed es ++ map (fun t => (t, s)) toks.
Proof.
  intros es out c i f toks pk now gen e L N Nd Fr He. pose proof (lived_inv L) as J.
  assert (Dj : disjoint toks (map u_token (unblinded (c_db c)))).
  { intros t Ht Hu. apply in_map_iff in Hu as ([t' g] & E & Hu). cbn in E. subst t'.
    pose proof (wf_group_known (i_wf J) _ Hu) as Hg. cbn in Hg. apply in_map_iff in Hg as ([g' v k s] & E & Hg). cbn in E. subst g'.
    apply (Fr t s Ht). apply (C140_the_purse L). exists g, v, k. auto. }
  exists (memZ pk allowed). split; [apply memZ_true|].
  unfold purse_of. rewrite purse_after_app. destruct L as [F R]. rewrite R. cbn [snd purse_after].
  destruct (purse_after groups dflt allowed new_node ([], []) es) as [have bad] eqn:Ep. cbn [fst].
  assert (G : given (fst (cstep c (e, now, gen))) = map (fun t => (t, memZ pk allowed)) toks).
  { destruct (@take_at_nth _ _ _ _ N) as [rest T].
    destruct (settle groups allowed now f (ASuccess toks pk) (with_flights rest c)) as [[go o1] c1] eqn:E1.
    destruct (@settle_at groups allowed now out i _ c f rest go o1 c1 J T E1) as (a0 & b0 & Fl & Er & _ & S).
    destruct (flight_row _ _ _ _ _ _ J Fl) as (r0 & Hr0 & Nr0 & Pr0).
    pose proof (settle_works _ _ _ _ _ _ _ _ _ _ _ _ (i_wf J) Hr0 Nr0 Nd Dj E1) as ->.
    assert (Go : given o1 = map (fun t => (t, memZ pk allowed)) toks)
      by (inversion S; subst; cbn [given flat_map]; now rewrite app_nil_r).
    destruct He as [-> | ->]; cbn [controller_step].
    - unfold answered. rewrite T, E1. pose proof (@group_silent now gen (f_voucher f) (f_total f) (f_counter f + 1) c1) as Gs.
      destruct (start_group _ _ _ _ _ _ _) as [o2 c2]. cbn [fst] in *. unfold given in *. rewrite flat_map_app, Go.
      assert (Z2 : flat_map (fun x => match x with Credited _ _ ts s => map (fun t => (t, s)) ts | _ => [] end) o2 = []).
      { destruct (flat_map _ o2) as [|[t s] l] eqn:X; [reflexivity|exfalso].
        assert (Hx : In (t, s) (given o2)) by (unfold given; rewrite X; left; reflexivity).
        apply in_given in Hx as (v & k & ts & Hx & _). exact (Gs _ Hx _ _ _ _ eq_refl). }
      rewrite Z2. apply app_nil_r.
    - rewrite T, E1. exact Go. }
  unfold purse_step. cbn [fst]. destruct He as [-> | ->]; cbn [fst]; now rewrite G.
Qed.

(** A token handed out for spending was signed with an allowed key. *)
Theorem C140_only_allowed_keys_are_spent : forall es out c scan n toks d, lived groups dflt allowed es out c ->
  (forall l, Permutation (scan l) l) -> StoreModel.step (c_db c) (OExtract scan n) = (Ok (RTokens toks), d) ->
  forall t, In t toks -> In (t, true) (purse_of groups dflt allowed es) /\ exists pk, issued es t pk /\ In pk allowed.
Proof.
  intros es out c scan n toks d L P E t Ht. destruct (@extract_stored _ scan n toks d t (i_wf (lived_inv L)) P E Ht) as [S _].
  apply (C140_the_purse L) in S. split; [exact S|]. destruct (C140_from_the_issuer _ _ _ S) as (pk & Hi & K). exists pk. tauto.
Qed.
Theorem C31_unrecognised_keys : forall es out c scan n toks d, lived groups dflt allowed es out c ->
  (forall l, Permutation (scan l) l) -> StoreModel.step (c_db c) (OExtract scan n) = (Ok (RTokens toks), d) ->
  forall t, (forall pk, issued es t pk -> ~ In pk allowed) -> ~ In t toks.
Proof.
  intros es out c scan n toks d L P E t H Ht. destruct (@C140_only_allowed_keys_are_spent es out c scan n toks d L P E t Ht) as [_ (pk & Hi & K)]. exact (H pk Hi K).
Qed.
End Node.
Print Assumptions C140_the_purse.
Print Assumptions C140_the_count.
Print Assumptions C140_from_the_issuer.
Print Assumptions C140_nothing_given_is_left_out.
Print Assumptions C140_only_allowed_keys_are_spent.
Print Assumptions C31_unrecognised_keys.

(** Two tokens signed with the key 5, which is allowed, and two with 6, which is
    not; one of the first two is spent, the other one handed out again after a restart. *)
Definition purse_es : list timed :=
  [(EStart, 0, old_tokens 10); (ESubmit 7 (Some 4), 1, old_tokens 20); (EAnswer 0 (ASuccess [101; 102] 5), 2, old_tokens 30);
   (EKillAfterAnswer 0 (ASuccess [103; 104] 6), 3, old_tokens 40); (EStart, 4, old_tokens 50);
   (EWallet (OExtract (fun l => l) 2), 5, old_tokens 60); (EWallet (ODiscard [101]), 6, old_tokens 70); (EStart, 7, old_tokens 80)].
Definition purse_end := controller_run 2 4 [5] new_node purse_es.
Example C140_example :
  lived 2 4 [5] purse_es (fst purse_end) (snd purse_end) /\
  purse_of 2 4 [5] purse_es = [(102, true); (103, false); (104, false)] /\
  fst (StoreModel.step (c_db (snd purse_end)) OCount) = Ok (RNum 1) /\
  (exists d, StoreModel.step (c_db (snd purse_end)) (OExtract (fun l => l) 1) = (Ok (RTokens [102]), d)) /\
  (forall pk, issued purse_es 103 pk -> ~ In pk [5]).
Proof.
  split.
  { split; [|unfold purse_end; destruct (controller_run 2 4 [5] new_node purse_es); reflexivity]. unfold purse_es. repeat apply Forall_cons; try apply Forall_nil; try apply old_enough.
    - split; [intros l; apply Permutation_refl|apply old_enough].
    - split; [exact I|apply old_enough]. }
  split; [vm_compute; reflexivity|]. split; [vm_compute; reflexivity|]. split; [eexists; vm_compute; reflexivity|].
  intros pk (i & toks & now & gen & Ht & H). unfold purse_es in H.
  assert (K : forall e, In e (map (fun te => fst (fst te)) purse_es) ->
    e = EAnswer i (ASuccess toks pk) \/ e = EKillAfterAnswer i (ASuccess toks pk) -> ~ In pk [5]).
  { intros e He Ee. cbn in He. repeat destruct He as [He|He]; try contradiction; subst e; destruct Ee as [E|E]; try discriminate E;
    injection E as <- <- <-; cbn in Ht; intros [X|[]]; try discriminate X; lia. }
  destruct H as [H|H]; (eapply K; [apply (in_map (fun te => fst (fst te)) _ _ H)|cbn [fst]; auto]).
Qed.
(** The first answer finds its request open and nothing in the purse. *)
Example C140_example_answer :
  let es := firstn 2 purse_es in
  exists f, nth_error (c_flights (snd (controller_run 2 4 [5] new_node es))) 0 = Some f /\
  purse_of 2 4 [5] es = [] /\
  purse_of 2 4 [5] (es ++ [(EAnswer 0 (ASuccess [101; 102] 5), 2, old_tokens 30)]) = [(101, true); (102, true)].
Proof. eexists. repeat split; vm_compute; reflexivity. Qed.
