(** Property theorems C111: the answer of the issuer takes effect at once, and is
    what the user sees next.  The model is [ControllerModel], the vocabulary that
    of [ControllerSpec]. *)
From Verif Require Import Prelude PreludeFacts PricingModel StoreModel StoreSpec StoreProofs
  ControllerModel ControllerSpec ControllerProofs ControllerRunProofs ControllerProperties.

(** The issuer gives the answer [a] to the [i]-th open request, which is [f]. *)
Definition answers groups dflt allowed es out c i f a now gen o c' : Prop :=
  lived groups dflt allowed es out c /\ nth_error (c_flights c) i = Some f /\ enough gen /\
  controller_step groups dflt allowed c (EAnswer i a, now, gen) = (o, c').

(** The user looks at the voucher and sees the state [s]. *)
Definition sees (c : ctl) (v : Z) (s : cstate) : Prop := exists vo, get_voucher c v = Ok (vo, s) /\ number vo = v.

Lemma take_at_nth A i : forall (l : list A) x, nth_error l i = Some x -> exists rest, take_at i l = Some (x, rest).
Proof.
  induction i as [|i IH]; intros [|y l] x E; cbn in E |- *; try discriminate.
  - injection E as ->. eauto.
  - destruct (IH l x E) as [rest ->]. eauto.
Qed.

(** What the answer does, before a next group is asked for. *)
Lemma answers_split groups dflt allowed es out c i f a now gen o c' :
  answers groups dflt allowed es out c i f a now gen o c' ->
  exists a0 b0 go o1 c1, c_flights c = a0 ++ f :: b0 /\
    settled groups allowed now f (with_flights (a0 ++ b0) c) a go o1 c1 /\
    inv groups out c /\ inv groups (out ++ o) c' /\ inv groups (out ++ o1) c1 /\ ~ In (f_voucher f) (outstanding c1) /\
    (go = true -> f_counter f + 1 < groups -> startable (f_voucher f) (f_total f) c1) /\
    (if go then exists o2, start_group groups now gen (f_voucher f) (f_total f) (f_counter f + 1) c1 = (o2, c') /\ o = o1 ++ o2
     else o = o1 /\ c' = c1).
Proof.
  intros (L & N & En & E). pose proof (lived_inv L) as J. pose proof (@inv_step groups dflt allowed out c (EAnswer i a, now, gen) o c' En J E) as J'.
  cbn [controller_step] in E. unfold answered in E. destruct (@take_at_nth _ _ _ _ N) as [rest T]. rewrite T in E.
  destruct (settle groups allowed now f a (with_flights rest c)) as [[go o1] c1] eqn:E1.
  destruct (@settle_at groups allowed now out i a c f rest go o1 c1 J T E1) as (a0 & b0 & Fl & Er & _ & S).
  destruct (@inv_settled _ _ _ _ _ _ _ _ _ _ _ _ J Fl S) as (J1 & No & St).
  exists a0, b0, go, o1, c1. do 7 (split; [assumption|]).
  destruct go; [|now injection E as <- <-].
  destruct (start_group groups now gen (f_voucher f) (f_total f) (f_counter f + 1) c1) as [o2 c2]. injection E as <- <-. eauto.
Qed.

Lemma sees_reported groups out c r v s : inv groups out c -> row c r -> v_number r = v ->
  (forall s', reported c r s' -> s' = s) -> sees c v s.
Proof.
  intros J Hr <- U. destruct (@get_voucher_spec _ _ _ _ J Hr) as (s' & G & R). rewrite (U _ R) in G. exists (shown r). auto.
Qed.

Lemma inactive groups out c v : inv groups out c -> ~ In v (outstanding c) -> ~ In v (dkeys (c_active c)).
Proof. intros J N. now rewrite (i_active J). Qed.

Lemma flight_row groups out c a0 f b0 : inv groups out c -> c_flights c = a0 ++ f :: b0 ->
  exists r, row c r /\ v_number r = f_voucher f /\ v_state r = SPending.
Proof.
  intros J Fl. assert (If : In f (c_flights c)) by (rewrite Fl; apply in_or_app; right; left; reflexivity).
  destruct (i_flight J f If) as (_ & _ & _ & r & Hr & Nr & Pr & _). eauto.
Qed.

Lemma NoDup_keys V (d : dict V) k x y : NoDup (dkeys d) -> In (k, x) d -> In (k, y) d -> x = y.
Proof.
  intros N A B. assert (E : (k, x) = (k, y)) by (eapply (@NoDup_map_inj _ _ fst); eauto). congruence.
Qed.

(** "Already spent": the voucher is shown as double spent from that moment, and
    nothing else is asked for. *)
Theorem C111_already_spent_is_shown : forall groups dflt allowed es out c i f now gen o c',
  answers groups dflt allowed es out c i f AAlreadySpent now gen o c' ->
  o = [] /\ sees c' (f_voucher f) (CDoubleSpend now).
Proof.
  intros * H. destruct (answers_split _ _ _ _ _ _ _ _ _ _ _ _ _ H) as (a0 & b0 & go & o1 & c1 & Fl & S & J & J' & J1 & No & St & R).
  inversion S as [? ? ? _ _ X|?|r Hr Nr Pr]; subst; [congruence|]. destruct R as [-> ->]. split; [reflexivity|].
  refine (sees_reported groups (out ++ []) _ (double_spent now r) _ _ J1 _ Nr _).
  - unfold row. cbn [c_db vouchers set_vouchers]. apply upd_voucher_in. right. exists r. auto.
  - intros s Rp. inversion Rp as [? ? Q|? Q F| ? ? Q|? Q|? ? Q|Q]; cbn in Q; try discriminate. cbn in F. congruence.
Qed.
Print Assumptions C111_already_spent_is_shown.

(** "Not paid for": it is shown as unpaid, with the time of this answer, and the
    wallet is as it was. *)
Theorem C111_unpaid_is_shown : forall groups dflt allowed es out c i f now gen o c',
  answers groups dflt allowed es out c i f AUnpaid now gen o c' ->
  o = [] /\ c_db c' = c_db c /\ sees c' (f_voucher f) (CUnpaid now).
Proof.
  intros * H. destruct (answers_split _ _ _ _ _ _ _ _ _ _ _ _ _ H) as (a0 & b0 & go & o1 & c1 & Fl & S & J & J' & J1 & No & St & R).
  destruct (flight_row _ _ _ _ _ _ J Fl) as (r & Hr & Nr & Pr).
  destruct H as (L & _). pose proof (t_unpaid (lived_tidy L)) as Nd.
  inversion S as [? e u _ _ _ _ _ _ Nu _ Iu|?|?]; subst. destruct R as [-> ->]. split; [reflexivity|]. split; [reflexivity|].
  specialize (Iu eq_refl). specialize (Nu Nd). apply (inactive _ _ _ _ J1) in No. cbn [c_active] in No.
  refine (sees_reported groups (out ++ []) _ r _ _ J1 Hr Nr _).
  intros s Rp. inversion Rp as [? ? Q|? Q F| ? ? Q A|fin Q A B|? ? Q A B|Q A B]; try congruence; cbn [c_active c_unpaid c_error with_flights] in *; rewrite ?Nr in *.
  - exfalso. apply No. eapply in_dkeys; eauto.
  - f_equal. eapply NoDup_keys; eauto.
  - exfalso. apply B. eapply in_dkeys; eauto.
  - exfalso. apply B. eapply in_dkeys; eauto.
Qed.
Print Assumptions C111_unpaid_is_shown.

(** Any other failure: the intended claim is that the error is shown.  It is
    false: after an earlier "not paid for" the user keeps seeing that one, with
    its old time. *)
Definition an_history : list timed :=
  [(EStart, 10, old_tokens 50); (ESubmit 7 (Some 4), 11, old_tokens 100); (EAnswer 0 AUnpaid, 12, old_tokens 200);
   (ETimer, 13, old_tokens 300)].
Definition an_end := snd (controller_run 2 4 [5] new_node an_history).
Definition an_out := fst (controller_run 2 4 [5] new_node an_history).
Lemma an_lived : lived 2 4 [5] an_history an_out an_end.
Proof. split; [unfold an_history; repeat constructor; apply old_enough|apply surjective_pairing]. Qed.

Theorem C111_error_is_shown_refuted : ~ (forall groups dflt allowed es out c i f x now gen o c',
  answers groups dflt allowed es out c i f (AError x) now gen o c' -> sees c' (f_voucher f) (CError now x)).
Proof.
  intros H. specialize (H 2 4 [5] an_history an_out an_end 0%nat (Flight 7 0 4 [-100; -101]) 3 14 (old_tokens 400) _ _
    (conj an_lived (conj eq_refl (conj (old_enough 400) (surjective_pairing _))))).
  destruct H as (vo & G & _). vm_compute in G. discriminate G.
Qed.
Print Assumptions C111_error_is_shown_refuted.

(** For a voucher the issuer has never called unpaid it holds; the wallet is as
    it was. *)
Theorem C111_error_is_shown_partial : forall groups dflt allowed es out c i f x now gen o c',
  answers groups dflt allowed es out c i f (AError x) now gen o c' -> paid groups dflt allowed (f_voucher f) es ->
  o = [] /\ c_db c' = c_db c /\ sees c' (f_voucher f) (CError now x).
Proof.
  intros * H Pd. destruct (answers_split _ _ _ _ _ _ _ _ _ _ _ _ _ H) as (a0 & b0 & go & o1 & c1 & Fl & S & J & J' & J1 & No & St & R).
  destruct (flight_row _ _ _ _ _ _ J Fl) as (r & Hr & Nr & Pr).
  destruct H as (L & _). pose proof (t_error (lived_tidy L)) as Nd. destruct (lived_good L Pd) as [_ Gu].
  inversion S as [? e u _ _ _ _ Eu Ne _ Ie _|?|?]; subst. destruct R as [-> ->]. split; [reflexivity|]. split; [reflexivity|].
  specialize (Ie _ eq_refl). specialize (Ne Nd). specialize (Eu ltac:(discriminate)). subst u.
  apply (inactive _ _ _ _ J1) in No. cbn [c_active] in No.
  refine (sees_reported groups (out ++ []) _ r _ _ J1 Hr Nr _).
  intros s Rp. inversion Rp as [? ? Q|? Q F| ? ? Q A|fin Q A B|? ? Q A B C|Q A B C]; try congruence; cbn [c_active c_unpaid c_error with_flights] in *; rewrite ?Nr in *.
  - exfalso. apply No. eapply in_dkeys; eauto.
  - exfalso. apply Gu. eapply in_dkeys; eauto.
  - assert (X : (f0, x0) = (now, x)) by (eapply NoDup_keys; eauto). congruence.
  - exfalso. apply C. eapply in_dkeys; eauto.
Qed.
Print Assumptions C111_error_is_shown_partial.

(** Success with tokens that cannot be stored, because one of them is there twice
    or is in the wallet already: nothing is stored and nothing is asked for. *)
Theorem C111_unusable_tokens_change_nothing : forall groups dflt allowed es out c i f toks pk now gen o c',
  answers groups dflt allowed es out c i f (ASuccess toks pk) now gen o c' ->
  ~ (NoDup toks /\ forall t, In t toks -> ~ In t (map u_token (unblinded (c_db c)))) ->
  o = [] /\ c_db c' = c_db c.
Proof.
  intros * H X. destruct (answers_split _ _ _ _ _ _ _ _ _ _ _ _ _ H) as (a0 & b0 & go & o1 & c1 & Fl & S & J & J' & J1 & No & St & R).
  inversion S as [? e u _ _ _ _ _ _ _ _ _|? ? r d Hr Nr Pr Nd Dj Ed|?]; subst.
  - destruct R as [-> ->]. auto.
  - exfalso. apply X. split; [exact Nd|exact Dj].
Qed.
Print Assumptions C111_unusable_tokens_change_nothing.

Lemma insert_works v pk ts (completed spendable : bool) now d r d' row : wf d -> In row (vouchers d) -> v_number row = v ->
  NoDup ts -> disjoint ts (map u_token (unblinded d)) ->
  with_cursor (insert_unblinded_tokens_for_voucher v pk ts completed spendable now) d = (r, d') -> r = Ok tt.
Proof.
  intros W I N Nd Dj E. pose proof (step_insert_eq v pk ts completed spendable now W) as S.
  cbn [step op_prog] in S. rewrite with_cursor_pmap, E in S.
  rewrite (@filter_voucher_one _ _ _ (wf_vouchers W) I N) in S. cbv zeta in S.
  erewrite (proj2 (@ins_unblinded_Ok _ ts _ _)) in S; [|split; [exact Nd|split; [exact Dj|reflexivity]]].
  destruct r as [[]|e]; [reflexivity|discriminate S].
Qed.

Lemma settle_works groups allowed now f toks pk rest c go o c' r : wf (c_db c) -> row c r -> v_number r = f_voucher f ->
  NoDup toks -> disjoint toks (map u_token (unblinded (c_db c))) ->
  settle groups allowed now f (ASuccess toks pk) (with_flights rest c) = (go, o, c') -> go = true.
Proof.
  intros W Hr Nr Nd Dj E. unfold settle in E. cbn [c_db with_flights] in E.
  destruct (with_cursor _ (c_db c)) as [ra d] eqn:Ea.
  rewrite (insert_works _ _ _ _ _ _ _ _ _ _ W Hr Nr Nd Dj Ea) in E. now injection E as <- _ _.
Qed.

(** Success otherwise: the tokens are stored as one new group under the key the
    issuer gave, spendable just if that key is allowed, and no other token is in
    that group.  After the last group the voucher is shown as redeemed, with the
    number of spendable tokens received for it; before it the next group is asked
    for at once, and the voucher is shown as being redeemed. *)
Theorem C111_success_is_stored_and_carried_on : forall groups dflt allowed es out c i f toks pk now gen o c',
  answers groups dflt allowed es out c i f (ASuccess toks pk) now gen o c' ->
  NoDup toks -> (forall t, In t toks -> ~ In t (map u_token (unblinded (c_db c)))) ->
  exists (spendable : bool) o2 g, (spendable = true <-> In pk allowed) /\
    o = Credited (f_voucher f) (f_counter f) toks spendable :: o2 /\
    In (GR g (f_voucher f) pk spendable) (StoreModel.groups (c_db c')) /\
    ~ In g (map g_id (StoreModel.groups (c_db c))) /\
    (forall t, In (UR t g) (unblinded (c_db c')) <-> In t toks) /\
    (f_counter f + 1 = groups -> o2 = [] /\ sees c' (f_voucher f) (CRedeemed now (received true (f_voucher f) (out ++ o)))) /\
    (f_counter f + 1 < groups -> fresh_tokens gen (c_db c) ->
      exists toks', o2 = [Requested (f_voucher f) (f_counter f + 1) toks'] /\
        sees c' (f_voucher f) (CRedeeming now (Z.of_nat (length (credits (f_voucher f) (out ++ o)))))).
Proof.
  intros * H Nt Dt. destruct H as (L & N & En & E). pose proof (lived_inv L) as J.
  pose proof (@inv_step groups dflt allowed out c (EAnswer i (ASuccess toks pk), now, gen) o c' En J E) as J'.
  cbn [controller_step] in E. unfold answered in E. destruct (@take_at_nth _ _ _ _ N) as [rest T]. rewrite T in E.
  destruct (settle groups allowed now f (ASuccess toks pk) (with_flights rest c)) as [[go o1] c1] eqn:E1.
  destruct (@settle_at groups allowed now out i _ c f rest go o1 c1 J T E1) as (a0 & b0 & Fl & Er & _ & S).
  destruct (@inv_settled _ _ _ _ _ _ _ _ _ _ _ _ J Fl S) as (J1 & No & St).
  destruct (flight_row _ _ _ _ _ _ J Fl) as (r0 & Hr0 & Nr0 & Pr0).
  pose proof (settle_works _ _ _ _ _ _ _ _ _ _ _ _ (i_wf J) Hr0 Nr0 Nt Dt E1) as ->.
  destruct (start_group groups now gen (f_voucher f) (f_total f) (f_counter f + 1) c1) as [o2 c2] eqn:E2. injection E as <- <-.
  inversion S as [|? ? r d Hr Nr Pr Nd Dj Ed|]; subst o1 c1. subst. clear Nd Dj. cbn [with_flights c_db c_flights c_active c_error c_unpaid c_retrying] in *.
  assert (r0 = r) by (eapply row_unique; [exact J|exact Hr0|exact Hr|congruence]). subst r0. clear Hr0 Nr0 Pr0.
  cbv zeta in Ed. set (id := next_id (map g_id (StoreModel.groups (c_db c)))) in *.
  set (c1 := Ctl d (c_error c) (c_unpaid c) (ddel (f_voucher f) (c_active c)) (a0 ++ b0) (c_retrying c)) in *.
  set (r1 := group_done (if f_counter f + 1 =? groups then SRedeemed else SPending)
               (if memZ pk allowed then lenZ toks else 0) (if memZ pk allowed then 0 else lenZ toks) now r) in *.
  assert (Hr1 : row c1 r1).
  { unfold row, c1. cbn [c_db]. rewrite Ed. cbn [vouchers]. apply upd_voucher_in. right. exists r. auto. }
  assert (Nr1 : v_number r1 = f_voucher f) by exact Nr.
  assert (Same : StoreModel.groups (c_db c2) = StoreModel.groups d /\ unblinded (c_db c2) = unblinded d /\
                 (f_counter f + 1 >= groups -> o2 = [] /\ c2 = c1)).
  { destruct (Z_lt_ge_dec (f_counter f + 1) groups) as [Lt|Ge].
    - pose proof (@start_group_spec _ _ _ _ _ _ _ _ _ _ J1 (St eq_refl Lt) E2) as Sg. split; [|split; [|lia]].
      + inversion Sg as [|? ? ?|k tk d2 ? ? Q ?]; subst o2 c2; try reflexivity. destruct Q as [(_ & _ & ->)|(_ & _ & _ & _ & ->)]; [reflexivity|].
        unfold with_voucher. destruct (memZ (f_voucher f) (map v_number (vouchers (c_db c1)))); reflexivity.
      + inversion Sg as [|? ? ?|k tk d2 ? ? Q ?]; subst o2 c2; try reflexivity. destruct Q as [(_ & _ & ->)|(_ & _ & _ & _ & ->)]; [reflexivity|].
        unfold with_voucher. destruct (memZ (f_voucher f) (map v_number (vouchers (c_db c1)))); reflexivity.
    - unfold start_group in E2. destruct (Z.geb_spec (f_counter f + 1) groups); [|lia]. injection E2 as <- <-. auto. }
  destruct Same as (Sg & Su & Se). exists (memZ pk allowed), o2, id. rewrite Sg, Su, Ed. cbn [StoreModel.groups unblinded].
  split; [destruct (memZ_spec pk allowed); split; intros; congruence || assumption|].
  split; [reflexivity|]. split; [apply in_or_app; right; left; reflexivity|].
  split; [apply next_id_fresh|]. split; [|split].
  - intros t. rewrite in_app_iff, in_map_iff. split.
    + intros [I|(t' & Q & I)]; [|now injection Q as ->]. exfalso. apply (wf_group_known (i_wf J)) in I. cbn in I. exact (next_id_fresh _ I).
    + intros I. right. eauto.
  - intros Last. destruct (Se ltac:(lia)) as [-> ->]. split; [reflexivity|].
    refine (sees_reported groups _ _ r1 _ _ J' Hr1 Nr1 _).
    destruct (i_row J' r1 Hr1) as (_ & _ & _ & Tc & _). rewrite Nr1 in Tc. rewrite <- Tc.
    assert (Sr : v_state r1 = SRedeemed) by (unfold r1; cbn [v_state group_done]; now rewrite Last, Z.eqb_refl).
    intros s Rp. inversion Rp as [fin n Q F C|? Q F| ? ? Q A|fin Q A B|? ? Q A B C|Q A B C]; try congruence.
    rewrite C. cbn [coalesce0]. unfold r1 in F. cbn in F. congruence.
  - intros Lt Fr. pose proof (@start_group_spec _ _ _ _ _ _ _ _ _ _ J1 (St eq_refl Lt) E2) as Sp.
    assert (If : In f (c_flights c)) by (rewrite Fl; apply in_or_app; right; left; reflexivity).
    destruct (i_flight J f If) as (Hc & _ & _ & r' & Hr' & Nr' & _ & Tr').
    destruct (i_row J r' Hr') as (_ & Hg & _).
    inversion Sp as [|e Q1 Q2|k tk d2 Q1 Q2 Q3 Q4]; subst o2 c2; [lia| |].
    + exfalso. destruct (Q2 ltac:(lia) ltac:(lia)) as (_ & n & _ & Nf). apply Nf. destruct Fr as (F1 & F2 & F3 & F4).
      split; [apply F2|]. intros t I I'. apply (F3 _ _ _ _ I). unfold c1 in I'. cbn [c_db] in I'. rewrite Ed in I'. cbn [tokens] in I'.
      apply in_map_iff in I'. destruct I' as (x & <- & I'). apply filter_In in I'. apply in_map, I'.
    + exists tk. split; [reflexivity|].
      assert (Hr2 : row (with_flights (c_flights c1 ++ [Flight (f_voucher f) (f_counter f + 1) (f_total f) tk])
                           (with_active (dset (f_voucher f) (now, k) (c_active c1)) (with_db d2 c1))) r1).
      { unfold row. cbn [c_db with_flights with_active with_db]. destruct Q3 as [(_ & _ & ->)|(_ & _ & _ & _ & ->)]; [exact Hr1|].
        cbn [vouchers set_tokens]. unfold with_voucher.
        destruct (memZ (f_voucher f) (map v_number (vouchers (c_db c1)))); [exact Hr1|]. cbn [vouchers set_vouchers]. apply in_or_app. left. exact Hr1. }
      refine (sees_reported groups _ _ r1 _ _ J' Hr2 Nr1 _).
      destruct (i_row J' r1 Hr2) as (_ & _ & Tc & _). rewrite Nr1 in Tc. rewrite <- Tc.
      assert (Sr : v_state r1 = SPending) by (unfold r1; cbn [v_state group_done]; destruct (Z.eqb_spec (f_counter f + 1) groups); [lia|reflexivity]).
      assert (Ek : k = v_counter r1).
      { destruct Q4 as [[_ Q4]|(r'' & Hr'' & Nr'' & ->)].
        - exfalso. apply Q4. rewrite <- Nr1. now apply in_known.
        - f_equal. eapply row_unique; [exact J1|exact Hr''|exact Hr1|congruence]. }
      assert (Ia : In (f_voucher f, (now, k)) (dset (f_voucher f) (now, k) (c_active c1))) by apply dset_self.
      intros s Rp. inversion Rp as [fin n Q F C|? Q F|st q Q A|fin Q A B|? ? Q A B C|Q A B C]; try congruence; rewrite Nr1 in A; cbn [c_active with_flights with_active with_db] in A.
      * assert (X : (st, q) = (now, k)).
        { eapply NoDup_keys; [|exact A|exact Ia]. pose proof (i_nodup J') as X. rewrite <- (i_active J') in X. exact X. }
        injection X as -> ->. congruence.
      * exfalso. apply A. eapply in_dkeys; eauto.
      * exfalso. apply A. eapply in_dkeys; eauto.
      * exfalso. apply A. eapply in_dkeys; eauto.
Qed.
Print Assumptions C111_success_is_stored_and_carried_on.

(** After the "not paid for" of [an_history] and the retry, each kind of answer:
    two tokens under the allowed key, the same token twice, "already spent". *)
Definition an_flight := Flight 7 0 4 [-100; -101].
Definition an_after (a : answer) := controller_step 2 4 [5] an_end (EAnswer 0 a, 14, old_tokens 400).
Lemma an_answers a : answers 2 4 [5] an_history an_out an_end 0%nat an_flight a 14 (old_tokens 400) (fst (an_after a)) (snd (an_after a)).
Proof. split; [exact an_lived|]. split; [reflexivity|]. split; [apply old_enough|apply surjective_pairing]. Qed.
Example C111_ex_success : fst (an_after (ASuccess [11; 12] 5)) = [Credited 7 0 [11; 12] true; Requested 7 1 [-400; -401]] /\
  sees (snd (an_after (ASuccess [11; 12] 5))) 7 (CRedeeming 14 1) /\
  unblinded (c_db (snd (an_after (ASuccess [11; 12] 5)))) = [UR 11 1; UR 12 1] /\
  StoreModel.groups (c_db (snd (an_after (ASuccess [11; 12] 5)))) = [GR 1 7 5 true].
Proof. split; [|split; [eexists; split|split]]; vm_compute; reflexivity. Qed.
Example C111_ex_unusable : fst (an_after (ASuccess [11; 11] 5)) = [] /\ sees (snd (an_after (ASuccess [11; 11] 5))) 7 (CUnpaid 12).
Proof. split; [|eexists; split]; vm_compute; reflexivity. Qed.
Example C111_ex_spent : sees (snd (an_after AAlreadySpent)) 7 (CDoubleSpend 14).
Proof. eexists; split; vm_compute; reflexivity. Qed.
Example C111_ex_error : sees (snd (an_after (AError 3))) 7 (CUnpaid 12).
Proof. eexists; split; vm_compute; reflexivity. Qed.
(** The last group, of the history [ex_bumpy]. *)
Example C111_ex_last : answers 2 4 [5] (firstn 8 ex_bumpy) (ex_out 8) (ex_end 8) 0%nat (Flight 7 1 4 [-700; -701]) (ASuccess [15; 16] 5) 18
    (old_tokens 800) [Credited 7 1 [15; 16] true] (ex_end 9) /\ sees (ex_end 9) 7 (CRedeemed 18 6).
Proof.
  split; [split; [apply ex_lived|split; [reflexivity|split; [apply old_enough|vm_compute; reflexivity]]]|].
  eexists; split; vm_compute; reflexivity.
Qed.
(** An error for a voucher that was never called unpaid. *)
Example C111_ex_first_error : sees er_end 7 (CError 12 3).
Proof. eexists; split; vm_compute; reflexivity. Qed.
