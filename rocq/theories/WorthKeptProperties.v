(** C144 A voucher is redeemed for the number of tokens it was submitted for, whatever
    the settings are changed to. *)
From Verif Require Import Prelude StoreModel StoreSpec StoreProofs ControllerModel ControllerSpec ControllerProofs ControllerRunProofs WebSpec WebProofs KeysSpec KeysProperties WorthKeptSpec.
From Coq Require Import Permutation FinFun.
Import StoreModel ControllerModel.
Set Implicit Arguments.

Section Life.
Variable groups : Z.
Notation live := (living groups new_node).
Notation did := (done groups new_node).

Lemma done_app a : forall b c, done groups c (a ++ b) = done groups c a ++ done groups (living groups c a) b.
Proof. induction a as [|[k te] a IH]; intros b c; [reflexivity|]. cbn [app done living]. now rewrite IH, app_assoc. Qed.
Lemma life_induction (P : list (settings * timed) -> list output -> ctl -> Prop) :
  P [] [] new_node ->
  (forall h k te o c', proper te -> inv groups (did h) (live h) -> P h (did h) (live h) ->
     controller_step groups (fst k) (snd k) (live h) te = (o, c') -> inv groups (did h ++ o) c' -> P (h ++ [(k, te)]) (did h ++ o) c') ->
  forall h, proper_life h -> inv groups (did h) (live h) /\ P h (did h) (live h).
Proof.
  intros P0 PS h. induction h as [|[k te] h IH] using rev_ind; intros F; [split; [apply inv_new|exact P0]|].
  apply Forall_app in F as [F1 F2]. inversion F2 as [|? ? Pt _]; subst. cbn [snd] in Pt. destruct (IH F1) as [J X]. clear IH.
  rewrite done_app, living_app. cbn [done living]. rewrite app_nil_r.
  destruct (controller_step groups (fst k) (snd k) (live h) te) as [o c'] eqn:E. cbn [fst snd].
  pose proof (@inv_step groups (fst k) (snd k) (did h) (live h) te o c' Pt J E) as J'. split; [exact J'|]. exact (PS h k te o c' Pt J X E J').
Qed.
Lemma life_inv h : proper_life h -> inv groups (did h) (live h).
Proof. intros F. apply (@life_induction (fun _ _ _ => True)); auto. Qed.

(** ** What a voucher is for *)
Lemma step_submits dflt allowed out c te o c' r : proper te -> inv groups out c ->
  controller_step groups dflt allowed c te = (o, c') -> row c' r -> (forall r0, row c r0 -> v_number r0 <> v_number r) ->
  exists asked now gen, te = (ESubmit (v_number r) asked, now, gen) /\ v_expected r = match asked with Some m => m | None => dflt end.
Proof.
  intros P J E Hr N. assert (N' : ~ In (v_number r) (known c)) by (unfold known; rewrite in_map_iff; intros (r0 & E0 & H0); exact (N r0 H0 E0)).
  destruct te as [[e now] gen].
  assert (X : (forall v n, e <> ESubmit v n) -> False).
  { intros NS. apply N'. apply (@step_known _ _ _ _ _ e now gen _ _ P NS J E). unfold known. now apply in_map. }
  destruct e as [v n|i a| | |w|i a|m|m]; try (destruct X; discriminate). clear X. cbn [controller_step] in E.
  assert (v = v_number r).
  { assert (I : In (v_number r) (v :: known c)) by (apply (@redeem_known _ _ _ _ _ _ _ _ _ _ J E); unfold known; now apply in_map).
    destruct I as [I|I]; [exact I|contradiction]. }
  subst v. exists n, now, gen. split; [reflexivity|].
  destruct (@redeem_spec _ _ _ _ _ _ _ _ _ _ J E) as [_ R S|r0 Hr0 Nr Rp R S|r0 fin Hr0 Nr Rp R S|r0 fin x Hr0 Nr Rp -> ->|r0 s Hr0 Nr Rp X -> ->];
    try (destruct (N r0 Hr0 Nr)).
  destruct S as [Ge|e Lt X|k toks d B1 B2 Hd Hk]; try (destruct (N r Hr eq_refl)).
  unfold row in Hr. cbn [c_db with_flights with_active with_db] in Hr. destruct Hd as [(F & -> & ->)|(F & N1 & D & _ & ->)]; [destruct (N r Hr eq_refl)|].
  cbn [vouchers set_tokens] in Hr. unfold with_voucher in Hr. destruct (memZ_spec (v_number r) (map v_number (vouchers (c_db c)))); [contradiction|].
  cbn [vouchers set_vouchers] in Hr. apply in_app_or in Hr as [Hr|[<-|[]]]; [destruct (N r Hr eq_refl)|]. cbn [v_expected]. destruct n; reflexivity.
Qed.

(** What a voucher is redeemed for is what was asked for, or else was the default, when
    it was submitted. *)
Theorem C144_the_number_of_the_day : forall h r, proper_life h -> row (live h) r -> submitted groups h (v_number r) (v_expected r).
Proof.
  intros h r F. revert r. refine (proj2 (@life_induction (fun h _ c => forall r, row c r -> submitted groups h (v_number r) (v_expected r)) _ _ h F)).
  - intros r [].
  - clear h F. intros h k te o c' P J IH E J' r Hr. destruct (known_dec (live h) (v_number r)) as [(r0 & H0 & N0)|N].
    + destruct (@step_forward _ _ _ _ _ _ _ _ P J E _ H0) as (r' & H' & (I1 & I2 & I3) & _).
      assert (r' = r) by (eapply row_unique; [exact J'|exact H'|exact Hr|congruence]). subst r'. rewrite I1, I3.
      destruct (IH _ H0) as (h1 & dflt & allowed & asked & now & gen & h2 & -> & Nk & En).
      exists h1, dflt, allowed, asked, now, gen, (h2 ++ [(k, te)]). split; [now rewrite <- app_assoc|auto].
    + assert (Nr : forall r0, row (live h) r0 -> v_number r0 <> v_number r) by (intros r0 H0 E0; apply N; rewrite <- E0; now apply in_map).
      destruct (@step_submits _ _ _ _ _ _ _ _ P J E Hr Nr) as (asked & now & gen & -> & Ee). destruct k as [dflt allowed].
      exists h, dflt, allowed, asked, now, gen, []. auto.
Qed.

(** It never changes. *)
Theorem C144_the_number_stays : forall h1 h2 r, proper_life (h1 ++ h2) -> row (live h1) r ->
  exists r', row (live (h1 ++ h2)) r' /\ v_number r' = v_number r /\ v_expected r' = v_expected r.
Proof.
  intros h1 h2 r F Hr. apply Forall_app in F as [F1 F2]. rewrite living_app. pose proof (life_inv F1) as J. revert J.
  generalize (did h1) as out. revert Hr. generalize (live h1) as c. revert r. induction h2 as [|[k te] h2 IH]; intros r c Hr out J.
  - exists r. auto.
  - inversion F2 as [|? ? P F3]; subst. cbn [living snd] in *. destruct (controller_step groups (fst k) (snd k) c te) as [o c'] eqn:E.
    destruct (@step_forward _ _ _ _ _ _ _ _ P J E _ Hr) as (r1 & H1 & (I1 & _ & I3) & _). cbn [snd].
    destruct (IH F3 r1 c' H1 (out ++ o) (@inv_step _ _ _ _ _ _ _ _ P J E)) as (r' & H' & N' & E'). exists r'. split; [exact H'|]. split; congruence.
Qed.

(** ** What is asked for *)
Lemma life_sizes h : proper_life h -> sized groups (c_db (live h)) /\ asked groups (did h) (c_db (live h)).
Proof.
  intros F. refine (proj2 (@life_induction (fun _ out c => sized groups (c_db c) /\ asked groups out (c_db c)) _ _ h F)).
  - split; [intros r k []|intros r k t []].
  - clear h F. intros h k [[e now] gen] o c' P J [S A] E J'.
    destruct (@step_shape groups _ _ _ _ e now gen o c' P J E) as (En & o1 & c1 & o2 & Sg & -> & M).
    pose proof (@inv_settling _ _ _ _ _ _ _ _ J Sg) as J1. destruct (@settling_sizes _ _ _ _ _ _ _ _ J Sg S A) as [S1 A1].
    rewrite app_assoc. eapply micros_sizes; eauto.
Qed.
(** The requests for it ask for equal parts of that number, the first ones for one more
    each to make up for the remainder. *)
Theorem C144_requests_are_for_that_number : forall h r k toks, proper_life h -> row (live h) r ->
  In (Requested (v_number r) k toks) (did h) ->
  0 <= k < groups /\ Z.of_nat (length toks) = v_expected r / groups + (if k <? v_expected r mod groups then 1 else 0).
Proof.
  intros h r k toks F Hr Q. destruct (life_sizes F) as [_ A]. pose proof (A r k toks Hr Q) as T. apply token_count_Ok in T. destruct T as (B & _ & T).
  split; [exact B|exact T].
Qed.

(** ** What is received *)
Lemma all_answers_prefix h e v P : all_answers groups (h ++ [e]) v P -> all_answers groups h v P.
Proof.
  intros H h1 k i a now gen h2 f [E|E] N Ev; apply (H h1 k i a now gen (h2 ++ [e]) f); auto; [left|right]; rewrite E, <- app_assoc; reflexivity.
Qed.
Lemma all_answers_last h k e now gen v P i a f : all_answers groups (h ++ [(k, (e, now, gen))]) v P ->
  e = EAnswer i a \/ e = EKillAfterAnswer i a -> nth_error (c_flights (live h)) i = Some f -> f_voucher f = v -> P f a.
Proof. intros H [-> | ->] N Ev; apply (H h k i a now gen [] f); auto. Qed.

Lemma life_good h v : proper_life h -> always_paid groups h v -> good v (did h) (live h).
Proof.
  intros F. refine (proj2 (@life_induction (fun h out c => always_paid groups h v -> good v out c) _ _ h F)).
  - intros _. split; [intros [|? ?] k t b E; discriminate|intros []].
  - clear h F. intros h k [[e now] gen] o c' P J T E J' Pd.
    destruct (@step_shape groups _ _ _ _ e now gen o c' P J E) as (En & o1 & c1 & o2 & Sg & -> & M).
    rewrite app_assoc. pose proof (@inv_settling _ _ _ _ _ _ _ _ J Sg) as J1.
    refine (@good_micros _ _ _ v _ _ _ _ En M J1 _). refine (@good_settling _ _ _ _ v _ _ _ _ _ Sg (T (@all_answers_prefix _ _ _ _ Pd))).
    intros i a f He Nth Ev. exact (@all_answers_last _ _ _ _ _ _ _ i a f Pd He Nth Ev).
Qed.

Lemma life_credited h v : proper_life h -> answered_in_full groups h v -> credited_sizes groups v (did h) (c_db (live h)).
Proof.
  intros F0 Full. cut (credited_sizes groups v (did h) (c_db (live h)) /\ (sized groups (c_db (live h)) /\ asked groups (did h) (c_db (live h)))); [tauto|].
  refine (proj2 (@life_induction (fun h out c => answered_in_full groups h v -> credited_sizes groups v out (c_db c) /\ (sized groups (c_db c) /\ asked groups out (c_db c))) _ _ h F0) Full).
  - intros _. split; [intros r k toks s []|split; [intros r k []|intros r k t []]].
  - clear h F0 Full. intros h ky [[e now] gen] o c' P J T E J' Fu.
    destruct (T (@all_answers_prefix _ _ _ _ Fu)) as (C & S & A). clear T. set (c := live h) in *. set (out := did h) in *.
    destruct (@step_shape groups _ _ out c e now gen o c' P J E) as (En & o1 & c1 & o2 & Sg & -> & M).
    pose proof (@inv_settling _ _ _ _ _ _ _ _ J Sg) as J1. destruct (@settling_sizes _ _ _ _ _ _ _ _ J Sg S A) as [S1 A1].
    split; [|rewrite app_assoc; eapply micros_sizes; eauto].
    assert (C1 : credited_sizes groups v (out ++ o1) (c_db c1)).
    { destruct Sg as [_|w _ W|i a f a0 b0 go o1 c1 He Fl Nth _ St].
      - rewrite app_nil_r. exact C.
      - rewrite app_nil_r. cbn. destruct (@wallet_keeps _ _ (i_wf J) W) as [V _]. unfold credited_sizes in *. rewrite V. exact C.
      - destruct St as [a e0 u Ke Hu Na Hu1 Hu2 Ne Nu _ _|toks pk r0 d Hr0 Nr Pr N Dj Ed|r0 Hr0 Nr Pr]; cbn [c_db with_flights] in *.
        + rewrite app_nil_r. exact C.
        + intros r k tk s Hr Nv I. rewrite Ed in Hr. cbn [vouchers] in Hr. apply upd_voucher_origin in Hr; [|auto].
          destruct Hr as (r1 & H1 & N1 & E1). rewrite <- E1. rewrite credits_credit in I. apply in_app_or in I. destruct I as [I|I].
          * apply (C r1 k tk s H1); [congruence|exact I].
          * destruct (Z.eqb_spec (f_voucher f) v) as [Ev|]; [|destruct I]. destruct I as [I|[]]. injection I as <- <- _.
            assert (If : In f (c_flights c)) by (rewrite Fl; apply in_or_app; right; left; reflexivity).
            destruct (i_flight J f If) as (_ & _ & Q & _). rewrite (A r1 (f_counter f) (f_tokens f) H1); [|congruence].
            f_equal. unfold PricingModel.lenZ. f_equal. symmetry. exact (@all_answers_last _ _ _ _ _ _ _ i _ f Fu He Nth Ev).
        + rewrite app_nil_r. intros r k tk s Hr Nv I. cbn [vouchers set_vouchers] in Hr. apply upd_voucher_origin in Hr; [|auto].
          destruct Hr as (r1 & H1 & N1 & E1). rewrite <- E1. apply (C r1 k tk s H1); [congruence|exact I]. }
    destruct (micros_store M) as (Nc & _). intros r k tk s Hr Nv I. rewrite app_assoc, credits_app, (credits_no_credit v Nc), app_nil_r in I.
    destruct (@micros_origin _ _ _ _ _ _ _ r En M J1 Hr) as [H1|H1]; [exact (C1 r k tk s H1 Nv I)|].
    exfalso. rewrite Nv in H1. destruct (i_unknown J1 v H1) as [Ec _]. rewrite Ec in I. destruct I.
Qed.

(** A group is asked for again with the tokens it was asked for with, whatever the
    settings then. *)
Theorem C144_retries_send_the_same_tokens : forall h v k t1 t2, proper_life h -> always_paid groups h v ->
  In (Requested v k t1) (did h) -> In (Requested v k t2) (did h) -> t1 = t2.
Proof.
  intros h v k t1 t2 F P Q1 Q2. pose proof (life_inv F) as J. destruct (life_good F P) as [O _].
  destruct (known_dec (live h) v) as [(r & Hr & <-)|N]; [|destruct (i_unknown J v N) as [_ X]; destruct (X _ _ Q1)].
  destruct (i_order J r O Hr) as (_ & _ & _ & _ & _ & _ & X). eapply X; eauto.
Qed.

(** The groups are received in order and none twice. *)
Theorem C144_each_group_once : forall h r, proper_life h -> always_paid groups h (v_number r) -> row (live h) r ->
  credited_counters (v_number r) (did h) = map Z.of_nat (seq 0 (Z.to_nat (v_counter r))) /\
  NoDup (credited_counters (v_number r) (did h)) /\ (v_state r = SRedeemed <-> v_counter r = groups).
Proof.
  intros h r F P Hr. pose proof (life_inv F) as J. destruct (life_good F P) as [O _].
  destruct (i_order J r O Hr) as (Cc & _ & _ & Rd & Nr & _). split; [exact Cc|]. split.
  - rewrite Cc. apply FinFun.Injective_map_NoDup; [intros x y; apply Nat2Z.inj|apply seq_NoDup].
  - split; [exact Rd|]. intros E. destruct (v_state r) eqn:Sr; try reflexivity; exfalso; specialize (Nr ltac:(discriminate)); lia.
Qed.

(** A redeemed voucher has given exactly that number of tokens, if it is paid for and the
    issuer answers in full. *)
Theorem C144_redeemed_for_that_number : forall h r, proper_life h -> row (live h) r -> v_state r = SRedeemed ->
  always_paid groups h (v_number r) -> answered_in_full groups h (v_number r) ->
  coalesce0 (v_token_count r) + v_sequestered r = v_expected r.
Proof.
  intros h r F Hr Rd Pd Fu. pose proof (life_inv F) as J. destruct (life_good F Pd) as [O _]. destruct (i_row J r Hr) as (_ & Hg & _ & -> & ->).
  destruct (i_order J r O Hr) as (Cc & _ & _ & Eg & _). rewrite (Eg Rd) in Cc. rewrite received_both.
  destruct (@token_counts_add_up groups (v_expected r) ltac:(lia) ltac:(lia)) as (ns & Ens & _ & Sum & _).
  unfold group_indices in Ens. unfold credited_counters in Cc.
  destruct (sizes_sum groups (v_expected r) (credits (v_number r) (did h))) as [X|(x & I & X)].
  - rewrite Cc, Ens in X. injection X as <-. exact Sum.
  - exfalso. apply X. destruct x as [[k t] s]. cbn [fst snd]. eapply (@life_credited h _ F Fu); eauto.
Qed.
End Life.
Print Assumptions C144_the_number_of_the_day.
Print Assumptions C144_the_number_stays.
Print Assumptions C144_requests_are_for_that_number.
Print Assumptions C144_retries_send_the_same_tokens.
Print Assumptions C144_each_group_once.
Print Assumptions C144_redeemed_for_that_number.

(** A voucher is submitted while the default is five tokens; the node is started again
    with a default of nine, and asks for the same three and two tokens as before. *)
Definition wk_h : list (settings * timed) :=
  [((5, []), (EStart, 1, ky_tokens 100)); ((5, []), (ESubmit 7 None, 2, ky_tokens 200));
   ((9, [55]), (EStart, 3, ky_tokens 300)); ((9, [55]), (ESubmit 7 (Some 8), 4, ky_tokens 400));
   ((9, [55]), (EAnswer 0 (ASuccess [11; 12; 13] 55), 5, ky_tokens 500)); ((9, [55]), (EAnswer 0 (ASuccess [14; 15] 55), 6, ky_tokens 600))].
Definition wk_row : voucher_row := VR 7 2 5 SRedeemed (Some 6) (Some 5) 0 2.
Lemma wk_answers (P : flight -> answer -> Prop) :
  P (Flight 7 0 5 [200; 201; 202]) (ASuccess [11; 12; 13] 55) -> P (Flight 7 1 5 [500; 501]) (ASuccess [14; 15] 55) -> all_answers 2 wk_h 7 P.
Proof.
  intros P1 P2 h1 k i a now gen h2 f E N _. unfold wk_h in E.
  destruct E as [E|E]; destruct h1 as [|e1 [|e2 [|e3 [|e4 [|e5 [|e6 [|e7 h1]]]]]]]; cbn [app] in E; try discriminate E;
    injection E; intros; subst; vm_compute in N; injection N as <-; assumption.
Qed.
Example C144_example : proper_life wk_h /\ row (living 2 new_node wk_h) wk_row /\
  always_paid 2 wk_h 7 /\ answered_in_full 2 wk_h 7 /\
  done 2 new_node wk_h = [Requested 7 0 [200; 201; 202]; Requested 7 0 [200; 201; 202]; Credited 7 0 [11; 12; 13] true;
    Requested 7 1 [500; 501]; Credited 7 1 [14; 15] true].
Proof.
  split; [unfold proper_life, wk_h; repeat constructor; apply ky_enough|]. split; [vm_compute; auto|].
  split; [apply wk_answers; discriminate|]. split; [apply wk_answers; reflexivity|]. vm_compute. reflexivity.
Qed.
