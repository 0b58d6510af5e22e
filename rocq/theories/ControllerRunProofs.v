(** Consequences of the controller's invariant for whole runs. *)
From Verif Require Import Prelude PricingModel StoreModel StoreSpec StoreProofs ControllerModel ControllerSpec ControllerProofs.
Set Implicit Arguments.

(** ** Rows only move forward *)

Lemma started_rows groups now gen v total counter c o c' : wf (c_db c) -> startable v total c ->
  started groups now gen v total counter c o c' -> incl (vouchers (c_db c)) (vouchers (c_db c')).
Proof.
  intros W S R. destruct R as [Ge|e Lt X|k toks d B1 B2 Hd Hk]; try apply incl_refl. cbn.
  refine (gr_old (@started_grown v counter total now toks c d W S _)). destruct Hd as [H|(F & N & D & _ & H)]; [left|right]; auto.
Qed.

Lemma micro_rows groups now gen out c o c' : inv groups out c -> micro groups now gen out c o c' ->
  incl (vouchers (c_db c)) (vouchers (c_db c')).
Proof.
  intros J M. destruct M as [v total counter c o c' (R1 & R2 & _) S|c|c b|c e]; try apply incl_refl.
  - eapply started_rows; eauto. apply J.
Qed.

Lemma micros_rows groups now gen out c o c' : enough gen -> micros groups now gen out c o c' -> inv groups out c ->
  incl (vouchers (c_db c)) (vouchers (c_db c')).
Proof.
  intros En M. induction M as [out c|out c o c1 o1 c2 M Ms IH]; intros J; [apply incl_refl|].
  eapply incl_tran; [eapply micro_rows; eauto|]. apply IH. eapply inv_micro; eauto.
Qed.

Lemma forward_refl r : forward r r.
Proof. split; [repeat split|]. destruct (v_state r); auto. Qed.

Lemma settling_forward groups allowed now e out c o c' : inv groups out c -> settling groups allowed now e c o c' ->
  forall r, row c r -> exists r', row c' r' /\ forward r r'.
Proof.
  intros J Sg r Hr. destruct Sg as [_|w _ W|i a f a0 b0 go o c' _ Fl _ _ S]; [exists r; split; [exact Hr|apply forward_refl]| |].
  { exists r. split; [|apply forward_refl]. unfold row. cbn. destruct (@wallet_keeps _ _ (i_wf J) W) as [-> _]. exact Hr. }
  destruct S as [a e0 u He Hu Na Hu1 Hu2 _ _ _ _|toks pk r0 d Hr0 Nr Pr N Dj Ed|r0 Hr0 Nr Pr]; unfold row in *; cbn [c_db with_flights] in *.
  - exists r. split; [exact Hr|apply forward_refl].
  - destruct (Z.eq_dec (v_number r) (f_voucher f)) as [E|Ne].
    + assert (r = r0) by (eapply NoDup_map_inj; [apply (wf_vouchers (i_wf J))|exact Hr|exact Hr0|congruence]). subst r0.
      eexists. split; [rewrite Ed; cbn [vouchers]; apply upd_voucher_in; right; exists r; eauto|]. split; [repeat split|].
      rewrite Pr. cbn. destruct (_ =? groups); auto.
    + exists r. split; [rewrite Ed; cbn [vouchers]; apply upd_voucher_in; auto|apply forward_refl].
  - cbn [vouchers set_vouchers]. destruct (Z.eq_dec (v_number r) (f_voucher f)) as [E|Ne].
    + assert (r = r0) by (eapply NoDup_map_inj; [apply (wf_vouchers (i_wf J))|exact Hr|exact Hr0|congruence]). subst r0.
      eexists. split; [apply upd_voucher_in; right; exists r; eauto|]. split; [repeat split|]. rewrite Pr. reflexivity.
    + exists r. split; [apply upd_voucher_in; auto|apply forward_refl].
Qed.

Lemma step_forward groups dflt allowed out c te o c' : proper te -> inv groups out c ->
  controller_step groups dflt allowed c te = (o, c') -> forall r, row c r -> exists r', row c' r' /\ forward r r'.
Proof.
  destruct te as [[e now] gen]. intros P J E r Hr.
  destruct (@step_shape groups dflt allowed out c e now gen o c' P J E) as (En & o1 & c1 & o2 & Sg & -> & M).
  destruct (@settling_forward _ _ _ _ _ _ _ _ J Sg r Hr) as (r' & Hr' & F). exists r'. split; [|exact F].
  eapply micros_rows; eauto. eapply inv_settling; eauto.
Qed.

Lemma forward_later r r' : forward r r' -> later r r'.
Proof.
  intros [S F]. split; [exact S|]. destruct (v_state r) eqn:E1, (v_state r') eqn:E2; subst; split; try lia; auto; try congruence.
Qed.

Lemma later_trans a b c : later a b -> later b c -> later a c.
Proof.
  intros ((A1 & A2 & A3) & A4 & A5) ((B1 & B2 & B3) & B4 & B5). split; [repeat split; congruence|]. split; [lia|].
  intros P. specialize (A5 P). subst b. auto.
Qed.

Lemma run_later groups dflt allowed es : Forall proper es -> forall out c o c', inv groups out c ->
  controller_run groups dflt allowed c es = (o, c') -> forall r, row c r -> exists r', row c' r' /\ later r r'.
Proof.
  induction 1 as [|te es P _ IH]; intros out c o c' J E r Hr; cbn [controller_run] in E.
  - injection E as <- <-. exists r. split; [exact Hr|apply forward_later, forward_refl].
  - destruct (controller_step groups dflt allowed c te) as [o1 c1] eqn:E1.
    destruct (controller_run groups dflt allowed c1 es) as [o2 c2] eqn:E2. injection E as <- <-.
    destruct (@step_forward groups dflt allowed out c te o1 c1 P J E1 r Hr) as (r1 & H1 & F1).
    destruct (IH (out ++ o1) c1 o2 c2 (@inv_step groups dflt allowed out c te o1 c1 P J E1) E2 r1 H1) as (r2 & H2 & F2).
    exists r2. split; [exact H2|]. eapply later_trans; [apply forward_later; exact F1|exact F2].
Qed.

(** ** The bookkeeping of attempts *)

Record tidy (c : ctl) : Prop := {
  t_error : NoDup (dkeys (c_error c));
  t_unpaid : NoDup (dkeys (c_unpaid c));
  td_counter : forall v s k, In (v, (s, k)) (c_active c) -> exists r, row c r /\ v_number r = v /\ k = v_counter r }.

Lemma in_dset V k (x : V) d q y : In (q, y) (dset k x d) -> In (q, y) d \/ q = k /\ y = x.
Proof.
  induction d as [|[q' y'] d IH]; cbn [dset]; [intros [E|[]]; injection E as <- <-; auto|].
  destruct (Z.eqb_spec k q') as [->|Ne].
  - intros [E|I]; [injection E as <- <-; auto|left; right; exact I].
  - intros [E|I]; [left; left; exact E|]. destruct (IH I); [left; right; assumption|auto].
Qed.

Lemma in_ddel V k (d : dict V) q y : In (q, y) (ddel k d) -> In (q, y) d /\ q <> k.
Proof. unfold ddel. rewrite filter_In. cbn. intros [A B]. split; [exact A|]. now destruct (Z.eqb_spec q k). Qed.

Lemma tidy_rows c c' : incl (vouchers (c_db c)) (vouchers (c_db c')) -> c_error c' = c_error c -> c_unpaid c' = c_unpaid c ->
  c_active c' = c_active c -> tidy c -> tidy c'.
Proof.
  intros I E1 E2 E3 [A B C]. split; rewrite ?E1, ?E2, ?E3; auto. intros v s k X. destruct (C v s k X) as (r & Hr & Y). exists r.
  split; [now apply I|exact Y].
Qed.

Lemma tidy_started groups now gen v total counter c o c' : wf (c_db c) -> startable v total c ->
  started groups now gen v total counter c o c' -> tidy c -> tidy c'.
Proof.
  intros W S R [A B C]. pose proof (@started_rows _ _ _ _ _ _ _ _ _ W S R) as I. destruct R as [Ge|e Lt X|k toks d B1 B2 Hd Hk]; [split; auto|split; auto|].
  split; auto. cbn [c_active with_flights with_active]. intros v' s k' Q. apply in_dset in Q. destruct Q as [Q|[-> Q]].
  - destruct (C _ _ _ Q) as (r & Hr & Y). exists r. split; [now apply I|exact Y].
  - injection Q as -> ->. destruct Hk as [[-> Kn]|(r & Hr & Nr & ->)]; [|exists r; split; [now apply I|auto]].
    assert (Gr : grown v counter total now toks (c_db c) d).
    { apply started_grown; auto. destruct Hd as [H|(F & N & D & _ & H)]; [left|right]; auto. }
    destruct (gr_there Gr) as (r & Hr & Nr & _). destruct (gr_new Gr _ Hr) as [Old|[-> _]].
    + exfalso. apply Kn. rewrite <- Nr. now apply in_known.
    + eexists. split; [exact Hr|]. auto.
Qed.

Lemma tidy_micro groups now gen out c o c' : inv groups out c -> micro groups now gen out c o c' -> tidy c -> tidy c'.
Proof.
  intros J M T. pose proof (@micro_rows _ _ _ _ _ _ _ J M) as I.
  destruct M as [v total counter c o c' (R1 & R2 & _) S|c|c b|c e].
  - eapply tidy_started; eauto. apply J.
  - split; cbn; try constructor. intros v s k [].
  - eapply tidy_rows; eauto.
  - exact T.
Qed.

Lemma tidy_micros groups now gen out c o c' : enough gen -> micros groups now gen out c o c' -> inv groups out c -> tidy c -> tidy c'.
Proof.
  intros En M. induction M as [out c|out c o c1 o1 c2 M Ms IH]; intros J T; [exact T|].
  apply IH; [eapply inv_micro; eauto|eapply tidy_micro; eauto].
Qed.

Lemma tidy_settling groups allowed now e out c o c' : inv groups out c -> settling groups allowed now e c o c' -> tidy c -> tidy c'.
Proof.
  intros J Sg T. destruct T as [A B C]. destruct Sg as [_|w _ W|i a f a0 b0 go o c' _ Fl _ _ S]; [split; auto| |].
  { split; auto. unfold row. cbn. destruct (@wallet_keeps _ _ (i_wf J) W) as [-> _]. exact C. }
  destruct S as [a e0 u He Hu Na Hu1 Hu2 Ne Nu _ _|toks pk r0 d Hr0 Nr Pr N Dj Ed|r0 Hr0 Nr Pr]; unfold row in *; cbn [c_db c_error c_unpaid c_active with_flights] in *.
  - split; cbn; auto. intros v s k X. apply in_ddel in X. destruct X as [X _]. exact (C _ _ _ X).
  - split; cbn; auto. intros v s k X. apply in_ddel in X. destruct X as [X Nv]. destruct (C _ _ _ X) as (r & Hr & Y & Z). exists r.
    split; [|auto]. unfold row. cbn [c_db]. rewrite Ed. cbn [vouchers]. apply upd_voucher_in. left. split; [exact Hr|congruence].
  - split; cbn; auto. intros v s k X. apply in_ddel in X. destruct X as [X Nv]. destruct (C _ _ _ X) as (r & Hr & Y & Z). exists r.
    split; [|auto]. unfold row. cbn. apply upd_voucher_in. left. split; [exact Hr|congruence].
Qed.

Lemma lived_tidy groups dflt allowed es out c : lived groups dflt allowed es out c -> tidy c.
Proof.
  apply (run_induction (fun es out c => tidy c)).
  - split; cbn; try constructor. intros v s k [].
  - clear. intros es out c [[e now] gen] o c' F P R J T E J'.
    destruct (@step_shape groups dflt allowed out c e now gen o c' P J E) as (En & o1 & c1 & o2 & Sg & -> & M).
    pose proof (@inv_settling _ _ _ _ _ _ _ _ J Sg) as J1. pose proof (@tidy_settling _ _ _ _ _ _ _ _ J Sg T) as T1.
    exact (@tidy_micros _ _ _ _ _ _ _ En M J1 T1).
Qed.

Lemma NoDup_fst_inj V (d : dict V) k x y : NoDup (dkeys d) -> In (k, x) d -> In (k, y) d -> x = y.
Proof. intros N A B. assert ((k, x) = (k, y)) by (eapply NoDup_map_inj; [exact N|exact A|exact B|reflexivity]). congruence. Qed.

Lemma reported_unique c r s s' : NoDup (dkeys (c_active c)) -> tidy c -> reported c r s -> reported c r s' -> s = s'.
Proof.
  intros N [A B C] R R'. destruct R, R'; try congruence;
    try (exfalso; match goal with H : ~ In _ (dkeys ?d), H' : In (_, _) ?d |- _ => apply H; eapply in_dkeys; exact H' end).
  - assert ((s, k) = (s0, k0)) by (eapply (@NoDup_fst_inj _ (c_active c)); eauto). congruence.
  - f_equal. eapply (@NoDup_fst_inj _ (c_unpaid c)); eauto.
  - assert ((f, x) = (f0, x0)) by (eapply (@NoDup_fst_inj _ (c_error c)); eauto). congruence.
Qed.

Lemma report_exact groups dflt allowed es out c : lived groups dflt allowed es out c ->
  forall r s, row c r -> (get_voucher c (v_number r) = Ok (shown r, s) <-> reported c r s).
Proof.
  intros L r s Hr. pose proof (lived_inv L) as J. destruct (@get_voucher_spec _ _ _ _ J Hr) as (s0 & G & R). rewrite G.
  split; [intros E; injection E as <-; exact R|]. intros R'. f_equal. f_equal. eapply reported_unique; eauto using lived_tidy.
  rewrite (i_active J). apply (i_nodup J).
Qed.

(** ** Tokens of a group *)

Definition kept (out : list output) (c : ctl) : Prop :=
  forall a v k t b, out = a ++ Requested v k t :: b -> credits v b = [] -> group_tokens v k (c_db c) = t.

Lemma kept_same out o c c' : (forall v k, group_tokens v k (c_db c') = group_tokens v k (c_db c)) ->
  Forall silent o -> kept out c -> kept (out ++ o) c'.
Proof.
  intros G F K a v k t b E N. rewrite G. clear G. revert b E N. induction o as [|x o IH] using rev_ind; intros b E N.
  - rewrite app_nil_r in E. eapply K; eauto.
  - apply Forall_app in F. destruct F as [F1 F2]. inversion F2 as [|? ? Sx _]; subst.
    rewrite app_assoc in E. apply snoc_split in E. destruct E as [(_ & _ & E)|(b' & -> & E)]; [subst x; destruct Sx|].
    apply (IH F1 b' E). rewrite credits_app in N. now apply app_eq_nil in N.
Qed.

Lemma kept_started groups now gen v total counter c o c' out : enough gen -> inv groups out c -> startable v total c ->
  started groups now gen v total counter c o c' -> kept out c -> kept (out ++ o) c'.
Proof.
  intros En J S R K. destruct R as [Ge|e Lt X|k toks d B1 B2 Hd Hk].
  - rewrite app_nil_r. exact K.
  - apply (@kept_same out [Died e] c c); auto. repeat constructor.
  - assert (Gr : grown v counter total now toks (c_db c) d).
    { apply started_grown; [apply J|exact S|]. destruct Hd as [H|(F & N & D & _ & H)]; [left|right]; auto. }
    intros a v' k' t b E N. cbn [c_db with_flights with_active with_db].
    apply snoc_split in E. destruct E as [(_ & _ & E)|(b' & -> & E)].
    + injection E as -> -> ->. apply (gr_tokens Gr).
    + rewrite credits_app in N. apply app_eq_nil in N. destruct N as [N _]. pose proof (K _ _ _ _ _ E N) as G.
      destruct (Z.eq_dec v' v) as [->|Nv]; [|rewrite (gr_other Gr) by auto; exact G].
      destruct (Z.eq_dec k' counter) as [->|Nk]; [|rewrite (gr_other Gr) by auto; exact G].
      rewrite (gr_tokens Gr), <- G. symmetry. apply (gr_again Gr). intros Z. unfold group_tokens in G. rewrite Z in G. cbn in G.
      eapply (@i_nonempty _ _ _ J v counter t); [|congruence]. rewrite E. apply in_or_app. right. left. reflexivity.
Qed.

Lemma kept_micro groups now gen out c o c' : enough gen -> inv groups out c -> micro groups now gen out c o c' -> kept out c -> kept (out ++ o) c'.
Proof.
  intros En J M K. destruct M as [v total counter c o c' (R1 & R2 & _) S|c|c b|c e].
  - eapply kept_started; eauto.
  - apply (@kept_same out [] c); auto.
  - apply (@kept_same out [] c); auto.
  - apply (@kept_same out [Died e] c); auto. repeat constructor.
Qed.

Lemma kept_micros groups now gen out c o c' : enough gen -> micros groups now gen out c o c' -> inv groups out c -> kept out c -> kept (out ++ o) c'.
Proof.
  intros En M. induction M as [out c|out c o c1 o1 c2 M Ms IH]; intros J K; [now rewrite app_nil_r|].
  rewrite app_assoc. apply IH; [eapply inv_micro; eauto|eapply kept_micro; eauto].
Qed.

Lemma kept_settling groups allowed now e out c o c' : inv groups out c -> settling groups allowed now e c o c' -> kept out c -> kept (out ++ o) c'.
Proof.
  intros J Sg K. destruct Sg as [_|w _ W|i a f a0 b0 go o c' _ Fl _ _ S]; [now rewrite app_nil_r| |].
  { apply (@kept_same out [] c); auto. intros v k. cbn. unfold group_tokens, group_rows.
    destruct (@wallet_keeps _ _ (i_wf J) W) as [_ ->]. reflexivity. }
  destruct S as [a e0 u He Hu Na Hu1 Hu2 Ne Nu _ _|toks pk r0 d Hr0 Nr Pr N Dj Ed|r0 Hr0 Nr Pr].
  - apply (@kept_same out [] c); auto.
  - intros a v k t b E Nb. cbn [c_db]. apply snoc_split in E. destruct E as [(_ & _ & E)|(b' & -> & E)]; [discriminate|].
    rewrite credits_credit in Nb. apply app_eq_nil in Nb. destruct Nb as [Nb Nv].
    destruct (Z.eqb_spec (f_voucher f) v) as [|Ne]; [discriminate|]. rewrite <- (K _ _ _ _ _ E Nb).
    apply (@group_tokens_del v k (f_voucher f) (v_counter r0)); [rewrite Ed; reflexivity|congruence].
  - apply (@kept_same out [] c); auto.
Qed.

Definition same_tokens (out : list output) : Prop :=
  forall a v k t1 b t2 d, out = a ++ Requested v k t1 :: b ++ Requested v k t2 :: d -> credits v b = [] -> t1 = t2.

Lemma same_snoc out o c : (length o <= 1)%nat -> kept (out ++ o) c -> same_tokens out -> same_tokens (out ++ o).
Proof.
  intros L K S. destruct o as [|x [|? ?]]; [now rewrite app_nil_r| |cbn in L; lia].
  intros a v k t1 b t2 d E N. change (a ++ Requested v k t1 :: b ++ Requested v k t2 :: d) with (a ++ (Requested v k t1 :: b) ++ Requested v k t2 :: d) in E.
  pose proof E as E'. rewrite app_assoc in E'. apply snoc_split in E'. destruct E' as [(-> & Eo & Ex)|(d' & -> & Eo)].
  - assert (G1 : group_tokens v k (c_db c) = t1).
    { apply (K a v k t1 (b ++ [Requested v k t2])); [exact E|]. now rewrite credits_request. }
    assert (G2 : group_tokens v k (c_db c) = t2).
    { apply (K (a ++ Requested v k t1 :: b) v k t2 []); [|reflexivity]. rewrite E, <- app_assoc. reflexivity. }
    congruence.
  - rewrite <- app_assoc in Eo. exact (S a v k t1 b t2 d' Eo N).
Qed.

Lemma started_short groups now gen v total counter c o c' : started groups now gen v total counter c o c' -> (length o <= 1)%nat.
Proof. destruct 1; cbn; lia. Qed.

Lemma same_micros groups now gen out c o c' : enough gen -> micros groups now gen out c o c' -> inv groups out c -> kept out c ->
  same_tokens out -> same_tokens (out ++ o).
Proof.
  intros En M. induction M as [out c|out c o c1 o1 c2 M Ms IH]; intros J K S; [now rewrite app_nil_r|].
  pose proof (@kept_micro _ _ _ _ _ _ _ En J M K) as K1.
  rewrite app_assoc. apply IH; [eapply inv_micro; eauto|exact K1|]. apply (@same_snoc _ _ c1); [|exact K1|exact S].
  destruct M as [v total counter c o c' R R2|c|c b|c e]; cbn; try lia. eapply started_short; eauto.
Qed.

Lemma settling_short groups allowed now e c o c' : settling groups allowed now e c o c' -> (length o <= 1)%nat.
Proof. destruct 1 as [_|w _ _|i a f a0 b0 go o c' _ Fl _ _ S]; [cbn; lia|cbn; lia|]. destruct S; cbn; lia. Qed.

Lemma lived_kept groups dflt allowed es out c : lived groups dflt allowed es out c -> kept out c /\ same_tokens out.
Proof.
  apply (run_induction (fun es out c => kept out c /\ same_tokens out)).
  - split; [intros [|? ?] v k t b E; discriminate|intros [|? ?] v k t1 b t2 d E; discriminate].
  - clear. intros es out c [[e now] gen] o c' F P R J [T S] E J'.
    destruct (@step_shape groups dflt allowed out c e now gen o c' P J E) as (En & o1 & c1 & o2 & Sg & -> & M).
    pose proof (@inv_settling _ _ _ _ _ _ _ _ J Sg) as J1. pose proof (@kept_settling _ _ _ _ _ _ _ _ J Sg T) as T1.
    assert (S1 : same_tokens (out ++ o1)) by (eapply same_snoc; eauto; eapply settling_short; eauto).
    rewrite app_assoc. split; [eapply kept_micros; eauto|eapply same_micros; eauto].
Qed.

(** ** Redemption in order *)

Lemma in_order_snoc v out x : in_order v out ->
  (forall k toks, x = Requested v k toks -> k = Z.of_nat (length (credits v out))) -> in_order v (out ++ [x]).
Proof.
  intros O H a c toks b E. apply snoc_split in E. destruct E as [(_ & -> & E)|(b' & _ & E)]; [eapply H; eauto|eapply O; eauto].
Qed.

Lemma in_order_silent v out o : Forall (fun x => match x with Requested _ _ _ => False | _ => True end) o -> in_order v out -> in_order v (out ++ o).
Proof.
  intros F. revert out. induction F as [|x o Fx _ IH]; intros out O; [now rewrite app_nil_r|].
  change (x :: o) with ([x] ++ o). rewrite app_assoc. apply IH. apply in_order_snoc; [exact O|]. intros k toks ->. destruct Fx.
Qed.

(** The voucher has not been reported unpaid since the start of the process. *)
Definition good v (out : list output) (c : ctl) : Prop := in_order v out /\ ~ In v (dkeys (c_unpaid c)).

Lemma good_micro groups now gen v out c o c' : inv groups out c -> micro groups now gen out c o c' -> good v out c -> good v (out ++ o) c'.
Proof.
  intros J M [O U]. destruct M as [v0 total counter c o c' (R1 & R2 & R3) S|c|c b|c e].
  - destruct S as [Ge|e Lt X|k toks d B1 B2 Hd Hk].
    + rewrite app_nil_r. split; auto.
    + split; [|exact U]. apply in_order_silent; [repeat constructor|exact O].
    + split; [|exact U]. apply in_order_snoc; [exact O|]. intros k' toks' E. injection E as -> <- <-.
      destruct R3 as [[-> [N|I]]|(r & Hr & Nr & Ec)]; [|contradiction|].
      * destruct (i_unknown J v N) as [-> _]. reflexivity.
      * rewrite (Ec O). destruct (i_row J r Hr) as (_ & _ & -> & _). now rewrite Nr.
  - rewrite app_nil_r. split; [exact O|intros []].
  - rewrite app_nil_r. split; auto.
  - split; [|exact U]. apply in_order_silent; [repeat constructor|exact O].
Qed.

Lemma good_micros groups now gen v out c o c' : enough gen -> micros groups now gen out c o c' -> inv groups out c -> good v out c -> good v (out ++ o) c'.
Proof.
  intros En M. induction M as [out c|out c o c1 o1 c2 M Ms IH]; intros J K; [now rewrite app_nil_r|].
  rewrite app_assoc. apply IH; [eapply inv_micro; eauto|eapply good_micro; eauto].
Qed.

Lemma good_settling groups allowed now e v out c o c' :
  (forall i a f, e = EAnswer i a \/ e = EKillAfterAnswer i a -> nth_error (c_flights c) i = Some f -> f_voucher f = v -> a <> AUnpaid) ->
  settling groups allowed now e c o c' -> good v out c -> good v (out ++ o) c'.
Proof.
  intros H Sg [O U]. destruct Sg as [_|w _ _|i a f a0 b0 go o c' He Fl Nth _ S]; [rewrite app_nil_r; split; auto|rewrite app_nil_r; split; auto|].
  destruct S as [a e0 u Ke Hu Na Hu1 Hu2 Ne Nu _ _|toks pk r0 d Hr0 Nr Pr N Dj Ed|r0 Hr0 Nr Pr].
  - rewrite app_nil_r. split; [exact O|]. cbn [c_unpaid]. intros I. destruct (Hu v I) as [X|X]; [exact (U X)|].
    pose proof (H i a f He Nth (eq_sym X)) as A. rewrite (Hu2 A) in I. exact (U I).
  - split; [|exact U]. apply in_order_silent; [repeat constructor|exact O].
  - rewrite app_nil_r. split; auto.
Qed.

Lemma paid_prefix groups dflt allowed v es te : paid groups dflt allowed v (es ++ [te]) -> paid groups dflt allowed v es.
Proof.
  intros H es1 i a now gen es2 out c f [E|E] R N Ev; eapply (H es1 i a now gen (es2 ++ [te])); eauto; [left|right]; rewrite E, <- app_assoc; reflexivity.
Qed.

Lemma lived_good groups dflt allowed v es out c : lived groups dflt allowed es out c -> paid groups dflt allowed v es -> good v out c.
Proof.
  apply (run_induction (fun es out c => paid groups dflt allowed v es -> good v out c)).
  - intros _. split; [intros [|? ?] k t b E; discriminate|intros []].
  - clear. intros es out c [[e now] gen] o c' F P R J T E J' Pd.
    destruct (@step_shape groups dflt allowed out c e now gen o c' P J E) as (En & o1 & c1 & o2 & Sg & -> & M).
    rewrite app_assoc. pose proof (@inv_settling _ _ _ _ _ _ _ _ J Sg) as J1.
    refine (@good_micros _ _ _ v _ _ _ _ En M J1 _). refine (@good_settling _ _ _ _ v _ _ _ _ _ Sg (T (@paid_prefix _ _ _ _ _ _ Pd))).
    intros i a f He Nth Ev. destruct He as [-> | ->]; eapply (Pd es i a now gen []); eauto.
Qed.

(** ** An honest issuer *)

Lemma honest_prefix groups dflt allowed es te : honest groups dflt allowed (es ++ [te]) -> honest groups dflt allowed es.
Proof.
  intros H es1 i a now gen es2 out c f [E|E] R N; eapply (H es1 i a now gen (es2 ++ [te])); eauto; [left|right]; rewrite E, <- app_assoc; reflexivity.
Qed.

Lemma started_new_rows groups now gen v total counter c o c' r : wf (c_db c) -> startable v total c ->
  started groups now gen v total counter c o c' -> row c' r -> row c r \/ v_state r = SPending.
Proof.
  intros W S R. destruct R as [Ge|e Lt X|k toks d B1 B2 Hd Hk]; auto. unfold row. cbn.
  assert (Gr : grown v counter total now toks (c_db c) d).
  { apply started_grown; auto. destruct Hd as [H|(F & N & D & _ & H)]; [left|right]; auto. }
  intros Hr. destruct (gr_new Gr _ Hr) as [Old|[-> _]]; auto.
Qed.

Lemma micros_new_rows groups now gen out c o c' r : enough gen -> micros groups now gen out c o c' -> inv groups out c ->
  row c' r -> row c r \/ v_state r = SPending.
Proof.
  intros En M. induction M as [out c|out c o c1 o1 c2 M Ms IH]; intros J Hr; [auto|].
  destruct (IH (@inv_micro _ _ _ _ _ _ _ En J M) Hr) as [H1|H1]; [|auto].
  destruct M as [v total counter c o c' (R1 & R2 & R3) S|c|c b|c e]; auto.
  - eapply started_new_rows; eauto. apply J.
Qed.

Lemma honest_not_double groups dflt allowed es out c : lived groups dflt allowed es out c -> honest groups dflt allowed es ->
  forall r, in_order (v_number r) out -> row c r -> v_state r <> SDoubleSpend.
Proof.
  apply (run_induction (fun es out c => honest groups dflt allowed es -> forall r, in_order (v_number r) out -> row c r -> v_state r <> SDoubleSpend)).
  - intros _ r _ [].
  - clear. intros es out c [[e now] gen] o c' F P R J T E J' Hh r O Hr.
    destruct (@step_shape groups dflt allowed out c e now gen o c' P J E) as (En & o1 & c1 & o2 & Sg & -> & M).
    pose proof (@inv_settling _ _ _ _ _ _ _ _ J Sg) as J1.
    destruct (@micros_new_rows _ _ _ _ _ _ _ r En M J1 Hr) as [H1|H1]; [|congruence].
    apply in_order_app in O. specialize (T (@honest_prefix _ _ _ _ _ Hh)).
    destruct Sg as [_|w _ W|i a f a0 b0 go o1 c1 He Fl Nth _ S]; [apply T; auto| |].
    { apply T; auto. unfold row in *. cbn in H1. destruct (@wallet_keeps _ _ (i_wf J) W) as [V _].
      rewrite V in H1. exact H1. }
    assert (If : In f (c_flights c)) by (rewrite Fl; apply in_or_app; right; left; reflexivity).
    assert (Ho : honest_answer out f a).
    { destruct He as [-> | ->]; eapply (Hh es i a now gen []); eauto. }
    destruct S as [a e0 u Ke Hu Na Hu1 Hu2 Ne Nu _ _|toks pk r0 d Hr0 Nr Pr N Dj Ed|r0 Hr0 Nr Pr]; unfold row in *; cbn [c_db with_flights] in *.
    + apply T; auto.
    + rewrite Ed in H1. cbn [vouchers] in H1. apply upd_voucher_in in H1. destruct H1 as [[H1 _]|(r1 & H1 & _ & ->)]; [apply T; auto|].
      cbn. destruct (_ =? _); discriminate.
    + cbn [vouchers set_vouchers] in H1. apply upd_voucher_in in H1. destruct H1 as [[H1 _]|(r1 & H1 & N1 & ->)]; [apply T; auto|].
      exfalso. cbn [honest_answer] in Ho. destruct Ho as (toks & Q & Dt). apply Dt.
      destruct (i_flight J f If) as (_ & _ & Qf & _). cbn [v_number double_spent] in O.
      destruct (i_order J r1 O H1) as (_ & _ & _ & _ & _ & _ & I7). rewrite N1 in I7. eapply I7; eauto.
Qed.

(** ** Received tokens are stored *)

Lemma started_store groups now gen v total counter c o c' : started groups now gen v total counter c o c' ->
  unblinded (c_db c') = unblinded (c_db c) /\ StoreModel.groups (c_db c') = StoreModel.groups (c_db c).
Proof.
  destruct 1 as [Ge|e Lt X|k toks d B1 B2 Hd Hk]; auto. cbn. destruct Hd as [(_ & _ & ->)|(_ & _ & _ & _ & ->)]; auto.
  cbn. unfold with_voucher. destruct (memZ _ _); auto.
Qed.

Definition no_credit (x : output) : Prop := match x with Credited _ _ _ _ => False | _ => True end.

Lemma started_no_credit groups now gen v total counter c o c' : started groups now gen v total counter c o c' -> Forall no_credit o.
Proof. destruct 1; repeat constructor. Qed.

Lemma micro_store groups now gen out c o c' : micro groups now gen out c o c' -> Forall no_credit o /\
  unblinded (c_db c') = unblinded (c_db c) /\ StoreModel.groups (c_db c') = StoreModel.groups (c_db c).
Proof.
  destruct 1 as [v total counter c o c' (R1 & R2 & _) S|c|c b|c e].
  - split; [eapply started_no_credit; eauto|eapply started_store; eauto].
  - split; [repeat constructor|auto].
  - split; [repeat constructor|auto].
  - split; [repeat constructor|auto].
Qed.

Lemma micros_store groups now gen out c o c' : micros groups now gen out c o c' -> Forall no_credit o /\
  unblinded (c_db c') = unblinded (c_db c) /\ StoreModel.groups (c_db c') = StoreModel.groups (c_db c).
Proof.
  induction 1 as [out c|out c o c1 o1 c2 M Ms IH]; [auto|]. destruct (micro_store M) as (A & B & C), IH as (A' & B' & C').
  split; [apply Forall_app; auto|]. split; congruence.
Qed.

Lemma credited_tokens_app a b : credited_tokens (a ++ b) = credited_tokens a ++ credited_tokens b.
Proof. apply flat_map_app. Qed.

Lemma credited_tokens_nil o : Forall no_credit o -> credited_tokens o = [].
Proof. induction 1 as [|x o N _ IH]; [reflexivity|]. destruct x; cbn in *; auto. contradiction. Qed.

Lemma step_stores groups dflt allowed out c te o c' : proper te -> inv groups out c ->
  controller_step groups dflt allowed c te = (o, c') ->
  (forall w, fst (fst te) <> EWallet w) ->
  map u_token (unblinded (c_db c')) = map u_token (unblinded (c_db c)) ++ credited_tokens o /\
  (forall v k toks s t, In (Credited v k toks s) o -> In t toks -> stored (c_db c') s t /\ ~ In t (map u_token (unblinded (c_db c)))) /\
  (forall v k toks s, In (Credited v k toks s) o -> NoDup toks) /\
  (forall s t, stored (c_db c) s t -> stored (c_db c') s t).
Proof.
  destruct te as [[e now] gen]. intros P J E Nw. cbn [fst] in Nw.
  destruct (@step_shape groups dflt allowed out c e now gen o c' P J E) as (En & o1 & c1 & o2 & Sg & -> & M).
  destruct (micros_store M) as (A & B & C). rewrite credited_tokens_app, (credited_tokens_nil A), app_nil_r, B.
  assert (St : forall s t, stored (c_db c') s t <-> stored (c_db c1) s t) by (intros; now apply stored_same).
  assert (Cr : forall v k toks s, In (Credited v k toks s) (o1 ++ o2) -> In (Credited v k toks s) o1).
  { intros v k toks s I. apply in_app_or in I. destruct I as [I|I]; [exact I|]. rewrite Forall_forall in A. destruct (A _ I). }
  destruct Sg as [_|w -> W|i a f a0 b0 go o1 c1 _ Fl _ _ S].
  - rewrite app_nil_r. split; [reflexivity|]. split; [|split].
    + intros v k toks s t I. destruct (Cr _ _ _ _ I).
    + intros v k toks s I. destruct (Cr _ _ _ _ I).
    + intros s t. apply St.
  - destruct (Nw w eq_refl).
  - destruct S as [a e0 u He Hu Na Hu1 Hu2 _ _ _ _|toks pk r0 d Hr0 Nr Pr N Dj Ed|r0 Hr0 Nr Pr]; cbn [c_db with_flights] in *.
    + cbn. rewrite app_nil_r. split; [reflexivity|]. split; [|split].
      * intros v k toks s t I. destruct (Cr _ _ _ _ I).
      * intros v k toks s I. destruct (Cr _ _ _ _ I).
      * intros s t. apply St.
    + assert (Ud : unblinded d = unblinded (c_db c) ++ map (fun t => UR t (next_id (map g_id (StoreModel.groups (c_db c))))) toks) by (rewrite Ed; reflexivity).
      assert (Gd : StoreModel.groups d = StoreModel.groups (c_db c) ++ [GR (next_id (map g_id (StoreModel.groups (c_db c)))) (f_voucher f) pk (memZ pk allowed)]) by (rewrite Ed; reflexivity).
      rewrite Ud, map_app, map_u_token_UR. cbn [credited_tokens flat_map]. rewrite app_nil_r. split; [reflexivity|].
      assert (Old : forall s t, stored (c_db c) s t -> stored d s t).
      { intros s t (g & v & q & U1 & U2). exists g, v, q. rewrite Ud, Gd. split; apply in_or_app; auto. }
      split; [|split].
      * intros v k toks' s t I It. apply Cr in I. destruct I as [I|[]]. injection I as _ _ <- <-. split.
        -- apply St. exists (next_id (map g_id (StoreModel.groups (c_db c)))), (f_voucher f), pk. rewrite Ud, Gd.
           split; [apply in_or_app; right; apply in_map_iff; eexists; split; [reflexivity|exact It]|].
           apply in_or_app; right; left; reflexivity.
        -- exact (Dj t It).
      * intros v k toks' s I. apply Cr in I. destruct I as [I|[]]. injection I as _ _ <- _. exact N.
      * intros s t H. apply St. auto.
    + cbn. rewrite app_nil_r. split; [reflexivity|]. split; [|split].
      * intros v k toks s t I. destruct (Cr _ _ _ _ I).
      * intros v k toks s I. destruct (Cr _ _ _ _ I).
      * intros s t H. apply St. exact H.
Qed.

(** ** Open requests *)

Lemma requested_app a b : requested_vouchers (a ++ b) = requested_vouchers a ++ requested_vouchers b.
Proof. apply flat_map_app. Qed.

Lemma started_open groups now gen v total counter c o c' : started groups now gen v total counter c o c' ->
  outstanding c' = outstanding c ++ requested_vouchers o.
Proof. destruct 1; cbn; rewrite ?app_nil_r; auto. unfold outstanding. cbn. now rewrite map_app. Qed.

Lemma redeem_open groups dflt now gen out v n c o c' : inv groups out c ->
  redeem groups dflt now gen v n c = (o, c') -> outstanding c' = outstanding c ++ requested_vouchers o.
Proof.
  intros J E. destruct (@redeem_spec _ _ _ _ _ _ _ _ _ _ J E) as [N R S|r Hr Nr Rp R S|r fin Hr Nr Rp R S|r fin x Hr Nr Rp -> ->|r s Hr Nr Rp X -> ->];
    try (eapply started_open; eassumption); cbn; now rewrite app_nil_r.
Qed.

Lemma redeem_inv groups dflt now gen out v n c o c' : enough gen -> inv groups out c ->
  redeem groups dflt now gen v n c = (o, c') -> inv groups (out ++ o) c'.
Proof. intros En J E. eapply inv_micros; [exact En|eapply redeem_micros; eauto|exact J]. Qed.

Lemma retry_loop_open groups dflt now gen vs : enough gen -> forall out c o c', inv groups out c ->
  retry_loop groups dflt now gen vs c = (o, c') -> outstanding c' = outstanding c ++ requested_vouchers o.
Proof.
  intros En. induction vs as [|v vs IH]; intros out c o c' J E; cbn [retry_loop] in E.
  - injection E as <- <-. cbn. now rewrite app_nil_r.
  - destruct (memZ v (dkeys (c_active c))); [eauto|].
    destruct (get_voucher c v) as [[vo s]|e]; [|injection E as <- <-; cbn; now rewrite app_nil_r].
    destruct (should_start_redemption s); [|eauto].
    destruct (redeem groups dflt now gen v None c) as [o1 c1] eqn:E1.
    destruct (retry_loop groups dflt now gen vs c1) as [o2 c2] eqn:E2. injection E as <- <-.
    rewrite (IH (out ++ o1) c1 o2 c2 (@redeem_inv _ _ _ _ _ _ _ _ _ _ En J E1) E2), requested_app, app_assoc.
    f_equal. eapply redeem_open; eauto.
Qed.

Lemma check_loop_open groups dflt now gen vs : enough gen -> forall out c o c', inv groups out c ->
  check_loop groups dflt now gen vs c = (o, c') -> outstanding c' = outstanding c ++ requested_vouchers o.
Proof.
  intros En. induction vs as [|v vs IH]; intros out c o c' J E; cbn [check_loop] in E.
  - injection E as <- <-. cbn. now rewrite app_nil_r.
  - destruct (should_start_redemption _); [|eauto].
    destruct (redeem groups dflt now gen (number v) None c) as [o1 c1] eqn:E1.
    destruct (check_loop groups dflt now gen vs c1) as [o2 c2] eqn:E2. injection E as <- <-.
    rewrite (IH (out ++ o1) c1 o2 c2 (@redeem_inv _ _ _ _ _ _ _ _ _ _ En J E1) E2), requested_app, app_assoc.
    f_equal. eapply redeem_open; eauto.
Qed.

Lemma settled_open groups allowed now f c a go o c' : settled groups allowed now f c a go o c' ->
  outstanding c' = outstanding c /\ requested_vouchers o = [].
Proof. destruct 1; auto. Qed.

Lemma without_mid A (a : list A) x b : without_nth (length a) (a ++ x :: b) = a ++ b.
Proof.
  unfold without_nth. rewrite firstn_app, Nat.sub_diag, firstn_all. cbn [firstn]. rewrite app_nil_r. f_equal.
  rewrite skipn_app, skipn_all2 by lia. replace (S (length a) - length a)%nat with 1%nat by lia. reflexivity.
Qed.

Lemma take_at_None A i : forall l : list A, take_at i l = None -> (length l <= i)%nat.
Proof.
  induction i as [|i IH]; intros [|x l] E; cbn in *; try lia; try discriminate.
  destruct (take_at i l) as [[y l']|] eqn:T; [discriminate|]. specialize (IH _ T). lia.
Qed.

Lemma step_open groups dflt allowed out c e now gen o c' : proper (e, now, gen) -> inv groups out c ->
  controller_step groups dflt allowed c (e, now, gen) = (o, c') -> outstanding c' = open_after (outstanding c) e o.
Proof.
  intros P J E. assert (En : enough gen) by (destruct e; try exact P; apply P).
  cbn [controller_step] in E. destruct e as [v n|i a| | |w|i a|n|n]; cbn [open_after].
  - eapply redeem_open; eauto.
  - unfold answered in E. destruct (take_at i (c_flights c)) as [[f rest]|] eqn:T.
    + destruct (settle groups allowed now f a (with_flights rest c)) as [[go o1] c1] eqn:E1.
      destruct (@settle_at groups allowed now out i a c f rest go o1 c1 J T E1) as (a0 & b0 & Fl & Er & Nth & S).
      destruct (@take_at_index _ _ _ _ _ T) as (a1 & b1 & Fl1 & Er1 & Ei).
      destruct (settled_open S) as [O1 R1].
      assert (X : without_nth i (outstanding c) = outstanding c1).
      { rewrite O1. unfold outstanding. cbn [c_flights with_flights]. rewrite <- Er, Er1, Fl1, !map_app, Ei. cbn [map].
        rewrite <- (map_length f_voucher). apply without_mid. }
      rewrite X. destruct go.
      * destruct (start_group _ _ _ _ _ _ c1) as [o2 c2] eqn:E2. injection E as <- <-. rewrite requested_app, R1. cbn [app].
        destruct (@inv_settled _ _ _ _ _ _ _ _ _ _ _ _ J Fl S) as (J1 & No & St). specialize (St eq_refl).
        destruct (Z_lt_ge_dec (f_counter f + 1) groups) as [Lt|Ge].
        -- eapply started_open. eapply start_group_spec; [exact J1|exact (St Lt)|exact E2].
        -- unfold start_group in E2. destruct (Z.geb_spec (f_counter f + 1) groups); [|lia]. injection E2 as <- <-. cbn. now rewrite app_nil_r.
      * injection E as <- <-. rewrite R1, app_nil_r. reflexivity.
    + injection E as <- <-. cbn. rewrite app_nil_r. unfold without_nth.
      apply take_at_None in T. unfold outstanding. rewrite firstn_all2, skipn_all2, app_nil_r by (rewrite map_length; lia). reflexivity.
  - unfold retry_redemption in E. destruct (c_retrying c); [|injection E as <- <-; cbn; now rewrite app_nil_r]. eapply retry_loop_open; eauto.
  - unfold boot in E. destruct (fst _) as [vs|er]; [|injection E as <- <-; reflexivity].
    destruct (check_loop groups dflt now gen vs (killed c)) as [o1 c1] eqn:E1. injection E as <- <-.
    exact (@check_loop_open groups dflt now gen vs En out (killed c) o1 c1 (inv_killed J) E1).
  - injection E as <- <-. cbn. now rewrite app_nil_r.
  - destruct (take_at i (c_flights c)) as [[f rest]|]; [|injection E as <- <-; reflexivity].
    destruct (settle groups allowed now f a (with_flights rest c)) as [[go o1] c1]. injection E as <- <-. reflexivity.
  - destruct (retry_loop _ _ _ _ _ c) as [o1 c1]. injection E as <- <-. reflexivity.
  - unfold boot in E. destruct (fst _) as [vs|er]; [|injection E as <- <-; reflexivity].
    destruct (check_loop _ _ _ _ _ (killed c)) as [o1 c1] eqn:E1. injection E as <- <-. reflexivity.
Qed.

Lemma run_open groups dflt allowed es : Forall proper es -> forall out c o c', inv groups out c ->
  controller_run groups dflt allowed c es = (o, c') ->
  outstanding c' = open_requests groups dflt allowed c (outstanding c) es.
Proof.
  induction 1 as [|[[e now] gen] es P _ IH]; intros out c o c' J E; cbn [controller_run open_requests] in *.
  - injection E as <- <-. reflexivity.
  - destruct (controller_step groups dflt allowed c (e, now, gen)) as [o1 c1] eqn:E1.
    destruct (controller_run groups dflt allowed c1 es) as [o2 c2] eqn:E2. injection E as <- <-.
    rewrite <- (@step_open _ _ _ _ _ _ _ _ _ _ P J E1).
    exact (IH (out ++ o1) c1 o2 c2 (@inv_step groups dflt allowed out c _ o1 c1 P J E1) E2).
Qed.

Lemma lived_open groups dflt allowed es out c : lived groups dflt allowed es out c ->
  open_requests groups dflt allowed new_node [] es = outstanding c.
Proof. intros [F E]. symmetry. exact (@run_open groups dflt allowed es F [] new_node out c (inv_new groups) E). Qed.

(** ** The retry loop keeps running *)

Lemma started_retrying groups now gen v total counter c o c' : started groups now gen v total counter c o c' -> c_retrying c' = c_retrying c.
Proof. destruct 1; reflexivity. Qed.

Lemma redeem_retrying groups dflt now gen out v n c o c' : inv groups out c ->
  redeem groups dflt now gen v n c = (o, c') -> c_retrying c' = c_retrying c /\ c_error c' = c_error c /\ c_unpaid c' = c_unpaid c.
Proof.
  intros J E. destruct (@redeem_spec _ _ _ _ _ _ _ _ _ _ J E) as [N R S|r Hr Nr Rp R S|r fin Hr Nr Rp R S|r fin x Hr Nr Rp -> ->|r s Hr Nr Rp X -> ->];
    auto; destruct S; auto.
Qed.

Lemma retry_loop_retrying groups dflt now gen vs : enough gen -> forall out c o c', inv groups out c ->
  incl vs (map v_number (vouchers (c_db c))) ->
  retry_loop groups dflt now gen vs c = (o, c') -> c_retrying c' = c_retrying c.
Proof.
  intros En. induction vs as [|v vs IH]; intros out c o c' J K E; cbn [retry_loop] in E.
  - injection E as <- <-. reflexivity.
  - assert (K' : incl vs (map v_number (vouchers (c_db c)))) by (intros x I; apply K; right; exact I).
    destruct (memZ v (dkeys (c_active c))); [eauto|].
    destruct (known_dec c v) as [(r & Hr & Nr)|N]; [|exfalso; apply N, K; left; reflexivity].
    destruct (@get_voucher_spec _ _ _ _ J Hr) as (s & G & _). rewrite Nr in G. rewrite G in E.
    destruct (should_start_redemption s); [|eauto].
    destruct (redeem groups dflt now gen v None c) as [o1 c1] eqn:E1.
    destruct (retry_loop groups dflt now gen vs c1) as [o2 c2] eqn:E2. injection E as <- <-.
    rewrite (IH (out ++ o1) c1 o2 c2 (@redeem_inv _ _ _ _ _ _ _ _ _ _ En J E1)); [|
      |exact E2].
    + eapply redeem_retrying; eauto.
    + eapply incl_tran; [exact K'|]. apply incl_map. eapply micros_rows; [exact En|eapply redeem_micros; eauto|exact J].
Qed.

Lemma check_loop_retrying groups dflt now gen vs : enough gen -> forall out c o c', inv groups out c ->
  check_loop groups dflt now gen vs c = (o, c') -> c_retrying c' = c_retrying c.
Proof.
  intros En. induction vs as [|v vs IH]; intros out c o c' J E; cbn [check_loop] in E.
  - injection E as <- <-. reflexivity.
  - destruct (should_start_redemption _); [|eauto].
    destruct (redeem groups dflt now gen (number v) None c) as [o1 c1] eqn:E1.
    destruct (check_loop groups dflt now gen vs c1) as [o2 c2] eqn:E2. injection E as <- <-.
    rewrite (IH (out ++ o1) c1 o2 c2 (@redeem_inv _ _ _ _ _ _ _ _ _ _ En J E1) E2). eapply redeem_retrying; eauto.
Qed.

Lemma map_res_Ok E A B (f : A -> res E B) (g : A -> B) l : (forall x, In x l -> f x = Ok (g x)) -> map_res f l = Ok (map g l).
Proof.
  induction l as [|x l IH]; intros H; [reflexivity|]. cbn [map_res map]. rewrite (H x) by (left; reflexivity). cbn [bind].
  rewrite IH by (intros y I; apply H; right; exact I). reflexivity.
Qed.

Lemma list_all groups out c : inv groups out c -> fst (with_cursor list_vouchers (c_db c)) = Ok (map shown (vouchers (c_db c))).
Proof.
  intros J. unfold list_vouchers, with_cursor. cbn [run]. rewrite (@map_res_Ok _ _ _ from_row shown); [reflexivity|].
  intros r Hr. apply from_row_readable. apply (i_row J r Hr).
Qed.

Lemma step_retrying groups dflt allowed out c e now gen o c' : proper (e, now, gen) -> inv groups out c ->
  controller_step groups dflt allowed c (e, now, gen) = (o, c') ->
  (e = EStart -> c_retrying c' = true) /\ (alive e -> c_retrying c = true -> c_retrying c' = true).
Proof.
  intros P J E. assert (En : enough gen) by (destruct e; try exact P; apply P).
  cbn [controller_step] in E. destruct e as [v n|i a| | |w|i a|n|n]; (split; [try discriminate|try contradiction]).
  - intros _ R. destruct (@redeem_retrying _ _ _ _ _ _ _ _ _ _ J E) as [-> _]. exact R.
  - intros _ R. destruct (@answered_shape _ _ _ _ _ _ _ _ _ _ En J E) as (o1 & c1 & o2 & Sg & _ & M).
    unfold answered in E. destruct (take_at i (c_flights c)) as [[f rest]|] eqn:T; [|injection E as <- <-; exact R].
    destruct (settle groups allowed now f a (with_flights rest c)) as [[go o3] c3] eqn:E1.
    destruct (@settle_at groups allowed now out i a c f rest go o3 c3 J T E1) as (a0 & b0 & Fl & Er & Nth & S).
    assert (X : c_retrying c3 = true) by (destruct S; exact R).
    destruct go; [|injection E as <- <-; exact X].
    destruct (start_group _ _ _ _ _ _ c3) as [o4 c4] eqn:E2. injection E as <- <-.
    destruct (@inv_settled _ _ _ _ _ _ _ _ _ _ _ _ J Fl S) as (J1 & No & St). specialize (St eq_refl).
    destruct (Z_lt_ge_dec (f_counter f + 1) groups) as [Lt|Ge].
    + rewrite (@started_retrying groups now gen (f_voucher f) (f_total f) (f_counter f + 1) c3 o4 c4); [exact X|].
      eapply start_group_spec; [exact J1|exact (St Lt)|exact E2].
    + unfold start_group in E2. destruct (Z.geb_spec (f_counter f + 1) groups); [|lia]. injection E2 as <- <-. exact X.
  - intros _ R. unfold retry_redemption in E. rewrite R in E.
    rewrite (@retry_loop_retrying groups dflt now gen (dkeys (c_error c) ++ dkeys (c_unpaid c)) En out c o c' J); [exact R| |exact E].
    intros v I. apply (i_failed J). now apply in_app_or in I.
  - intros _. unfold boot in E. rewrite (@list_all _ _ _ (inv_killed J)) in E.
    destruct (check_loop _ _ _ _ _ (killed c)) as [o1 c1]. injection E as <- <-. reflexivity.
  - injection E as <- <-. auto.
Qed.

Lemma lived_running groups dflt allowed es out c : lived groups dflt allowed es out c -> running es -> c_retrying c = true.
Proof.
  intros L. cut (running es -> c_retrying c = true); [auto|]. revert L.
  apply (run_induction (fun es out c => running es -> c_retrying c = true)).
  - intros ([|? ?] & now & gen & es2 & E & _); discriminate.
  - clear. intros es out c [[e now] gen] o c' F P R J T E J' (es1 & n1 & g1 & es2 & Ee & Al).
    destruct (@step_retrying _ _ _ _ _ _ _ _ _ _ P J E) as [S1 S2].
    apply snoc_split in Ee. destruct Ee as [(_ & _ & X)|(es3 & -> & Ee)].
    + injection X as <- _ _. auto.
    + apply Forall_app in Al. destruct Al as [Al1 Al2]. inversion Al2 as [|? ? A _]; subst. apply S2; [exact A|]. apply T.
      exists es1, n1, g1, es3. auto.
Qed.

(** ** With fresh tokens every start succeeds *)

(** The random tokens stored are those of [d0] and some made for the vouchers in [done]. *)
Definition since (gen : Z -> Z -> Z -> list Z) (d0 : db) (done : list Z) (d : db) : Prop :=
  vouchers d = vouchers d0 /\
  forall t, In t (tokens d) -> In t (tokens d0) \/ exists v k n, In v done /\ In (t_text t) (gen v k n).

Lemma since_refl gen d : since gen d [] d.
Proof. split; auto. Qed.

Lemma started_since groups now gen v total counter c o c' d0 done : startable v total c -> In v (map v_number (vouchers (c_db c))) ->
  started groups now gen v total counter c o c' -> since gen d0 done (c_db c) -> since gen d0 (v :: done) (c_db c').
Proof.
  intros S K R [A B]. assert (Z : since gen d0 (v :: done) (c_db c)).
  { split; [exact A|]. intros t I. destruct (B t I) as [X|(v' & k & n & X & Y)]; [auto|]. right. exists v', k, n. split; [right; exact X|exact Y]. }
  destruct R as [Ge|e Lt X|k toks d B1 B2 Hd Hk]; auto. cbn. destruct Hd as [(_ & _ & ->)|(_ & _ & _ & (n & Hn & _ & ->) & ->)]; [exact Z|].
  assert (W : with_voucher v total now (c_db c) = c_db c).
  { unfold with_voucher. destruct (memZ_spec v (map v_number (vouchers (c_db c)))); [reflexivity|contradiction]. }
  rewrite W. split; [exact A|]. cbn. intros t I. apply in_app_or in I. destruct I as [I|I]; [apply Z; exact I|].
  right. apply in_map_iff in I. destruct I as (x & <- & I). exists v, counter, n. split; [left; reflexivity|exact I].
Qed.

Lemma started_fresh groups now gen v total counter c o c' d0 done : fresh_tokens gen d0 -> since gen d0 done (c_db c) -> ~ In v done ->
  0 <= counter < groups -> groups <= total -> started groups now gen v total counter c o c' ->
  exists toks, o = [Requested v counter toks].
Proof.
  intros (_ & F2 & F3 & F4) [A B] N R1 R2 S. destruct S as [Ge|e Lt X|k toks d B1 B2 Hd Hk]; [lia| |eauto].
  exfalso. destruct (X ltac:(lia) R2) as (_ & n & Hn & C). apply C. split; [apply F2|].
  intros x I J. apply in_map_iff in J. destruct J as (t & <- & J). destruct (B t J) as [Q|(v' & k' & n' & Q & Q')].
  - apply (F3 _ _ _ _ I). apply in_map_iff. eauto.
  - assert (v = v') by (eapply F4; eauto). subst v'. contradiction.
Qed.

Lemma redeem_since groups dflt now gen out v n c o c' d0 done : inv groups out c -> In v (map v_number (vouchers (c_db c))) ->
  redeem groups dflt now gen v n c = (o, c') -> since gen d0 done (c_db c) -> since gen d0 (v :: done) (c_db c').
Proof.
  intros J K E Z. assert (Z' : since gen d0 (v :: done) (c_db c)).
  { destruct Z as [A B]. split; [exact A|]. intros t I. destruct (B t I) as [X|(v' & k & m & X & Y)]; [auto|]. right. exists v', k, m. split; [right; exact X|exact Y]. }
  destruct (@redeem_spec _ _ _ _ _ _ _ _ _ _ J E) as [N R S|r Hr Nr Rp R S|r fin Hr Nr Rp R S|r fin x Hr Nr Rp -> ->|r s Hr Nr Rp X -> ->]; auto;
    eapply started_since; eauto; apply R.
Qed.

(** ** Start-up *)

Definition resumable groups (r : voucher_row) : bool := vstate_eqb (v_state r) SPending && (v_counter r <? groups).

Lemma should_start_shown r : should_start_redemption (of_persistent (state (shown r))) = vstate_eqb (v_state r) SPending.
Proof. unfold shown, pst. cbn. destruct (v_state r); reflexivity. Qed.

Lemma check_loop_exact groups dflt now gen d0 rs : enough gen -> fresh_tokens gen d0 -> NoDup (map v_number rs) -> incl rs (vouchers d0) ->
  forall out c o c' done, inv groups out c -> since gen d0 done (c_db c) -> c_error c = [] -> c_unpaid c = [] ->
  (forall v, In v (outstanding c) -> In v done) -> (forall r, In r rs -> ~ In (v_number r) done) ->
  check_loop groups dflt now gen (map shown rs) c = (o, c') ->
  request_keys o = map (fun r => (v_number r, v_counter r)) (filter (resumable groups) rs) /\
  only_requests o.
Proof.
  intros En Fr. induction rs as [|r rs IH]; intros Nd Inc out c o c' done J Si Ee Eu Ho Hd E; cbn [map check_loop] in E.
  - injection E as <- <-. split; [reflexivity|constructor].
  - rewrite should_start_shown in E. inversion Nd as [|? ? Nd1 Nd2]; subst.
    assert (Inc' : incl rs (vouchers d0)) by (intros x I; apply Inc; right; exact I).
    assert (Hr : row c r) by (unfold row; rewrite (proj1 Si); apply Inc; left; reflexivity).
    cbn [filter]. unfold resumable at 1. destruct (vstate_eqb (v_state r) SPending) eqn:Es.
    + assert (Ps : v_state r = SPending) by (destruct (v_state r); try discriminate; reflexivity).
      change (number (shown r)) with (v_number r) in E.
      destruct (redeem groups dflt now gen (v_number r) None c) as [o1 c1] eqn:E1.
      destruct (check_loop groups dflt now gen (map shown rs) c1) as [o2 c2] eqn:E2. injection E as <- <-.
      assert (Nv : ~ In (v_number r) done) by (apply Hd; left; reflexivity).
      assert (Rep : reported c r (CPending (v_counter r))).
      { apply rep_pending; auto; rewrite ?Ee, ?Eu; [|intros []|intros []]. rewrite (i_active J). intros I. apply Nv. now apply Ho. }
      assert (Si1 : since gen d0 (v_number r :: done) (c_db c1)) by (eapply redeem_since; eauto; now apply in_known).
      destruct (@redeem_retrying _ _ _ _ _ _ _ _ _ _ J E1) as (_ & Ee1 & Eu1).
      pose proof (@redeem_inv _ _ _ _ _ _ _ _ _ _ En J E1) as J1.
      pose proof (@redeem_open _ _ _ _ _ _ _ _ _ _ J E1) as O1.
      assert (S1 : started groups now gen (v_number r) (v_expected r) (v_counter r) c o1 c1).
      { unfold redeem in E1. destruct (@get_voucher_spec _ _ _ _ J Hr) as (s & G & Rs).
        assert (s = CPending (v_counter r)).
        { destruct Rs as [f n X _ _|f X _|s k _ X|f _ _ X|f x _ _ _ X|]; try congruence.
          - exfalso. apply in_dkeys in X. rewrite (i_active J) in X. auto.
          - rewrite Eu in X. destruct X.
          - rewrite Ee in X. destruct X. }
        subst s. rewrite G in E1. cbn [should_start_redemption start_at_counter expected_tokens shown] in E1.
        eapply start_group_spec; [exact J| |exact E1]. right. exists r. auto. }
      destruct (i_row J r Hr) as ((_ & Rc & _) & Rg & _).
      assert (Rest : request_keys o2 = map (fun r => (v_number r, v_counter r)) (filter (resumable groups) rs) /\
         only_requests o2).
      { refine (IH Nd2 Inc' (out ++ o1) c1 o2 c2 (v_number r :: done) J1 Si1 _ _ _ _ E2); try congruence.
        - intros v I. rewrite O1 in I. apply in_app_or in I. destruct I as [I|I]; [right; now apply Ho|].
          left. clear - S1 I. destruct S1; cbn in I; try contradiction. destruct I as [I|[]]. congruence.
        - intros r' I [X|X]; [|exact (Hd r' (or_intror I) X)]. apply Nd1. rewrite X. now apply in_map. }
      destruct Rest as [Rk Rf]. unfold request_keys in *. rewrite flat_map_app, Rk. cbn [andb].
      destruct (Z.ltb_spec (v_counter r) groups) as [Lt|Ge].
      * destruct (@started_fresh _ _ _ _ _ _ _ _ _ _ _ Fr Si Nv (conj Rc Lt) (proj2 Rg) S1) as (toks & ->). cbn. split; [reflexivity|]. constructor; auto.
      * destruct S1; try lia. split; auto.
    + cbn [andb]. eapply IH; eauto. intros r' I. apply Hd. right. exact I.
Qed.

Lemma boot_exact groups dflt now gen out c o c' : enough gen -> fresh_tokens gen (c_db c) -> inv groups out c ->
  boot groups dflt now gen None c = (o, c') ->
  request_keys o = map (fun r => (v_number r, v_counter r)) (filter (resumable groups) (vouchers (c_db c))) /\
  only_requests o.
Proof.
  intros En Fr J E. unfold boot in E. pose proof (inv_killed J) as Jk. rewrite (@list_all _ _ _ Jk) in E.
  destruct (check_loop _ _ _ _ _ (killed c)) as [o1 c1] eqn:E1. injection E as <- <-.
  refine (@check_loop_exact groups dflt now gen (c_db c) (vouchers (c_db c)) En Fr (wf_vouchers (i_wf J)) (incl_refl _) out (killed c) o1 c1 [] Jk _ eq_refl eq_refl _ _ E1).
  - split; [reflexivity|]. auto.
  - intros v [].
  - intros r _ [].
Qed.

(** ** The timer and unpaid vouchers *)

Lemma retry_loop_unpaid groups dflt now gen d0 v r vs : enough gen -> fresh_tokens gen d0 -> In r (vouchers d0) -> v_number r = v -> v_state r = SPending ->
  forall out c o c' done, inv groups out c -> since gen d0 done (c_db c) -> incl vs (map v_number (vouchers d0)) ->
  In v (dkeys (c_unpaid c)) -> ~ In v (outstanding c) -> ~ In v done -> In v vs ->
  retry_loop groups dflt now gen vs c = (o, c') -> exists toks, In (Requested v 0 toks) o.
Proof.
  intros En Fr Ir Nr Pr. induction vs as [|w vs IH]; intros out c o c' done J Si Inc Iu No Nd Iv E; [destruct Iv|].
  cbn [retry_loop] in E. assert (Inc' : incl vs (map v_number (vouchers d0))) by (intros x I; apply Inc; right; exact I).
  assert (Hr : row c r) by (unfold row; rewrite (proj1 Si); exact Ir).
  destruct (Z.eq_dec w v) as [->|Ne].
  - destruct (memZ_spec v (dkeys (c_active c))) as [X|X]; [rewrite (i_active J) in X; contradiction|].
    destruct (@get_voucher_spec _ _ _ _ J Hr) as (s & G & Rs). rewrite Nr in G. rewrite G in E.
    destruct Rs as [f n Q _ _|f Q _|s k _ Q|f _ _ Q|f x _ _ Q _|Q1 Q2 Q3 Q4]; try congruence; try (rewrite Nr in *; contradiction).
    + rewrite Nr in Q. apply in_dkeys in Q. contradiction.
    + cbn [should_start_redemption] in E. destruct (redeem groups dflt now gen v None c) as [o1 c1] eqn:E1.
      destruct (retry_loop groups dflt now gen vs c1) as [o2 c2]. injection E as <- <-.
      unfold redeem in E1. rewrite G in E1. cbn [should_start_redemption start_at_counter expected_tokens shown] in E1.
      destruct (i_row J r Hr) as (_ & Rg & _).
      assert (S1 : started groups now gen v (v_expected r) 0 c o1 c1).
      { eapply start_group_spec; [exact J| |exact E1]. right. exists r. auto. }
      assert (R0 : 0 <= 0 < groups) by lia. destruct (@started_fresh _ _ _ _ _ _ _ _ _ _ _ Fr Si Nd R0 (proj2 Rg) S1) as (toks & ->). exists toks. left. reflexivity.
  - destruct Iv as [Iv|Iv]; [congruence|]. destruct (memZ w (dkeys (c_active c))); [eauto|].
    assert (Kw : In w (map v_number (vouchers (c_db c)))) by (rewrite (proj1 Si); apply Inc; left; reflexivity).
    destruct (known_dec c w) as [(rw & Hw & Nw)|N]; [|contradiction].
    destruct (@get_voucher_spec _ _ _ _ J Hw) as (s & G & Rs). rewrite Nw in G. rewrite G in E.
    destruct (should_start_redemption s); [|eauto].
    destruct (redeem groups dflt now gen w None c) as [o1 c1] eqn:E1.
    destruct (retry_loop groups dflt now gen vs c1) as [o2 c2] eqn:E2. injection E as <- <-.
    destruct (@redeem_retrying _ _ _ _ _ _ _ _ _ _ J E1) as (_ & _ & Eu1).
    pose proof (@redeem_open _ _ _ _ _ _ _ _ _ _ J E1) as O1.
    destruct (IH (out ++ o1) c1 o2 c2 (w :: done)) as (toks & I); auto.
    + eapply redeem_inv; eauto.
    + eapply redeem_since; eauto.
    + rewrite Eu1. exact Iu.
    + rewrite O1. intros I. apply in_app_or in I. destruct I as [I|I]; [exact (No I)|].
      destruct (@redeem_spec _ _ _ _ _ _ _ _ _ _ J E1) as [N R S|q Hq Nq Rp R S|q fin Hq Nq Rp R S|q fin x Hq Nq Rp -> ->|q s' Hq Nq Rp X -> ->];
        try (destruct S; cbn in I; try contradiction; destruct I as [I|[]]; congruence); destruct I.
    + intros [X|X]; [congruence|contradiction].
    + exists toks. apply in_or_app. right. exact I.
Qed.

Lemma timer_unpaid groups dflt allowed es out c r now gen o c' : lived groups dflt allowed es out c -> running es ->
  enough gen -> fresh_tokens gen (c_db c) -> row c r -> v_state r = SPending -> In (v_number r) (dkeys (c_unpaid c)) ->
  ~ In (v_number r) (outstanding c) ->
  controller_step groups dflt allowed c (ETimer, now, gen) = (o, c') -> exists toks, In (Requested (v_number r) 0 toks) o.
Proof.
  intros L Rn En Fr Hr Pr Iu No E. pose proof (lived_inv L) as J. cbn [controller_step] in E. unfold retry_redemption in E.
  rewrite (lived_running L Rn) in E.
  refine (@retry_loop_unpaid groups dflt now gen (c_db c) (v_number r) r _ En Fr Hr eq_refl Pr out c o c' [] J (since_refl _ _) _ Iu No (fun X => X) _ E).
  - intros v I. apply (i_failed J). now apply in_app_or in I.
  - apply in_or_app. right. exact Iu.
Qed.

(** ** Submitting again *)

Lemma redeem_again groups dflt now gen out v n c o c' : inv groups out c -> In v (map v_number (vouchers (c_db c))) ->
  redeem groups dflt now gen v n c = (o, c') ->
  vouchers (c_db c') = vouchers (c_db c) /\ (exists more, tokens (c_db c') = tokens (c_db c) ++ more) /\
  forall k toks, In (Requested v k toks) o -> group_rows v k (c_db c) <> [] -> toks = group_tokens v k (c_db c).
Proof.
  intros J K E.
  assert (X : forall total counter, startable v total c -> started groups now gen v total counter c o c' ->
    vouchers (c_db c') = vouchers (c_db c) /\ (exists more, tokens (c_db c') = tokens (c_db c) ++ more) /\
    forall k toks, In (Requested v k toks) o -> group_rows v k (c_db c) <> [] -> toks = group_tokens v k (c_db c)).
  { intros total counter St S. destruct S as [Ge|e Lt X|k toks d B1 B2 Hd Hk].
    - split; [reflexivity|]. split; [exists []; now rewrite app_nil_r|]. intros k toks [].
    - split; [reflexivity|]. split; [exists []; now rewrite app_nil_r|]. intros k toks [Q|[]]. discriminate.
    - cbn. destruct Hd as [(F & -> & ->)|(F & N & D & _ & ->)].
      + split; [reflexivity|]. split; [exists []; now rewrite app_nil_r|]. intros k' toks' [Q|[]] _. congruence.
      + assert (W : with_voucher v total now (c_db c) = c_db c).
        { unfold with_voucher. destruct (memZ_spec v (map v_number (vouchers (c_db c)))); [reflexivity|contradiction]. }
        rewrite W. split; [reflexivity|]. split; [eexists; reflexivity|]. intros k' toks' [Q|[]] H. injection Q as <- <-. contradiction. }
  destruct (@redeem_spec _ _ _ _ _ _ _ _ _ _ J E) as [N R S|r Hr Nr Rp R S|r fin Hr Nr Rp R S|r fin x Hr Nr Rp -> ->|r s Hr Nr Rp Q -> ->].
  - contradiction.
  - eapply X; eauto. apply R.
  - eapply X; eauto. apply R.
  - split; [reflexivity|]. split; [exists []; now rewrite app_nil_r|]. intros k toks [Q|[]]. discriminate.
  - split; [reflexivity|]. split; [exists []; now rewrite app_nil_r|]. intros k toks [].
Qed.

(** ** Sizes *)

Lemma random_tokens_eq v k d : random_tokens v k d = group_tokens v k d.
Proof.
  unfold random_tokens, group_tokens, group_rows. induction (tokens d) as [|t l IH]; [reflexivity|]. cbn [flat_map filter].
  destruct (_ && _); cbn [map app]; rewrite IH; reflexivity.
Qed.

Definition sized groups (d : db) : Prop :=
  forall r k, In r (vouchers d) -> group_tokens (v_number r) k d = [] \/
  token_count_for_group groups (v_expected r) k = Ok (lenZ (group_tokens (v_number r) k d)).

(** Every request so far asked for the group's size. *)
Definition asked groups (out : list output) (d : db) : Prop :=
  forall r k toks, In r (vouchers d) -> In (Requested (v_number r) k toks) out ->
  token_count_for_group groups (v_expected r) k = Ok (lenZ toks).

Definition unasked (x : output) : Prop := match x with Requested _ _ _ => False | _ => True end.

Lemma asked_same groups out o d d' : Forall unasked o ->
  (forall r, In r (vouchers d') -> exists r0, In r0 (vouchers d) /\ v_number r0 = v_number r /\ v_expected r0 = v_expected r) ->
  asked groups out d -> asked groups (out ++ o) d'.
Proof.
  intros F V A r k toks Hr Q. destruct (V r Hr) as (r0 & H0 & En & Ee). rewrite <- Ee. apply (A r0 k toks H0). rewrite En.
  apply in_app_or in Q. destruct Q as [Q|Q]; [exact Q|]. rewrite Forall_forall in F. destruct (F _ Q).
Qed.

Lemma same_row (d : db) r : In r (vouchers d) -> exists r0, In r0 (vouchers d) /\ v_number r0 = v_number r /\ v_expected r0 = v_expected r.
Proof. intros H. exists r. auto. Qed.

Lemma started_sizes groups now gen v total counter c o c' out : enough gen -> inv groups out c -> startable v total c ->
  started groups now gen v total counter c o c' -> sized groups (c_db c) -> asked groups out (c_db c) ->
  sized groups (c_db c') /\ asked groups (out ++ o) (c_db c').
Proof.
  intros En J St R S A. destruct R as [Ge|e Lt X|k toks d B1 B2 Hd Hk].
  - rewrite app_nil_r. auto.
  - split; [exact S|]. eapply asked_same; [repeat constructor|apply same_row|exact A].
  - cbn [c_db with_flights with_active with_db].
    assert (Gr : grown v counter total now toks (c_db c) d).
    { apply started_grown; [apply J|exact St|]. destruct Hd as [H|(F & N & D & _ & H)]; [left|right]; auto. }
    assert (Tot : forall r, In r (vouchers d) -> v_number r = v -> v_expected r = total).
    { intros r Hr Nr. destruct (gr_there Gr) as (r1 & H1 & N1 & _ & <-). f_equal.
      eapply NoDup_map_inj; [apply (wf_vouchers (gr_wf Gr))|exact Hr|exact H1|congruence]. }
    assert (Sz : token_count_for_group groups total counter = Ok (lenZ toks)).
    { destruct Hd as [(F & -> & ->)|(_ & _ & _ & (n & Hn & Tn & ->) & _)].
      - destruct (gr_there Gr) as (r1 & H1 & N1 & _ & <-). destruct (S r1 counter H1) as [E|E]; rewrite N1 in E; [|exact E].
        exfalso. unfold group_tokens in E. apply map_eq_nil in E. contradiction.
      - rewrite Tn. f_equal. symmetry. apply En. lia. }
    split.
    + intros r k' Hr. destruct (Z.eq_dec (v_number r) v) as [Ev|Nv].
      * destruct (Z.eq_dec k' counter) as [->|Nk].
        -- right. rewrite Ev, (gr_tokens Gr), (Tot r Hr Ev). exact Sz.
        -- rewrite (gr_other Gr) by auto. destruct (gr_new Gr _ Hr) as [Old|[-> Kn]]; [exact (S r k' Old)|]. left.
           cbn [v_number new_row]. unfold group_tokens. destruct (group_rows v k' (c_db c)) as [|t l] eqn:Eg; [reflexivity|].
           exfalso. apply Kn. eapply group_rows_known; [apply J|]. rewrite Eg. discriminate.
      * rewrite (gr_other Gr) by auto. destruct (gr_new Gr _ Hr) as [Old|[-> Kn]]; [exact (S r k' Old)|]. cbn in Nv. congruence.
    + intros r k' t Hr Q. apply in_app_or in Q. destruct Q as [Q|[Q|[]]].
      * destruct (gr_new Gr _ Hr) as [Old|[-> Kn]]; [exact (A r k' t Old Q)|]. exfalso. cbn in Q. eapply (i_unknown J); eauto.
      * injection Q as Ev <- <-. rewrite (Tot r Hr) by congruence. exact Sz.
Qed.

Lemma micros_sizes groups now gen out c o c' : enough gen -> micros groups now gen out c o c' -> inv groups out c ->
  sized groups (c_db c) -> asked groups out (c_db c) -> sized groups (c_db c') /\ asked groups (out ++ o) (c_db c').
Proof.
  intros En M. induction M as [out c|out c o c1 o1 c2 M Ms IH]; intros J S A; [rewrite app_nil_r; auto|].
  assert (X : sized groups (c_db c1) /\ asked groups (out ++ o) (c_db c1)).
  { destruct M as [v total counter c o c' (R1 & R2 & _) R|c|c b|c e].
    - eapply started_sizes; eauto.
    - rewrite app_nil_r. split; [exact S|exact A].
    - rewrite app_nil_r. split; [exact S|exact A].
    - split; [exact S|]. eapply asked_same; [repeat constructor|apply same_row|exact A]. }
  destruct X as [S1 A1]. rewrite app_assoc. apply IH; auto. eapply inv_micro; eauto.
Qed.

Lemma upd_voucher_origin g v d r : (forall r, v_number (g r) = v_number r /\ v_expected (g r) = v_expected r) ->
  In r (upd_voucher g v (vouchers d)) -> exists r0, In r0 (vouchers d) /\ v_number r0 = v_number r /\ v_expected r0 = v_expected r.
Proof.
  intros H I. apply upd_voucher_in in I. destruct I as [[I _]|(r0 & I & _ & ->)]; [exists r; auto|].
  exists r0. destruct (H r0) as [-> ->]. auto.
Qed.

Lemma group_tokens_del_own v k k' d d' : tokens d' = filter (fun t => negb ((t_voucher t =? v) && (t_counter t =? k'))) (tokens d) ->
  group_tokens v k d' = [] \/ group_tokens v k d' = group_tokens v k d.
Proof.
  intros E. unfold group_tokens, group_rows. rewrite E. clear E. destruct (Z.eq_dec k k') as [->|Ne].
  - left. induction (tokens d) as [|t l IH]; [reflexivity|]. cbn [filter].
    destruct ((t_voucher t =? v) && (t_counter t =? k')) eqn:X; cbn [negb]; [exact IH|]. cbn [filter]. rewrite X. exact IH.
  - right. f_equal. induction (tokens d) as [|t l IH]; [reflexivity|]. cbn [filter].
    destruct ((t_voucher t =? v) && (t_counter t =? k)) eqn:X.
    + apply andb_prop in X. destruct X as [X X2]. apply Z.eqb_eq in X2.
      replace (t_counter t =? k') with false by (symmetry; apply Z.eqb_neq; congruence). rewrite andb_false_r. cbn [negb filter].
      rewrite X, X2, Z.eqb_refl. cbn [andb]. f_equal. exact IH.
    + destruct (negb _); [|exact IH]. cbn [filter]. rewrite X. exact IH.
Qed.

Lemma settling_sizes groups allowed now e out c o c' : inv groups out c -> settling groups allowed now e c o c' ->
  sized groups (c_db c) -> asked groups out (c_db c) -> sized groups (c_db c') /\ asked groups (out ++ o) (c_db c').
Proof.
  intros J Sg S A. destruct Sg as [_|w _ W|i a f a0 b0 go o c' _ Fl _ _ R].
  - rewrite app_nil_r. auto.
  - rewrite app_nil_r. cbn. destruct (@wallet_keeps _ _ (i_wf J) W) as [V T]. unfold sized, asked, group_tokens, group_rows in *.
    rewrite V, T. auto.
  - destruct R as [a e0 u He Hu Na Hu1 Hu2 Ne Nu _ _|toks pk r0 d Hr0 Nr Pr N Dj Ed|r0 Hr0 Nr Pr]; cbn [c_db with_flights] in *.
    + rewrite app_nil_r. auto.
    + assert (Td : tokens d = filter (fun t => negb ((t_voucher t =? f_voucher f) && (t_counter t =? v_counter r0))) (tokens (c_db c))) by (rewrite Ed; reflexivity).
      assert (Vd : forall r, In r (vouchers d) -> exists r0, In r0 (vouchers (c_db c)) /\ v_number r0 = v_number r /\ v_expected r0 = v_expected r).
      { intros r I. rewrite Ed in I. cbn [vouchers] in I. eapply upd_voucher_origin; [|exact I]. auto. }
      split; [|eapply asked_same; [repeat constructor|exact Vd|exact A]].
      intros r k Hr. destruct (Vd r Hr) as (r1 & H1 & N1 & E1). rewrite <- N1, <- E1. destruct (Z.eq_dec (v_number r1) (f_voucher f)) as [Ev|Nv].
      * rewrite Ev. destruct (@group_tokens_del_own _ k _ (c_db c) d Td) as [-> | ->]; [auto|]. rewrite <- Ev. exact (S r1 k H1).
      * rewrite (@group_tokens_del _ k _ _ (c_db c) d Td Nv). exact (S r1 k H1).
    + rewrite app_nil_r.
      assert (Vd : forall r, In r (vouchers (set_vouchers (upd_voucher (double_spent now) (f_voucher f) (vouchers (c_db c))) (c_db c))) ->
        exists r0, In r0 (vouchers (c_db c)) /\ v_number r0 = v_number r /\ v_expected r0 = v_expected r).
      { intros r I. cbn [vouchers set_vouchers] in I. eapply upd_voucher_origin; [|exact I]. auto. }
      split; [|rewrite <- (app_nil_r out); eapply asked_same; [constructor|exact Vd|exact A]].
      intros r k Hr. destruct (Vd r Hr) as (r1 & H1 & N1 & E1). rewrite <- N1, <- E1. exact (S r1 k H1).
Qed.

Lemma lived_sizes groups dflt allowed es out c : lived groups dflt allowed es out c -> sized groups (c_db c) /\ asked groups out (c_db c).
Proof.
  apply (run_induction (fun es out c => sized groups (c_db c) /\ asked groups out (c_db c))).
  - split; [intros r k []|intros r k t []].
  - clear. intros es out c [[e now] gen] o c' F P R J [S A] E J'.
    destruct (@step_shape groups dflt allowed out c e now gen o c' P J E) as (En & o1 & c1 & o2 & Sg & -> & M).
    pose proof (@inv_settling _ _ _ _ _ _ _ _ J Sg) as J1. destruct (@settling_sizes _ _ _ _ _ _ _ _ J Sg S A) as [S1 A1].
    rewrite app_assoc. eapply micros_sizes; eauto.
Qed.

Lemma full_prefix groups dflt allowed v es te : full_answers groups dflt allowed v (es ++ [te]) -> full_answers groups dflt allowed v es.
Proof.
  intros H es1 i a pk now gen es2 out c f [E|E] R N; eapply (H es1 i a pk now gen (es2 ++ [te])); eauto; [left|right]; rewrite E, <- app_assoc; reflexivity.
Qed.

Definition credited_sizes groups v (out : list output) (d : db) : Prop :=
  forall r k toks s, In r (vouchers d) -> v_number r = v -> In (k, toks, s) (credits v out) ->
  token_count_for_group groups (v_expected r) k = Ok (lenZ toks).

Lemma credits_no_credit v o : Forall no_credit o -> credits v o = [].
Proof. induction 1 as [|x o N _ IH]; [reflexivity|]. destruct x; cbn in *; auto. contradiction. Qed.

Lemma micros_origin groups now gen out c o c' r : enough gen -> micros groups now gen out c o c' -> inv groups out c ->
  row c' r -> row c r \/ ~ In (v_number r) (map v_number (vouchers (c_db c))).
Proof.
  intros En M J Hr. destruct (known_dec c (v_number r)) as [(r0 & H0 & N0)|N]; [left|auto].
  pose proof (@micros_rows _ _ _ _ _ _ _ En M J _ H0) as H1. pose proof (@inv_micros _ _ _ _ _ _ _ En M J) as J'.
  rewrite <- (@row_unique _ r0 r groups _ J' H1 Hr N0). exact H0.
Qed.

Lemma lived_credited groups dflt allowed v es out c : lived groups dflt allowed es out c -> full_answers groups dflt allowed v es ->
  credited_sizes groups v out (c_db c).
Proof.
  intros L. assert (X : full_answers groups dflt allowed v es -> credited_sizes groups v out (c_db c) /\ (sized groups (c_db c) /\ asked groups out (c_db c))).
  2:{ intros F. now apply X. }
  revert L. apply (run_induction (fun es out c => full_answers groups dflt allowed v es ->
     credited_sizes groups v out (c_db c) /\ (sized groups (c_db c) /\ asked groups out (c_db c)))).
  - intros _. split; [intros r k toks s []|split; [intros r k []|intros r k t []]].
  - clear. intros es out c [[e now] gen] o c' F P R J T E J' Fu.
    destruct (T (@full_prefix _ _ _ _ _ _ Fu)) as (C & S & A). clear T.
    destruct (@step_shape groups dflt allowed out c e now gen o c' P J E) as (En & o1 & c1 & o2 & Sg & -> & M).
    pose proof (@inv_settling _ _ _ _ _ _ _ _ J Sg) as J1. destruct (@settling_sizes _ _ _ _ _ _ _ _ J Sg S A) as [S1 A1].
    split; [|rewrite app_assoc; eapply micros_sizes; eauto].
    assert (C1 : credited_sizes groups v (out ++ o1) (c_db c1)).
    { destruct Sg as [_|w _ W|i a f a0 b0 go o1 c1 He Fl Nth _ St].
      - rewrite app_nil_r. exact C.
      - rewrite app_nil_r. cbn. destruct (@wallet_keeps _ _ (i_wf J) W) as [V _]. unfold credited_sizes in *. rewrite V. exact C.
      - destruct St as [a e0 u Ke Hu Na Hu1 Hu2 Ne Nu _ _|toks pk r0 d Hr0 Nr Pr N Dj Ed|r0 Hr0 Nr Pr]; cbn [c_db with_flights] in *.
        + rewrite app_nil_r. exact C.
        + intros r k tk s Hr Nv I. rewrite Ed in Hr. cbn [vouchers] in Hr. apply upd_voucher_origin in Hr; [|auto].
          destruct Hr as (r1 & H1 & N1 & E1). rewrite <- E1. rewrite credits_credit in I. apply in_app_or in I. destruct I as [I|I].
          * apply (C r1 k tk s H1); [congruence|exact I].
          * destruct (Z.eqb_spec (f_voucher f) v) as [Ev|]; [|destruct I]. destruct I as [I|[]]. injection I as <- <- _.
            assert (If : In f (c_flights c)) by (rewrite Fl; apply in_or_app; right; left; reflexivity).
            destruct (i_flight J f If) as (_ & _ & Q & _). rewrite (A r1 (f_counter f) (f_tokens f) H1); [|congruence].
            f_equal. unfold lenZ. f_equal. symmetry. destruct He as [-> | ->]; eapply (Fu es i toks pk now gen []); eauto.
        + rewrite app_nil_r. intros r k tk s Hr Nv I. cbn [vouchers set_vouchers] in Hr. apply upd_voucher_origin in Hr; [|auto].
          destruct Hr as (r1 & H1 & N1 & E1). rewrite <- E1. apply (C r1 k tk s H1); [congruence|exact I]. }
    destruct (micros_store M) as (Nc & _). intros r k tk s Hr Nv I. rewrite app_assoc, credits_app, (credits_no_credit v Nc), app_nil_r in I.
    destruct (@micros_origin _ _ _ _ _ _ _ r En M J1 Hr) as [H1|H1]; [exact (C1 r k tk s H1 Nv I)|].
    exfalso. rewrite Nv in H1. destruct (i_unknown J1 v H1) as [Ec _]. rewrite Ec in I. destruct I.
Qed.

Lemma sizes_sum groups total cs : map_res (token_count_for_group groups total) (map (fun x : Z * list Z * bool => fst (fst x)) cs) =
  Ok (map (fun x => lenZ (snd (fst x))) cs) \/ exists x, In x cs /\ token_count_for_group groups total (fst (fst x)) <> Ok (lenZ (snd (fst x))).
Proof.
  induction cs as [|x cs IH]; [left; reflexivity|]. cbn [map map_res].
  destruct (token_count_for_group groups total (fst (fst x))) as [n|e] eqn:T.
  - destruct (Z.eq_dec n (lenZ (snd (fst x)))) as [->|Ne].
    + destruct IH as [-> |(y & I & H)]; [left; reflexivity|]. right. exists y. split; [right; exact I|exact H].
    + right. exists x. split; [left; reflexivity|]. rewrite T. congruence.
  - right. exists x. split; [left; reflexivity|]. rewrite T. discriminate.
Qed.

Lemma received_both v out : received true v out + received false v out = sumZ (map (fun x => lenZ (snd (fst x))) (credits v out)).
Proof.
  unfold received. induction (credits v out) as [|[[k t] s] l IH]; [reflexivity|]. cbn [map sumZ snd fst]. rewrite <- IH.
  unfold lenZ. destruct s; cbn [Bool.eqb]; lia.
Qed.

Lemma redeemed_total groups dflt allowed es out c r : lived groups dflt allowed es out c -> row c r -> v_state r = SRedeemed ->
  in_order (v_number r) out -> full_answers groups dflt allowed (v_number r) es ->
  coalesce0 (v_token_count r) + v_sequestered r = v_expected r.
Proof.
  intros L Hr Rd O F. pose proof (lived_inv L) as J. destruct (i_row J r Hr) as (_ & Hg & _ & -> & ->).
  destruct (i_order J r O Hr) as (Cc & _ & _ & Eg & _). rewrite (Eg Rd) in Cc. rewrite received_both.
  destruct (@token_counts_add_up groups (v_expected r) ltac:(lia) ltac:(lia)) as (ns & Ens & _ & Sum & _).
  unfold group_indices in Ens. unfold credited_counters in Cc.
  destruct (sizes_sum groups (v_expected r) (credits (v_number r) out)) as [X|(x & I & X)].
  - rewrite Cc, Ens in X. injection X as <-. exact Sum.
  - exfalso. apply X. destruct x as [[k t] s]. cbn [fst snd]. eapply (@lived_credited _ _ _ _ _ _ _ L F); eauto.
Qed.

(** ** Where an attempt starts *)
Definition asks (o : list output) (c c' : ctl) : Prop :=
  c_unpaid c' = c_unpaid c /\
  forall v k t, In (Requested v k t) o -> exists r, row c' r /\ v_number r = v /\
    (k = v_counter r \/ k = 0 /\ In v (dkeys (c_unpaid c))).

Lemma started_asks groups now gen v total counter c o c' : wf (c_db c) -> startable v total c ->
  started groups now gen v total counter c o c' ->
  (forall r, row c' r -> v_number r = v -> counter = v_counter r \/ counter = 0 /\ In v (dkeys (c_unpaid c))) -> asks o c c'.
Proof.
  intros W S R H. destruct R as [Ge|e Lt X|k toks d B1 B2 Hd Hk].
  - split; [reflexivity|]. intros v' k t [].
  - split; [reflexivity|]. intros v' k t [Q|[]]. discriminate Q.
  - split; [reflexivity|]. intros v' k' t [Q|[]]. injection Q as <- <- <-.
    assert (Gr : grown v counter total now toks (c_db c) d).
    { apply started_grown; auto. destruct Hd as [H1|(F & N & D & _ & H1)]; [left|right]; auto. }
    destruct (gr_there Gr) as (r & Hr & Nr & _). exists r. split; [exact Hr|]. split; [exact Nr|]. apply H; [exact Hr|exact Nr].
Qed.

Lemma redeem_asks groups dflt now gen out v n c o c' : enough gen -> inv groups out c -> redeem groups dflt now gen v n c = (o, c') -> asks o c c'.
Proof.
  intros En J E. pose proof (@redeem_micros _ _ _ _ _ _ _ _ _ _ J E) as M. pose proof (@micros_rows _ _ _ _ _ _ _ En M J) as I.
  pose proof (@inv_micros _ _ _ _ _ _ _ En M J) as J'.
  assert (U : forall r r', row c r -> row c' r' -> v_number r = v_number r' -> r = r').
  { intros r r' H H' N. eapply row_unique; [exact J'|apply I; exact H|exact H'|exact N]. }
  destruct (@redeem_spec _ _ _ _ _ _ _ _ _ _ J E) as [N R S|r Hr Nr Rp R S|r fin Hr Nr Rp R S|r fin x Hr Nr Rp -> ->|r s Hr Nr Rp X -> ->].
  - eapply started_asks; [apply J|apply R|exact S|]. intros r Hr Nr. left.
    destruct (@micros_origin _ _ _ _ _ _ _ r En M J Hr) as [H1|H1]; [exfalso; apply N; rewrite <- Nr; apply in_map; exact H1|].
    destruct (i_row J' r Hr) as (_ & _ & C & _). rewrite credits_app in C.
    destruct (i_unknown J v N) as [C0 _]. rewrite Nr, C0 in C. destruct (micros_store M) as (Nc & _). rewrite (credits_no_credit v Nc) in C. symmetry. exact C.
  - eapply started_asks; [apply J|apply R|exact S|]. intros r' Hr' Nr'. left. rewrite (U r r'); auto. congruence.
  - eapply started_asks; [apply J|apply R|exact S|]. intros r' Hr' Nr'. right. split; [reflexivity|]. inversion Rp; subst. eapply in_dkeys; eauto.
  - split; [reflexivity|]. intros v' k t [Q|[]]. discriminate Q.
  - split; [reflexivity|]. intros v' k t [].
Qed.

Lemma asks_trans o1 o2 c c1 c2 : asks o1 c c1 -> asks o2 c1 c2 -> incl (vouchers (c_db c1)) (vouchers (c_db c2)) -> asks (o1 ++ o2) c c2.
Proof.
  intros [U1 A1] [U2 A2] I. split; [congruence|]. intros v k t Q. apply in_app_or in Q. destruct Q as [Q|Q].
  - destruct (A1 _ _ _ Q) as (r & Hr & H). exists r. split; [apply I; exact Hr|exact H].
  - destruct (A2 _ _ _ Q) as (r & Hr & H). exists r. rewrite U1 in H. auto.
Qed.

Lemma asks_nil c : asks [] c c.
Proof. split; [reflexivity|]. intros v k t []. Qed.

Lemma retry_loop_asks groups dflt now gen vs : enough gen -> forall out c o c', inv groups out c ->
  retry_loop groups dflt now gen vs c = (o, c') -> asks o c c'.
Proof.
  intros En. induction vs as [|v vs IH]; intros out c o c' J E; cbn [retry_loop] in E.
  - injection E as <- <-. apply asks_nil.
  - destruct (memZ v _); [eauto|]. destruct (get_voucher c v) as [[vo s]|e].
    + destruct (should_start_redemption s); [|eauto]. destruct (redeem groups dflt now gen v None c) as [o1 c1] eqn:E1.
      destruct (retry_loop groups dflt now gen vs c1) as [o2 c2] eqn:E2. injection E as <- <-.
      pose proof (@redeem_inv _ _ _ _ _ _ _ _ _ _ En J E1) as J1.
      eapply asks_trans; [eapply redeem_asks; eauto|eapply IH; eauto|].
      eapply micros_rows; [exact En|eapply retry_loop_micros; eauto|exact J1].
    + injection E as <- <-. split; [reflexivity|]. intros v' k t [Q|[]]. discriminate Q.
Qed.

Lemma check_loop_asks groups dflt now gen vs : enough gen -> forall out c o c', inv groups out c ->
  check_loop groups dflt now gen vs c = (o, c') -> asks o c c'.
Proof.
  intros En. induction vs as [|v vs IH]; intros out c o c' J E; cbn [check_loop] in E.
  - injection E as <- <-. apply asks_nil.
  - destruct (should_start_redemption _); [|eauto]. destruct (redeem groups dflt now gen _ None c) as [o1 c1] eqn:E1.
    destruct (check_loop groups dflt now gen vs c1) as [o2 c2] eqn:E2. injection E as <- <-.
    pose proof (@redeem_inv _ _ _ _ _ _ _ _ _ _ En J E1) as J1.
    eapply asks_trans; [eapply redeem_asks; eauto|eapply IH; eauto|].
    eapply micros_rows; [exact En|eapply check_loop_micros; eauto|exact J1].
Qed.

Lemma boot_asks groups dflt now gen upto out c o c' : enough gen -> inv groups out c ->
  boot groups dflt now gen upto c = (o, c') ->
  forall v k t, In (Requested v k t) o -> exists r, row c' r /\ v_number r = v /\ k = v_counter r.
Proof.
  intros En J E v k t Q. pose proof (inv_killed J) as J0. unfold boot in E.
  destruct (fst (with_cursor list_vouchers (c_db (killed c)))) as [vs|e].
  - destruct upto as [n|].
    + destruct (check_loop groups dflt now gen (firstn n vs) (killed c)) as [o1 c1] eqn:E1. injection E as <- <-.
      destruct (@check_loop_asks _ _ _ _ _ En _ _ _ _ J0 E1) as [_ A]. destruct (A _ _ _ Q) as (r & Hr & Nr & [H|[_ []]]). exists r. auto 6.
    + destruct (check_loop groups dflt now gen vs (killed c)) as [o1 c1] eqn:E1. injection E as <- <-.
      destruct (@check_loop_asks _ _ _ _ _ En _ _ _ _ J0 E1) as [_ A]. destruct (A _ _ _ Q) as (r & Hr & Nr & [H|[_ []]]). exists r. auto 6.
  - injection E as <- <-. destruct Q as [Q|[]]. discriminate Q.
Qed.

Lemma attempt_asks groups dflt allowed out c e now gen o c' : enough gen -> inv groups out c -> attempt e ->
  controller_step groups dflt allowed c (e, now, gen) = (o, c') ->
  forall v k t, In (Requested v k t) o -> exists r, row c' r /\ v_number r = v /\
    (k = v_counter r \/ k = 0 /\ In v (dkeys (c_unpaid c)) /\ ~ fresh_process e).
Proof.
  intros En J At E v k t Q. assert (X : forall o1 c1, asks o1 c c1 -> In (Requested v k t) o1 -> ~ fresh_process e ->
    exists r, row c1 r /\ v_number r = v /\ (k = v_counter r \/ k = 0 /\ In v (dkeys (c_unpaid c)) /\ ~ fresh_process e)).
  { intros o1 c1 [_ A] Q1 Fp. destruct (A _ _ _ Q1) as (r & Hr & Nr & [H|[H1 H2]]); exists r; (split; [assumption|]); (split; [assumption|]); auto. }
  cbn [controller_step] in E. destruct e as [v0 n|i a| | |w|i a|n|n]; cbn in At; try contradiction.
  - eapply X; [eapply redeem_asks; eauto|exact Q|auto].
  - unfold retry_redemption in E. destruct (c_retrying c); [|injection E as <- <-; destruct Q]. eapply X; [eapply retry_loop_asks; eauto|exact Q|auto].
  - destruct (@boot_asks _ _ _ _ _ _ _ _ _ En J E _ _ _ Q) as (r & H1 & H2 & H3). exists r. auto 6.
  - destruct (retry_loop groups dflt now gen _ c) as [o1 c1] eqn:E1. injection E as <- <-.
    eapply (X o1 c1); [eapply retry_loop_asks; eauto|exact Q|auto].
  - destruct (@boot_asks _ _ _ _ _ _ _ _ _ En J E _ _ _ Q) as (r & H1 & H2 & H3). exists r. auto 6.
Qed.

Lemma step_new_rows groups dflt allowed out c te o c' r : proper te -> inv groups out c ->
  controller_step groups dflt allowed c te = (o, c') -> row c' r ->
  (exists r0, row c r0 /\ v_number r0 = v_number r) \/ v_state r = SPending /\ v_counter r = 0.
Proof.
  destruct te as [[e now] gen]. intros P J E Hr.
  destruct (known_dec c (v_number r)) as [(r0 & H0 & N0)|N]; [left; eauto|right].
  pose proof (@inv_step _ _ _ _ _ _ _ _ P J E) as J'.
  destruct (@step_shape groups dflt allowed out c e now gen o c' P J E) as (En & o1 & c1 & o2 & Sg & -> & M).
  pose proof (@inv_settling _ _ _ _ _ _ _ _ J Sg) as J1.
  assert (N1 : ~ In (v_number r) (map v_number (vouchers (c_db c1)))).
  { destruct Sg as [_|w _ W|i a f a0 b0 go o1 c1 _ Fl _ _ R]; [exact N| |].
    - cbn. destruct (@wallet_keeps _ _ (i_wf J) W) as [-> _]. exact N.
    - destruct R as [a e0 u ? ? ? ? ? ? ? ? ?|toks pk r0 d ? ? ? ? ? Ed|r0 ? ? ?]; cbn [c_db with_flights] in *; [exact N| |].
      + rewrite Ed. cbn [vouchers]. intros I. apply in_map_iff in I. destruct I as (r1 & N1 & I). apply upd_voucher_origin in I; [|auto].
        destruct I as (r2 & I2 & N2 & _). apply N. rewrite <- N1, <- N2. apply in_map. exact I2.
      + cbn [vouchers set_vouchers]. intros I. apply in_map_iff in I. destruct I as (r1 & N1 & I). apply upd_voucher_origin in I; [|auto].
        destruct I as (r2 & I2 & N2 & _). apply N. rewrite <- N1, <- N2. apply in_map. exact I2. }
  destruct (i_unknown J1 _ N1) as [C1 _]. split.
  - destruct (@micros_new_rows _ _ _ _ _ _ _ r En M J1 Hr) as [H|H]; [|exact H]. exfalso. apply N1. apply in_map. exact H.
  - destruct (i_row J' r Hr) as (_ & _ & C & _). rewrite app_assoc, credits_app, C1 in C.
    destruct (micros_store M) as (Nc & _). rewrite (credits_no_credit _ Nc) in C. exact C.
Qed.
