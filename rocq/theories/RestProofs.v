(** What is left to upload when replication is at rest (C137). *)
From Verif Require Import Prelude PreludeFacts StoreModel ReplicaModel ReplicaSpec ReplicaProofs ReplicaRunProofs ReplicaLogProofs ReplicaStore RestSpec.
From Coq Require Import Sorting.Sorted.
Set Implicit Arguments.
Unset Strict Implicit.

Section Rest.
Variables D S : Type.
Variable exec : S -> D -> res exn D.
Variable fresh : D -> D.
Variable text_size : S -> Z.
Variable stream_size : list (change S) -> Z.
Hypothesis fit : sizes_fit text_size stream_size.
Notation node := (node D S).
Notation replica := (replica D S).
Notation change := (change S).
Notation step := (step exec fresh text_size stream_size).
Notation run := (run exec fresh text_size stream_size).
Notation take_jobs := (take_jobs fresh).
Implicit Types (n : node) (r : replica) (l : list change).

Definition total l : Z := sumZ (map text_size (map (@statement S) l)).
Lemma sumZ_app (a b : list Z) : sumZ (a ++ b) = sumZ a + sumZ b.
Proof. induction a as [|x a IH]; cbn in *; [reflexivity|]. unfold sumZ in *. cbn. lia. Qed.
Lemma total_app a b : total (a ++ b) = total a + total b.
Proof. unfold total. now rewrite !map_app, sumZ_app. Qed.
Lemma texts_nonneg ss : 0 <= sumZ (map text_size ss).
Proof. induction ss as [|s ss IH]; [reflexivity|]. cbn [map]. change (0 <= text_size s + sumZ (map text_size ss)). pose proof (proj1 fit s). lia. Qed.
Lemma total_nonneg l : 0 <= total l.
Proof. apply texts_nonneg. Qed.

Lemma total_prune q l : total (prune_events_to q l) <= total l.
Proof.
  unfold total. induction l as [|c l IH]; [reflexivity|]. cbn [prune_events_to filter].
  pose proof (proj1 fit (statement c)). destruct (negb (sequence c <=? q)); cbn [map sumZ]; unfold prune_events_to in *; lia.
Qed.

(** The changes that are in the log and in no upload under way. *)
Definition covered n : Z :=
  match n_work n with Sending _ h => h | SendingSnapshot q _ => q | _ => 0 end.
Definition uncovered n : list change := prune_events_to (covered n) (n_log n).

Definition little n (u : list change) : Prop := u = [] \/ total u <= n_size n < 570000.
Definition plain (u : list change) : Prop := forall c, In c u -> important c = false.
Definition tame n : Prop :=
  In JEvents (n_jobs n) \/ In JSnapshot (n_jobs n) \/
  (n_work n = Listing /\ (existsb (@important S) (n_log n) = true -> n_important n = true) /\ total (n_log n) <= n_size n) \/
  (plain (uncovered n) /\ little n (uncovered n)).
Definition has_snapshot n r : Prop :=
  r_snapshot r <> None \/ n_work n = Listing \/ In JSnapshot (n_jobs n) \/ exists q s, n_work n = SendingSnapshot q s.
Definition caught n r : Prop :=
  0 <= n_size n /\ (n_work n <> Stopped -> has_snapshot n r /\ tame n).

Lemma prune_all l seq q : log_ok l seq -> bound seq <= q -> prune_events_to q l = [].
Proof. intros (_ & H & _) B. apply filter_none. intros c Hc. apply negb_false_iff, Z.leb_le. specialize (H c Hc). lia. Qed.
Lemma prune_none l seq : log_ok l seq -> prune_events_to 0 l = l.
Proof. intros (_ & H & _). apply filter_all. intros c Hc. apply negb_true_iff, Z.leb_gt. specialize (H c Hc). lia. Qed.
Lemma uncovered_other n : log_ok (n_log n) (n_seq n) ->
  (forall evs h, n_work n <> Sending evs h) -> (forall q s, n_work n <> SendingSnapshot q s) -> uncovered n = n_log n.
Proof. intros L A B. unfold uncovered, covered. destruct (n_work n); try (now apply prune_none in L); [now destruct (A events high_seq)|now destruct (B seqnum snap)]. Qed.

(** A loop that has just begun something. *)
Lemma entry_uncovered n w js : log_ok (n_log n) (n_seq n) -> entry fresh n w ->
  uncovered (with_work w (with_jobs js n)) = [] \/ uncovered (with_work w (with_jobs js n)) = n_log n.
Proof.
  intros L En. destruct w; cbn in En; try contradiction; try (right; now apply (prune_none L)).
  - left. destruct En as [-> H]. unfold uncovered, covered. cbn. apply filter_none. intros c Hc.
    apply negb_false_iff, Z.leb_le. exact (highest_ge H Hc).
  - left. destruct En as [-> _]. unfold uncovered, covered. cbn. apply (@prune_all _ _ _ L). destruct (n_seq n); cbn; lia.
Qed.
Lemma tame_take js n :
  log_ok (n_log n) (n_seq n) -> 0 <= n_size n ->
  In JEvents js \/ In JSnapshot js \/ (plain (n_log n) /\ little n (n_log n)) ->
  tame (take_jobs js n).
Proof.
  intros L Z H. destruct H as [H|[H|[P Q]]].
  - destruct (@take_begins D S fresh js n JEvents H) as [B|B]; [now left|].
    do 3 right. assert (U : uncovered (take_jobs js n) = []).
    { destruct (take_jobs_shape fresh js n) as (w & js' & E & En & _). rewrite E in *. destruct (entry_uncovered js' L En) as [U|U]; [exact U|].
      rewrite U. destruct B as [B|(h & B)]; [exact B|]. cbn in B. subst w. rewrite <- U. unfold uncovered, covered. cbn.
      destruct En as [_ Hh]. apply filter_none. intros c Hc. apply negb_false_iff, Z.leb_le. exact (highest_ge Hh Hc). }
    rewrite U. split; [intros c []|now left].
  - destruct (@take_begins D S fresh js n JSnapshot H) as [B|(q & B)]; [now (right; left)|].
    do 3 right. assert (U : uncovered (take_jobs js n) = []).
    { destruct (take_jobs_shape fresh js n) as (w & js' & E & En & _). rewrite E in *. cbn in B. subst w. destruct En as [-> _].
      unfold uncovered, covered. cbn. apply (@prune_all _ _ _ L). destruct (n_seq n); cbn; lia. }
    rewrite U. split; [intros c []|now left].
  - do 3 right. destruct (take_jobs_shape fresh js n) as (w & js' & -> & En & _).
    destruct (entry_uncovered js' L En) as [->| ->]; [split; [intros c []|now left]|]. split; [exact P|].
    destruct Q as [Q|Q]; [now left|right; exact Q].
Qed.

Lemma snapshot_take js n r : r_snapshot r <> None \/ In JSnapshot js -> has_snapshot (take_jobs js n) r.
Proof.
  intros [H|H]; [now left|]. destruct (@take_begins D S fresh js n JSnapshot H) as [B|(q & B)].
  - right. right. now left.
  - do 3 right. eauto.
Qed.

(** Telling the observer. *)
Lemma caught_observed b n r :
  base n r -> caught n r -> n_observing n = true -> caught (observed fresh text_size b n) r.
Proof.
  intros (L & _ & Wok & Hf) (Sz & C) Ob. destruct Hf as (_ & F2 & _). unfold observed.
  destruct (add_events (n_log n) (n_seq n) (all_rows b) (any_important b)) as [l' seq'] eqn:A.
  destruct (log_ok_add L A) as (L' & Bd & El & _).
  pose proof (@texts_nonneg (all_rows b)) as Tn.
  set (news := number (bound (n_seq n) + 1) (all_rows b) (any_important b)) in *.
  assert (Tt : total news = sumZ (map text_size (all_rows b))) by (unfold total, news; now rewrite number_statements).
  set (imp := n_important n || any_important b). set (size := n_size n + sumZ (map text_size (all_rows b))).
  set (n1 := with_changes imp size (with_log l' seq' n)).
  destruct (should_upload_eventstream imp size) eqn:E.
  - split; [reflexivity|]. intros NS. cbn [n_work with_changes] in NS.
    split.
    + assert (NS0 : n_work n <> Stopped).
      { unfold queue_job in NS. intros X. cbn [n_work n1 with_changes with_log] in NS. rewrite X in NS.
        destruct (append_job_shape JEvents n1) as (js & Ej & _). rewrite Ej in NS. cbn in NS. congruence. }
      destruct (C NS0) as [[H|[H|[H|(q & s & H)]]] _].
      * now left.
      * right. left. cbn [n_work with_changes]. unfold queue_job. cbn [n_work n1 with_changes with_log]. rewrite H.
        destruct (append_job_shape JEvents n1) as (js & -> & _). exact H.
      * right. right. left. cbn [n_jobs with_changes]. apply queue_keeps; [exact F2|exact H].
      * do 3 right. exists q, s. cbn [n_work with_changes]. unfold queue_job. cbn [n_work n1 with_changes with_log]. rewrite H.
        destruct (append_job_shape JEvents n1) as (js & -> & _). exact H.
    + change (tame (with_changes false 0 (queue_job fresh JEvents n1))).
      destruct (n_work n) eqn:Wk.
      2: { assert (Q : queue_job fresh JEvents n1 = take_jobs [JEvents] n1).
           { unfold queue_job. cbn [n_work n1 with_changes with_log]. rewrite Wk. cbn [n_jobs n1 with_changes with_log]. rewrite (F2 eq_refl). reflexivity. }
           rewrite Q in *.
           change (with_changes false 0 (take_jobs [JEvents] n1)) with (with_changes false 0 (take_jobs [JEvents] n1)).
           cbn [ReplicaModel.take_jobs]. cbn [n_log with_jobs n1 with_changes with_log].
           destruct (highest_sequence l') as [h|] eqn:Hh.
           - do 3 right. assert (U : prune_events_to h l' = []).
             { apply filter_none. intros c Hc. apply negb_false_iff, Z.leb_le. exact (highest_ge Hh Hc). }
             match goal with |- plain ?u /\ _ => change u with (prune_events_to h l') end. rewrite U. split; [intros c []|now left].
           - apply highest_none in Hh. do 3 right. match goal with |- plain ?u /\ _ => change u with (prune_events_to 0 l') end. rewrite Hh. split; [intros c []|now left]. }
      all: left; cbn [n_jobs with_changes]; unfold queue_job; cbn [n_work n1 with_changes with_log]; rewrite Wk;
        destruct (append_job_shape JEvents n1) as (js & -> & _ & Hj); exact Hj.
  - split; [cbn; lia|]. intros NS. cbn [n_work n1 with_changes with_log] in NS. destruct (C NS) as [Hs T].
    assert (NE : imp = false /\ size < 570000).
    { unfold should_upload_eventstream, UPLOAD_SIZE in E. apply orb_false_iff in E as [E1 E2]. split; [exact E1|]. rewrite Z.geb_leb in E2. apply Z.leb_gt in E2. exact E2. }
    destruct NE as [Ei Es]. unfold imp in Ei. apply orb_false_iff in Ei as [Ei1 Ei2].
    split; [exact Hs|]. destruct T as [T|[T|[(T1 & T2 & T3)|(T1 & T2)]]].
    + now left.
    + right. now left.
    + right. right. left. split; [exact T1|]. cbn [n_log n_size n_important n1 with_changes with_log]. split.
      * rewrite El, existsb_app. intros X. apply orb_true_iff in X as [X|X]; [now rewrite T2 in Ei1|].
        apply existsb_exists in X as (c & Hc & X). unfold news in Hc. apply number_important in Hc. congruence.
      * rewrite El, total_app, Tt. unfold size. lia.
    + do 3 right.
      assert (Cv : covered n1 = covered n) by reflexivity.
      assert (U : uncovered n1 = uncovered n ++ prune_events_to (covered n) news).
      { unfold uncovered. rewrite Cv. cbn [n_log n1 with_changes with_log]. rewrite El. unfold prune_events_to. apply filter_app. }
      assert (Hsub : forall c, In c (prune_events_to (covered n) news) -> In c news) by (intros c Hc; apply filter_In in Hc; tauto).
      pose proof (@total_prune (covered n) news) as Tsub.
      rewrite U. split.
      * intros c Hc. apply in_app_or in Hc as [Hc|Hc]; [now apply T1|]. apply Hsub in Hc. unfold news in Hc. apply number_important in Hc. congruence.
      * right. rewrite total_app. cbn [n_size n1 with_changes]. unfold size in *. rewrite Tt in Tsub.
        destruct T2 as [->|T2]; [change (total []) with 0; lia|lia].
Qed.

Lemma caught_transaction b ok n r : base n r -> n_up n = true -> caught n r -> caught (transaction exec fresh text_size b ok n) r.
Proof.
  intros HB Up C. unfold transaction. destruct (run_body exec (n_replicating n) b (n_db n)) as [rec [d|e]] eqn:R; [destruct ok|]; try exact C.
  unfold committed, signal. cbn [n_mutations with_mutations]. destruct (n_mutations n ++ rec) as [|m ms] eqn:M; [exact C|].
  cbn [n_observing with_mutations with_db]. destruct (n_observing n) eqn:Ob; [|exact C].
  apply caught_observed; [|exact C|exact Ob].
  assert (St : n_setup n = true) by (destruct HB as (_ & _ & _ & Hf); destruct Hf as (_ & _ & _ & _ & F5 & _); now destruct (F5 Ob)).
  apply (@base_mutations _ _ [] (with_db d n)); [now apply base_db|reflexivity|reflexivity].
Qed.

Lemma caught_started n r : caught (started fresh stream_size n) r.
Proof.
  unfold started. cbn. split; cbn.
  - eapply Z.le_trans; [|apply (proj2 fit)]. apply texts_nonneg.
  - intros _. split; [right; now left|]. right. right. left. cbn. split; [reflexivity|]. split; [auto|]. apply (proj2 fit).
Qed.

Lemma caught_carry_on p n r : base n r -> caught n r ->
  caught (carry_on fresh p (remote_effect (n_work n) r) n) (remote_effect (n_work n) r).
Proof.
  intros HB C. pose proof HB as (L & _ & Wok & Hf). destruct C as (Sz & C).
  assert (Sw : forall js m, 0 <= n_size (take_jobs js m) <-> 0 <= n_size (m : node)).
  { intros js m. now destruct (take_jobs_shape fresh js m) as (w & js' & -> & _). }
  assert (Sa : forall j m, n_size (append_job j m) = n_size (m : node) /\ n_log (append_job j m) = n_log m /\ n_seq (append_job j m) = n_seq m).
  { intros j m. now destruct (append_job_shape j m) as (js & -> & _). }
  assert (Ka : forall i j m, In i (n_jobs (m : node)) -> In i (n_jobs (append_job j m))).
  { intros i j m H. destruct (append_job_shape j m) as (js & -> & K & _). now apply K. }
  assert (Na : forall j m, In j (n_jobs (append_job j (m : node)))).
  { intros j m. now destruct (append_job_shape j m) as (js & -> & _ & K). }
  unfold carry_on. destruct (n_work n) as [| | |evs h|q s|q|q names|] eqn:Wk.
  - split; [exact Sz|]. congruence.
  - split; [exact Sz|]. intros NS. cbn [remote_effect]. apply C. discriminate.
  - specialize (C ltac:(discriminate)). destruct C as [Hs T]. cbn [remote_effect].
    assert (U : uncovered n = n_log n) by (apply (uncovered_other L); rewrite Wk; discriminate).
    destruct (r_snapshot r) as [s|] eqn:Sn.
    + destruct (should_upload_eventstream (n_important n) (n_size n)) eqn:E.
      * split; [apply Sw; now rewrite (proj1 (Sa _ _))|]. intros _. split; [apply snapshot_take; left; congruence|].
        apply tame_take; [now rewrite (proj1 (proj2 (Sa _ _))), (proj2 (proj2 (Sa _ _)))|now rewrite (proj1 (Sa _ _))|]. left. apply Na.
      * split; [now apply Sw|]. intros _. split; [apply snapshot_take; left; congruence|].
        apply tame_take; [exact L|exact Sz|]. destruct T as [T|[T|[(_ & T1 & T2)|(T1 & T2)]]]; auto.
        -- right. right. unfold should_upload_eventstream, UPLOAD_SIZE in E. apply orb_false_iff in E as [E1 E2]. rewrite Z.geb_leb in E2. apply Z.leb_gt in E2.
           split; [|right; lia]. intros c Hc. destruct (important c) eqn:X; [|reflexivity]. rewrite T1 in E1; [discriminate|].
           apply existsb_exists. eauto.
        -- right. right. rewrite U in *. auto.
    + split; [apply Sw; now rewrite (proj1 (Sa _ _))|]. intros _. split; [apply snapshot_take; right; apply Na|].
      apply tame_take; [now rewrite (proj1 (proj2 (Sa _ _))), (proj2 (proj2 (Sa _ _)))|now rewrite (proj1 (Sa _ _))|]. right. left. apply Na.
  - specialize (C ltac:(discriminate)). destruct C as [Hs T]. set (m := with_log (prune_events_to h (n_log n)) (n_seq n) n).
    assert (Lm : log_ok (n_log m) (n_seq m)) by (cbn; now apply log_ok_prune).
    assert (U : uncovered n = n_log m) by (unfold uncovered, covered; now rewrite Wk).
    split; [apply Sw; now rewrite (proj1 (Sa _ _))|]. intros _. split.
    + apply snapshot_take. destruct Hs as [Hs|[Hs|[Hs|(q & s & Hs)]]]; try congruence; [left; exact Hs|right; now apply Ka].
    + apply tame_take; [now rewrite (proj1 (proj2 (Sa _ _))), (proj2 (proj2 (Sa _ _)))|now rewrite (proj1 (Sa _ _))|].
      rewrite (proj1 (proj2 (Sa _ _))). destruct T as [T|[T|[(X & _)|(T1 & T2)]]].
      * left. now apply Ka.
      * right. left. now apply Ka.
      * congruence.
      * right. right. rewrite U in *. split; [exact T1|]. unfold little in *. rewrite (proj1 (Sa _ _)). exact T2.
  - specialize (C ltac:(discriminate)). destruct C as [Hs T]. set (m := with_log (prune_events_to q (n_log n)) (n_seq n) n).
    assert (Lm : log_ok (n_log m) (n_seq m)) by (cbn; now apply log_ok_prune).
    assert (U : uncovered n = n_log m) by (unfold uncovered, covered; now rewrite Wk).
    split; [exact Sz|]. intros _. split; [left; discriminate|].
    assert (U' : uncovered (with_work (ListingOld q) m) = n_log m) by (exact (prune_none Lm)).
    destruct T as [T|[T|[(X & _)|(T1 & T2)]]]; [now left|right; now left|congruence|].
    do 3 right. rewrite U', <- U. split; [exact T1|exact T2].
  - specialize (C ltac:(discriminate)). destruct C as [Hs T].
    assert (U : uncovered n = n_log n) by (apply (uncovered_other L); rewrite Wk; discriminate).
    assert (T' : In JEvents (n_jobs n) \/ In JSnapshot (n_jobs n) \/ plain (n_log n) /\ little n (n_log n)).
    { destruct T as [T|[T|[(X & _)|T]]]; auto; [congruence|]. rewrite U in T. auto. }
    cbn [remote_effect]. destruct (filter _ _) as [|x names].
    + split; [now apply Sw|]. intros _. split; [|now apply tame_take].
      apply snapshot_take. destruct Hs as [Hs|[Hs|[Hs|(? & ? & Hs)]]]; try congruence; auto.
    + split; [exact Sz|]. intros _. split.
      * destruct Hs as [Hs|[Hs|[Hs|(? & ? & Hs)]]]; try congruence; [now left|right; right; now left].
      * destruct T' as [T'|[T'|T']]; [now left|right; now left|]. do 3 right. match goal with |- plain ?u /\ _ => replace u with (n_log n) by (symmetry; exact (prune_none L)) end; exact T'.
  - specialize (C ltac:(discriminate)). destruct C as [Hs T].
    assert (U : uncovered n = n_log n) by (apply (uncovered_other L); rewrite Wk; discriminate).
    assert (T' : In JEvents (n_jobs n) \/ In JSnapshot (n_jobs n) \/ plain (n_log n) /\ little n (n_log n)).
    { destruct T as [T|[T|[(X & _)|T]]]; auto; [congruence|]. rewrite U in T. auto. }
    assert (Hr : r_snapshot (remote_effect (Unlinking q names) r) = r_snapshot r) by (now destruct names).
    destruct (tl names) as [|x names'].
    + split; [now apply Sw|]. intros _. split; [|now apply tame_take].
      apply snapshot_take. rewrite Hr. destruct Hs as [Hs|[Hs|[Hs|(? & ? & Hs)]]]; try congruence; auto.
    + split; [exact Sz|]. intros _. split.
      * unfold has_snapshot. rewrite Hr. destruct Hs as [Hs|[Hs|[Hs|(? & ? & Hs)]]]; try congruence; [now left|right; right; now left].
      * destruct T' as [T'|[T'|T']]; [now left|right; now left|]. do 3 right. match goal with |- plain ?u /\ _ => replace u with (n_log n) by (symmetry; exact (prune_none L)) end; exact T'.
  - specialize (C ltac:(discriminate)). destruct C as [Hs T].
    assert (U : uncovered n = n_log n) by (apply (uncovered_other L); rewrite Wk; discriminate).
    assert (T' : In JEvents (n_jobs n) \/ In JSnapshot (n_jobs n) \/ plain (n_log n) /\ little n (n_log n)).
    { destruct T as [T|[T|[(X & _)|T]]]; auto; [congruence|]. rewrite U in T. auto. }
    cbn [remote_effect]. destruct p.
    + split; [apply Sw; now rewrite (proj1 (Sa _ _))|]. intros _. split; [apply snapshot_take; right; apply Na|].
      apply tame_take; [now rewrite (proj1 (proj2 (Sa _ _))), (proj2 (proj2 (Sa _ _)))|now rewrite (proj1 (Sa _ _))|]. right. left. apply Na.
    + split; [now apply Sw|]. intros _. split; [|now apply tame_take].
      apply snapshot_take. destruct Hs as [Hs|[Hs|[Hs|(? & ? & Hs)]]]; try congruence; auto.
Qed.

Lemma caught_down n r r' : 0 <= n_size (down n : node) -> caught (down n) r'.
Proof. intros _. split; [reflexivity|]. cbn. congruence. Qed.

Lemma caught_step n r e : base n r -> caught n r -> caught (fst (step (n, r) e)) (snd (step (n, r) e)).
Proof.
  intros HB C. destruct e as [b o|b| | | | |p|a|a]; cbn [ReplicaModel.step].
  - destruct (n_up n) eqn:Up; [|exact C]. cbn [fst snd]. now apply caught_transaction.
  - destruct (n_up n); [|exact C]. destruct (run_body _ _ _ _) as [rec [d|x]]; cbn [fst snd]; (split; [reflexivity|cbn; congruence]).
  - destruct (n_up n); [exact C|]. cbn [fst snd]. split; [reflexivity|cbn; congruence].
  - destruct (n_up n && negb (n_setup n)); [|exact C]. apply caught_started.
  - destruct (n_up n && negb (n_setup n)); [|exact C]. cbn [fst snd]. split; [reflexivity|cbn; congruence].
  - destruct (n_up n && n_setup n && negb (n_observing n)); [|exact C]. apply caught_started.
  - cbn [fst snd]. now apply caught_carry_on.
  - assert (X : caught (with_work Stopped n) (if a then remote_effect (n_work n) r else r)).
    { split; [exact (proj1 C)|cbn; congruence]. }
    destruct (n_work n); try exact C; exact X.
  - cbn [fst snd]. split; [reflexivity|cbn; congruence].
Qed.

Lemma caught_run d es : caught (fst (run (new_system S d) es)) (snd (run (new_system S d) es)).
Proof.
  assert (G : forall es s, base (fst s) (snd s) -> caught (fst s) (snd s) -> caught (fst (run s es)) (snd (run s es))).
  { clear es. induction es as [|e es IH]; intros [n r] HB C; [exact C|]. apply (IH (step (n, r) e)).
    - now apply base_step.
    - now apply caught_step. }
  apply G; [apply base_new|]. split; [reflexivity|]. cbn. congruence.
Qed.

Lemma at_rest d es n r : run (new_system S d) es = (n, r) -> n_work n = Idle ->
  r_snapshot r <> None /\ plain (n_log n) /\ (n_log n = [] \/ total (n_log n) < 570000).
Proof.
  intros E Wk. pose proof (@caught_run d es) as C. pose proof (base_reach exec fresh text_size stream_size d es) as HB.
  rewrite E in C, HB. cbn [fst snd] in *. destruct C as [_ C]. rewrite Wk in C. destruct (C ltac:(discriminate)) as [Hs T].
  destruct HB as (L & _ & _ & Hf). destruct Hf as (_ & F2 & _). specialize (F2 Wk).
  assert (U : uncovered n = n_log n) by (apply (uncovered_other L); rewrite Wk; discriminate).
  split.
  - destruct Hs as [Hs|[Hs|[Hs|(q & s & Hs)]]]; try congruence. rewrite F2 in Hs. destruct Hs.
  - destruct T as [T|[T|[(X & _)|(T1 & T2)]]]; try (rewrite F2 in T; destruct T); [congruence|]. rewrite U in *. split; [exact T1|].
    destruct T2 as [T2|T2]; [now left|right; lia].
Qed.
End Rest.

(** * The wallet *)

(** Statements that store neither a voucher nor a random token. *)
Definition benign (m : mut) : Prop := match m with InsVoucherIgnore _ _ _ | InsToken _ _ _ => False | _ => True end.

Lemma same_voucher_refl l : Forall2 same_voucher l l.
Proof. induction l; constructor; auto. repeat split; lia. Qed.
Lemma keeps_refl d : keeps d d.
Proof. split; [apply same_voucher_refl|]. auto. Qed.
Lemma same_voucher_map (f : voucher_row -> voucher_row) l l' : (forall x, same_voucher x (f x)) ->
  Forall2 same_voucher l l' -> Forall2 same_voucher l (map f l').
Proof.
  intros H. induction 1 as [|x y l l' Hx Hl IH]; [constructor|]. cbn. constructor; [|exact IH].
  destruct Hx as (A1 & A2 & A3 & A4), (H y) as (B1 & B2 & B3 & B4). repeat split; try congruence. lia.
Qed.

Lemma benign_keeps m a d d' : benign m -> sexec m d = Ok d' -> keeps a d -> keeps a d'.
Proof.
  intros B X [K1 K2]. unfold sexec in X. destruct (exec_mut m d) as [[k x]|e] eqn:E; [|discriminate]. injection X as ->.
  destruct m; cbn [benign] in B; try contradiction; cbn [exec_mut] in E;
    repeat match type of E with context [if ?c then _ else _] => destruct c end;
    try discriminate E; injection E as _ <-; try (split; [exact K1|exact K2]).
  - split; [|exact K2]. cbn [vouchers set_vouchers]. apply same_voucher_map; [|exact K1]. intros x.
    destruct (_ =? _); repeat split; cbn; lia.
  - split; [exact K1|]. intros v c. unfold random_tokens in *. cbn [tokens set_tokens].
    specialize (K2 v c). destruct K2 as [K2|K2].
    + left. apply map_eq_nil in K2. match goal with |- map t_text ?l = [] => assert (Hl : l = []); [|now rewrite Hl] end.
      clear K1. revert K2. induction (tokens d) as [|t ts IH]; [reflexivity|]. cbn [filter].
      destruct (_ && (t_counter t =? c)) eqn:E1; [discriminate|]. intros K2. specialize (IH K2).
      destruct (negb _); [|exact IH]. cbn [filter]. now rewrite E1.
    + destruct (Z.eq_dec v voucher) as [->|Nv]; [destruct (Z.eq_dec c counter) as [->|Nc]|].
      * left. clear. induction (tokens d) as [|t ts IH]; [reflexivity|]. cbn [filter].
        destruct ((t_voucher t =? voucher) && (t_counter t =? counter)) eqn:E1; [exact IH|]. cbn [negb filter]. now rewrite E1.
      * right. rewrite K2. f_equal. symmetry. clear - Nc. induction (tokens d) as [|t ts IH]; [reflexivity|]. cbn [filter].
        destruct ((t_voucher t =? voucher) && (t_counter t =? counter)) eqn:E1; cbn [negb filter].
        -- rewrite IH. apply andb_true_iff in E1 as [E1 E2]. apply Z.eqb_eq in E2. destruct (Z.eqb_spec (t_counter t) c); [congruence|]. now rewrite andb_false_r.
        -- now rewrite IH.
      * right. rewrite K2. f_equal. symmetry. clear - Nv. induction (tokens d) as [|t ts IH]; [reflexivity|]. cbn [filter].
        destruct ((t_voucher t =? voucher) && (t_counter t =? counter)) eqn:E1; cbn [negb filter].
        -- rewrite IH. apply andb_true_iff in E1 as [E1 E2]. apply Z.eqb_eq in E1. destruct (Z.eqb_spec (t_voucher t) v); [congruence|]. reflexivity.
        -- now rewrite IH.
  - split; [|exact K2]. cbn [vouchers set_vouchers]. apply same_voucher_map; [|exact K1]. intros x.
    destruct (_ && _); repeat split; cbn; lia.
Qed.

Lemma benign_rows ms a d d' : Forall benign ms -> exec_rows sexec ms d = Ok d' -> keeps a d -> keeps a d'.
Proof.
  intros B. revert d. induction B as [|m ms Hm B IH]; intros d; cbn; [now intros [= <-]|].
  destruct (sexec m d) as [d1|e] eqn:E; [|discriminate]. intros H K. apply (IH d1 H). exact (benign_keeps Hm E K).
Qed.

(** What a call records as unimportant is benign. *)
Fixpoint careful {A} (p : prog A) : Prop :=
  match p with
  | Ret _ | Raise _ => True
  | Mut i m k => (i = false -> benign m) /\ forall n, careful (k n)
  | Many i ms k => (i = false -> Forall benign ms) /\ careful k
  | Qry k => forall d, careful (k d)
  end.
Lemma careful_run {A} (p : prog A) : careful p -> forall d ms,
  In (false, ms) (snd (StoreModel.run p d)) -> Forall benign ms.
Proof.
  induction p as [a|e|i m k IH|i ms k IH|k IH]; intros U d ms' H; cbn in *; try contradiction.
  - destruct U as [U1 U]. destruct (exec_mut m d) as [[n d']|e]; [|destruct H].
    specialize (IH n (U n) d' ms'). destruct (StoreModel.run (k n) d') as [[r d''] rec]. cbn in *.
    destruct H as [[= -> <-]|H]; [constructor; [now apply U1|constructor]|auto].
  - destruct U as [U1 U]. destruct (exec_muts ms d) as [d'|e]; [|destruct H].
    specialize (IH U d' ms'). destruct (StoreModel.run k d') as [[r d''] rec]. cbn in *. destruct H as [[= -> <-]|H]; auto.
  - exact (IH d (U d) d ms' H).
Qed.
Lemma careful_pmap {A B} (f : A -> B) (p : prog A) : careful p -> careful (pmap f p).
Proof. induction p; cbn; intuition. Qed.
Lemma benign_map {A} (f : A -> mut) l : (forall x, benign (f x)) -> Forall benign (map f l).
Proof. intros H. apply Forall_forall. intros m Hm. apply in_map_iff in Hm as (x & <- & _). apply H. Qed.

Lemma op_careful o : careful (op_prog o).
Proof.
  destruct o; try exact I; cbn [op_prog]; try apply careful_pmap.
  - cbn. intros d. destruct (filter _ _); cbn; [|exact I]. split; [discriminate|]. intros _. split; [discriminate|exact I].
  - cbn. split; [exact (fun _ => I)|]. intros g. split; [exact (fun _ => I)|]. intros n. destruct (n =? 0); [exact I|].
    cbn. intros d0. destruct (filter _ _); cbn; [exact I|]. split; [intros _; apply benign_map; intros; exact I|]. auto.
  - cbn. split; [auto|]. intros n. destruct (n =? 0); exact I.
  - unfold get_unblinded_tokens. destruct (_ >? _); [exact I|]. cbn. intros d0. destruct (_ <? _); cbn; [exact I|].
    split; [intros _; apply benign_map; intros; exact I|exact I].
  - cbn. split; [intros _; apply benign_map; intros; exact I|]. auto.
  - cbn. split; [intros _; apply benign_map; intros; exact I|]. auto.
  - cbn. split; [intros _; apply benign_map; intros; exact I|]. auto.
  - unfold get. cbn. intros d0. destruct (filter _ _) as [|r ?]; [exact I|]. destruct (from_row r); exact I.
  - unfold list_vouchers. cbn. intros d0. destruct (map_res from_row (vouchers d0)); exact I.
  - cbn. auto.
  - cbn. auto.
  - cbn. auto.
  - unfold maint_observe. destruct (PricingModel.required_passes _ _); [|exact I]. destruct rowid; cbn; auto.
  - unfold maint_finish. destruct rowid; cbn; auto.
  - cbn. auto.
Qed.

Section Wallet.
Variable text_size : mut -> Z.
Variable stream_size : list (change mut) -> Z.
Notation node := (node db mut).
Notation step := (ReplicaModel.step sexec restart text_size stream_size).
Notation wstep := (wstep text_size stream_size).
Notation wrun := (wrun text_size stream_size).

Definition quiet_log (n : node) : Prop :=
  (forall ms, In (false, ms) (n_mutations n) -> Forall benign ms) /\
  forall c, In c (n_log n) -> important c = false -> benign (statement c).

Lemma quiet_eq (n n' : node) : n_mutations n' = n_mutations n -> n_log n' = n_log n -> quiet_log n -> quiet_log n'.
Proof. unfold quiet_log. now intros -> ->. Qed.

Lemma run_body_quiet rep o d0 : forall d b, (forall c, In c b -> In c (call_body o d0)) ->
  forall ms, In (false, ms) (fst (run_body sexec rep b d)) -> Forall benign ms.
Proof.
  intros d b. revert d. induction b as [|c b IH]; intros d Hb ms H; [destruct H|]. cbn in H.
  destruct (exec_rows sexec (c_rows c) d) as [d1|e]; [|destruct H].
  assert (Hb' : forall c0, In c0 b -> In c0 (call_body o d0)) by (intros; apply Hb; now right). specialize (IH d1 Hb' ms).
  destruct (run_body sexec rep b d1) as [rec x]. cbn in *.
  destruct (rep && c_mutates c); [|auto]. destruct H as [[= Hi <-]|H]; [|auto].
  specialize (Hb c (or_introl eq_refl)). unfold call_body in Hb. apply in_map_iff in Hb as ([i ms] & <- & Hin). cbn in *. subst i.
  exact (careful_run (op_careful o) Hin).
Qed.

Lemma quiet_transaction o ok (n : node) : quiet_log n ->
  quiet_log (transaction sexec restart text_size (call_body o (n_db n)) ok n).
Proof.
  intros [Q1 Q2]. unfold transaction. pose proof (@run_body_quiet (n_replicating n) o (n_db n) (n_db n) _ (fun c H => H)) as R.
  destruct (run_body sexec (n_replicating n) (call_body o (n_db n)) (n_db n)) as [rec x]. cbn [fst] in R.
  assert (M : forall ms, In (false, ms) (n_mutations n ++ rec) -> Forall benign ms).
  { intros ms H. apply in_app_or in H as [H|H]; auto. }
  destruct x as [d|e]; [destruct ok|]; try (split; [exact M|exact Q2]).
  unfold committed, signal. cbn [n_mutations with_mutations]. destruct (n_mutations n ++ rec) as [|m ms]; [split; [intros ms []|exact Q2]|].
  cbn [n_observing with_mutations with_db]. destruct (n_observing n); [|split; [intros ? []|exact Q2]].
  set (bs := m :: ms) in *. set (n0 := with_mutations [] (with_mutations bs (with_db d n))).
  split.
  - assert (Em : n_mutations (observed restart text_size bs n0) = []).
    { unfold observed. destruct (add_events _ _ _ _) as [l' seq']. destruct (should_upload_eventstream _ _); [|reflexivity].
      match goal with |- context [queue_job restart JEvents ?m] => now destruct (queue_job_shape restart JEvents m) as (js & w & -> & _) end. }
    rewrite Em. intros ? [].
  - rewrite (proj1 (observed_log restart text_size bs n0)). intros c Hc Ic. apply in_app_or in Hc as [Hc|Hc]; [now apply Q2|].
    pose proof (number_important Hc) as Ei. rewrite Ic in Ei.
    assert (Hst : In (statement c) (all_rows bs)).
    { rewrite <- (number_statements (bound (n_seq n0) + 1) (all_rows bs) (any_important bs)). now apply in_map. }
    unfold all_rows in Hst. apply in_flat_map in Hst as ([i rows] & Hin & Hrow). cbn in Hrow.
    assert (i = false).
    { destruct i; [|reflexivity]. unfold any_important in Ei. symmetry in Ei. apply not_true_iff_false in Ei. destruct Ei. apply existsb_exists. exists (true, rows). auto. }
    subst i. specialize (M rows Hin). rewrite Forall_forall in M. auto.
Qed.

Lemma quiet_step s e : quiet_log (fst s) -> quiet_log (fst (wstep s e)).
Proof.
  destruct s as [n r]. cbn [fst]. intros Q. unfold ReplicaStore.wstep. cbn [fst].
  assert (Qd : forall m : node, n_log m = n_log n -> quiet_log (down m)).
  { intros m E. split; [intros ? []|]. cbn. rewrite E. exact (proj2 Q). }
  destruct e as [o|o| | | | |p|a|a]; cbn [wevent_event ReplicaModel.step].
  - destruct (n_up n); [|exact Q]. cbn [fst]. now apply quiet_transaction.
  - destruct (returns o (n_db n)); cbn [ReplicaModel.step fst]; [|now apply Qd].
    destruct (n_up n); [|exact Q]. destruct (run_body _ _ _ _) as [rec [d|x]]; cbn [fst]; now apply Qd.
  - destruct (n_up n); [exact Q|]. cbn [fst]. split; [intros ? []|exact (proj2 Q)].
  - destruct (n_up n && negb (n_setup n)); [|exact Q]. exact Q.
  - destruct (n_up n && negb (n_setup n)); [|exact Q]. cbn [fst]. now apply Qd.
  - destruct (n_up n && n_setup n && negb (n_observing n)); [|exact Q]. exact Q.
  - cbn [fst]. set (r1 := remote_effect (n_work n) r).
    assert (Em : n_mutations (carry_on restart p r1 n) = n_mutations n).
    { assert (T : forall js m, n_mutations (take_jobs restart js m) = n_mutations (m : node)) by
        (intros js m; now destruct (take_jobs_shape restart js m) as (w & js' & -> & _)).
      assert (J : forall j m, n_mutations (append_job j m) = n_mutations (m : node)) by
        (intros j m; now destruct (append_job_shape j m) as (js' & -> & _)).
      unfold carry_on. destruct (n_work n); try reflexivity.
      - rewrite T. destruct (r_snapshot r1); [destruct (should_upload_eventstream _ _)|]; now rewrite ?J.
      - now rewrite T, J.
      - destruct (filter _ _); [apply T|reflexivity].
      - destruct (tl names); [apply T|reflexivity].
      - rewrite T. destruct p; now rewrite ?J. }
    split; [rewrite Em; exact (proj1 Q)|]. intros c Hc. apply (proj2 Q).
    rewrite (proj2 (carry_on_log restart p r1 n)) in Hc. destruct (n_work n); try exact Hc; unfold prune_events_to in Hc; apply filter_In in Hc; tauto.
  - destruct (n_work n); exact Q.
  - cbn [fst]. now apply Qd.
Qed.

Lemma quiet_run es s : quiet_log (fst s) -> quiet_log (fst (wrun s es)).
Proof. revert s. induction es as [|e es IH]; intros s Q; [exact Q|]. apply IH. now apply quiet_step. Qed.

Hypothesis fit : sizes_fit text_size stream_size.

Lemma same_tables_keeps a b c : same_tables b c -> keeps a b -> keeps a c.
Proof. intros (E1 & E2 & _) K. unfold keeps, random_tokens in *. now rewrite <- E1, <- E2. Qed.

Lemma recovered_keeps es n r : wall_along text_size stream_size (@wharmless) (@empty_wallet) es ->
  wrun (@empty_wallet) es = (n, r) -> n_work n = Idle -> exists a, recover sexec r = Ok a /\ keeps a (n_db n).
Proof.
  intros H E Wk. pose proof E as E'. rewrite wrun_run in E'. destruct (@at_rest _ _ _ _ _ _ fit _ _ _ _ E' Wk) as (Sn & Pl & _).
  destruct (r_snapshot r) as [s|] eqn:Es; [|congruence].
  assert (NP : ~ pruning (n_work (fst (wrun empty_wallet es)))) by (rewrite E; cbn [fst]; rewrite Wk; intros []).
  destruct (wallet_harmless H NP E Es) as (a & b & R & _ & _ & a' & Rp & St).
  exists a. split; [exact R|]. apply (same_tables_keeps St). unfold replay in Rp. eapply benign_rows; [|exact Rp|apply keeps_refl].
  assert (Q : quiet_log (fst (wrun empty_wallet es))) by (apply quiet_run; split; [intros ? []|intros ? []]).
  rewrite E in Q. cbn [fst] in Q. apply Forall_forall. intros m Hm. apply in_map_iff in Hm as (c & <- & Hc). apply (proj2 Q); [exact Hc|]. now apply Pl.
Qed.
End Wallet.

(** * What [add] stores *)
Definition tied (d : db) : Prop := forall t, In t (tokens d) -> In (t_voucher t) (map v_number (vouchers d)).
Lemma tied_exec m d d' : sexec m d = Ok d' -> tied d -> tied d'.
Proof.
  unfold sexec. destruct (exec_mut m d) as [[k x]|e] eqn:E; [|discriminate]. intros [= ->] T.
  assert (Same : forall f, (forall r, v_number (f r) = v_number r) -> map v_number (map f (vouchers d)) = map v_number (vouchers d)).
  { intros f H. rewrite map_map. apply map_ext. exact H. }
  destruct m; cbn [exec_mut] in E;
    repeat match type of E with context [if ?c then _ else _] => destruct c eqn:? end;
    try discriminate E; injection E as _ <-; try exact T; intros t Ht; cbn [tokens vouchers set_vouchers set_tokens] in *.
  - rewrite map_app. apply in_or_app. left. now apply T.
  - apply in_app_or in Ht as [Ht|[<-|[]]]; [now apply T|]. cbn. now apply memZ_In.
  - rewrite Same; [now apply T|]. intros r. now destruct (_ =? _).
  - apply filter_In in Ht as [Ht _]. now apply T.
  - rewrite Same; [now apply T|]. intros r. now destruct (_ && _).
Qed.
Lemma tied_rows ms d d' : exec_rows sexec ms d = Ok d' -> tied d -> tied d'.
Proof.
  revert d. induction ms as [|m ms IH]; intros d; cbn; [now intros [= <-]|]. destruct (sexec m d) as [d1|e] eqn:E; [|discriminate].
  intros H T. exact (IH d1 H (tied_exec E T)).
Qed.
Lemma tied_step d o : tied d -> tied (snd (StoreModel.step d o)).
Proof.
  intros T. assert (N : o = ORestart \/ o <> ORestart) by (destruct o; auto; right; discriminate).
  destruct N as [->|N]; [exact T|]. rewrite leaves_step by exact N. destruct (returns o d); [|exact T].
  exact (tied_rows (call_rows o d) T).
Qed.
Lemma tied_steps d os : tied d -> tied (snd (steps d os)).
Proof.
  revert d. induction os as [|o os IH]; intros d T; [exact T|]. pose proof (@tied_step d o T) as T1. cbn [steps].
  destruct (StoreModel.step d o) as [x d1]. specialize (IH d1 T1). destruct (steps d1 os). exact IH.
Qed.

Lemma ins_tokens v c ts d d' : exec_muts (map (InsToken v c) ts) d = Ok d' ->
  tokens d' = tokens d ++ map (fun t => TR t v c) ts /\ vouchers d' = vouchers d.
Proof.
  revert d. induction ts as [|t ts IH]; intros d; cbn [map exec_muts]; [intros [= <-]; now rewrite app_nil_r|].
  cbn [exec_mut]. destruct (memZ t _); [discriminate|]. destruct (memZ v _); [|discriminate]. cbn. intros H.
  apply IH in H as [H1 H2]. rewrite H1, H2. cbn. now rewrite <- app_assoc.
Qed.

Lemma add_stores v e c toks now d ts :
  tied d -> fst (StoreModel.step d (OAdd v e c toks now)) = Ok (RTokens ts) -> ts <> [] ->
  random_tokens (snd (StoreModel.step d (OAdd v e c toks now))) v c = ts /\
  In v (map v_number (vouchers (snd (StoreModel.step d (OAdd v e c toks now))))).
Proof.
  intros T. unfold StoreModel.step, with_cursor. cbn [op_prog]. unfold add. cbn [pmap StoreModel.run].
  destruct (filter (fun r => (t_voucher r =? v) && (t_counter r =? c)) (tokens d)) as [|t l] eqn:F.
  - cbn [pmap StoreModel.run]. destruct (exec_mut (InsVoucherIgnore v e now) d) as [[k d1]|x] eqn:E1; [|discriminate].
    destruct (exec_muts (map (InsToken v c) toks) d1) as [d2|x] eqn:E2; [|discriminate]. cbn. intros [= <-] Ne.
    destruct (ins_tokens E2) as [H1 H2].
    assert (H3 : tokens d1 = tokens d /\ In v (map v_number (vouchers d1))).
    { cbn [exec_mut] in E1. destruct (memZ v (map v_number (vouchers d))) eqn:M; injection E1 as _ <-; (split; [reflexivity|]).
      - now apply memZ_In.
      - cbn. rewrite map_app. apply in_or_app. right. now left. }
    destruct H3 as [H3 H4]. rewrite H2. split; [|exact H4]. unfold random_tokens. rewrite H1, H3, filter_app, F. cbn [app].
    clear. induction toks as [|t toks IH]; [reflexivity|]. cbn [map filter t_voucher t_counter]. rewrite !Z.eqb_refl. cbn. now rewrite IH.
  - cbn [pmap StoreModel.run]. cbn. intros [= <-] Ne. unfold random_tokens. rewrite F. split; [reflexivity|].
    assert (H : In t (t :: l)) by (now left). rewrite <- F in H. apply filter_In in H as [H1 H2]. apply andb_true_iff in H2 as [H2 _].
    apply Z.eqb_eq in H2. rewrite <- H2. now apply T.
Qed.
