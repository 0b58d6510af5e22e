(** What a replica is good for, along histories. *)
From Verif Require Import Prelude StoreModel ReplicaModel ReplicaSpec ReplicaProofs.
From Coq Require Import Sorting.Sorted Sorting.Permutation.
Set Implicit Arguments.
Unset Strict Implicit.

Section Run.
Variables D S : Type.
Variable exec : S -> D -> res exn D.
Variable fresh : D -> D.
Variable text_size : S -> Z.
Variable stream_size : list (change S) -> Z.
Notation system := (system D S).
Notation node := (node D S).
Notation replica := (replica D S).
Notation event := (event S).
Notation change := (change S).
Notation step := (step exec fresh text_size stream_size).
Notation run := (run exec fresh text_size stream_size).
Notation rows := (exec_rows exec).
Notation take_jobs := (take_jobs fresh).
Notation replay := (replay exec).
Notation replay_all := (replay_all exec).
Notation entry := (entry fresh).
Implicit Types (n : node) (r : replica) (l : list change) (W : D -> Prop).

Variable sim : D -> D -> Prop.
Variable ok : D -> Prop.
Hypothesis Faith : faithful exec fresh sim ok.

(** * Sorting *)
Lemma insert_last A (key : A -> Z) x (l : list A) :
  (forall y, In y l -> key y < key x) -> insert_by key x l = l ++ [x].
Proof.
  induction l as [|y l IH]; intros H; cbn; [reflexivity|].
  assert (key y < key x) by (apply H; now left).
  destruct (key x <=? key y) eqn:E; [lia|]. f_equal. apply IH. intros; apply H; now right.
Qed.
Lemma sorted_by_snoc A (key : A -> Z) x (l : list A) :
  (forall y, In y l -> key y < key x) -> sorted_by key (l ++ [x]) = sorted_by key l ++ [x].
Proof.
  unfold sorted_by. induction l as [|y l IH]; intros H; cbn; [reflexivity|].
  rewrite IH by (intros; apply H; now right).
  assert (Hy : key y < key x) by (apply H; now left). clear IH H.
  induction (fold_right (insert_by key) [] l) as [|z t IHt]; cbn.
  - destruct (key y <=? key x) eqn:E; [reflexivity|lia].
  - destruct (key y <=? key z); [reflexivity|]. cbn. now rewrite IHt.
Qed.

Lemma sorted_streams_snoc (st : dict (list change)) h evs seq :
  dir_ok st seq -> highest_sequence evs = Some h -> (forall k, In k (dkeys st) -> k < h) ->
  sorted_event_streams (dvalues (st ++ [(h, evs)])) = sorted_event_streams (dvalues st) ++ [evs].
Proof.
  intros [_ Hd] Hh Hk. unfold sorted_event_streams, dvalues. rewrite map_app, filter_app. cbn [map filter snd].
  destruct evs as [|c evs]; [discriminate|]. apply sorted_by_snoc.
  intros y Hy. apply filter_In in Hy as [Hy _]. apply in_map_iff in Hy as ([k y'] & <- & Hy). cbn [snd].
  unfold sort_key at 2. rewrite Hh. destruct (Hd _ _ Hy) as [Hy' _]. unfold sort_key. rewrite Hy'.
  apply Hk. apply (in_map fst) in Hy. exact Hy.
Qed.

(** * Following *)
Definition follow l a b : Prop := exists a', replay l a = Ok a' /\ sim a' b.

Lemma rows_sim ss a b b' : sim a b -> rows ss b = Ok b' -> exists a', rows ss a = Ok a' /\ sim a' b'.
Proof.
  revert a b. induction ss as [|s ss IH]; intros a b H; cbn.
  - intros [= <-]. eauto.
  - destruct (exec s b) as [b1|e] eqn:E; [|discriminate]. cbn. intros R.
    destruct (faithful_exec Faith _ _ _ H E) as (a1 & Ea & H1). rewrite Ea. cbn. eauto.
Qed.

Lemma follow_more l ss from imp a b b' :
  follow l a b -> rows ss b = Ok b' -> follow (l ++ number from ss imp) a b'.
Proof.
  intros (a' & E & H) R. destruct (rows_sim H R) as (a2 & E2 & H2).
  exists a2. split; [|assumption]. rewrite replay_app, E. unfold ReplicaModel.replay. now rewrite number_statements.
Qed.

Lemma follow_nil a b : sim a b -> follow [] a b.
Proof. intros H. exists a. split; [reflexivity|assumption]. Qed.

(** * The invariant *)
Definition old_fact (W : D -> Prop) (st : dict (list change)) (snap : option D) l (db : D) : Prop :=
  forall s, snap = Some s ->
  exists d0 b0, replay_all (sorted_event_streams (dvalues st)) s = Ok d0 /\ W b0 /\ sim d0 b0 /\ follow l d0 db.
Definition below (st : dict (list change)) l : Prop := forall k c, In k (dkeys st) -> In c l -> k < sequence c.
Definition keys_le (st : dict (list change)) (q : Z) : Prop := forall k, In k (dkeys st) -> k <= q.

Definition rest W n r : Prop :=
  below (r_streams r) (n_log n) /\ old_fact W (r_streams r) (r_snapshot r) (n_log n) (n_db n).

Definition snapshot_fact W n r (q : Z) (snap : D) : Prop :=
  keys_le (r_streams r) q /\ (n_seq n = None \/ q <= bound (n_seq n)) /\
  exists bm old newer, W bm /\ ok bm /\ snap = fresh bm /\ n_log n = old ++ newer /\
    (forall c, In c old -> sequence c <= q) /\ (forall c, In c newer -> q < sequence c) /\
    follow newer snap (n_db n).
Definition pruned_fact W n r (q : Z) : Prop :=
  keys_le (r_streams r) q /\
  exists s b0, r_snapshot r = Some s /\ W b0 /\ sim s b0 /\ follow (n_log n) s (n_db n).

(** [heal]: nothing is known about the directory before the snapshot is there. *)
Definition clean (heal : Prop) W n r : Prop :=
  n_mutations n = [] /\ ok (n_db n) /\ W (n_db n) /\
  match n_work n with
  | SendingSnapshot q snap => snapshot_fact W n r q snap /\ (heal \/ rest W n r)
  | ListingOld q => pruned_fact W n r q
  | Unlinking q names => pruned_fact W n r q /\ incl (dkeys (r_streams r)) names
  | Sending evs h =>
      below (r_streams r) (n_log n) /\
      forall s, r_snapshot r = Some s ->
      exists d0 b0 dm bm newer, replay_all (sorted_event_streams (dvalues (r_streams r))) s = Ok d0 /\ W b0 /\ sim d0 b0 /\
        replay evs d0 = Ok dm /\ W bm /\ sim dm bm /\ n_log n = evs ++ newer /\ follow newer dm (n_db n)
  | _ => rest W n r
  end.

Lemma old_fact_mono (W W' : D -> Prop) st snap l db : (forall d, W d -> W' d) -> old_fact W st snap l db -> old_fact W' st snap l db.
Proof. intros M H s Hs. destruct (H s Hs) as (d0 & b0 & ? & ? & ? & ?). exists d0, b0. auto. Qed.
Lemma rest_mono (W W' : D -> Prop) n r : (forall d, W d -> W' d) -> rest W n r -> rest W' n r.
Proof. intros M [H1 H2]. split; [assumption|]. exact (old_fact_mono M H2). Qed.
Lemma pruned_mono (W W' : D -> Prop) n r q : (forall d, W d -> W' d) -> pruned_fact W n r q -> pruned_fact W' n r q.
Proof. intros M (H1 & s & b0 & ? & ? & ? & ?). split; [assumption|]. exists s, b0. auto. Qed.
Lemma snapshot_mono (W W' : D -> Prop) n r q s : (forall d, W d -> W' d) -> snapshot_fact W n r q s -> snapshot_fact W' n r q s.
Proof.
  intros M (H1 & H2 & bm & old & newer & ? & H3). split; [assumption|]. split; [assumption|]. exists bm, old, newer. split; [auto|exact H3].
Qed.
Lemma clean_mono heal (W W' : D -> Prop) n r : (forall d, W d -> W' d) -> clean heal W n r -> clean heal W' n r.
Proof.
  intros M (H1 & H2 & H3 & H4). split; [assumption|]. split; [assumption|]. split; [auto|].
  destruct (n_work n); try exact (rest_mono M H4).
  - destruct H4 as [B H4]. split; [assumption|]. intros s Hs.
    destruct (H4 s Hs) as (d0 & b0 & dm & bm & newer & ? & ? & ? & ? & ? & ? & ? & ?).
    exists d0, b0, dm, bm, newer. repeat split; auto.
  - destruct H4 as [H4 H5]. split; [exact (snapshot_mono M H4)|]. destruct H5; [now left|right; exact (rest_mono M H)].
  - exact (pruned_mono M H4).
  - destruct H4 as [H4 H5]. split; [exact (pruned_mono M H4)|assumption].
Qed.

(** Beginning a job. *)
Lemma clean_enter heal W n r w js :
  log_ok (n_log n) (n_seq n) -> dir_ok (r_streams r) (n_seq n) ->
  n_mutations n = [] -> ok (n_db n) -> W (n_db n) -> rest W n r -> entry n w ->
  clean heal W (with_work w (with_jobs js n)) r.
Proof.
  intros Hl Hd Hm Ho HW Hr En. split; [exact Hm|]. split; [exact Ho|]. split; [exact HW|]. cbn.
  destruct w as [| | |evs h|q s| | |]; cbn in En; try contradiction; try exact Hr.
  - destruct En as [-> Hh]. destruct Hr as [B Hr]. split; [exact B|]. intros s Hs. destruct (Hr s Hs) as (d0 & b0 & E0 & W0 & S0 & a' & E1 & S1).
    exists d0, b0, a', (n_db n), []. rewrite app_nil_r. repeat split; try assumption. now apply follow_nil.
  - destruct En as [Eq ->]. split; [|right; exact Hr].
    destruct Hl as (L1 & L2 & L3). destruct Hd as [D1 D2].
    assert (Kb : bound (n_seq n) <= q /\ (n_seq n = None \/ q <= bound (n_seq n))).
    { destruct (n_seq n) as [x|]; subst q; cbn; [split; [lia|right; lia]|split; [lia|now left]]. }
    split; [|split; [apply Kb|]].
    + intros k Hk. unfold dkeys in Hk. apply in_map_iff in Hk as ([k' evs] & <- & Hk). apply D2 in Hk as [_ Hk]. cbn. lia.
    + exists (n_db n), (n_log n), []. cbn. rewrite app_nil_r. repeat split; auto.
      * intros c Hc. apply L2 in Hc. lia.
      * contradiction.
      * apply follow_nil. now apply (faithful_fresh Faith).
Qed.

Lemma clean_take heal W n r js :
  log_ok (n_log n) (n_seq n) -> dir_ok (r_streams r) (n_seq n) ->
  n_mutations n = [] -> ok (n_db n) -> W (n_db n) -> rest W n r ->
  clean heal W (take_jobs js n) r.
Proof.
  intros. destruct (take_jobs_shape fresh js n) as (w & js' & -> & En & _). now apply clean_enter.
Qed.

(** The state apart from the queue and the loop. *)
Lemma clean_jobs heal W n r js : clean heal W n r -> clean heal W (with_jobs js n) r.
Proof. exact id. Qed.

Lemma clean_changes heal W n r i z : clean heal W n r -> clean heal W (with_changes i z n) r.
Proof. destruct n. exact (fun H => H). Qed.
Lemma clean_queue heal W n r j :
  log_ok (n_log n) (n_seq n) -> dir_ok (r_streams r) (n_seq n) ->
  clean heal W n r -> clean heal W (queue_job fresh j n) r.
Proof.
  intros Hl Hd H. destruct (queue_job_shape fresh j n) as (js & w & -> & [->|[Hi En]]).
  - destruct n; exact H.
  - destruct H as (H1 & H2 & H3 & H4). rewrite Hi in H4. now apply clean_enter.
Qed.

(** Recording changes. *)
Lemma below_add st l seq ss imp :
  dir_ok st seq -> below st l -> below st (l ++ number (bound seq + 1) ss imp).
Proof.
  intros [_ D2] B k c Hk Hc. apply in_app_or in Hc as [Hc|Hc]; [now apply B|].
  apply number_range in Hc. unfold dkeys in Hk. apply in_map_iff in Hk as ([k' evs] & <- & Hk).
  apply D2 in Hk as [_ Hk]. cbn. lia.
Qed.

Lemma clean_record heal (W W' : D -> Prop) n r ss imp i z d l' seq' :
  log_ok (n_log n) (n_seq n) -> dir_ok (r_streams r) (n_seq n) ->
  clean heal W n r -> (forall x, W x -> W' x) -> W' d -> ok d ->
  rows ss (n_db n) = Ok d -> add_events (n_log n) (n_seq n) ss imp = (l', seq') ->
  (first_snapshot n -> ss = []) ->
  clean heal W' (with_changes i z (with_log l' seq' (with_mutations [] (with_db d n)))) r.
Proof.
  intros Hl Hd H M Wd Okd R E FS. destruct (log_ok_add Hl E) as (Hl' & Hb & El & Hseq).
  destruct H as (H1 & H2 & H3 & H4).
  split; [reflexivity|]. split; [exact Okd|]. split; [exact Wd|]. cbn.
  assert (Rest : rest W n r -> rest W' (with_changes i z (with_log l' seq' (with_mutations [] (with_db d n)))) r).
  { intros [B Ho]. split; cbn.
    - rewrite El. now apply below_add.
    - intros s Hs. destruct (Ho s Hs) as (d0 & b0 & ? & ? & ? & F). exists d0, b0. rewrite El.
      repeat split; auto. exact (follow_more _ _ F R). }
  assert (Pr : forall q, pruned_fact W n r q ->
             pruned_fact W' (with_changes i z (with_log l' seq' (with_mutations [] (with_db d n)))) r q).
  { intros q (P1 & s & b0 & P4 & P5 & P6 & F).
    split; [exact P1|]. cbn. exists s, b0. rewrite El. repeat split; auto. exact (follow_more _ _ F R). }
  destruct (n_work n) as [| | |evs h|q s|q|q names|] eqn:Wk; try exact (Rest H4).
  - destruct H4 as [B H4]. split; [rewrite El; now apply below_add|]. intros s Hs.
    destruct (H4 s Hs) as (d0 & b0 & dm & bm & newer & ? & ? & ? & ? & ? & ? & Eq & F).
    exists d0, b0, dm, bm, (newer ++ number (bound (n_seq n) + 1) ss imp). repeat split; auto.
    + now rewrite El, Eq, app_assoc.
    + exact (follow_more _ _ F R).
  - destruct H4 as [(K1 & K2 & bm & old & newer & W1 & O1 & E1 & E2 & Lo & Hi & F) H5].
    split; [|destruct H5 as [H5|H5]; [now left|right; exact (Rest H5)]].
    split; [exact K1|]. cbn. split; [|exists bm, old, (newer ++ number (bound (n_seq n) + 1) ss imp)].
    + destruct K2 as [K2|K2]; [|right; lia]. left.
      assert (ss = []) by (apply FS; split; [assumption|now rewrite Wk]). subst ss.
      rewrite add_events_eq in E. now injection E as _ <-.
    + repeat split; auto.
      * now rewrite El, E2, app_assoc.
      * intros c Hc. apply in_app_or in Hc as [Hc|Hc]; [now apply Hi|].
        destruct K2 as [K2|K2]; [|apply number_range in Hc; lia].
        assert (ss = []) by (apply FS; split; [assumption|now rewrite Wk]). subst ss. contradiction.
      * exact (follow_more _ _ F R).
  - exact (Pr q H4).
  - destruct H4 as [H4 H5]. split; [exact (Pr q H4)|exact H5].
Qed.

Lemma rest_unset W n r : n_setup n = false -> base n r -> rest W n r.
Proof.
  intros Hs (_ & _ & _ & Hf). destruct Hf as (_ & _ & _ & _ & _ & _ & F7). destruct (F7 Hs) as (L & _ & _ & _ & ->).
  split; [intros k c []|]. intros s Hs'. discriminate.
Qed.
Lemma work_unset n r : n_setup n = false -> base n r -> n_work n = Stopped.
Proof.
  intros Hs (_ & _ & _ & Hf). destruct Hf as (_ & _ & F3 & _ & F5 & _ & _).
  destruct (n_work n) eqn:W; [reflexivity|..]; exfalso.
  all: assert (NS : n_work n <> Stopped) by (rewrite W; discriminate).
  all: rewrite W in NS; destruct (F3 NS) as [_ O]; apply F5 in O as [_ O]; congruence.
Qed.
Lemma unset_empty n r : n_setup n = false -> base n r -> r = empty_replica D S /\ n_log n = [].
Proof. intros Hs (_ & _ & _ & Hf). destruct Hf as (_ & _ & _ & _ & _ & _ & F7). now destruct (F7 Hs) as (L & _ & _ & _ & ->). Qed.

(** Outside the removal of old streams the directory is good as it is. *)
Lemma clean_rest W n r : ~ pruning (n_work n) -> clean False W n r -> rest W n r.
Proof.
  intros NP (H1 & H2 & H3 & H4). destruct (n_work n) as [| | |evs h|q s|q|q names|] eqn:Wk; try exact H4; try (now destruct NP).
  - destruct H4 as [B H4]. split; [assumption|]. intros s Hs.
    destruct (H4 s Hs) as (d0 & b0 & dm & bm & newer & E0 & W0 & S0 & Em & Wm & Sm & El & a' & Ea & Sa).
    exists d0, b0. repeat split; auto. exists a'. split; [|assumption]. now rewrite El, replay_app, Em.
  - destruct H4 as [_ [[]|H4]]. exact H4.
Qed.

Lemma queue_job_db j n : n_db (queue_job fresh j n) = n_db n.
Proof. now destruct (queue_job_shape fresh j n) as (js & w & -> & _). Qed.

Lemma clean_transaction heal W (W' : D -> Prop) n r b d :
  base n r -> clean heal W n r -> (forall x, W x -> W' x) -> n_up n = true ->
  honest exec b -> rows (executed b) (n_db n) = Ok d -> ok d ->
  (n_replicating n = true -> n_observing n = true \/ read_only b) ->
  (first_snapshot n -> read_only b) ->
  W' (n_db (transaction exec fresh text_size b true n)) ->
  clean heal W' (transaction exec fresh text_size b true n) r.
Proof.
  intros HB HC M Up Hon Hd Okd Hobs Hfs. unfold transaction.
  pose proof HB as (Hl & Hdir & Hw & Hf). pose proof Hf as (F1 & F2 & F3 & F4 & F5 & F6 & F7).
  destruct (run_body exec (n_replicating n) b (n_db n)) as [rec o] eqn:R.
  pose proof (run_body_commits Hd R) as Eo.
  subst o. unfold committed, signal. cbn [n_mutations with_mutations n_observing with_db].
  assert (Em : n_mutations n = []) by apply HC. rewrite Em. cbn [app].
  assert (Plain : rows (mutating b) (n_db n) = Ok d) by (now apply honest_mutating).
  (* nothing recorded *)
  assert (Same : d = n_db n \/ n_setup n = false -> W' d -> clean heal W' (with_mutations [] (with_db d n)) r).
  { intros [->|Hs] Wd.
    - apply (clean_mono M) in HC. destruct HC as (? & ? & ? & ?). split; [reflexivity|]. split; [assumption|]. split; assumption.
    - split; [reflexivity|]. split; [exact Okd|]. split; [exact Wd|]. cbn. rewrite (work_unset Hs HB).
      destruct (unset_empty Hs HB) as [-> L]. split; [intros k c []|]. intros s Hs'. discriminate. }
  destruct (n_replicating n) eqn:Rep.
  - assert (Rrows : all_rows rec = mutating b) by exact (run_body_rows R).
    destruct rec as [|m ms] eqn:Erec.
    + intros Wd. apply Same; [|exact Wd]. left. cbn in Rrows. rewrite <- Rrows in Plain. now injection Plain.
    + destruct (n_observing n) eqn:O.
      * unfold observed. cbn [n_log n_seq n_important n_size with_mutations with_db].
        destruct (add_events (n_log n) (n_seq n) (all_rows (m :: ms)) (any_important (m :: ms))) as [l' seq'] eqn:E.
        assert (C : forall i z, W' d -> clean heal W' (with_changes i z (with_log l' seq' (with_mutations [] (with_db d n)))) r).
        { intros i z Wd. apply clean_record with (W := W) (ss := all_rows (m :: ms)) (imp := any_important (m :: ms)); auto.
          - now rewrite Rrows.
          - intros Fs. rewrite Rrows. apply read_only_mutating. now apply Hfs. }
        destruct (log_ok_add Hl E) as (Hl' & Hb & _).
        destruct (should_upload_eventstream _ _).
        -- intros Wd.
           assert (Wd' : W' d).
           { refine (eq_ind _ W' Wd d _). exact (queue_job_db _ _). }
           apply clean_changes, clean_queue; [exact Hl'|exact (dir_ok_mono Hdir Hb)|exact (C _ _ Wd')].
        -- intros Wd. now apply C.
      * destruct (Hobs eq_refl) as [?|RO]; [discriminate|]. pose proof (run_body_read_only RO R). discriminate.
  - rewrite (run_body_off R). intros Wd. apply Same; [|exact Wd]. right. now rewrite <- F4.
Qed.

Lemma clean_rolled_back heal W n r b ok' :
  clean heal W n r -> (forall d, ok' = true -> rows (executed b) (n_db n) = Ok d -> False) ->
  (n_replicating n = true -> read_only b) ->
  clean heal W (transaction exec fresh text_size b ok' n) r.
Proof.
  intros HC Hf Hro. unfold transaction. destruct (run_body exec (n_replicating n) b (n_db n)) as [rec o] eqn:R.
  assert (rec = []).
  { destruct (n_replicating n); [exact (run_body_read_only (Hro eq_refl) R)|exact (run_body_off R)]. }
  subst rec. assert (C : clean heal W (rolled_back [] n) r).
  { destruct HC as (? & ? & ? & ?). unfold rolled_back. rewrite app_nil_r. split; [assumption|]. now split. }
  destruct o as [d|e]; [|exact C]. destruct ok'; [|exact C]. exfalso. apply (Hf d eq_refl). exact (run_body_ok R).
Qed.

Lemma clean_done heal W n r p :
  base n r -> clean heal W n r ->
  clean heal W (carry_on fresh p (remote_effect (n_work n) r) n) (remote_effect (n_work n) r).
Proof.
  intros HB HC. pose proof HB as (Hl & Hd & Hw & Hf). pose proof (base_effect HB) as Hd'.
  pose proof HC as (Hm & Ho & HW & H4). unfold carry_on.
  assert (A : forall n1 js, (exists js', n1 = with_jobs js' n) -> rest W n r -> clean heal W (take_jobs js n1) r).
  { intros n1 js (js' & ->) Hr. now apply clean_take. }
  assert (J : forall j, exists js', append_job j n = with_jobs js' n).
  { intros j. destruct (append_job_shape j n) as (js & E & _). eauto. }
  assert (N : exists js', n = with_jobs js' n) by (exists (n_jobs n); now destruct n).
  destruct (n_work n) as [| | |evs h|q s|q|q names|] eqn:Wk; cbn [remote_effect]; try exact HC.
  - apply A; [|exact H4]. destruct (r_snapshot r); [|apply J]. destruct (should_upload_eventstream _ _); [apply J|exact N].
  - (* an event stream has been uploaded *)
    destruct H4 as [B H4]. destruct Hw as [Hh (newer & El)].
    assert (Hnew : forall c, In c newer -> h < sequence c).
    { intros c Hc. destruct (highest_in Hh) as (c0 & Hc0 & <-). destruct Hl as (Hs & _). rewrite El, map_app in Hs.
      apply sorted_app in Hs as (_ & _ & Hs). apply Hs; now apply in_map. }
    assert (Pr : prune_events_to h (n_log n) = newer).
    { apply (prune_split El); [|exact Hnew]. intros c Hc. exact (highest_ge Hh Hc). }
    assert (Kb : forall k, In k (dkeys (r_streams r)) -> k < h).
    { intros k Hk. destruct (highest_in Hh) as (c0 & Hc0 & <-). apply B; [assumption|]. rewrite El. apply in_or_app. now left. }
    destruct (append_job_shape JConsider (with_log (prune_events_to h (n_log n)) (n_seq n) n)) as (js & Ej & _).
    rewrite Ej. rewrite Pr in *. destruct (dset_keys h evs (r_streams r)) as [[Hin _]|[_ Ed]].
    { apply Kb in Hin. lia. }
    apply clean_take; auto.
    + cbn. rewrite <- Pr. now apply log_ok_prune.
    + cbn [r_streams r_snapshot]. rewrite Ed in *. split; cbn [r_streams r_snapshot n_log with_jobs with_log n_db].
      * intros k c Hk Hc. unfold dkeys in Hk. rewrite map_app in Hk. apply in_app_or in Hk as [Hk|[<-|[]]].
        -- apply Kb in Hk. apply Hnew in Hc. lia.
        -- now apply Hnew.
      * intros s Hs. destruct (H4 s Hs) as (d0 & b0 & dm & bm & newer' & E0 & W0 & S0 & Em & Wm & Sm & El' & F).
        assert (newer' = newer) by (rewrite El in El'; now apply app_inv_head in El'). subst newer'.
        exists dm, bm. rewrite (sorted_streams_snoc Hd Hh Kb), replay_all_app, E0, replay_all_one. auto.
  - (* a snapshot has been uploaded *)
    destruct H4 as [(K1 & K2 & bm & old & newer & Wb & Ob & -> & El & Lo & Hi & F) _].
    split; [exact Hm|]. split; [exact Ho|]. split; [exact HW|]. cbn.
    split; [exact K1|]. exists (fresh bm), bm. cbn. rewrite (prune_split El Lo Hi). repeat split; auto.
    now apply (faithful_fresh Faith).
  - (* the directory is listed *)
    destruct H4 as (K & s & b0 & Es & Wb & Sb & F).
    assert (Ek : filter (fun name => name <=? q) (dkeys (r_streams r)) = dkeys (r_streams r)).
    { apply filter_all. intros x Hx. apply K in Hx. lia. }
    rewrite Ek. destruct (dkeys (r_streams r)) as [|x names] eqn:Ed.
    + apply A; [exact N|]. assert (E0 : r_streams r = []) by (unfold dkeys in Ed; now destruct (r_streams r)).
      split; rewrite E0; [intros k c []|]. intros s' Hs'. rewrite Es in Hs'. injection Hs' as <-.
      exists s, b0. now repeat split.
    + split; [exact Hm|]. split; [exact Ho|]. split; [exact HW|]. cbn. split.
      * split; [exact K|]. exists s, b0. now repeat split.
      * rewrite Ed. apply incl_refl.
  - (* one of the old streams is removed *)
    destruct H4 as [(K & s & b0 & Es & Wb & Sb & F) Inc]. destruct names as [|x names]; [now destruct Hw|]. cbn [tl].
    assert (Inc' : incl (dkeys (ddel x (r_streams r))) names).
    { intros y Hy. rewrite ddel_keys in Hy. apply filter_In in Hy as [Hy Ny]. apply Inc in Hy as [->|Hy]; [|assumption].
      now rewrite Z.eqb_refl in Ny. }
    destruct names as [|y names].
    + assert (E0 : ddel x (r_streams r) = []).
      { destruct (ddel x (r_streams r)) as [|[k v] t]; [reflexivity|]. destruct (Inc' k); now left. }
      apply clean_take; auto. cbn [r_streams r_snapshot]. rewrite E0. split; [intros k c []|]. cbn.
      intros s' Hs'. rewrite Es in Hs'. injection Hs' as <-. exists s, b0. now repeat split.
    + split; [exact Hm|]. split; [exact Ho|]. split; [exact HW|]. cbn. split; [|exact Inc'].
      split.
      * intros k Hk. cbn in Hk. apply K. change (In k (dkeys (ddel x (r_streams r)))) in Hk. rewrite ddel_keys in Hk. apply filter_In in Hk. tauto.
      * exists s, b0. now repeat split.
  - apply A; [|exact H4]. destruct p; [apply J|exact N].
Qed.

(** A process that starts, or ends. *)
Lemma clean_stopped heal W n r : n_work n = Stopped -> n_mutations n = [] -> ok (n_db n) -> W (n_db n) -> rest W n r -> clean heal W n r.
Proof. intros Wk. unfold clean. rewrite Wk. auto. Qed.

Lemma clean_started heal W n r :
  log_ok (n_log n) (n_seq n) -> dir_ok (r_streams r) (n_seq n) -> n_mutations n = [] ->
  ok (n_db n) -> W (n_db n) -> rest W n r -> clean heal W (started fresh stream_size n) r.
Proof. intros. unfold started. now apply clean_take. Qed.

Lemma started_db n : n_db (started fresh stream_size n) = n_db n.
Proof. unfold started. now destruct (take_jobs_shape fresh [JStartup] (Node (n_db n) (n_log n) (n_seq n) true true true true (n_mutations n)
       (existsb (@important S) (n_log n)) (stream_size (n_log n)) [] Stopped)) as (w & js & -> & _). Qed.

Lemma carry_on_db p r n : n_db (carry_on fresh p r n) = n_db n.
Proof.
  assert (T : forall js n', n_db (take_jobs js n') = n_db n') by
    (intros js n'; now destruct (take_jobs_shape fresh js n') as (w & js' & -> & _)).
  assert (J : forall j n', n_db (append_job j n') = n_db n') by
    (intros j n'; now destruct (append_job_shape j n') as (js' & -> & _)).
  unfold carry_on. destruct (n_work n); try reflexivity.
  - rewrite T. destruct (r_snapshot r); [destruct (should_upload_eventstream _ _)|]; now rewrite ?J.
  - now rewrite T, J.
  - destruct (filter _ _); [apply T|reflexivity].
  - destruct (tl names); [apply T|reflexivity].
  - rewrite T. destruct p; now rewrite ?J.
Qed.

(** A process which is not running has stopped. *)
Lemma clean_step settled heal (W W' : D -> Prop) n r e :
  base n r -> clean heal W n r -> (forall x, W x -> W' x) -> W' (n_db (fst (step (n, r) e))) ->
  calm exec ok (n, r) e /\ (n_up n = false -> n_setup n = false) \/
  harmless exec ok settled (n, r) e /\ restartable fresh sim ok settled /\ (heal -> False) ->
  clean heal W' (fst (step (n, r) e)) (snd (step (n, r) e)).
Proof.
  intros HB HC M. pose proof HB as (Hl & Hd & Hw & Hf). pose proof HC as (Hm & Ho & HW & H4).
  pose proof Hf as (F1 & F2 & F3 & F4 & F5 & F6 & F7).
  pose proof (clean_mono M HC) as HC'.
  assert (NH : (heal -> False) -> clean False W n r).
  { intros nh. destruct HC as (C1 & C2 & C3 & C4). repeat (split; [assumption|]). destruct (n_work n); try exact C4.
    destruct C4 as [C4 [C5|C5]]; [contradiction|]. split; [assumption|now right]. }
  assert (Down : ok (n_db n) -> n_setup n = false \/ ~ pruning (n_work n) /\ (heal -> False) -> clean heal W' (down n) r).
  { intros Ok' [Hs|[NP nh]].
    - apply clean_stopped; auto. destruct (unset_empty Hs HB) as [-> L]. split; [intros k c []|]. intros s Hs'. discriminate.
    - apply clean_stopped; auto. exact (rest_mono M (clean_rest NP (NH nh))). }
  destruct e as [b o|b| | | | |p|a|a]; cbn [ReplicaModel.step].
  - (* Txn *)
    intros Wd Cond.
    assert (Cm : calm exec ok (n, r) (Txn b o)) by (destruct Cond as [[C _]|[C _]]; exact C). clear Cond.
    destruct (n_up n) eqn:Up; cbn [fst snd] in *; [|exact HC'].
    destruct o; cbn [calm] in Cm.
    + destruct Cm as (Hon & (d & Hx & Okd) & Hobs & Hfs). exact (clean_transaction HB HC M Up Hon Hx Okd Hobs Hfs Wd).
    + apply clean_rolled_back; auto. discriminate.
  - (* TxnKill *)
    intros Wd Cond. destruct (n_up n) eqn:Up; [|exact HC'].
    destruct (run_body exec (n_replicating n) b (n_db n)) as [rec o] eqn:R.
    assert (Ok' : forall d, o = Ok d -> ok d).
    { intros d ->. pose proof (run_body_ok R) as E. destruct Cond as [[[_ C] _]|[[_ C] _]]; now apply C. }
    assert (Dn : n_setup n = false \/ (read_only b /\ honest exec b) /\ ~ pruning (n_work n) /\ (heal -> False)).
    { destruct Cond as [[[C _] _]|[[[C|(C1 & C2 & C3)] _] [_ nh]]]; auto. }
    destruct o as [d|e]; cbn [fst snd] in *.
    + destruct Dn as [Hs|[[RO Hon] Dn]].
      * apply clean_stopped; auto. destruct (unset_empty Hs HB) as [-> L]. split; [intros k c []|]. intros s Hs'. discriminate.
      * assert (d = n_db n) by exact (honest_read_only Hon RO (run_body_ok R)). subst d.
        exact (Down Ho (or_intror Dn)).
    + apply Down; [assumption|]. tauto.
  - (* Open *)
    intros Wd Cond. destruct (n_up n) eqn:Up; [exact HC'|]. cbn [fst snd] in *.
    assert (Wk : n_work n = Stopped).
    { destruct (n_work n) eqn:Wk; [reflexivity|..]; exfalso; destruct F3 as [Z _]; discriminate. }
    rewrite Wk in H4. apply clean_stopped; auto.
    + now apply (faithful_ok Faith).
    + assert (Cond' : n_setup n = false \/ settled (n_db n) /\ restartable fresh sim ok settled).
      { destruct Cond as [[_ Hs]|[C [Rs _]]]; [left; now apply Hs|]. destruct (C Up); auto. }
      destruct Cond' as [Hs|[St Rs]].
      * destruct (unset_empty Hs HB) as [-> L]. split; [intros k c []|]. intros s Hs'. discriminate.
      * destruct H4 as [B Hr]. split; [exact B|]. intros s Hs. destruct (Hr s Hs) as (d0 & b0 & E0 & W0 & S0 & a' & Ea & Sa).
        exists d0, b0. repeat split; auto. exists a'. split; [exact Ea|]. cbn. now apply Rs.
  - (* SetUp *)
    intros Wd _. destruct (n_up n && negb (n_setup n)) eqn:U; [|exact HC']. cbn [fst snd] in *.
    apply andb_true_iff in U as [_ U]. apply negb_true_iff in U. rewrite started_db in Wd.
    apply clean_started; auto. now apply rest_unset.
  - (* SetUpKill *)
    intros Wd _. destruct (n_up n && negb (n_setup n)) eqn:U; [|exact HC']. cbn [fst snd] in *.
    apply andb_true_iff in U as [_ U]. apply negb_true_iff in U.
    apply clean_stopped; auto. destruct (rest_unset W' U HB) as [B Hr]. split; assumption.
  - (* Start *)
    intros Wd _. destruct (n_up n && n_setup n && negb (n_observing n)) eqn:U; [|exact HC']. cbn [fst snd] in *.
    apply andb_true_iff in U as [_ U]. apply negb_true_iff in U. rewrite started_db in Wd.
    assert (Wk : n_work n = Stopped).
    { destruct (n_work n) eqn:Wk; [reflexivity|..]; exfalso; destruct F3 as [_ Z]; congruence. }
    apply clean_started; auto. rewrite Wk in H4. exact (rest_mono M H4).
  - (* Done *)
    intros _ _. cbn [fst snd]. now apply clean_done.
  - (* Fail *)
    intros _ Cond.
    assert (K : ~ pruning (n_work n) /\ (heal -> False) -> clean heal W' (with_work Stopped n) r).
    { intros [NP nh]. apply clean_stopped; auto. exact (rest_mono M (clean_rest NP (NH nh))). }
    destruct Cond as [[[] _]|[C [_ nh]]]. destruct a; [destruct C|]. cbn [harmless] in C.
    destruct (n_work n) eqn:Wk; try exact HC'; cbn [fst snd]; apply K; split; auto.
  - (* Kill *)
    intros _ Cond. cbn [fst snd].
    assert (E : n_setup n = false \/ a = false /\ ~ pruning (n_work n) /\ (heal -> False)).
    { destruct Cond as [[C _]|[C [_ nh]]]; [now left|]. destruct a; [now left|right]. auto. }
    destruct E as [E|[-> E]]; [|now apply Down; auto].
    rewrite (effect_setup HB E). destruct a; apply Down; auto.
Qed.

(** * Histories *)
Lemma run_app s es1 es2 : run s (es1 ++ es2) = run (run s es1) es2.
Proof. apply fold_left_app. Qed.
Lemma run_snoc s es e : run s (es ++ [e]) = step (run s es) e.
Proof. now rewrite run_app. Qed.

Notation all_along := (all_along exec fresh text_size stream_size).
Lemma all_along_snoc P s es e : all_along P s (es ++ [e]) <-> all_along P s es /\ P (run s es) e.
Proof.
  revert s. induction es as [|x es IH]; intros s; cbn; [tauto|]. rewrite IH. cbn. tauto.
Qed.

Notation at_some_time := (at_some_time exec fresh text_size stream_size).
Lemma some_time_now s es : at_some_time s es (n_db (fst (run s es))).
Proof. exists es, []. now rewrite app_nil_r. Qed.
Lemma some_time_later s es e d : at_some_time s es d -> at_some_time s (es ++ [e]) d.
Proof. intros (es1 & es2 & -> & H). exists es1, (es2 ++ [e]). now rewrite app_assoc. Qed.

Lemma transaction_flags b o n :
  n_up (transaction exec fresh text_size b o n) = n_up n /\ n_setup (transaction exec fresh text_size b o n) = n_setup n.
Proof.
  unfold transaction. destruct (run_body _ _ _ _) as [rec [d|e]]; [|split; reflexivity]. destruct o; [|split; reflexivity].
  unfold committed, signal. cbn [n_mutations with_mutations]. destruct (n_mutations n ++ rec) as [|m ms]; [split; reflexivity|].
  cbn [n_observing with_mutations with_db]. destruct (n_observing n); [|split; reflexivity].
  unfold observed. destruct (add_events _ _ _ _) as [l' seq']. destruct (should_upload_eventstream _ _); [|split; reflexivity].
  match goal with |- context [queue_job fresh JEvents ?m] => destruct (queue_job_shape fresh JEvents m) as (js & w & -> & _) end.
  split; reflexivity.
Qed.
Lemma carry_on_flags p r n : n_up (carry_on fresh p r n) = n_up n /\ n_setup (carry_on fresh p r n) = n_setup n.
Proof.
  assert (T : forall js n', n_up (take_jobs js n') = n_up n' /\ n_setup (take_jobs js n') = n_setup n') by
    (intros js n'; destruct (take_jobs_shape fresh js n') as (w & js' & -> & _); split; reflexivity).
  assert (J : forall j n', n_up (append_job j n') = n_up n' /\ n_setup (append_job j n') = n_setup n') by
    (intros j n'; destruct (append_job_shape j n') as (js' & -> & _); split; reflexivity).
  unfold carry_on. destruct (n_work n); try (split; reflexivity).
  - destruct (r_snapshot r); [destruct (should_upload_eventstream _ _)|];
      rewrite (proj1 (T _ _)), (proj2 (T _ _)); [apply J|split; reflexivity|apply J].
  - rewrite (proj1 (T _ _)), (proj2 (T _ _)). rewrite (proj1 (J _ _)), (proj2 (J _ _)). split; reflexivity.
  - destruct (filter _ _); [apply T|split; reflexivity].
  - destruct (tl names); [apply T|split; reflexivity].
  - destruct p; rewrite (proj1 (T _ _)), (proj2 (T _ _)); [apply J|split; reflexivity].
Qed.

(** Along a calm history the process does not end once replication is set up. *)
Lemma calm_up s e :
  base (fst s) (snd s) -> calm exec ok s e ->
  (n_up (fst s) = false -> n_setup (fst s) = false) ->
  (n_up (fst (step s e)) = false -> n_setup (fst (step s e)) = false).
Proof.
  destruct s as [n r]. cbn [fst snd]. intros HB HC H.
  destruct e as [b o|b| | | | |p|a|a]; cbn [ReplicaModel.step].
  - destruct (n_up n) eqn:Up; [|intros _; now apply H]. cbn [fst]. now rewrite (proj1 (transaction_flags _ _ _)), Up.
  - destruct HC as [HC _]. destruct (n_up n) eqn:Up; [|intros _; now apply H].
    destruct (run_body _ _ _ _) as [rec [d|e]]; intros _; exact HC.
  - destruct (n_up n) eqn:Up; [cbn; congruence|discriminate].
  - destruct (n_up n && negb (n_setup n)) eqn:U; [|exact H]. cbn [fst]. unfold started.
    match goal with |- context [take_jobs ?l ?m] => destruct (take_jobs_shape fresh l m) as (w & js & -> & _) end. discriminate.
  - destruct HC.
  - destruct (n_up n && n_setup n && negb (n_observing n)) eqn:U; [|exact H]. cbn [fst]. unfold started.
    match goal with |- context [take_jobs ?l ?m] => destruct (take_jobs_shape fresh l m) as (w & js & -> & _) end. discriminate.
  - cbn [fst]. now rewrite (proj1 (carry_on_flags _ _ _)), (proj2 (carry_on_flags _ _ _)).
  - destruct HC.
  - intros _. exact HC.
Qed.

Lemma calm_run heal s0 pre es :
  base (fst (run s0 pre)) (snd (run s0 pre)) ->
  (n_up (fst (run s0 pre)) = false -> n_setup (fst (run s0 pre)) = false) ->
  clean heal (at_some_time s0 pre) (fst (run s0 pre)) (snd (run s0 pre)) ->
  all_along (calm exec ok) (run s0 pre) es ->
  clean heal (at_some_time s0 (pre ++ es)) (fst (run s0 (pre ++ es))) (snd (run s0 (pre ++ es))) /\
  (n_up (fst (run s0 (pre ++ es))) = false -> n_setup (fst (run s0 (pre ++ es))) = false).
Proof.
  intros HB HU HC. induction es as [|e es IH] using rev_ind; intros HA.
  - rewrite app_nil_r. auto.
  - apply all_along_snoc in HA as [HA He]. destruct (IH HA) as [IC IU]. rewrite <- run_app in He.
    rewrite app_assoc, run_snoc. pose proof (@base_run _ _ exec fresh text_size stream_size es _ HB) as HB'.
    rewrite <- run_app in HB'. destruct (run s0 (pre ++ es)) as [n r] eqn:E. cbn [fst snd] in *. split.
    + apply clean_step with (settled := fun _ => True) (W := at_some_time s0 (pre ++ es)); auto.
      * intros d Hd. now apply some_time_later.
      * rewrite <- E, <- run_snoc. apply some_time_now.
    + apply (@calm_up (n, r) e); auto.
Qed.

Lemma harmless_run settled s0 es :
  restartable fresh sim ok settled -> base (fst s0) (snd s0) -> clean False (at_some_time s0 []) (fst s0) (snd s0) ->
  all_along (harmless exec ok settled) s0 es ->
  clean False (at_some_time s0 es) (fst (run s0 es)) (snd (run s0 es)).
Proof.
  intros Rs HB HC. induction es as [|e es IH] using rev_ind; intros HA.
  - exact HC.
  - apply all_along_snoc in HA as [HA He]. specialize (IH HA).
    rewrite run_snoc. pose proof (@base_run _ _ exec fresh text_size stream_size es _ HB) as HB'.
    destruct (run s0 es) as [n r] eqn:E. cbn [fst snd] in *.
    apply clean_step with (settled := settled) (W := at_some_time s0 es); auto.
    + intros d Hd. now apply some_time_later.
    + rewrite <- E, <- run_snoc. apply some_time_now.
Qed.

Lemma clean_new heal d : ok d -> clean heal (at_some_time (new_system S d) []) (new_node S d) (empty_replica D S).
Proof.
  intros H. split; [reflexivity|]. split; [exact H|]. split; [exists [], []; split; reflexivity|].
  split; [intros k c []|]. intros s Hs. discriminate.
Qed.

Definition recovers s0 es : Prop :=
  forall n r s, run s0 es = (n, r) -> r_snapshot r = Some s ->
  exists a b, recover exec r = Ok a /\ at_some_time s0 es b /\ sim a b /\
              exists a', replay (n_log n) a = Ok a' /\ sim a' (n_db n).

Lemma rest_recovers s0 es : rest (at_some_time s0 es) (fst (run s0 es)) (snd (run s0 es)) -> recovers s0 es.
Proof.
  intros [_ H] n r s E Hs. rewrite E in H. cbn [fst snd] in H. destruct (H s Hs) as (a & b & Ea & Wb & Sb & F).
  exists a, b. split; [|split; [exact Wb|split; [exact Sb|exact F]]]. unfold recover. now rewrite Hs.
Qed.

Lemma calm_recovers d es :
  ok d -> all_along (calm exec ok) (new_system S d) es ->
  ~ pruning (n_work (fst (run (new_system S d) es))) -> recovers (new_system S d) es.
Proof.
  intros Hd HA NP. apply rest_recovers. apply clean_rest; [exact NP|].
  apply (@calm_run False (new_system S d) [] es); auto.
  - apply base_new.
  - now apply clean_new.
Qed.

Lemma harmless_recovers settled d es :
  ok d -> restartable fresh sim ok settled -> all_along (harmless exec ok settled) (new_system S d) es ->
  ~ pruning (n_work (fst (run (new_system S d) es))) -> recovers (new_system S d) es.
Proof.
  intros Hd Rs HA NP. apply rest_recovers. apply clean_rest; [exact NP|].
  apply (@harmless_run settled); auto; [apply base_new|now apply clean_new].
Qed.

(** Whatever happened before a snapshot was begun. *)
Lemma snapshot_heals d es1 es2 n r q :
  run (new_system S d) es1 = (n, r) -> ok (n_db n) ->
  n_work n = SendingSnapshot q (fresh (n_db n)) -> q = match n_seq n with Some x => x | None => 1 end ->
  n_mutations n = [] -> all_along (calm exec ok) (n, r) es2 ->
  ~ pruning (n_work (fst (run (new_system S d) (es1 ++ es2)))) ->
  (forall q' s', n_work (fst (run (new_system S d) (es1 ++ es2))) <> SendingSnapshot q' s') ->
  recovers (new_system S d) (es1 ++ es2).
Proof.
  intros E Ok Wk Eq Hm HA NP NS. apply rest_recovers.
  pose proof (base_reach exec fresh text_size stream_size d es1) as HB.
  pose proof HB as (Hl & Hd & _ & Hf). rewrite E in Hl, Hd, Hf. cbn [fst snd] in Hl, Hd, Hf.
  assert (HU : n_up n = true). { destruct Hf as (_ & _ & F3 & _). apply F3. rewrite Wk. discriminate. }
  destruct (@calm_run True (new_system S d) es1 es2) as [C _].
  - exact HB.
  - rewrite E. cbn [fst]. rewrite HU. discriminate.
  - rewrite E. cbn [fst snd]. split; [exact Hm|]. split; [exact Ok|].
    assert (Wn : at_some_time (new_system S d) es1 (n_db n)).
    { pose proof (some_time_now (new_system S d) es1) as W. now rewrite E in W. }
    split; [exact Wn|]. rewrite Wk.
    split; [|now left].
    assert (Kb : bound (n_seq n) <= q /\ (n_seq n = None \/ q <= bound (n_seq n))).
    { destruct (n_seq n) as [x|]; subst q; cbn; [split; [lia|right; lia]|split; [lia|now left]]. }
    destruct Hl as (L1 & L2 & L3). destruct Hd as [D1 D2].
    split; [|split; [apply Kb|]].
    + intros k Hk. unfold dkeys in Hk. apply in_map_iff in Hk as ([k' evs] & <- & Hk). apply D2 in Hk as [_ Hk]. cbn. lia.
    + exists (n_db n), (n_log n), []. rewrite app_nil_r. repeat split; auto.
      * intros c Hc. apply L2 in Hc. lia.
      * contradiction.
      * apply follow_nil. now apply (faithful_fresh Faith).
  - rewrite E. exact HA.
  - destruct C as (_ & _ & _ & C). destruct (n_work (fst (run (new_system S d) (es1 ++ es2)))) as [| | |evs h|q' s'|q'|q' names|] eqn:W';
      try exact C; try (now destruct NP); try (now destruct (NS q' s')).
    destruct C as [B C]. split; [exact B|]. intros s Hs.
    destruct (C s Hs) as (d0 & b0 & dm & bm & newer & E0 & W0 & S0 & Em & Wm & Sm & El & a' & Ea & Sa).
    exists d0, b0. repeat split; auto. exists a'. split; [|assumption]. now rewrite El, replay_app, Em.
Qed.
End Run.
