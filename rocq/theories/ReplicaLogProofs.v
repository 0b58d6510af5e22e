(** The event log and the job queue along histories. *)
From Verif Require Import Prelude PreludeFacts StoreModel ReplicaModel ReplicaSpec ReplicaProofs ReplicaRunProofs.
From Coq Require Import Sorting.Sorted Sorting.Permutation.
Set Implicit Arguments.
Unset Strict Implicit.

Section Log.
Variables D S : Type.
Variable exec : S -> D -> res exn D.
Variable fresh : D -> D.
Variable text_size : S -> Z.
Variable stream_size : list (change S) -> Z.
Notation system := (system D S).
Notation node := (node D S).
Notation replica := (replica D S).
Notation event := (event S).
Notation change := (change S).
Notation step := (step exec fresh text_size stream_size).
Notation run := (run exec fresh text_size stream_size).
Notation rows := (exec_rows exec).
Notation take_jobs := (take_jobs fresh).
Notation replay := (replay exec).
Notation entry := (entry fresh).
Notation transaction := (transaction exec fresh text_size).
Notation begun := (begun fresh).
Implicit Types (n : node) (r : replica) (l : list change).

Lemma take_jobs_log js n : n_log (take_jobs js n) = n_log n /\ n_seq (take_jobs js n) = n_seq n.
Proof. destruct (take_jobs_shape fresh js n) as (w & js' & -> & _). split; reflexivity. Qed.
Lemma append_job_log j n : n_log (append_job j n) = n_log n /\ n_seq (append_job j n) = n_seq n.
Proof. destruct (append_job_shape j n) as (js & -> & _). split; reflexivity. Qed.
Lemma queue_job_log j n : n_log (queue_job fresh j n) = n_log n /\ n_seq (queue_job fresh j n) = n_seq n.
Proof. destruct (queue_job_shape fresh j n) as (js & w & -> & _). split; reflexivity. Qed.

Lemma last_number_bound n : last_number n = bound (n_seq n).
Proof. reflexivity. Qed.

Lemma number_records n ss imp : records n ss imp (number (bound (n_seq n) + 1) ss imp).
Proof.
  split; [apply number_statements|]. intros i c H. rewrite last_number_bound.
  remember (bound (n_seq n) + 1) as from eqn:E. clear E. revert from i H.
  induction ss as [|s ss IH]; intros from i H; [destruct i; discriminate|].
  destruct i as [|i]; cbn -[Z.of_nat] in H; [injection H as <-; cbn; split; [lia|reflexivity]|].
  apply IH in H as [H1 H2]. split; [lia|assumption].
Qed.

(** Adding to the log. *)
Lemma observed_log b n :
  n_log (observed fresh text_size b n) = n_log n ++ number (bound (n_seq n) + 1) (all_rows b) (any_important b) /\
  bound (n_seq (observed fresh text_size b n)) = bound (n_seq n) + Z.of_nat (length (all_rows b)) /\
  (all_rows b = [] -> n_seq (observed fresh text_size b n) = n_seq n).
Proof.
  unfold observed. rewrite add_events_eq.
  assert (X : bound (match all_rows b with [] => n_seq n | _ :: _ => Some (bound (n_seq n) + Z.of_nat (length (all_rows b))) end)
              = bound (n_seq n) + Z.of_nat (length (all_rows b))) by (destruct (all_rows b); cbn -[Z.of_nat]; lia).
  destruct (should_upload_eventstream _ _).
  - cbn [n_log n_seq with_changes]. rewrite (proj1 (queue_job_log _ _)), (proj2 (queue_job_log _ _)). cbn [n_log n_seq with_changes with_log].
    split; [reflexivity|]. split; [exact X|]. now intros ->.
  - cbn [n_log n_seq with_changes with_log]. split; [reflexivity|]. split; [exact X|]. now intros ->.
Qed.

Definition adds n n' (ss : list S) (imp : bool) : Prop :=
  n_log n' = n_log n ++ number (bound (n_seq n) + 1) ss imp /\
  bound (n_seq n') = bound (n_seq n) + Z.of_nat (length ss) /\ (ss = [] -> n_seq n' = n_seq n).
Lemma adds_nothing n n' : n_log n' = n_log n -> n_seq n' = n_seq n -> adds n n' [] false.
Proof. intros E1 E2. unfold adds. cbn. rewrite E1, E2, app_nil_r. repeat split; lia. Qed.

(** What is told to the observer at a commit. *)
Definition told n (b : body S) : mutations S :=
  n_mutations n ++ fst (run_body exec (n_replicating n) b (n_db n)).

Lemma transaction_log b o n :
  exists ss imp, adds n (transaction b o n) ss imp /\
   ((ss = [] /\ imp = false) \/
    n_observing n = true /\ o = true /\ (exists d, rows (executed b) (n_db n) = Ok d) /\
    ss = all_rows (told n b) /\ imp = any_important (told n b)).
Proof.
  unfold ReplicaModel.transaction, told. destruct (run_body exec (n_replicating n) b (n_db n)) as [rec [d|e]] eqn:R.
  - destruct o; [|exists [], false; split; [now apply adds_nothing|now left]].
    unfold committed, signal. cbn [n_mutations with_mutations fst]. destruct (n_mutations n ++ rec) as [|m ms].
    + exists [], false. split; [now apply adds_nothing|now left].
    + cbn [n_observing with_mutations with_db]. destruct (n_observing n); [|exists [], false; split; [now apply adds_nothing|now left]].
      exists (all_rows (m :: ms)), (any_important (m :: ms)). split.
      * destruct (observed_log (m :: ms) (with_mutations [] (with_db d n))) as (H1 & H2 & H3). split; [exact H1|]. now split.
      * right. repeat split. exists d. exact (run_body_ok R).
  - exists [], false. split; [now apply adds_nothing|now left].
Qed.

Lemma carry_on_log p r n :
  n_seq (carry_on fresh p r n) = n_seq n /\
  n_log (carry_on fresh p r n) =
    match n_work n with
    | Sending _ h => prune_events_to h (n_log n)
    | SendingSnapshot q _ => prune_events_to q (n_log n)
    | _ => n_log n
    end.
Proof.
  unfold carry_on. destruct (n_work n); try (split; reflexivity).
  - destruct (r_snapshot r); [destruct (should_upload_eventstream _ _)|];
      rewrite (proj1 (take_jobs_log _ _)), (proj2 (take_jobs_log _ _)), ?(proj1 (append_job_log _ _)), ?(proj2 (append_job_log _ _)); split; reflexivity.
  - rewrite (proj1 (take_jobs_log _ _)), (proj2 (take_jobs_log _ _)), ?(proj1 (append_job_log _ _)), ?(proj2 (append_job_log _ _)); split; reflexivity.
  - destruct (filter _ _); rewrite ?(proj1 (take_jobs_log _ _)), ?(proj2 (take_jobs_log _ _)); split; reflexivity.
  - destruct (tl names); rewrite ?(proj1 (take_jobs_log _ _)), ?(proj2 (take_jobs_log _ _)); split; reflexivity.
  - destruct p; rewrite (proj1 (take_jobs_log _ _)), (proj2 (take_jobs_log _ _)), ?(proj1 (append_job_log _ _)), ?(proj2 (append_job_log _ _)); split; reflexivity.
Qed.

Lemma started_log n : n_log (started fresh stream_size n) = n_log n /\ n_seq (started fresh stream_size n) = n_seq n.
Proof. unfold started. rewrite (proj1 (take_jobs_log _ _)), (proj2 (take_jobs_log _ _)). split; reflexivity. Qed.

(** A step adds to the log or, at the end of an upload, removes from it. *)
Lemma step_log n r e :
  (exists ss imp, adds n (fst (step (n, r) e)) ss imp /\
     ((ss = [] /\ imp = false) \/
      exists b, e = Txn b true /\ n_up n = true /\ n_observing n = true /\
                (exists d, rows (executed b) (n_db n) = Ok d) /\
                ss = all_rows (told n b) /\ imp = any_important (told n b))) \/
  (exists p h, e = Done p /\ n_seq (fst (step (n, r) e)) = n_seq n /\
               n_log (fst (step (n, r) e)) = prune_events_to h (n_log n) /\
               ((exists evs, n_work n = Sending evs h) \/ exists s, n_work n = SendingSnapshot h s)).
Proof.
  assert (Same : forall n', n_log n' = n_log n -> n_seq n' = n_seq n ->
    exists ss imp, adds n n' ss imp /\ ((ss = [] /\ imp = false) \/
      exists b, e = Txn b true /\ n_up n = true /\ n_observing n = true /\
                (exists d, rows (executed b) (n_db n) = Ok d) /\
                ss = all_rows (told n b) /\ imp = any_important (told n b))).
  { intros n' E1 E2. exists [], false. split; [now apply adds_nothing|now left]. }
  destruct e as [b o|b| | | | |p|a|a]; cbn [ReplicaModel.step].
  - left. destruct (n_up n) eqn:Up; cbn [fst]; [|now apply Same].
    destruct (transaction_log b o n) as (ss & imp & A & C). exists ss, imp. split; [exact A|].
    destruct C as [C|(C1 & C2 & C3 & C4)]; [now left|right]. exists b. subst o. auto.
  - left. destruct (n_up n); [|now apply Same]. destruct (run_body _ _ _ _) as [rec [d|e]]; now apply Same.
  - left. destruct (n_up n); now apply Same.
  - left. destruct (n_up n && negb (n_setup n)); cbn [fst]; apply Same; try reflexivity; apply started_log.
  - left. destruct (n_up n && negb (n_setup n)); now apply Same.
  - left. destruct (n_up n && n_setup n && negb (n_observing n)); cbn [fst]; apply Same; try reflexivity; apply started_log.
  - cbn [fst]. destruct (carry_on_log p (remote_effect (n_work n) r) n) as [E1 E2].
    destruct (n_work n) eqn:Wk; try (left; now apply Same).
    + right. exists p, high_seq. split; [reflexivity|]. split; [assumption|]. split; [assumption|]. left. now exists events.
    + right. exists p, seqnum. split; [reflexivity|]. split; [assumption|]. split; [assumption|]. right. now exists snap.
  - left. destruct (n_work n); now apply Same.
  - left. now apply Same.
Qed.

(** * The journal *)
Notation journal := (journal exec fresh text_size stream_size).

Lemma news_added n n' ss imp :
  log_ok (n_log n) (n_seq n) -> adds n n' ss imp ->
  filter (fun c => last_number n <? sequence c) (n_log n') = number (bound (n_seq n) + 1) ss imp.
Proof.
  intros (_ & L2 & _) (-> & _). rewrite filter_app, filter_none, filter_all; [reflexivity| |].
  - intros c Hc. apply number_range in Hc. rewrite last_number_bound. lia.
  - intros c Hc. apply L2 in Hc. rewrite last_number_bound. lia.
Qed.
Lemma news_pruned n n' h :
  log_ok (n_log n) (n_seq n) -> n_log n' = prune_events_to h (n_log n) ->
  filter (fun c => last_number n <? sequence c) (n_log n') = [].
Proof.
  intros (_ & L2 & _) ->. apply filter_none. intros c Hc. unfold prune_events_to in Hc. apply filter_In in Hc as [Hc _].
  apply L2 in Hc. rewrite last_number_bound. lia.
Qed.

Lemma journal_numbers s es :
  base (fst s) (snd s) ->
  map (@sequence S) (journal s es) =
    map (fun i => last_number (fst s) + 1 + Z.of_nat i) (seq 0 (length (journal s es))) /\
  last_number (fst (run s es)) = last_number (fst s) + Z.of_nat (length (journal s es)).
Proof.
  revert s. induction es as [|e es IH]; intros s HB.
  - cbn. split; [reflexivity|lia].
  - destruct s as [n r]. cbn [fst snd] in HB. pose proof HB as (Hl & _).
    pose proof (@base_step _ _ exec fresh text_size stream_size (n, r) e HB) as HB'.
    destruct (IH _ HB') as [I1 I2]. cbn [ReplicaSpec.journal fst].
    change (run (n, r) (e :: es)) with (run (step (n, r) e) es). rewrite I2.
    destruct (step_log n r e) as [(ss & imp & A & _)|(p & h & -> & E1 & E2 & _)].
    + rewrite (news_added Hl A). destruct A as (_ & A2 & _). rewrite map_app, app_length, I1, number_length.
      rewrite seq_app, map_app, number_seqs. rewrite !last_number_bound in *.
      split; [|lia]. f_equal. rewrite A2. rewrite Nat.add_0_l.
      replace (seq (length ss) (length (journal (step (n, r) e) es)))
        with (map (fun i => (length ss + i)%nat) (seq 0 (length (journal (step (n, r) e) es)))).
      * rewrite map_map. apply map_ext. intros. lia.
      * clear. generalize (length (journal (step (n, r) e) es)). intros k. generalize (length ss). intros m.
        assert (G : forall a, map (fun i => (m + i)%nat) (seq a k) = seq (m + a) k).
        { induction k as [|k IHk]; intros a; cbn; [reflexivity|]. rewrite IHk. f_equal. f_equal. lia. }
        rewrite G. f_equal. lia.
    + rewrite (news_pruned Hl E2). cbn [app]. rewrite !last_number_bound in *. rewrite E1 in *. now split.
Qed.

Lemma sorted_seq from k : StronglySorted Z.lt (map (fun i => from + Z.of_nat i) (seq 0 k)).
Proof.
  assert (G : forall a, StronglySorted Z.lt (map (fun i => from + Z.of_nat i) (seq a k))).
  { induction k as [|k IHk]; intros a; cbn -[Z.of_nat]; constructor; [apply IHk|].
    rewrite Forall_forall. intros x Hx. apply in_map_iff in Hx as (i & <- & Hi). apply in_seq in Hi. lia. }
  apply G.
Qed.

Lemma told_clean b n :
  n_mutations n = [] -> n_replicating n = true -> (exists d, rows (executed b) (n_db n) = Ok d) ->
  all_rows (told n b) = mutating b /\ any_important (told n b) = valuable b.
Proof.
  intros Hm Hr (d & Hd). unfold told. rewrite Hm, Hr. cbn [app].
  destruct (run_body exec true b (n_db n)) as [rec o] eqn:R. cbn [fst].
  pose proof (run_body_commits Hd R).
  subst o. split; [exact (run_body_rows R)|exact (run_body_important R)].
Qed.

(** No transaction is rolled back after a mutating statement. *)
Definition no_stale (s : system) (e : event) : Prop :=
  match e with
  | Txn b o => (o = true /\ exists d, rows (executed b) (n_db (fst s)) = Ok d) \/ read_only b
  | _ => True
  end.

Lemma mutations_step n r e :
  no_stale (n, r) e -> n_mutations n = [] -> n_mutations (fst (step (n, r) e)) = [].
Proof.
  intros NS Hm.
  assert (T : forall js n', n_mutations (take_jobs js n') = n_mutations n') by
    (intros js n'; now destruct (take_jobs_shape fresh js n') as (w & js' & -> & _)).
  assert (J : forall j n', n_mutations (append_job j n') = n_mutations n') by
    (intros j n'; now destruct (append_job_shape j n') as (js' & -> & _)).
  destruct e as [b o|b| | | | |p|a|a]; cbn [ReplicaModel.step].
  - destruct (n_up n); cbn [fst]; [|exact Hm]. unfold ReplicaModel.transaction.
    destruct (run_body exec (n_replicating n) b (n_db n)) as [rec x] eqn:R.
    assert (RB : read_only b -> n_mutations (rolled_back rec n) = []).
    { intros RO. rewrite (run_body_read_only RO R). cbn. now rewrite Hm. }
    assert (CM : forall d, n_mutations (committed fresh text_size rec d n) = []).
    { intros d. unfold committed, signal. cbn [n_mutations with_mutations].
      destruct (n_mutations n ++ rec); [reflexivity|]. cbn [n_observing with_mutations with_db].
      destruct (n_observing n); [|reflexivity]. unfold observed. destruct (add_events _ _ _ _) as [l' seq'].
      destruct (should_upload_eventstream _ _); [|reflexivity].
      cbn [n_mutations with_changes]. 
      match goal with |- n_mutations (queue_job fresh JEvents ?m) = _ => destruct (queue_job_shape fresh JEvents m) as (js & w & -> & _) end.
      reflexivity. }
    destruct NS as [[-> (d & Hd)]|RO].
    + destruct x as [d'|e]; [apply CM|]. cbn [fst] in Hd. pose proof (run_body_commits Hd R). discriminate.
    + destruct x as [d'|e]; [destruct o; [apply CM|now apply RB]|now apply RB].
  - destruct (n_up n); [|exact Hm]. destruct (run_body _ _ _ _) as [rec [d|e]]; reflexivity.
  - destruct (n_up n); [exact Hm|reflexivity].
  - destruct (n_up n && negb (n_setup n)); [|exact Hm]. cbn [fst]. unfold started. now rewrite T.
  - destruct (n_up n && negb (n_setup n)); [reflexivity|exact Hm].
  - destruct (n_up n && n_setup n && negb (n_observing n)); [|exact Hm]. cbn [fst]. unfold started. now rewrite T.
  - cbn [fst]. unfold carry_on. destruct (n_work n); try exact Hm.
    + rewrite T. destruct (r_snapshot _); [destruct (should_upload_eventstream _ _)|]; now rewrite ?J.
    + now rewrite T, J.
    + destruct (filter _ _); [now rewrite T|exact Hm].
    + destruct (tl names); [now rewrite T|exact Hm].
    + rewrite T. destruct p; now rewrite ?J.
  - destruct (n_work n); exact Hm.
  - reflexivity.
Qed.

Lemma journal_statements s es :
  base (fst s) (snd s) -> n_mutations (fst s) = [] ->
  all_along exec fresh text_size stream_size no_stale s es ->
  map (@statement S) (journal s es) = committed_while_observed exec fresh text_size stream_size s es.
Proof.
  revert s. induction es as [|e es IH]; intros s HB Hm HA; [reflexivity|].
  destruct s as [n r]. destruct HA as [He HA]. cbn [fst snd] in *.
  pose proof (@base_step _ _ exec fresh text_size stream_size (n, r) e HB) as HB'.
  specialize (IH _ HB' (mutations_step He Hm) HA).
  cbn [ReplicaSpec.journal committed_while_observed fst]. rewrite map_app, IH. f_equal.
  pose proof HB as (Hl & _ & _ & Hf). destruct Hf as (_ & _ & _ & F4 & F5 & F6 & _).
  destruct (step_log n r e) as [(ss & imp & A & C)|(p & h & -> & E1 & E2 & _)].
  - rewrite (news_added Hl A), number_statements. destruct C as [[-> ->]|(b & -> & Up & Ob & Ex & -> & _)].
    + destruct e as [b o|b| | | | |p|a|a]; try reflexivity. destruct o; [|reflexivity].
      destruct (n_observing n) eqn:Ob; [|reflexivity].
      destruct (rows (executed b) (n_db n)) as [d|x] eqn:Ex; [|reflexivity].
      (* observed, but nothing was recorded *)
      destruct (F5 eq_refl) as [Up Hs]. cbn [ReplicaModel.step] in A. rewrite Up in A. cbn [fst] in A.
      assert (Rp : n_replicating n = true) by (now rewrite F4).
      destruct (told_clean Hm Rp (ex_intro _ d Ex)) as [T1 _]. rewrite <- T1.
      destruct (transaction_log b true n) as (ss' & imp' & A' & C').
      unfold ReplicaModel.transaction, told in *. rewrite Hm in *. cbn [app] in *.
      destruct (run_body exec (n_replicating n) b (n_db n)) as [rec x] eqn:R. cbn [fst] in *.
      destruct x as [d'|x].
      * unfold committed, signal in A. cbn [n_mutations with_mutations] in A. rewrite Hm in A. cbn [app] in A.
        destruct rec as [|m ms]; [reflexivity|]. cbn [n_observing with_mutations with_db] in A. rewrite Ob in A.
        destruct (observed_log (m :: ms) (with_mutations [] (with_db d' n))) as (H1 & _).
        destruct A as (A1 & _). pose proof (eq_trans (eq_sym H1) A1) as A2. clear A1. rename A2 into A1. cbn [n_log with_mutations with_db n_seq] in A1.
        apply app_inv_head in A1. destruct (all_rows (m :: ms)); [reflexivity|discriminate].
      * pose proof (run_body_commits Ex R). discriminate.
    + rewrite Ob. destruct Ex as (d & Ex). rewrite Ex. destruct (F5 Ob) as [_ Hs].
      apply told_clean; [assumption|now rewrite F4|eauto].
  - rewrite (news_pruned Hl E2). reflexivity.
Qed.

(** * Uploads *)
Lemma upload_done p n r evs h :
  base n r -> n_work n = Sending evs h ->
  exists newer, n_log n = evs ++ newer /\ n_log (fst (step (n, r) (Done p))) = newer /\
                In (h, evs) (r_streams (snd (step (n, r) (Done p)))).
Proof.
  intros (Hl & Hd & Hw & _) Wk. rewrite Wk in Hw. destruct Hw as [Hh (newer & El)]. exists newer. split; [exact El|].
  cbn [ReplicaModel.step fst snd]. rewrite (proj2 (carry_on_log _ _ _)), Wk. split.
  - apply (prune_split El).
    + intros c Hc. exact (highest_ge Hh Hc).
    + intros c Hc. destruct (highest_in Hh) as (c0 & Hc0 & <-). destruct Hl as (Hs & _). rewrite El, map_app in Hs.
      apply sorted_app in Hs as (_ & _ & Hs). apply Hs; now apply in_map.
  - cbn [remote_effect r_streams]. clear. induction (r_streams r) as [|[k v] t IH]; cbn; [now left|].
    destruct (h =? k) eqn:E; cbn; [left|now right]. apply Z.eqb_eq in E. now subst.
Qed.

(** Where a snapshot comes from. *)
Definition origin s0 es : Prop :=
  match n_work (fst (run s0 es)) with
  | SendingSnapshot q snap =>
      exists es1 es2, es = es1 ++ es2 /\ snap = fresh (n_db (fst (run s0 es1))) /\
      q = match n_seq (fst (run s0 es1)) with Some x => x | None => 1 end /\
      exists newer, n_log (fst (run s0 es)) = n_log (fst (run s0 es1)) ++ newer /\
        (forall c, In c newer -> last_number (fst (run s0 es1)) < sequence c) /\
        last_number (fst (run s0 es1)) <= last_number (fst (run s0 es))
  | _ => True
  end.

(** The work after a step is the old one or has just been begun, or is a later
    stage of a snapshot. *)
Lemma step_work n r e :
  n_work (fst (step (n, r) e)) = n_work n /\ (forall p, e <> Done p \/ n_work n = Stopped \/ n_work n = Idle) \/
  entry (fst (step (n, r) e)) (n_work (fst (step (n, r) e))) \/
  n_work (fst (step (n, r) e)) = Stopped \/ pruning (n_work (fst (step (n, r) e))).
Proof.
  assert (T : forall js n', entry (take_jobs js n') (n_work (take_jobs js n'))).
  { intros js n'. destruct (take_jobs_shape fresh js n') as (w & js' & -> & En & _). cbn [n_work with_work]. destruct w; exact En. }
  destruct e as [b o|b| | | | |p|a|a]; cbn [ReplicaModel.step].
  - destruct (n_up n); cbn [fst]; [|left; split; [reflexivity|left; discriminate]].
    unfold ReplicaModel.transaction. destruct (run_body _ _ _ _) as [rec [d|x]];
      [destruct o|]; try (left; split; [reflexivity|left; discriminate]).
    unfold committed, signal. cbn [n_mutations with_mutations].
    destruct (n_mutations n ++ rec); [left; split; [reflexivity|left; discriminate]|]. cbn [n_observing with_mutations with_db].
    destruct (n_observing n); [|left; split; [reflexivity|left; discriminate]].
    unfold observed. destruct (add_events _ _ _ _) as [l' seq'].
    destruct (should_upload_eventstream _ _); [|left; split; [reflexivity|left; discriminate]].
    cbn [n_work with_changes].
    match goal with |- context [queue_job fresh JEvents ?m] => destruct (queue_job_shape fresh JEvents m) as (js & w & -> & Hw) end.
    destruct Hw as [->|[_ En]]; [left; split; [reflexivity|left; discriminate]|right; left].
    cbn [n_work with_work]. destruct w; exact En.
  - destruct (n_up n); [|left; split; [reflexivity|left; discriminate]].
    destruct (run_body _ _ _ _) as [rec [d|x]]; right; right; now left.
  - destruct (n_up n); [left; split; [reflexivity|left; discriminate]|right; right; now left].
  - destruct (n_up n && negb (n_setup n)); [|left; split; [reflexivity|left; discriminate]]. right. left. apply T.
  - destruct (n_up n && negb (n_setup n)); [right; right; now left|left; split; [reflexivity|left; discriminate]].
  - destruct (n_up n && n_setup n && negb (n_observing n)); [|left; split; [reflexivity|left; discriminate]]. right. left. apply T.
  - cbn [fst]. unfold carry_on. destruct (n_work n) eqn:Wk.
    + left. rewrite Wk. auto.
    + left. rewrite Wk. auto.
    + right. left. apply T.
    + right. left. apply T.
    + right. right. right. exact I.
    + destruct (filter _ _); [right; left; apply T|right; right; right; exact I].
    + destruct (tl names); [right; left; apply T|right; right; right; exact I].
    + right. left. apply T.
  - destruct (n_work n) eqn:Wk; try (right; right; now left); left; (split; [exact Wk || (cbn [fst]; now rewrite Wk)|left; discriminate]).
  - right. right. now left.
Qed.

Lemma snapshot_origin d es : origin (new_system S d) es.
Proof.
  induction es as [|e es IH] using rev_ind; [exact I|].
  unfold origin in *. rewrite run_snoc.
  pose proof (base_reach exec fresh text_size stream_size d es) as HB.
  destruct (run (new_system S d) es) as [n r] eqn:E. cbn [fst snd] in *.
  destruct (step_work n r e) as [[Wk Hd]|[En|[Wk|Pr]]].
  - rewrite Wk. destruct (n_work n) as [| | | |q snap| | |] eqn:Wn; try exact I.
    destruct IH as (es1 & es2 & -> & Es & Eq & newer & El & Hn & Hm).
    exists es1, (es2 ++ [e]). rewrite app_assoc. split; [reflexivity|]. split; [exact Es|]. split; [exact Eq|].
    destruct (step_log n r e) as [(ss & imp & (A1 & A2 & _) & _)|(p & h & -> & _)].
    + exists (newer ++ number (bound (n_seq n) + 1) ss imp). rewrite A1, El, app_assoc. split; [reflexivity|].
      rewrite !last_number_bound in *. rewrite A2. split; [|lia].
      intros c Hc. apply in_app_or in Hc as [Hc|Hc]; [now apply Hn|]. apply number_range in Hc. lia.
    + destruct (Hd p) as [X|[X|X]]; congruence.
  - destruct (n_work (fst (step (n, r) e))) as [| | | |q snap| | |] eqn:Wn; try exact I. destruct En as [Eq Es].
    exists (es ++ [e]), []. rewrite app_nil_r, run_snoc, E. split; [reflexivity|]. split; [exact Es|]. split; [exact Eq|].
    exists []. rewrite app_nil_r. split; [reflexivity|]. split; [contradiction|lia].
  - now rewrite Wk.
  - destruct (n_work (fst (step (n, r) e))); try exact I; destruct Pr.
Qed.

(** * The queue *)
Lemma take_begins js n j : In j js -> In j (n_jobs (take_jobs js n)) \/ begun j (take_jobs js n).
Proof.
  revert n. induction js as [|x js IH]; intros n; [contradiction|]. intros [->|H].
  - right. destruct j; cbn.
    + reflexivity.
    + destruct (highest_sequence (n_log n)) as [h|] eqn:E; cbn.
      * right. now exists h.
      * left. apply highest_none in E. now rewrite (proj1 (take_jobs_log _ _)).
    + eexists. reflexivity.
    + reflexivity.
  - destruct x; cbn.
    + now left.
    + destruct (highest_sequence (n_log n)); [now left|]. now apply IH.
    + now left.
    + now left.
Qed.

Lemma queue_begins j n : In j (n_jobs (queue_job fresh j n)) \/ begun j (queue_job fresh j n).
Proof.
  assert (A : In j (n_jobs (append_job j n))) by (now destruct (append_job_shape j n) as (js & -> & _ & H)).
  unfold queue_job. destruct (n_work n) eqn:Wk; try (now left). destruct (mem_job j (n_jobs n)) eqn:E.
  - left. unfold append_job in A. now rewrite E in A.
  - apply take_begins. now left.
Qed.

Lemma queue_keeps i j n : (n_work n = Idle -> n_jobs n = []) -> In i (n_jobs n) -> In i (n_jobs (queue_job fresh j n)).
Proof.
  intros Hi H. unfold queue_job. destruct (n_work n); try (destruct (append_job_shape j n) as (js & -> & K & _); now apply K).
  rewrite (Hi eq_refl) in H. contradiction.
Qed.

(** Events in the life of a process. *)
Definition goes_on (e : event) : Prop := match e with Txn _ _ | Done _ | Fail _ => True | _ => False end.

Lemma jobs_kept n r e j :
  base n r -> goes_on e -> In j (n_jobs n) ->
  In j (n_jobs (fst (step (n, r) e))) \/ begun j (fst (step (n, r) e)).
Proof.
  intros (_ & _ & _ & Hf) G H. destruct Hf as (_ & F2 & _). destruct e as [b o|b| | | | |p|a|a]; try destruct G; cbn [ReplicaModel.step].
  - left. destruct (n_up n); cbn [fst]; [|exact H].
    unfold ReplicaModel.transaction. destruct (run_body _ _ _ _) as [rec [d|x]]; [destruct o|]; try exact H.
    unfold committed, signal. cbn [n_mutations with_mutations]. destruct (n_mutations n ++ rec); [exact H|].
    cbn [n_observing with_mutations with_db]. destruct (n_observing n); [|exact H].
    unfold observed. destruct (add_events _ _ _ _) as [l' seq'].
    destruct (should_upload_eventstream _ _); [|exact H]. cbn [n_jobs with_changes].
    apply queue_keeps; assumption.
  - cbn [fst]. unfold carry_on. destruct (n_work n) eqn:Wk; try (now left).
    + apply take_begins. destruct (r_snapshot _); [destruct (should_upload_eventstream _ _)|]; try exact H;
        match goal with |- In j (n_jobs (append_job ?k n)) => destruct (append_job_shape k n) as (js & -> & K & _) end; now apply K.
    + apply take_begins. match goal with |- In j (n_jobs (append_job ?k ?m)) => destruct (append_job_shape k m) as (js & -> & K & _) end. now apply K.
    + destruct (filter _ _); [now apply take_begins|now left].
    + destruct (tl names); [now apply take_begins|now left].
    + apply take_begins. destruct p; [|exact H]. destruct (append_job_shape JSnapshot n) as (js & -> & K & _). now apply K.
  - left. destruct (n_work n); exact H.
Qed.

(** * Requests *)
(** An important change, or 570000 bytes of changes *)
Definition enough (imp : bool) (size : Z) : Prop := imp = true \/ 570000 <= size.
Lemma should_spec imp size : should_upload_eventstream imp size = true <-> enough imp size.
Proof. unfold should_upload_eventstream, enough, UPLOAD_SIZE. rewrite orb_true_iff, Z.geb_le. tauto. Qed.

Lemma told_nonempty b n : n_replicating n = true -> (exists d, rows (executed b) (n_db n) = Ok d) -> ~ read_only b -> told n b <> [].
Proof.
  intros Hr (d & Hd) NR. unfold told. rewrite Hr. destruct (run_body exec true b (n_db n)) as [rec o] eqn:R. cbn [fst].
  destruct rec as [|m ms]; [|intros E; apply app_eq_nil in E as [_ E]; discriminate].
  exfalso. apply NR. clear NR Hr. revert R Hd. generalize (n_db n). induction b as [|c b IH]; intros d0; cbn; [constructor|].
  rewrite rows_app. destruct (rows (c_rows c) d0) as [d1|x]; [|intros; discriminate].
  destruct (run_body exec true b d1) as [rec1 o1] eqn:R1. destruct (c_mutates c) eqn:M; [discriminate|].
  intros [= -> ->] H. constructor; [exact M|]. exact (IH _ R1 H).
Qed.

Lemma begun_changes j i z n : In j (n_jobs n) \/ begun j n -> In j (n_jobs (with_changes i z n)) \/ begun j (with_changes i z n).
Proof. destruct n. exact (fun H => H). Qed.
Lemma txn_request n r b d :
  base n r -> n_observing n = true -> n_mutations n = [] ->
  rows (executed b) (n_db n) = Ok d -> ~ read_only b ->
  let imp := n_important n || valuable b in
  let size := n_size n + total_size text_size (mutating b) in
  let n' := fst (step (n, r) (Txn b true)) in
  n_db n' = d /\ n_observing n' = true /\ n_mutations n' = [] /\
  (enough imp size -> (In JEvents (n_jobs n') \/ begun JEvents n') /\ n_important n' = false /\ n_size n' = 0) /\
  (~ enough imp size -> n_jobs n' = n_jobs n /\ n_work n' = n_work n /\ n_important n' = imp /\ n_size n' = size).
Proof.
  intros (_ & _ & _ & Hf) Ob Hm Hd NR. destruct Hf as (_ & _ & _ & F4 & F5 & _). destruct (F5 Ob) as [Up Hs].
  assert (Rp : n_replicating n = true) by (now rewrite F4).
  destruct (told_clean Hm Rp (ex_intro _ d Hd)) as [T1 T2].
  pose proof (told_nonempty Rp (ex_intro _ d Hd) NR) as TN.
  intros imp size n'. unfold n'. cbn [ReplicaModel.step]. rewrite Up. cbn [fst].
  unfold ReplicaModel.transaction. unfold told in *. rewrite Rp in *.
  destruct (run_body exec true b (n_db n)) as [rec o] eqn:R. cbn [fst] in *.
  rewrite (run_body_commits Hd R). unfold committed, signal. cbn [n_mutations with_mutations].
  remember (n_mutations n ++ rec) as ms eqn:Ems. destruct ms as [|m ms]; [congruence|].
  cbn [n_observing with_mutations with_db]. rewrite Ob. unfold observed.
  cbn [n_log n_seq n_important n_size with_mutations with_db].
  destruct (add_events _ _ _ _) as [l' seq']. rewrite T1, T2. fold imp.
  change (sumZ (map text_size (mutating b))) with (total_size text_size (mutating b)). fold size.
  destruct (should_upload_eventstream imp size) eqn:E.
  - assert (En : enough imp size) by (now apply should_spec).
    match goal with |- context [queue_job fresh JEvents ?m] =>
      pose proof (@begun_changes JEvents false 0 _ (queue_begins JEvents m)) as Q; destruct (queue_job_shape fresh JEvents m) as (js & w & Eq & _) end.
    split; [rewrite Eq; reflexivity|]. split; [rewrite Eq; exact Ob|]. split; [rewrite Eq; reflexivity|].
    split; [intros _; split; [exact Q|split; reflexivity]|contradiction].
  - assert (NE : ~ enough imp size) by (intros X; apply should_spec in X; congruence).
    cbn [n_db n_observing n_mutations with_changes with_work with_jobs with_log n_jobs n_work n_important n_size].
    repeat split; try reflexivity; try exact Ob; try contradiction.
Qed.

Definition txns (bs : list (body S)) : list event := map (fun b => Txn b true) bs.
(** Each transaction commits and counts as mutating. *)
Fixpoint all_commit (bs : list (body S)) (d : D) : Prop :=
  match bs with [] => True | b :: rest => ~ read_only b /\ exists d', rows (executed b) d = Ok d' /\ all_commit rest d' end.
Definition sum_important n (bs : list (body S)) : bool := n_important n || existsb (@valuable S) bs.
Definition sum_size n (bs : list (body S)) : Z := n_size n + sumZ (map (fun b => total_size text_size (mutating b)) bs).

Lemma quiet_run bs n r :
  base n r -> n_observing n = true -> n_mutations n = [] -> all_commit bs (n_db n) ->
  (forall pre post, bs = pre ++ post -> pre <> [] -> ~ enough (sum_important n pre) (sum_size n pre)) ->
  let n' := fst (run (n, r) (txns bs)) in
  n_jobs n' = n_jobs n /\ n_work n' = n_work n /\ n_important n' = sum_important n bs /\ n_size n' = sum_size n bs /\
  n_observing n' = true /\ n_mutations n' = [].
Proof.
  revert n r. induction bs as [|b bs IH]; intros n r HB Ob Hm HA Q.
  - cbn. unfold sum_important, sum_size. cbn. rewrite orb_false_r, Z.add_0_r. repeat split; assumption.
  - destruct HA as [NR (d' & Hd & HA)].
    destruct (txn_request HB Ob Hm Hd NR) as (T1 & T2 & T3 & _ & T5).
    assert (NE : ~ enough (n_important n || valuable b) (n_size n + total_size text_size (mutating b))).
    { specialize (Q [b] bs eq_refl). unfold sum_important, sum_size in Q. cbn in Q.
      rewrite orb_false_r, Z.add_0_r in Q. apply Q. discriminate. }
    destruct (T5 NE) as (U1 & U2 & U3 & U4). intros n'.
    assert (En : n' = fst (run (step (n, r) (Txn b true)) (txns bs))) by reflexivity. rewrite En. clearbody n'.
    pose proof (@base_step _ _ exec fresh text_size stream_size (n, r) (Txn b true) HB) as HB'.
    destruct (step (n, r) (Txn b true)) as [n1 r1]. cbn [fst snd] in *.
    assert (Si : forall l : list (body S), sum_important n1 l = sum_important n (b :: l)).
    { intros l. unfold sum_important. cbn. now rewrite U3, orb_assoc. }
    assert (Sz : forall l : list (body S), sum_size n1 l = sum_size n (b :: l)).
    { intros l. unfold sum_size. cbn [map sumZ]. rewrite U4. cbn. lia. }
    destruct (IH n1 r1 HB' T2 T3) as (I1 & I2 & I3 & I4 & I5 & I6).
    + now rewrite T1.
    + intros pre post -> Np. rewrite Si, Sz. apply (Q (b :: pre) post); [reflexivity|discriminate].
    + rewrite <- U1, <- U2, <- Si, <- Sz. repeat split; assumption.
Qed.

(** * With nothing failing, the loop gets through its work. *)
Definition weight (j : job) : nat :=
  match j with JStartup => 4 | JEvents => 3 | JConsider => 2 | JSnapshot => 1 end.
Fixpoint queue_weight (js : list job) : nat := match js with [] => 0%nat | j :: rest => (weight j + queue_weight rest)%nat end.
Definition work_weight (w : work D S) : nat :=
  match w with
  | Stopped | Idle => 0
  | Listing => 4
  | Sending _ _ => 3
  | Weighing => 2
  | SendingSnapshot _ _ | ListingOld _ | Unlinking _ _ => 1
  end.
Definition todo n : nat := (work_weight (n_work n) + queue_weight (n_jobs n))%nat.

Lemma take_todo js n : (todo (take_jobs js n) <= queue_weight js)%nat /\ n_work (take_jobs js n) <> Stopped.
Proof.
  unfold todo. revert n. induction js as [|j js IH]; intros n; cbn; [split; [lia|discriminate]|].
  destruct j; cbn; try (split; [lia|discriminate]).
  destruct (highest_sequence (n_log n)); cbn; [split; [lia|discriminate]|].
  destruct (IH (with_jobs js n)) as [I1 I2]. split; [|exact I2]. eapply Nat.le_trans; [exact I1|]. change (queue_weight js <= 3 + queue_weight js)%nat. lia.
Qed.
Lemma append_todo j n : (queue_weight (n_jobs (append_job j n)) <= weight j + queue_weight (n_jobs n))%nat.
Proof.
  unfold append_job. destruct (mem_job j (n_jobs n)); [lia|]. cbn [n_jobs with_jobs].
  induction (n_jobs n) as [|x l IH]; cbn; lia.
Qed.

(** A job in three stages: what remains of it. *)
Definition stages (w : work D S) (r : replica) : nat :=
  match w with
  | SendingSnapshot _ _ => (3 + length (r_streams r))%nat
  | ListingOld _ => (2 + length (r_streams r))%nat
  | Unlinking _ names => length names
  | _ => 0%nat
  end.

Lemma done_todo p n r :
  base n r -> n_work n <> Stopped -> n_work n <> Idle ->
  let s' := step (n, r) (Done p) in
  n_work (fst s') <> Stopped /\
  ((todo (fst s') < todo n)%nat \/
   (todo (fst s') = todo n /\ stages (n_work (fst s')) (snd s') < stages (n_work n) r)%nat).
Proof.
  intros (_ & _ & Hw & _) NS NI s'. unfold s'. cbn [ReplicaModel.step fst snd]. unfold carry_on.
  destruct (n_work n) as [| | |evs h|q s|q|q names|] eqn:Wk; try congruence.
  - match goal with |- context [take_jobs (n_jobs ?m) ?m] => destruct (take_todo (n_jobs m) m) as [T1 T2]; set (n1 := m) in * end.
    split; [exact T2|]. left. unfold todo at 2. rewrite Wk. cbn [work_weight].
    assert (queue_weight (n_jobs n1) <= 3 + queue_weight (n_jobs n))%nat; [|lia].
    unfold n1. pose proof (append_todo JSnapshot n). pose proof (append_todo JEvents n). cbn [weight] in *.
    destruct (r_snapshot _); [destruct (should_upload_eventstream _ _)|]; lia.
  - match goal with |- context [take_jobs (n_jobs ?m) ?m] => destruct (take_todo (n_jobs m) m) as [T1 T2]; set (n1 := m) in * end.
    split; [exact T2|]. left. unfold todo at 2. rewrite Wk. cbn [work_weight].
    assert (queue_weight (n_jobs n1) <= 2 + queue_weight (n_jobs n))%nat; [|lia].
    exact (append_todo JConsider (with_log (prune_events_to h (n_log n)) (n_seq n) n)).
  - split; [discriminate|]. right. unfold todo. rewrite Wk. cbn. lia.
  - cbn [remote_effect].
    destruct (filter (fun name => name <=? q) (dkeys (r_streams r))) as [|x names] eqn:E.
    + destruct (take_todo (n_jobs n) n) as [T1 T2]. split; [exact T2|]. left. unfold todo at 2. rewrite Wk. cbn [work_weight]. lia.
    + split; [discriminate|]. right. unfold todo. rewrite Wk. cbn [n_work with_work n_jobs work_weight stages].
      split; [reflexivity|]. rewrite <- E. clear.
      assert (length (filter (fun name => (name <=? q)%Z) (dkeys (r_streams r))) <= length (r_streams r))%nat; [|lia].
      unfold dkeys. induction (r_streams r) as [|[k v] t IH]; cbn; [lia|]. destruct (k <=? q); cbn; lia.
  - destruct names as [|x names]; [now destruct Hw|]. cbn [tl]. destruct names as [|y names].
    + destruct (take_todo (n_jobs n) n) as [T1 T2]. split; [exact T2|]. left. unfold todo at 2. rewrite Wk. cbn [work_weight]. lia.
    + split; [discriminate|]. right. unfold todo. rewrite Wk. cbn. lia.
  - match goal with |- context [take_jobs (n_jobs ?m) ?m] => destruct (take_todo (n_jobs m) m) as [T1 T2]; set (n1 := m) in * end.
    split; [exact T2|]. left. unfold todo at 2. rewrite Wk. cbn [work_weight].
    assert (queue_weight (n_jobs n1) <= 1 + queue_weight (n_jobs n))%nat; [|lia].
    unfold n1. destruct p; [exact (append_todo JSnapshot n)|lia].
Qed.

(** The decisions of the snapshot policy are arbitrary. *)
Fixpoint dones (ps : nat -> bool) (k : nat) : list event :=
  match k with O => [] | Datatypes.S k' => Done (ps O) :: dones (fun i => ps (Datatypes.S i)) k' end.

Lemma gets_idle n r ps :
  base n r -> n_work n <> Stopped -> exists k, n_work (fst (run (n, r) (dones ps k))) = Idle.
Proof.
  remember (todo n) as a eqn:Ea. revert n r ps Ea.
  induction a as [a IHa] using (well_founded_induction lt_wf). intros n r ps Ea.
  remember (stages (n_work n) r) as b eqn:Eb. revert n r ps Ea Eb.
  induction b as [b IHb] using (well_founded_induction lt_wf). intros n r ps Ea Eb HB NS.
  assert (Dec : n_work n = Idle \/ n_work n <> Idle) by (destruct (n_work n); auto; right; discriminate).
  destruct Dec as [Wi|NI]; [exists 0%nat; exact Wi|].
  destruct (done_todo (ps O) HB NS NI) as [NS' Dn].
  pose proof (@base_step _ _ exec fresh text_size stream_size (n, r) (Done (ps O)) HB) as HB'.
  destruct (step (n, r) (Done (ps O))) as [n1 r1] eqn:Es. cbn [fst snd] in *.
  assert (Nx : exists k, n_work (fst (run (n1, r1) (dones (fun i => ps (Datatypes.S i)) k))) = Idle).
  { destruct Dn as [Dn|[Dn1 Dn2]].
    - apply (IHa (todo n1)); auto. lia.
    - apply (IHb (stages (n_work n1) r1)); auto; [lia|congruence]. }
  destruct Nx as [k Hk]. exists (Datatypes.S k). cbn [dones].
  change (run (n, r) (Done (ps O) :: dones (fun i => ps (Datatypes.S i)) k))
    with (run (step (n, r) (Done (ps O))) (dones (fun i => ps (Datatypes.S i)) k)).
  now rewrite Es.
Qed.

(** An upload that has been requested empties the log. *)
Definition will_upload n : Prop := In JEvents (n_jobs n) \/ begun JEvents n.

Lemma will_upload_done p n r : base n r -> will_upload n -> will_upload (fst (step (n, r) (Done p))).
Proof.
  intros HB H. destruct H as [H|[H|(h & H)]].
  - exact (@jobs_kept n r (Done p) JEvents HB I H).
  - right. left. destruct (step_log n r (Done p)) as [(ss & imp & (A1 & _) & [[-> ->]|(b & ? & _)])|(p' & h & _ & _ & E & _)].
    + rewrite A1, H. reflexivity.
    + discriminate.
    + rewrite E, H. reflexivity.
  - right. left. destruct (@upload_done p n r (n_log n) h HB H) as (newer & E1 & E2 & _). rewrite E2.
    rewrite <- (app_nil_r (n_log n)) in E1 at 1. now apply app_inv_head in E1.
Qed.

Lemma upload_happens n r ps k :
  base n r -> will_upload n -> n_work (fst (run (n, r) (dones ps k))) = Idle -> n_log (fst (run (n, r) (dones ps k))) = [].
Proof.
  revert n r ps. induction k as [|k IH]; intros n r ps HB H.
  - cbn. intros Wi. destruct HB as (_ & _ & _ & Hf). destruct Hf as (_ & F2 & _). destruct H as [H|[H|(h & H)]].
    + rewrite (F2 Wi) in H. contradiction.
    + exact H.
    + congruence.
  - cbn [dones]. change (run (n, r) (Done (ps O) :: dones (fun i => ps (Datatypes.S i)) k))
      with (run (step (n, r) (Done (ps O))) (dones (fun i => ps (Datatypes.S i)) k)).
    pose proof (@base_step _ _ exec fresh text_size stream_size (n, r) (Done (ps O)) HB) as HB'.
    pose proof (will_upload_done (ps O) HB H) as H'.
    destruct (step (n, r) (Done (ps O))) as [n1 r1]. now apply IH.
Qed.

(** * A loop that has ended *)
Lemma dead_stays n r e :
  n_observing n = true -> n_work n = Stopped -> goes_on e ->
  n_work (fst (step (n, r) e)) = Stopped /\ snd (step (n, r) e) = r /\ n_observing (fst (step (n, r) e)) = true.
Proof.
  intros Ob Wk G. destruct e as [b o|b| | | | |p|a|a]; try destruct G; cbn [ReplicaModel.step].
  - destruct (n_up n); cbn [fst snd]; [|auto].
    unfold ReplicaModel.transaction. destruct (run_body _ _ _ _) as [rec [d|x]]; [destruct o|]; try (repeat split; assumption).
    unfold committed, signal. cbn [n_mutations with_mutations]. destruct (n_mutations n ++ rec); [repeat split; assumption|].
    cbn [n_observing with_mutations with_db]. rewrite Ob.
    unfold observed. destruct (add_events _ _ _ _) as [l' seq'].
    destruct (should_upload_eventstream _ _); [|repeat split; assumption]. cbn [n_work n_observing with_changes].
    unfold queue_job. cbn [n_work with_changes with_log with_mutations with_db]. rewrite Wk.
    match goal with |- context [append_job ?k ?m] => destruct (append_job_shape k m) as (js & -> & _) end. repeat split; assumption.
  - cbn [fst snd]. unfold carry_on. rewrite Wk. cbn. repeat split; assumption.
  - rewrite Wk. cbn. repeat split; assumption.
Qed.

(** * What a commit records *)
Lemma commit_recorded n r b d :
  n_observing n = true -> n_up n = true -> n_replicating n = true ->
  rows (executed b) (n_db n) = Ok d ->
  exists stale news imp,
    n_log (fst (step (n, r) (Txn b true))) = n_log n ++ news /\
    records n (stale ++ mutating b) imp news /\
    (n_mutations n = [] -> stale = [] /\ (mutating b <> [] -> imp = valuable b)).
Proof.
  intros Ob Up Rp Hd. cbn [ReplicaModel.step]. rewrite Up. cbn [fst]. unfold ReplicaModel.transaction.
  destruct (run_body exec (n_replicating n) b (n_db n)) as [rec x] eqn:R. rewrite Rp in R.
  pose proof (run_body_commits Hd R). subst x. pose proof (run_body_rows R) as E1. pose proof (run_body_important R) as E2.
  exists (all_rows (n_mutations n)). 
  assert (A : all_rows (n_mutations n) ++ mutating b = all_rows (n_mutations n ++ rec)).
  { unfold all_rows in *. rewrite flat_map_app. now rewrite E1. }
  unfold committed, signal. cbn [n_mutations with_mutations]. destruct (n_mutations n ++ rec) as [|m ms] eqn:Em.
  - exists [], false. split; [cbn; now rewrite app_nil_r|]. rewrite A. split; [split; [reflexivity|intros i c H; destruct i; discriminate]|].
    intros Hm. rewrite Hm in *. split; [reflexivity|]. cbn in Em. subst rec. cbn in E1. now rewrite <- E1.
  - cbn [n_observing with_mutations with_db]. rewrite Ob.
    exists (number (bound (n_seq n) + 1) (all_rows (m :: ms)) (any_important (m :: ms))), (any_important (m :: ms)).
    match goal with |- n_log (observed _ _ _ ?k) = _ /\ _ => destruct (observed_log (m :: ms) k) as (O1 & _) end.
    split; [exact O1|]. rewrite A. split; [exact (number_records n _ _)|].
    intros Hm. rewrite Hm in *. cbn [app] in Em. subst rec. split; [reflexivity|]. intros _. exact E2.
Qed.

Lemma all_commit_app bs b d : all_commit (bs ++ [b]) d ->
  all_commit bs d /\ ~ read_only b /\
  forall n r, base n r -> n_db n = d -> n_observing n = true -> n_mutations n = [] ->
  exists d', rows (executed b) (n_db (fst (run (n, r) (txns bs)))) = Ok d'.
Proof.
  revert d. induction bs as [|c bs IH]; intros d; cbn [app all_commit].
  - intros [NR (d' & Hd & _)]. split; [exact I|]. split; [exact NR|]. intros n r _ <- _ _. exists d'. exact Hd.
  - intros [NR (d' & Hd & HA)]. destruct (IH _ HA) as (I1 & I2 & I3). split; [split; [exact NR|now exists d']|]. split; [exact I2|].
    intros n r HB <- Ob Hm. destruct (txn_request HB Ob Hm Hd NR) as (T1 & T2 & T3 & _).
    pose proof (@base_step _ _ exec fresh text_size stream_size (n, r) (Txn c true) HB) as HB'.
    change (run (n, r) (txns (c :: bs))) with (run (step (n, r) (Txn c true)) (txns bs)).
    destruct (step (n, r) (Txn c true)) as [n1 r1]. cbn [fst snd] in *. now apply I3.
Qed.

Lemma batch_request n r bs b :
  base n r -> n_observing n = true -> n_mutations n = [] -> all_commit (bs ++ [b]) (n_db n) ->
  (forall pre post, bs = pre ++ post -> pre <> [] -> ~ enough (sum_important n pre) (sum_size n pre)) ->
  let before := fst (run (n, r) (txns bs)) in
  let after := fst (run (n, r) (txns (bs ++ [b]))) in
  n_jobs before = n_jobs n /\ n_work before = n_work n /\
  (enough (sum_important n (bs ++ [b])) (sum_size n (bs ++ [b])) ->
     (In JEvents (n_jobs after) \/ begun JEvents after) /\ n_important after = false /\ n_size after = 0) /\
  (~ enough (sum_important n (bs ++ [b])) (sum_size n (bs ++ [b])) ->
     n_jobs after = n_jobs n /\ n_work after = n_work n).
Proof.
  intros HB Ob Hm HA Q before after. destruct (all_commit_app HA) as (A1 & A2 & A3).
  destruct (quiet_run HB Ob Hm A1 Q) as (Q1 & Q2 & Q3 & Q4 & Q5 & Q6).
  destruct (A3 n r HB eq_refl Ob Hm) as (d' & Hd).
  pose proof (@base_run _ _ exec fresh text_size stream_size (txns bs) (n, r) HB) as HB'.
  assert (Ea : after = fst (step (run (n, r) (txns bs)) (Txn b true))).
  { unfold after, txns. rewrite map_app. cbn [map]. now rewrite run_snoc. }
  fold before in Q1, Q2, Q3, Q4, Q5, Q6, Hd.
  destruct (run (n, r) (txns bs)) as [n1 r1]. cbn [fst snd] in *. subst before. cbn [fst] in *.
  destruct (txn_request HB' Q5 Q6 Hd A2) as (_ & _ & _ & T4 & T5). rewrite <- Ea in T4, T5.
  assert (Si : n_important n1 || valuable b = sum_important n (bs ++ [b])).
  { rewrite Q3. unfold sum_important. rewrite existsb_app. cbn. now rewrite orb_false_r, orb_assoc. }
  assert (Sz : n_size n1 + total_size text_size (mutating b) = sum_size n (bs ++ [b])).
  { rewrite Q4. unfold sum_size. rewrite map_app. rewrite sumZ_app. cbn. lia. }
  rewrite Si, Sz in T4, T5. split; [exact Q1|]. split; [exact Q2|]. split; [exact T4|].
  intros NE. destruct (T5 NE) as (U1 & U2 & _). split; congruence.
Qed.

(** * Order of replay *)
Section Sort.
Variable A : Type.
Variable key : A -> Z.
Lemma insert_perm x (l : list A) : Permutation (insert_by key x l) (x :: l).
Proof.
  induction l as [|y l IH]; cbn; [reflexivity|]. destruct (key x <=? key y); [reflexivity|].
  rewrite IH. apply perm_swap.
Qed.
Lemma sorted_by_perm (l : list A) : Permutation (sorted_by key l) l.
Proof. induction l as [|x l IH]; cbn; [reflexivity|]. rewrite insert_perm. now constructor. Qed.
Lemma insert_sorted x (l : list A) :
  StronglySorted (fun a b => key a <= key b) l -> StronglySorted (fun a b => key a <= key b) (insert_by key x l).
Proof.
  induction 1 as [|y l Hs IH Hf]; cbn; [repeat constructor|]. destruct (Z.leb_spec (key x) (key y)) as [H|H].
  - constructor; [now constructor|]. constructor; [exact H|]. rewrite Forall_forall in *. intros z Hz. specialize (Hf z Hz). lia.
  - constructor; [exact IH|]. rewrite Forall_forall in *. intros z Hz.
    apply (Permutation_in _ (insert_perm x l)) in Hz as [<-|Hz]; [lia|now apply Hf].
Qed.
Lemma sorted_by_sorted (l : list A) : StronglySorted (fun a b => key a <= key b) (sorted_by key l).
Proof. induction l as [|x l IH]; cbn; [constructor|]. now apply insert_sorted. Qed.

Lemma sorted_unique (l l' : list A) :
  NoDup (map key l) -> Permutation l l' ->
  StronglySorted (fun a b => key a <= key b) l -> StronglySorted (fun a b => key a <= key b) l' -> l = l'.
Proof.
  revert l'. induction l as [|x l IH]; intros l' Nd P S1 S2.
  - symmetry. now apply Permutation_nil.
  - destruct l' as [|y l']; [now apply Permutation_sym, Permutation_nil in P|].
    inversion S1 as [|? ? S1' F1]. inversion S2 as [|? ? S2' F2]. subst. rewrite Forall_forall in *.
    cbn in Nd. inversion Nd as [|? ? Nx Nd']. subst.
    assert (x = y).
    { assert (Hy : In y (x :: l)) by (apply (Permutation_in _ (Permutation_sym P)); now left).
      assert (Hx : In x (y :: l')) by (apply (Permutation_in _ P); now left).
      destruct Hy as [->|Hy]; [reflexivity|]. destruct Hx as [->|Hx]; [reflexivity|].
      exfalso. apply Nx. specialize (F1 y Hy). specialize (F2 x Hx). replace (key x) with (key y) by lia. now apply in_map. }
    subst y. f_equal. apply IH; auto. now apply Permutation_cons_inv in P.
Qed.
End Sort.

Lemma sorted_streams_spec (ls : list (list change)) :
  Permutation (sorted_event_streams ls) (filter (fun l => match l with [] => false | _ => true end) ls) /\
  StronglySorted (fun a b => forall i j, highest_sequence a = Some i -> highest_sequence b = Some j -> i <= j)
    (sorted_event_streams ls).
Proof.
  unfold sorted_event_streams. split; [apply sorted_by_perm|].
  pose proof (sorted_by_sorted (@sort_key S) (filter (fun l => match l with [] => false | _ => true end) ls)) as H.
  induction H as [|x l Hs IH Hf]; constructor; [exact IH|]. rewrite Forall_forall in *. intros y Hy i j Hi Hj.
  specialize (Hf y Hy). unfold sort_key in Hf. now rewrite Hi, Hj in Hf.
Qed.

Lemma filter_perm A (f : A -> bool) (l l' : list A) : Permutation l l' -> Permutation (filter f l) (filter f l').
Proof.
  induction 1 as [|x l l' P IH|x y l|l l1 l2 P1 IH1 P2 IH2]; cbn.
  - constructor.
  - destruct (f x); [now constructor|assumption].
  - destruct (f x), (f y); try reflexivity. apply perm_swap.
  - etransitivity; eassumption.
Qed.

Lemma streams_nodup (st : dict (list change)) (f : list change -> bool) :
  NoDup (dkeys st) -> (forall k evs, In (k, evs) st -> highest_sequence evs = Some k) ->
  NoDup (map (@sort_key S) (filter f (dvalues st))).
Proof.
  unfold dkeys, dvalues. induction st as [|[k evs] st IH]; cbn; intros Nd H; [constructor|].
  inversion Nd as [|? ? Nx Nd']. subst.
  assert (IH' : NoDup (map (@sort_key S) (filter f (map snd st)))) by (apply IH; [exact Nd'|intros; apply H; now right]).
  destruct (f evs); [|exact IH']. cbn. constructor; [|exact IH'].
  intros X. apply Nx. apply in_map_iff in X as (evs' & E & X). apply filter_In in X as [X _].
  apply in_map_iff in X as ([k' evs''] & E' & X). cbn in E'. subst evs''.
  pose proof (H _ _ (or_intror X)) as H1. pose proof (H _ _ (or_introl eq_refl)) as H2.
  unfold sort_key in E. rewrite H1, H2 in E. subst k'. apply in_map_iff. exists (k, evs'). now split.
Qed.

Lemma listing_order snap (st st' : dict (list change)) seq :
  dir_ok st seq -> Permutation st' st ->
  recover exec (Replica snap st') = recover exec (Replica snap st).
Proof.
  intros Hd P. unfold recover. cbn [r_snapshot r_streams]. destruct snap as [s|]; [|reflexivity].
  assert (E : sorted_event_streams (dvalues st') = sorted_event_streams (dvalues st)); [|now rewrite E].
  unfold sorted_event_streams.
  set (f := fun l : list change => match l with [] => false | _ => true end).
  assert (Pf : Permutation (filter f (dvalues st')) (filter f (dvalues st))) by (apply filter_perm; unfold dvalues; now apply Permutation_map).
  apply (@sorted_unique _ (@sort_key S)).
  - assert (Nk : NoDup (map (@sort_key S) (filter f (dvalues st)))).
    { destruct Hd as (D1 & D2). apply streams_nodup; [exact D1|]. intros k evs X. exact (proj1 (D2 k evs X)). }
    eapply Permutation_NoDup; [|exact Nk]. apply Permutation_map. symmetry.
    rewrite sorted_by_perm. exact Pf.
  - rewrite !sorted_by_perm. exact Pf.
  - apply sorted_by_sorted.
  - apply sorted_by_sorted.
Qed.

Lemma dead_run n r es :
  n_observing n = true -> n_work n = Stopped -> Forall goes_on es ->
  snd (run (n, r) es) = r /\ n_work (fst (run (n, r) es)) = Stopped.
Proof.
  intros Ob Wk H. revert n r Ob Wk. induction H as [|e es G H IH]; intros n r Ob Wk; [now split|].
  destruct (dead_stays r Ob Wk G) as (H1 & H2 & H3).
  change (run (n, r) (e :: es)) with (run (step (n, r) e) es).
  destruct (step (n, r) e) as [n1 r1]. cbn [fst snd] in *. subst r1. now apply IH.
Qed.
End Log.
