(** Lemmas about replication. *)
From Verif Require Import Prelude StoreModel ReplicaModel ReplicaSpec.
From Coq Require Import Sorting.Sorted Sorting.Permutation.
Set Implicit Arguments.
Unset Strict Implicit.

(** * Lists *)
Lemma filter_all A (f : A -> bool) l : (forall x, In x l -> f x = true) -> filter f l = l.
Proof.
  induction l as [|x l IH]; intros H; cbn; [reflexivity|].
  rewrite (H x) by (left; reflexivity). now rewrite IH by (intros; apply H; right; assumption).
Qed.
Lemma filter_none A (f : A -> bool) l : (forall x, In x l -> f x = false) -> filter f l = [].
Proof.
  induction l as [|x l IH]; intros H; cbn; [reflexivity|].
  rewrite (H x) by (left; reflexivity). apply IH. intros; apply H; right; assumption.
Qed.

Lemma NoDup_snoc A (l : list A) x : NoDup l -> ~ In x l -> NoDup (l ++ [x]).
Proof.
  intros H N. apply NoDup_Add with (a := x) (l := l); [|auto].
  rewrite <- (app_nil_r l) at 1. apply Add_app.
Qed.
Lemma NoDup_suffix A (a b : list A) : NoDup (a ++ b) -> NoDup b.
Proof. induction a as [|x a IH]; cbn; [trivial|]. intros H. inversion H; subst. auto. Qed.

Lemma sorted_app (l1 l2 : list Z) :
  StronglySorted Z.lt (l1 ++ l2) <->
  StronglySorted Z.lt l1 /\ StronglySorted Z.lt l2 /\ (forall x y, In x l1 -> In y l2 -> x < y).
Proof.
  induction l1 as [|a l1 IH]; cbn.
  - split; [intros H; repeat split; [constructor|assumption|contradiction]|intros [_ [H _]]; exact H].
  - split.
    + intros H. inversion H as [|? ? Hs Hf]; subst. apply IH in Hs as (H1 & H2 & H3).
      rewrite Forall_app in Hf. destruct Hf as [F1 F2]. rewrite Forall_forall in F2.
      repeat split; [constructor; assumption|assumption|].
      intros x y [<-|Hx] Hy; [now apply F2|now apply H3].
    + intros (H1 & H2 & H3). inversion H1 as [|? ? Hs Hf]; subst. constructor.
      * apply IH. repeat split; [assumption|assumption|]. intros; apply H3; [right|]; assumption.
      * rewrite Forall_app. split; [assumption|]. rewrite Forall_forall. intros y Hy. apply H3; [now left|assumption].
Qed.

Section Proofs.
Variables D S : Type.
Variable exec : S -> D -> res exn D.
Variable fresh : D -> D.
Variable text_size : S -> Z.
Variable stream_size : list (change S) -> Z.
Notation system := (system D S).
Notation node := (node D S).
Notation replica := (replica D S).
Notation event := (event S).
Notation change := (change S).
Notation step := (step exec fresh text_size stream_size).
Notation run := (run exec fresh text_size stream_size).
Notation rows := (exec_rows exec).
Notation take_jobs := (take_jobs fresh).
Notation replay := (replay exec).
Notation replay_all := (replay_all exec).
Implicit Types (n : node) (r : replica) (l : list change).

(** * Execution *)
Lemma rows_app a b d : rows (a ++ b) d = match rows a d with Ok d1 => rows b d1 | Err e => Err e end.
Proof.
  revert d. induction a as [|s a IH]; intros d; cbn; [reflexivity|].
  destruct (exec s d) as [d1|e]; cbn; [apply IH|reflexivity].
Qed.

Lemma replay_app l1 l2 d : replay (l1 ++ l2) d = match replay l1 d with Ok d1 => replay l2 d1 | Err e => Err e end.
Proof. unfold ReplicaModel.replay. rewrite map_app. apply rows_app. Qed.

Lemma replay_all_app a b d :
  replay_all (a ++ b) d = match replay_all a d with Ok d1 => replay_all b d1 | Err e => Err e end.
Proof.
  revert d. induction a as [|s a IH]; intros d; cbn; [reflexivity|].
  destruct (replay s d) as [d1|e]; cbn; [apply IH|reflexivity].
Qed.

Lemma replay_all_one l d : replay_all [l] d = replay l d.
Proof. cbn. now destruct (replay l d). Qed.

(** What a body records and does. *)
Lemma run_body_ok rep b d rec d' : run_body exec rep b d = (rec, Ok d') -> rows (executed b) d = Ok d'.
Proof.
  revert d rec. induction b as [|c b IH]; intros d rec; cbn.
  - now intros [= _ <-].
  - destruct (rows (c_rows c) d) as [d1|e] eqn:E; [|now intros [= _ ?]].
    destruct (run_body exec rep b d1) as [rec1 r1] eqn:R. intros [= _ ->].
    rewrite rows_app, E. exact (IH _ _ R).
Qed.

Lemma run_body_commits rep b d d' rec o :
  rows (executed b) d = Ok d' -> run_body exec rep b d = (rec, o) -> o = Ok d'.
Proof.
  revert d rec. induction b as [|c b IH]; intros d rec H; cbn in *.
  - injection H as <-. now intros [= _ <-].
  - rewrite rows_app in H. destruct (rows (c_rows c) d) as [d1|e]; [|discriminate].
    destruct (run_body exec rep b d1) as [rec1 o1] eqn:R1. intros [= _ <-]. exact (IH _ _ H R1).
Qed.

Lemma run_body_rows b d rec d' :
  run_body exec true b d = (rec, Ok d') -> all_rows rec = mutating b.
Proof.
  revert d rec. induction b as [|c b IH]; intros d rec; cbn.
  - now intros [= <- _].
  - destruct (rows (c_rows c) d) as [d1|e] eqn:E; [|now intros [= _ ?]].
    destruct (run_body exec true b d1) as [rec1 r1] eqn:R. intros [= <- ->].
    destruct (c_mutates c); unfold all_rows in *; cbn; now rewrite (IH _ _ R).
Qed.

Lemma run_body_important b d rec d' :
  run_body exec true b d = (rec, Ok d') -> any_important rec = valuable b.
Proof.
  revert d rec. induction b as [|c b IH]; intros d rec; cbn.
  - now intros [= <- _].
  - destruct (rows (c_rows c) d) as [d1|e] eqn:E; [|now intros [= _ ?]].
    destruct (run_body exec true b d1) as [rec1 r1] eqn:R. intros [= <- ->].
    destruct (c_mutates c); unfold any_important in *; cbn; now rewrite (IH _ _ R).
Qed.

Lemma run_body_off b d rec o : run_body exec false b d = (rec, o) -> rec = [].
Proof.
  revert d rec. induction b as [|c b IH]; intros d rec; cbn.
  - now intros [= <- _].
  - destruct (rows (c_rows c) d) as [d1|e] eqn:E; [|now intros [= <- ?]].
    destruct (run_body exec false b d1) as [rec1 r1] eqn:R. intros [= <- ->]. exact (IH _ _ R).
Qed.

Lemma run_body_read_only rep b d rec o : read_only b -> run_body exec rep b d = (rec, o) -> rec = [].
Proof.
  intros H. revert d rec. induction H as [|c b Hc Hb IH]; intros d rec; cbn.
  - now intros [= <- _].
  - destruct (rows (c_rows c) d) as [d1|e] eqn:E; [|now intros [= <- ?]].
    destruct (run_body exec rep b d1) as [rec1 r1] eqn:R. rewrite Hc, andb_false_r. intros [= <- ->].
    exact (IH _ _ R).
Qed.

Lemma honest_mutating b d d' : honest exec b -> rows (executed b) d = Ok d' -> rows (mutating b) d = Ok d'.
Proof.
  intros H. revert d. induction H as [|c b Hc Hb IH]; intros d; cbn; [trivial|].
  rewrite rows_app. destruct (rows (c_rows c) d) as [d1|e] eqn:E; [|discriminate].
  intros R. destruct (c_mutates c) eqn:M.
  - rewrite rows_app, E. now apply IH.
  - rewrite (Hc eq_refl _ _ E) in R. cbn. now apply IH.
Qed.

Lemma read_only_mutating (b : body S) : read_only b -> mutating b = [].
Proof. induction 1 as [|c b Hc Hb IH]; cbn; [reflexivity|]. rewrite Hc. exact IH. Qed.

Lemma honest_read_only b d d' : honest exec b -> read_only b -> rows (executed b) d = Ok d' -> d' = d.
Proof.
  intros H R E. pose proof (honest_mutating H E) as M. rewrite (read_only_mutating R) in M. now injection M.
Qed.

(** * The log *)
Definition bound (seq : option Z) : Z := match seq with Some s => s | None => 0 end.

Fixpoint number (from : Z) (ss : list S) (imp : bool) : list change :=
  match ss with [] => [] | s :: rest => Change from s imp :: number (from + 1) rest imp end.

Lemma add_events_eq l seq ss imp :
  add_events l seq ss imp =
  (l ++ number (bound seq + 1) ss imp,
   match ss with [] => seq | _ => Some (bound seq + Z.of_nat (length ss)) end).
Proof.
  revert l seq. induction ss as [|s ss IH]; intros l seq; cbn [add_events number].
  - now rewrite app_nil_r.
  - assert (N : next_seq seq = bound seq + 1) by (destruct seq; reflexivity).
    rewrite IH, N. cbn [bound]. rewrite <- app_assoc. cbn [app].
    f_equal. destruct ss; cbn [length]; f_equal; lia.
Qed.

Lemma number_statements from ss imp : map (@statement S) (number from ss imp) = ss.
Proof. revert from. induction ss as [|s ss IH]; intros from; cbn; [reflexivity|]. now rewrite IH. Qed.
Lemma number_important from ss imp c : In c (number from ss imp) -> important c = imp.
Proof. revert from. induction ss as [|s ss IH]; intros from; cbn; [contradiction|]. intros [<-|H]; [reflexivity|eauto]. Qed.
Lemma number_range from ss imp c :
  In c (number from ss imp) -> from <= sequence c < from + Z.of_nat (length ss).
Proof.
  revert from. induction ss as [|s ss IH]; intros from; cbn -[Z.of_nat]; [contradiction|].
  intros [<-|H]; cbn -[Z.of_nat]; [lia|]. apply IH in H. lia.
Qed.
Lemma number_sorted from ss imp : StronglySorted Z.lt (map (@sequence S) (number from ss imp)).
Proof.
  revert from. induction ss as [|s ss IH]; intros from; cbn; constructor; [apply IH|].
  rewrite Forall_forall. intros x Hx. apply in_map_iff in Hx as (c & <- & Hc). apply number_range in Hc. lia.
Qed.
Lemma number_seqs from ss imp :
  map (@sequence S) (number from ss imp) = map (fun i => from + Z.of_nat i) (seq 0 (length ss)).
Proof.
  revert from. induction ss as [|s ss IH]; intros from; cbn -[Z.of_nat]; [reflexivity|].
  f_equal; [lia|]. rewrite IH, <- seq_shift, map_map. apply map_ext. intros; lia.
Qed.
Lemma number_length from ss imp : length (number from ss imp) = length ss.
Proof. revert from. induction ss as [|s ss IH]; intros from; cbn; [reflexivity|]. now rewrite IH. Qed.

Lemma fold_max_le ls a : a <= fold_left Z.max ls a.
Proof. revert a. induction ls as [|x ls IH]; intros a; cbn; [lia|]. specialize (IH (Z.max a x)). lia. Qed.
Lemma fold_max_in ls a x : In x ls -> x <= fold_left Z.max ls a.
Proof.
  revert a. induction ls as [|y ls IH]; intros a; cbn; [contradiction|]. intros [<-|H]; [|eauto].
  pose proof (@fold_max_le ls (Z.max a y)). lia.
Qed.
Lemma fold_max_one ls a : fold_left Z.max ls a = a \/ In (fold_left Z.max ls a) ls.
Proof.
  revert a. induction ls as [|y ls IH]; intros a; cbn; [now left|]. destruct (IH (Z.max a y)) as [H|H]; [|auto].
  rewrite H. destruct (Z.max_spec a y) as [[_ ->]|[_ ->]]; auto.
Qed.

Lemma highest_none l : highest_sequence l = None <-> l = [].
Proof. destruct l; cbn; split; congruence. Qed.
Lemma highest_ge l h c : highest_sequence l = Some h -> In c l -> sequence c <= h.
Proof.
  destruct l as [|c0 l]; cbn; [discriminate|]. intros [= <-] [<-|H].
  - apply fold_max_le.
  - apply fold_max_in. now apply in_map.
Qed.
Lemma highest_in l h : highest_sequence l = Some h -> exists c, In c l /\ sequence c = h.
Proof.
  destruct l as [|c0 l]; cbn; [discriminate|]. intros [= <-].
  destruct (fold_max_one (map (@sequence S) l) (sequence c0)) as [->|H]; [exists c0; auto|].
  apply in_map_iff in H as (c & E & Hc). exists c. auto.
Qed.

Lemma prune_split l h evs newer :
  l = evs ++ newer -> (forall c, In c evs -> sequence c <= h) -> (forall c, In c newer -> h < sequence c) ->
  prune_events_to h l = newer.
Proof.
  intros -> H1 H2. unfold prune_events_to. rewrite filter_app.
  rewrite filter_none, filter_all; [reflexivity| |].
  - intros c Hc. apply negb_true_iff, Z.leb_gt. now apply H2.
  - intros c Hc. apply negb_false_iff, Z.leb_le. now apply H1.
Qed.

Lemma sorted_prune l h : StronglySorted Z.lt (map (@sequence S) l) ->
  exists old, l = old ++ prune_events_to h l /\ (forall c, In c old -> sequence c <= h).
Proof.
  induction l as [|c l IH]; intros H; cbn.
  - now exists [].
  - inversion H as [|? ? Hs Hf]; subst. destruct (sequence c <=? h) eqn:E; cbn.
    + destruct (IH Hs) as (old & Eo & Ho). exists (c :: old). split; [cbn; f_equal; exact Eo|].
      intros x [<-|Hx]; [lia|auto].
    + exists []. cbn. split; [|contradiction]. f_equal. symmetry. apply filter_all.
      intros x Hx. apply negb_true_iff, Z.leb_gt. rewrite Forall_forall in Hf.
      specialize (Hf (sequence x)). rewrite Z.leb_gt in E.
      assert (sequence c < sequence x) by (apply Hf; now apply in_map). lia.
Qed.

(** * Jobs *)

(** The state of a loop that has just begun something. *)
Definition entry n (w : work D S) : Prop :=
  match w with
  | Idle | Listing | Weighing => True
  | Sending evs h => evs = n_log n /\ highest_sequence evs = Some h
  | SendingSnapshot q s => q = match n_seq n with Some x => x | None => 1 end /\ s = fresh (n_db n)
  | _ => False
  end.

Lemma take_jobs_shape js n :
  exists w js', take_jobs js n = with_work w (with_jobs js' n) /\ entry n w /\
                (w = Idle -> js' = []) /\ (exists done, js = done ++ js').
Proof.
  revert n. induction js as [|j js IH]; intros n; cbn.
  - exists Idle, []. repeat split. now exists [].
  - destruct j; cbn.
    + exists Listing, js. repeat split; [discriminate|now exists [JStartup]].
    + destruct (highest_sequence (n_log n)) as [h|] eqn:E.
      * exists (Sending (n_log n) h), js. repeat split; [exact E|discriminate|now exists [JEvents]].
      * destruct (IH (with_jobs js n)) as (w & js' & Eq & En & Hi & done & Hd).
        exists w, js'. rewrite Eq. split; [reflexivity|]. split; [destruct w; exact En|]. split; [exact Hi|]. exists (JEvents :: done). cbn. now f_equal.
    + eexists (SendingSnapshot _ _), js. repeat split; [discriminate|now exists [JSnapshot]].
    + exists Weighing, js. repeat split; [discriminate|now exists [JConsider]].
Qed.

Lemma with_jobs_jobs js js' n : with_jobs js (with_jobs js' n) = with_jobs js n.
Proof. reflexivity. Qed.

Lemma append_job_shape j n : exists js, append_job j n = with_jobs js n /\ (forall x, In x (n_jobs n) -> In x js) /\ In j js.
Proof.
  unfold append_job. destruct (mem_job j (n_jobs n)) eqn:E.
  - exists (n_jobs n). split; [now destruct n|]. split; [auto|].
    unfold mem_job in E. apply existsb_exists in E as (x & Hx & Ex). destruct j, x; try discriminate; exact Hx.
  - exists (n_jobs n ++ [j]). split; [reflexivity|]. split; [intros; apply in_or_app; auto|apply in_or_app; right; now left].
Qed.

Lemma queue_job_shape j n :
  exists js w, queue_job fresh j n = with_work w (with_jobs js n) /\
               (w = n_work n \/ n_work n = Idle /\ entry n w).
Proof.
  unfold queue_job. destruct (n_work n) eqn:W;
    try (destruct (append_job_shape j n) as (js & -> & _); exists js, (n_work n); split; [|rewrite W; auto];
         destruct n; cbn in *; reflexivity).
  destruct (mem_job j (n_jobs n)).
  - exists (n_jobs n), (n_work n). split; [now destruct n|rewrite W; auto].
  - destruct (take_jobs_shape [j] n) as (w & js & -> & En & _). exists js, w. auto.
Qed.

(** * What always holds *)

Definition log_ok l (seq : option Z) : Prop :=
  StronglySorted Z.lt (map (@sequence S) l) /\
  (forall c, In c l -> 1 <= sequence c <= bound seq) /\
  (forall x, seq = Some x -> 1 <= x).
Definition dir_ok (st : dict (list change)) (seq : option Z) : Prop :=
  NoDup (dkeys st) /\ forall k evs, In (k, evs) st -> highest_sequence evs = Some k /\ k <= bound seq.
Definition work_ok (w : work D S) l (st : dict (list change)) : Prop :=
  match w with
  | Sending evs h => highest_sequence evs = Some h /\ exists newer, l = evs ++ newer
  | Unlinking q names => names <> [] /\ NoDup names /\ incl names (dkeys st) /\ (forall x, In x names -> x <= q)
  | _ => True
  end.
Definition flags n r : Prop :=
  NoDup (n_jobs n) /\
  (n_work n = Idle -> n_jobs n = []) /\
  (n_work n <> Stopped -> n_up n = true /\ n_observing n = true) /\
  (n_up n = true -> n_replicating n = n_setup n) /\
  (n_observing n = true -> n_up n = true /\ n_setup n = true) /\
  (n_up n = false -> n_replicating n = false /\ n_mutations n = [] /\ n_jobs n = []) /\
  (n_setup n = false -> n_log n = [] /\ n_seq n = None /\ n_mutations n = [] /\ n_jobs n = [] /\ r = empty_replica D S).
Definition base n r : Prop :=
  log_ok (n_log n) (n_seq n) /\ dir_ok (r_streams r) (n_seq n) /\
  work_ok (n_work n) (n_log n) (r_streams r) /\ flags n r.

Lemma log_ok_add l seq ss imp l' seq' :
  log_ok l seq -> add_events l seq ss imp = (l', seq') ->
  log_ok l' seq' /\ bound seq <= bound seq' /\ l' = l ++ number (bound seq + 1) ss imp /\ bound seq' = bound seq + Z.of_nat (length ss).
Proof.
  intros (H1 & H2 & H3). rewrite add_events_eq. intros [= <- <-].
  assert (B0 : 0 <= bound seq) by (destruct seq as [x|]; cbn; [specialize (H3 x eq_refl)|]; lia).
  assert (B : bound (match ss with [] => seq | _ :: _ => Some (bound seq + Z.of_nat (length ss)) end)
              = bound seq + Z.of_nat (length ss)) by (destruct ss; cbn -[Z.of_nat]; lia).
  split; [|rewrite B; repeat split; lia].
  split; [|split].
  - rewrite map_app. apply sorted_app. repeat split; [assumption|apply number_sorted|].
    intros x y Hx Hy. apply in_map_iff in Hx as (c & <- & Hc). apply in_map_iff in Hy as (c' & <- & Hc').
    apply H2 in Hc. apply number_range in Hc'. lia.
  - intros c Hc. rewrite B. apply in_app_or in Hc as [Hc|Hc]; [apply H2 in Hc; lia|].
    apply number_range in Hc. lia.
  - intros x Hx. destruct ss; [now apply H3|]. injection Hx as <-. cbn [length]. lia.
Qed.

Lemma log_ok_prune l seq h : log_ok l seq -> log_ok (prune_events_to h l) seq.
Proof.
  intros (H1 & H2 & H3). destruct (sorted_prune h H1) as (old & E & Ho). split; [|split; [|assumption]].
  - rewrite E, map_app in H1. apply sorted_app in H1. tauto.
  - intros c Hc. apply H2. unfold prune_events_to in Hc. apply filter_In in Hc. tauto.
Qed.

Lemma dir_ok_mono st seq seq' : dir_ok st seq -> bound seq <= bound seq' -> dir_ok st seq'.
Proof. intros [H1 H2] Hb. split; [assumption|]. intros k evs Hk. apply H2 in Hk as [? ?]. split; [assumption|lia]. Qed.

Lemma dset_In V k (v : V) st k' v' : In (k', v') (dset k v st) -> (k' = k /\ v' = v) \/ In (k', v') st.
Proof.
  induction st as [|[k0 v0] st IH]; cbn.
  - intros [[= <- <-]|[]]; auto.
  - destruct (k =? k0) eqn:E; cbn; intros [H|H]; try (injection H as <- <-); auto.
    + apply Z.eqb_eq in E. subst. auto.
    + destruct (IH H); auto.
Qed.
Lemma dset_keys V k (v : V) st : In k (dkeys st) /\ dkeys (dset k v st) = dkeys st \/ ~ In k (dkeys st) /\ dset k v st = st ++ [(k, v)].
Proof.
  unfold dkeys. induction st as [|[k0 v0] st IH]; cbn.
  - right. auto.
  - destruct (k =? k0) eqn:E.
    + left. apply Z.eqb_eq in E. subst. auto.
    + apply Z.eqb_neq in E. cbn. destruct IH as [[H1 ->]|[H1 ->]]; [left; auto|right].
      split; [intros [H|H]; [congruence|auto]|reflexivity].
Qed.
Lemma NoDup_dset V k (v : V) st : NoDup (dkeys st) -> NoDup (dkeys (dset k v st)).
Proof.
  intros H. destruct (dset_keys k v st) as [[_ ->]|[Hn ->]]; [assumption|].
  unfold dkeys in *. rewrite map_app. now apply NoDup_snoc.
Qed.

Lemma ddel_keys V k (st : dict V) : dkeys (ddel k st) = filter (fun x => negb (x =? k)) (dkeys st).
Proof.
  unfold dkeys, ddel. induction st as [|[k0 v0] st IH]; cbn; [reflexivity|].
  destruct (negb (k0 =? k)); cbn; now rewrite IH.
Qed.

Lemma dir_ok_effect w l st seq s0 :
  dir_ok st seq -> work_ok w l st -> log_ok l seq ->
  dir_ok (r_streams (remote_effect w (Replica s0 st))) seq.
Proof.
  intros Hd Hw Hl. destruct w as [| | |evs h|q s|q|q [|x names]|]; cbn [remote_effect r_streams r_snapshot]; try assumption.
  - destruct Hw as [Hh (newer & ->)]. destruct Hd as [H1 H2]. split; [now apply NoDup_dset|].
    intros k evs' Hk. apply dset_In in Hk as [[-> ->]|Hk]; [|now apply H2].
    split; [assumption|]. apply highest_in in Hh as (c & Hc & <-). destruct Hl as (_ & Hr & _).
    apply Hr. apply in_or_app. now left.
  - destruct Hd as [H1 H2]. split.
    + rewrite ddel_keys. now apply NoDup_filter.
    + intros k evs Hk. unfold ddel in Hk. apply filter_In in Hk as [Hk _]. now apply H2.
Qed.

Lemma suffix_NoDup A (l done l' : list A) : NoDup l -> l = done ++ l' -> NoDup l'.
Proof. intros H ->. exact (NoDup_suffix H). Qed.

Lemma append_job_NoDup j n : NoDup (n_jobs n) -> NoDup (n_jobs (append_job j n)).
Proof.
  unfold append_job. destruct (mem_job j (n_jobs n)) eqn:E; [trivial|]. cbn. intros H.
  apply NoDup_snoc; [assumption|]. intros Hj. assert (mem_job j (n_jobs n) = true); [|congruence].
    apply existsb_exists. exists j. split; [assumption|now destruct j].
Qed.

Lemma entry_work_ok n w st : entry n w -> work_ok w (n_log n) st.
Proof.
  destruct w; cbn; try tauto. intros [-> H]. split; [assumption|]. exists []. now rewrite app_nil_r.
Qed.

(** Beginning the next job keeps everything. *)
Lemma base_take js n r :
  log_ok (n_log n) (n_seq n) -> dir_ok (r_streams r) (n_seq n) ->
  NoDup js -> n_up n = true -> n_observing n = true -> n_replicating n = true -> n_setup n = true ->
  base (take_jobs js n) r.
Proof.
  intros Hl Hd Hj Hu Ho Hp Hs. destruct (take_jobs_shape js n) as (w & js' & -> & En & Hi & done & Hd').
  split; [exact Hl|]. split; [exact Hd|]. split; [exact (entry_work_ok _ En)|].
  unfold flags; cbn. rewrite Hu, Ho, Hp, Hs. pose proof (suffix_NoDup Hj Hd').
  split; [assumption|]. split; [assumption|]. repeat split; intros; try discriminate; auto.
Qed.

Lemma base_put j n r : base n r -> n_setup n = true -> n_up n = true -> base (queue_job fresh j n) r.
Proof.
  intros H Hs Hu. pose proof H as (Hl & Hd & Hw & Hf). unfold queue_job.
  assert (A : n_work n <> Idle -> base (append_job j n) r).
  { intros NI. pose proof (append_job_NoDup j (proj1 Hf)) as ND. revert ND. unfold append_job.
    destruct (mem_job j (n_jobs n)); [intros _; exact (conj Hl (conj Hd (conj Hw Hf)))|]. intros ND.
    split; [exact Hl|]. split; [exact Hd|]. split; [exact Hw|]. unfold flags in *; cbn in *.
    destruct Hf as (_ & _ & F3 & F4 & F5 & F6 & F7). rewrite Hs, Hu in *.
    split; [assumption|]. split; [contradiction|]. repeat split; intros; try discriminate; try tauto. }
  destruct (n_work n) eqn:W; try (apply A; discriminate).
  destruct (mem_job j (n_jobs n)); [exact H|].
  destruct Hf as (_ & _ & F3 & F4 & F5 & F6 & F7). rewrite W in F3.
  destruct F3 as [_ Ho]; [discriminate|].
  apply base_take; auto; [constructor; [tauto|constructor]|now rewrite F4].
Qed.

Lemma base_observed b n r :
  base n r -> n_setup n = true -> n_up n = true -> base (observed fresh text_size b n) r.
Proof.
  intros (Hl & Hd & Hw & Hf) Hs Hu. unfold observed.
  destruct (add_events (n_log n) (n_seq n) (all_rows b) (any_important b)) as [l' seq'] eqn:E.
  destruct (log_ok_add Hl E) as (Hl' & Hb & El & _).
  assert (B : forall i z, base (with_changes i z (with_log l' seq' n)) r).
  { intros i z. split; [exact Hl'|]. split; [exact (dir_ok_mono Hd Hb)|]. cbn. split.
    - destruct (n_work n); cbn in *; try exact Hw. destruct Hw as [Hh (newer & Ew)]. split; [assumption|].
      rewrite El, Ew, <- app_assoc. eauto.
    - unfold flags in *; cbn. rewrite Hs in *. intuition discriminate. }
  destruct (should_upload_eventstream _ _); [|apply B].
  assert (Q := @base_put JEvents _ _ (B (n_important n || any_important b)
                 (n_size n + sumZ (map text_size (all_rows b)))) Hs Hu).
  exact Q.
Qed.

Lemma base_mutations m n r : base n r -> (n_setup n = false -> m = []) -> (n_up n = false -> m = []) ->
  base (with_mutations m n) r.
Proof.
  intros (Hl & Hd & Hw & Hf) H1 H2. split; [exact Hl|]. split; [exact Hd|]. split; [exact Hw|].
  unfold flags in *; cbn. intuition.
Qed.

Lemma base_db d n r : base n r -> base (with_db d n) r.
Proof. now intros (Hl & Hd & Hw & Hf). Qed.

Lemma base_transaction b ok n r : base n r -> n_up n = true -> base (transaction exec fresh text_size b ok n) r.
Proof.
  intros H Hu. unfold transaction.
  destruct (run_body exec (n_replicating n) b (n_db n)) as [rec o] eqn:R.
  assert (F : flags n r) by apply H. destruct F as (_ & _ & F3 & F4 & F5 & F6 & F7).
  assert (M : base (with_mutations (n_mutations n ++ rec) n) r).
  { apply base_mutations; [assumption| |congruence]. intros Hs. rewrite F4, Hs in R by assumption.
    rewrite (run_body_off R), app_nil_r. now apply F7. }
  destruct o as [d|e]; [|exact M]. destruct ok; [|exact M].
  unfold committed, signal. cbn [n_mutations with_mutations]. apply base_db with (d := d) in M.
  destruct (n_mutations n ++ rec) as [|m ms]; [exact M|].
  assert (N : base (with_mutations [] (with_db d n)) r).
  { apply (@base_mutations [] (with_db d n) r); [now apply base_db|auto|auto]. }
  cbn [n_observing with_mutations with_db]. destruct (n_observing n) eqn:O; [|exact N].
  apply base_observed; [exact N|now apply F5|assumption].
Qed.

Lemma base_down n r : base n r -> base (down n) r.
Proof.
  intros (Hl & Hd & Hw & Hf). split; [exact Hl|]. split; [exact Hd|]. split; [exact I|].
  unfold flags in *; cbn. destruct Hf as (F1 & F2 & F3 & F4 & F5 & F6 & F7).
  split; [constructor|]. repeat split; intros; try discriminate; try tauto; auto; try (apply F7; assumption).
  all: try congruence.
Qed.

Lemma base_effect n r : base n r -> dir_ok (r_streams (remote_effect (n_work n) r)) (n_seq n).
Proof. intros (Hl & Hd & Hw & Hf). destruct r as [s st]. exact (@dir_ok_effect _ _ _ _ s Hd Hw Hl). Qed.

Lemma effect_setup n r : base n r -> n_setup n = false -> remote_effect (n_work n) r = r.
Proof.
  intros (Hl & Hd & Hw & Hf) Hs. destruct Hf as (F1 & F2 & F3 & F4 & F5 & F6 & F7).
  destruct (n_work n) eqn:W; try reflexivity; exfalso.
  all: assert (NS : n_work n <> Stopped) by (rewrite W; discriminate).
  all: rewrite W in NS; destruct (F3 NS) as [_ O]; apply F5 in O as [_ O]; congruence.
Qed.

Lemma base_carry_on p n r :
  base n r -> base (carry_on fresh p (remote_effect (n_work n) r) n) (remote_effect (n_work n) r).
Proof.
  intros H. pose proof (base_effect H) as Hd'. destruct H as (Hl & Hd & Hw & Hf).
  pose proof Hf as (F1 & F2 & F3 & F4 & F5 & F6 & F7).
  destruct (n_work n) as [| | |evs h|q s|q|q names|] eqn:W; unfold carry_on; rewrite W.
  1,2: cbn [remote_effect]; split; [exact Hl|]; split; [exact Hd|]; split; [now rewrite W|exact Hf].
  all: destruct F3 as [Hu Ho]; [discriminate|]; destruct (F5 Ho) as [_ Hs];
    assert (Hp : n_replicating n = true) by (now rewrite F4).
  - (* Listing *)
    set (n1 := match r_snapshot _ with None => _ | Some _ => _ end).
    assert (A : exists j, n1 = append_job j n \/ n1 = n).
    { unfold n1. destruct (r_snapshot _); [|exists JSnapshot; now left].
      destruct (should_upload_eventstream _ _); exists JEvents; auto. }
    destruct A as [j A].
    assert (B : n_log n1 = n_log n /\ n_seq n1 = n_seq n /\ n_up n1 = true /\ n_observing n1 = true /\
                n_replicating n1 = true /\ n_setup n1 = true /\ NoDup (n_jobs n1)).
    { destruct A as [->| ->]; [|repeat split; assumption].
      pose proof (append_job_NoDup j F1). destruct (append_job_shape j n) as (js & E & _). rewrite E in *. repeat split; assumption. }
    destruct B as (B1 & B2 & B3 & B4 & B5 & B6 & B7).
    apply base_take; auto; rewrite ?B1, ?B2; assumption.
  - (* Sending *)
    set (n1 := append_job JConsider _).
    assert (B7 : NoDup (n_jobs n1)) by (apply append_job_NoDup; exact F1).
    destruct (append_job_shape JConsider (with_log (prune_events_to h (n_log n)) (n_seq n) n)) as (js & E & _).
    fold n1 in E. rewrite E in *. apply base_take; auto. cbn. now apply log_ok_prune.
  - (* SendingSnapshot *)
    split; [now apply log_ok_prune|]. split; [exact Hd|]. split; [exact I|].
    unfold flags; cbn. rewrite Hu, Ho, Hp, Hs. repeat split; intros; try discriminate; auto.
  - (* ListingOld *)
    cbn [remote_effect]. destruct (filter _ (dkeys (r_streams r))) as [|x names] eqn:E.
    + apply base_take; auto.
    + split; [exact Hl|]. split; [exact Hd|]. split.
      * cbn -[filter In]. split; [discriminate|]. rewrite <- E. split; [apply NoDup_filter; apply Hd|]. split.
        -- intros y Hy. apply filter_In in Hy. tauto.
        -- intros y Hy. apply filter_In in Hy as [_ Hy]. lia.
      * unfold flags; cbn. rewrite Hu, Ho, Hp, Hs. repeat split; intros; try discriminate; auto.
  - (* Unlinking *)
    destruct names as [|x names]; [now destruct Hw|]. cbn [tl].
    destruct names as [|y names]; [apply base_take; auto|].
    split; [exact Hl|]. split; [exact Hd'|]. split.
    + destruct Hw as (_ & N & Hin & Hq). inversion N as [|? ? Nx Ny]; subst. split; [discriminate|].
      split; [assumption|]. split; [|intros z Hz; apply Hq; now right]. intros z Hz. cbn [remote_effect r_streams].
      rewrite ddel_keys. apply filter_In. split; [apply Hin; now right|].
      apply negb_true_iff, Z.eqb_neq. intros ->. contradiction.
    + unfold flags; cbn. rewrite Hu, Ho, Hp, Hs. repeat split; intros; try discriminate; auto.
  - (* Weighing *)
    cbn [remote_effect]. destruct p; [|apply base_take; auto].
    pose proof (append_job_NoDup JSnapshot F1) as B7.
    destruct (append_job_shape JSnapshot n) as (js & E & _). rewrite E in *. apply base_take; auto.
Qed.

Lemma base_started n r :
  log_ok (n_log n) (n_seq n) -> dir_ok (r_streams r) (n_seq n) -> base (started fresh stream_size n) r.
Proof.
  intros Hl Hd. unfold started. apply base_take; auto. constructor; [tauto|constructor].
Qed.

Lemma base_step s e : base (fst s) (snd s) -> base (fst (step s e)) (snd (step s e)).
Proof.
  destruct s as [n r]; cbn [fst snd]. intros H. destruct e as [b ok|b| | | | |p|a|a]; cbn [ReplicaModel.step].
  - destruct (n_up n) eqn:U; [cbn [fst snd]; now apply base_transaction|exact H].
  - destruct (n_up n) eqn:U; [|exact H]. destruct (run_body _ _ _ _) as [rec [d|e]]; cbn [fst snd].
    + apply base_down. now apply base_db.
    + now apply base_down.
  - destruct (n_up n) eqn:U; [exact H|]. cbn [fst snd]. destruct H as (Hl & Hd & Hw & Hf).
    split; [exact Hl|]. split; [exact Hd|]. split; [exact I|].
    destruct Hf as (F1 & F2 & F3 & F4 & F5 & F6 & F7). unfold flags; cbn.
    split; [constructor|]. repeat split; intros; try discriminate; try tauto; try congruence; try (apply F7; assumption).
  - destruct (n_up n && negb (n_setup n)) eqn:U; [|exact H]. cbn [fst snd]. apply base_started; apply H.
  - destruct (n_up n && negb (n_setup n)) eqn:U; [|exact H]. cbn [fst snd]. destruct H as (Hl & Hd & Hw & Hf).
    split; [exact Hl|]. split; [exact Hd|]. split; [exact I|]. unfold flags; cbn.
    split; [constructor|]. repeat split; intros; try discriminate; try tauto; try congruence.
  - destruct (n_up n && n_setup n && negb (n_observing n)) eqn:U; [|exact H]. cbn [fst snd]. apply base_started; apply H.
  - cbn [fst snd]. now apply base_carry_on.
  - assert (K : forall r', dir_ok (r_streams r') (n_seq n) -> (n_setup n = false -> r' = r) -> base (with_work Stopped n) r').
    { intros r' Hr' Es. destruct H as (Hl & Hd & Hw & Hf).
      destruct Hf as (F1 & F2 & F3 & F4 & F5 & F6 & F7).
      split; [exact Hl|]. split; [exact Hr'|]. split; [exact I|]. unfold flags; cbn.
      split; [assumption|]. split; [discriminate|]. split; [congruence|]. split; [assumption|]. split; [assumption|].
      split; [assumption|]. intros Z. rewrite (Es Z). now apply F7. }
    pose proof (base_effect H) as Hd'. pose proof (effect_setup H) as He.
    assert (Hd : dir_ok (r_streams r) (n_seq n)) by apply H.
    destruct (n_work n) eqn:W; try exact H; destruct a; cbn [fst snd]; apply K; auto.
  - cbn [fst snd]. pose proof (base_effect H) as Hd'. pose proof (effect_setup H) as He.
    destruct a; [|now apply base_down].
    destruct (base_down H) as (Hl & Hd & Hw & Hf). split; [exact Hl|]. split; [exact Hd'|]. split; [exact I|].
    unfold flags in *. cbn in *. destruct Hf as (F1 & F2 & F3 & F4 & F5 & F6 & F7).
    repeat (split; [assumption|]). intros Z. rewrite (He Z). now apply F7.
Qed.

Lemma base_new d : base (fst (new_system S d)) (snd (new_system S d)).
Proof.
  split; [|split; [|split]]; cbn.
  - split; [constructor|]. split; [contradiction|discriminate].
  - split; [constructor|contradiction].
  - exact I.
  - unfold flags; cbn. split; [constructor|]. repeat split; intros; try discriminate; congruence.
Qed.

Lemma base_run es s : base (fst s) (snd s) -> base (fst (run s es)) (snd (run s es)).
Proof.
  revert s. induction es as [|e es IH]; intros s H; [exact H|]. cbn. apply IH. now apply base_step.
Qed.

Lemma base_reach d es : base (fst (run (new_system S d) es)) (snd (run (new_system S d) es)).
Proof. apply base_run, base_new. Qed.
End Proofs.
