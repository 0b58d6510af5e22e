(** The replica's cost under the snapshot policy. *)
From Verif Require Import Prelude PreludeFacts PricingModel PricingSpec PricingProofs StoreModel ReplicaModel ReplicaSpec ReplicaProofs
  ReplicaRunProofs ReplicaLogProofs PolicyModel PolicySpec.
From Verif Require CborProofs StreamProofs.
From Coq Require Strings.String.
Import Coq.Strings.String.StringSyntax.
Set Implicit Arguments.
Unset Strict Implicit.

Lemma filter_all A (f : A -> bool) l : (forall x, In x l -> f x = true) -> filter f l = l.
Proof.
  induction l as [|x l IH]; cbn; intros H; [reflexivity|]. rewrite (H x (or_introl eq_refl)). f_equal. apply IH. auto.
Qed.

Section Policy.
Variables v needed total : Z.
Hypothesis Hv : 0 < v.
Hypothesis Hn : 0 < needed.
Hypothesis Ht : 0 < total.
Notation price := (object_price v needed total).

Lemma cost_eq size : cost v needed total size = Ok (price size).
Proof. unfold cost. rewrite required_passes_for_data_pos by assumption. unfold object_price. do 2 f_equal. lia. Qed.
Lemma costs_eq sizes : costs v needed total sizes = Ok (sumZ (map price sizes)).
Proof. induction sizes as [|s l IH]; cbn [costs map sumZ]; [reflexivity|]. rewrite cost_eq, IH. reflexivity. Qed.
Lemma should_snapshot_eq size sizes :
  should_snapshot v needed total size sizes = Ok (10 * price size <? sumZ (map price sizes)).
Proof. unfold should_snapshot. rewrite cost_eq, costs_eq. cbn [bind]. unfold FACTOR. do 2 f_equal. lia. Qed.
Lemma price_nonneg size : 0 <= size -> 0 <= price size.
Proof.
  intros H. unfold object_price, cdiv.
  assert (A : 0 <= - (- size / needed)) by (Z.to_euclidean_division_equations; nia).
  assert (B : 0 <= - (- - (- size / needed) / v)).
  { generalize dependent (- (- size / needed)). intros x Hx. Z.to_euclidean_division_equations. nia. }
  nia.
Qed.

Section Replica.
Variables D S : Type.
Variable exec : S -> D -> res exn D.
Variable fresh : D -> D.
Variable text_size : S -> Z.
Variable stream_size : list (change S) -> Z.
Variable snapshot_bytes : D -> Z.
Variable stream_bytes : list (change S) -> Z.
Hypothesis Hs : forall d, 0 <= snapshot_bytes d.
Notation node := (node D S).
Notation replica := (replica D S).
Notation step := (step exec fresh text_size stream_size).
Notation run := (run exec fresh text_size stream_size).
Notation take_jobs := (take_jobs fresh).
Notation sizes := (replica_sizes snapshot_bytes stream_bytes).
Notation decision := (decision v needed total fresh snapshot_bytes stream_bytes).
Notation left_alone := (left_alone v needed total exec fresh text_size stream_size snapshot_bytes stream_bytes).
Implicit Types (n : node) (r : replica).

Notation replica_price := (replica_price v needed total snapshot_bytes stream_bytes).
Lemma price_sizes r : sumZ (map price (sizes r)) = replica_price r.
Proof.
  unfold PolicySpec.replica_price, replica_sizes. rewrite map_app, map_map. destruct (r_snapshot r); reflexivity.
Qed.

Section Settling.
Variable d0 : D.
Definition cheap r : Prop := replica_price r <= 10 * price (snapshot_bytes (fresh d0)).

Definition due (js : list job) : Prop := In JConsider js \/ In JSnapshot js.
Definition settling n r : Prop :=
  n_db n = d0 /\
  match n_work n with
  | Stopped | Sending _ _ | Weighing => True
  | Idle => cheap r
  | Listing => due (n_jobs n) \/ cheap r
  | SendingSnapshot q s => s = fresh d0 /\ bound (n_seq n) <= q
  | ListingOld q => r_snapshot r = Some (fresh d0) /\ bound (n_seq n) <= q
  | Unlinking _ names => r_snapshot r = Some (fresh d0) /\ incl (dkeys (r_streams r)) names
  end.

Lemma cheap_snapshot r : r_snapshot r = Some (fresh d0) -> dkeys (r_streams r) = [] -> cheap r.
Proof.
  intros E1 E2. unfold cheap, PolicySpec.replica_price. rewrite E1. destruct (r_streams r); [|discriminate].
  cbn [map sumZ]. pose proof (@price_nonneg (snapshot_bytes (fresh d0)) ltac:(apply Hs)). lia.
Qed.

Lemma settling_take js n r : n_db n = d0 -> log_ok (n_log n) (n_seq n) -> due js \/ cheap r -> settling (take_jobs js n) r.
Proof.
  revert n. induction js as [|j js IH]; intros n Hd Hl H.
  - split; [exact Hd|]. cbn. destruct H as [[[]|[]]|H]; exact H.
  - cbn [ReplicaModel.take_jobs]. destruct j.
    + split; [exact Hd|]. cbn. destruct H as [[[E|H]|[E|H]]|H]; try discriminate E; unfold due; auto.
    + destruct (highest_sequence (n_log (with_jobs js n))) as [h|].
      * split; [exact Hd|exact I].
      * apply IH; [exact Hd|exact Hl|]. destruct H as [[[E|H]|[E|H]]|H]; try discriminate E; unfold due; auto.
    + split; [exact Hd|]. cbn. split; [now rewrite Hd|]. destruct (n_seq n); cbn; lia.
    + split; [exact Hd|exact I].
Qed.

Lemma append_db j n : n_db (append_job j n) = n_db n.
Proof. unfold append_job. destruct (mem_job _ _); reflexivity. Qed.
Lemma append_in j n : In j (n_jobs (append_job j n)).
Proof.
  unfold append_job. destruct (mem_job j (n_jobs n)) eqn:E.
  - apply existsb_exists in E as (x & I & E). destruct j, x; try discriminate E; exact I.
  - cbn. apply in_or_app. right. left. reflexivity.
Qed.
Lemma append_keeps j i n : In i (n_jobs n) -> In i (n_jobs (append_job j n)).
Proof. unfold append_job. destruct (mem_job _ _); [trivial|]. cbn. intros H. apply in_or_app. left. exact H. Qed.
Lemma append_due j n : due (n_jobs n) -> due (n_jobs (append_job j n)).
Proof. intros [H|H]; [left|right]; apply append_keeps, H. Qed.
Lemma append_log j n : n_log (append_job j n) = n_log n /\ n_seq (append_job j n) = n_seq n.
Proof. unfold append_job. destruct (mem_job _ _); split; reflexivity. Qed.

Lemma settling_take' j n r : n_db n = d0 -> log_ok (n_log n) (n_seq n) -> due (n_jobs (append_job j n)) \/ cheap r ->
  settling (take_jobs (n_jobs (append_job j n)) (append_job j n)) r.
Proof.
  intros Hd Hl H. apply settling_take; [now rewrite append_db| |exact H]. destruct (append_log j n) as [-> ->]. exact Hl.
Qed.

Lemma all_old r q seq : dir_ok (r_streams r) seq -> bound seq <= q ->
  filter (fun name => name <=? q) (dkeys (r_streams r)) = dkeys (r_streams r).
Proof.
  intros (_ & H) B. apply filter_all. intros k I. unfold dkeys in I. apply in_map_iff in I as ([k' e] & <- & I). apply H in I as [_ I]. cbn. lia.
Qed.

Lemma settling_done n r : base n r -> settling n r -> settling (fst (step (n, r) (Done (decision (n, r))))) (snd (step (n, r) (Done (decision (n, r))))).
Proof.
  intros (Hl & Hd & Hw & Hf) [Hdb H]. cbn [ReplicaModel.step fst snd].
  destruct (n_work n) as [| | |evs h|q s|q|q names|] eqn:W; unfold carry_on; rewrite W; cbn [remote_effect].
  - split; [exact Hdb|]. rewrite W. exact I.
  - split; [exact Hdb|]. rewrite W. exact H.
  - destruct (r_snapshot r).
    + destruct (should_upload_eventstream _ _).
      * apply settling_take'; [exact Hdb|exact Hl|]. destruct H as [H|H]; [left; now apply append_due|right; exact H].
      * apply settling_take; [exact Hdb|exact Hl|exact H].
    + apply settling_take'; [exact Hdb|exact Hl|]. left. right. apply append_in.
  - apply settling_take'; [exact Hdb|cbn; now apply log_ok_prune|]. left. left. apply append_in.
  - split; [exact Hdb|]. cbn. destruct H as [-> Hq]. split; [reflexivity|exact Hq].
  - destruct H as [Hsn Hq]. rewrite (all_old Hd Hq). destruct (dkeys (r_streams r)) as [|x names] eqn:E.
    + apply settling_take; [exact Hdb|exact Hl|]. right. now apply cheap_snapshot.
    + split; [exact Hdb|]. cbn [n_work with_work]. split; [exact Hsn|]. rewrite E. apply incl_refl.
  - destruct names as [|x names]; [now destruct Hw|]. cbn [tl]. destruct H as [Hsn Hin].
    assert (Hin' : incl (dkeys (r_streams (Replica (r_snapshot r) (ddel x (r_streams r))))) names).
    { cbn [r_streams]. rewrite ddel_keys. intros y I. apply filter_In in I as [I N]. apply Hin in I as [->|I]; [|exact I].
      rewrite Z.eqb_refl in N. discriminate. }
    destruct names as [|y names].
    + apply settling_take; [exact Hdb|exact Hl|]. right. apply cheap_snapshot; [exact Hsn|].
      exact (incl_l_nil Hin').
    + split; [exact Hdb|]. cbn [n_work with_work]. split; [exact Hsn|exact Hin'].
  - unfold PolicyModel.decision. cbn [fst snd]. rewrite should_snapshot_eq, Hdb, price_sizes.
    destruct (Z.ltb_spec (10 * price (snapshot_bytes (fresh d0))) (replica_price r)).
    + apply settling_take'; [exact Hdb|exact Hl|]. left. right. apply append_in.
    + apply settling_take; [exact Hdb|exact Hl|]. right. exact H0.
Qed.

Lemma settling_alone k n r : base n r -> settling n r ->
  settling (fst (left_alone k (n, r))) (snd (left_alone k (n, r))).
Proof.
  revert n r. induction k as [|k IH]; intros n r HB H; [exact H|]. cbn [PolicyModel.left_alone].
  pose proof (settling_done HB H) as H'. pose proof (@base_step _ _ exec fresh text_size stream_size (n, r) (Done (decision (n, r))) HB) as HB'.
  destruct (step (n, r) (Done (decision (n, r)))) as [n1 r1]. now apply IH.
Qed.
End Settling.

Lemma alone_dones k s : left_alone k s = run s (dones S (fun i => decision (left_alone i s)) k).
Proof.
  revert s. induction k as [|k IH]; intros s; [reflexivity|]. cbn [PolicyModel.left_alone dones]. rewrite IH. reflexivity.
Qed.

Lemma settles d es n r : run (new_system S d) es = (n, r) -> after_changes (n_work n) ->
  exists k, let s := left_alone k (n, r) in
    n_work (fst s) = Idle /\ n_db (fst s) = n_db n /\
    replica_price (snd s) <= 10 * price (snapshot_bytes (fresh (n_db n))).
Proof.
  intros E W. pose proof (base_reach exec fresh text_size stream_size d es) as HB. rewrite E in HB. cbn [fst snd] in HB.
  destruct (@gets_idle D S exec fresh text_size stream_size n r (fun i => decision (left_alone i (n, r))) HB) as [k Hk]; [intros X; now rewrite X in W|].
  rewrite <- alone_dones in Hk. exists k. cbv zeta.
  assert (St : settling (n_db n) n r) by (split; [reflexivity|]; destruct (n_work n); try destruct W; exact I).
  pose proof (settling_alone k HB St) as [A B]. rewrite Hk in B. auto.
Qed.
End Replica.
End Policy.

(** ** The listing of the replica directory *)

Lemma listing_price v needed total D S (sb : D -> Z) (tb : list (change S) -> Z) entries snapshot streams :
  shows sb tb entries snapshot streams ->
  sumZ (map (object_price v needed total) (StreamModel.replica_size entries)) =
  (match snapshot with Some d => object_price v needed total (sb d) | None => 0 end) +
  sumZ (map (fun stream => object_price v needed total (tb (snd stream))) streams).
Proof.
  assert (Snap : CborModel.startswith StreamModel.stream_prefix (StreamModel.str "snapshot") = false) by reflexivity.
  induction 1 as [|d content entries streams H IH|n s content entries snapshot before after H IH|name e entries snapshot streams N1 N2 H IH];
    [reflexivity|..]; unfold StreamModel.replica_size in *; cbn [flat_map]; rewrite map_app, sumZ_app, IH; clear IH.
  - rewrite CborProofs.text_eqb_refl. cbn [andb orb map sumZ fold_right]. lia.
  - change (StreamModel.str "event-stream-") with StreamModel.stream_prefix.
    rewrite CborProofs.startswith_app, orb_true_r. rewrite !map_app, !sumZ_app. cbn [map sumZ fold_right snd]. lia.
  - destruct (CborModel.startswith StreamModel.stream_prefix name) eqn:E; [exfalso; now apply N1, StreamProofs.stream_like_starts|].
    destruct (CborProofs.text_eqb_spec name (StreamModel.str "snapshot")) as [X|_]; [contradiction|]. rewrite andb_false_r. cbn. lia.
Qed.
