(** The tokens a recovered wallet asks with (C138).  The history of all random
    tokens ever stored is added to the database as a ghost, and the recovery
    theorem for arbitrary databases applied to the pair. *)
From Verif Require Import Prelude PreludeFacts StoreModel ReplicaModel ReplicaSpec ReplicaProofs ReplicaRunProofs ReplicaLogProofs ReplicaStore RestSpec RestProofs RetrySpec.
Set Implicit Arguments.
Unset Strict Implicit.

(** * A database seen through a function *)
Section Map.
Variables D' D S : Type.
Variable exec' : S -> D' -> res exn D'.
Variable exec : S -> D -> res exn D.
Variable fresh' : D' -> D'.
Variable fresh : D -> D.
Variable text_size : S -> Z.
Variable stream_size : list (change S) -> Z.
Variable f : D' -> D.
Hypothesis Hexec : forall s x, exec s (f x) = match exec' s x with Ok y => Ok (f y) | Err e => Err e end.
Hypothesis Hfresh : forall x, fresh (f x) = f (fresh' x).

Definition mwork (w : work D' S) : work D S :=
  match w with
  | Stopped => Stopped | Idle => Idle | Listing => Listing
  | Sending e h => Sending e h | SendingSnapshot q s => SendingSnapshot q (f s)
  | ListingOld q => ListingOld q | Unlinking q names => Unlinking q names | Weighing => Weighing
  end.
Definition mnode (n : node D' S) : node D S :=
  Node (f (n_db n)) (n_log n) (n_seq n) (n_setup n) (n_up n) (n_replicating n) (n_observing n) (n_mutations n)
       (n_important n) (n_size n) (n_jobs n) (mwork (n_work n)).
Definition mreplica (r : replica D' S) : replica D S := Replica (option_map f (r_snapshot r)) (r_streams r).
Definition msys (s : system D' S) : system D S := (mnode (fst s), mreplica (snd s)).

Lemma m_take js n : take_jobs fresh js (mnode n) = mnode (take_jobs fresh' js n).
Proof.
  revert n. induction js as [|j js IH]; intros n; [reflexivity|]. cbn [take_jobs]. destruct j; try reflexivity.
  - change (n_log (with_jobs js (mnode n))) with (n_log n). change (n_log (with_jobs js n)) with (n_log n).
    destruct (highest_sequence (n_log n)); [reflexivity|]. exact (IH (with_jobs js n)).
  - cbn. rewrite Hfresh. reflexivity.
Qed.
Lemma m_append j n : append_job j (mnode n) = mnode (append_job j n).
Proof. unfold append_job. cbn [n_jobs mnode]. destruct (mem_job j (n_jobs n)); reflexivity. Qed.
Lemma m_queue j n : queue_job fresh j (mnode n) = mnode (queue_job fresh' j n).
Proof.
  unfold queue_job. destruct (n_work n) eqn:E; cbn [mnode n_work]; rewrite E; cbn [mwork]; try apply m_append.
  cbn [n_jobs mnode]. destruct (mem_job j (n_jobs n)); [reflexivity|apply m_take].
Qed.
Lemma m_rows ss x : exec_rows exec ss (f x) = match exec_rows exec' ss x with Ok y => Ok (f y) | Err e => Err e end.
Proof.
  revert x. induction ss as [|s ss IH]; intros x; [reflexivity|]. cbn. rewrite Hexec. destruct (exec' s x) as [y|e]; [apply IH|reflexivity].
Qed.
Lemma m_body rep b x : run_body exec rep b (f x) =
  (fst (run_body exec' rep b x), match snd (run_body exec' rep b x) with Ok y => Ok (f y) | Err e => Err e end).
Proof.
  revert x. induction b as [|c b IH]; intros x; [reflexivity|]. cbn. rewrite m_rows.
  destruct (exec_rows exec' (c_rows c) x) as [y|e]; [|reflexivity]. rewrite IH. now destruct (run_body exec' rep b y) as [rec [z|e]].
Qed.
Lemma m_observed b n : observed fresh text_size b (mnode n) = mnode (observed fresh' text_size b n).
Proof.
  unfold observed. cbn [mnode n_log n_seq n_important n_size]. destruct (add_events _ _ _ _) as [l q].
  destruct (should_upload_eventstream _ _); [|reflexivity].
  match goal with |- with_changes ?i ?z (queue_job fresh ?j ?m) = mnode (with_changes ?i ?z (queue_job fresh' ?j ?m')) =>
    change m with (mnode m'); rewrite m_queue; reflexivity end.
Qed.
Lemma m_signal n : signal fresh text_size (mnode n) = mnode (signal fresh' text_size n).
Proof.
  unfold signal. cbn [mnode n_mutations n_observing]. destruct (n_mutations n) as [|m ms]; [reflexivity|].
  cbn [n_observing with_mutations mnode]. destruct (n_observing n); [|reflexivity]. exact (m_observed (m :: ms) (with_mutations [] n)).
Qed.
Lemma m_transaction b ok n : transaction exec fresh text_size b ok (mnode n) = mnode (transaction exec' fresh' text_size b ok n).
Proof.
  unfold transaction. cbn [mnode n_db n_replicating]. rewrite m_body.
  destruct (run_body exec' (n_replicating n) b (n_db n)) as [rec [y|e]]; cbn [fst snd]; [|reflexivity]. destruct ok; [|reflexivity].
  unfold committed. exact (m_signal (with_mutations (n_mutations n ++ rec) (with_db y n))).
Qed.
Lemma m_started n : started fresh stream_size (mnode n) = mnode (started fresh' stream_size n).
Proof. unfold started. apply (m_take [JStartup] (Node (n_db n) (n_log n) (n_seq n) true true true true (n_mutations n)
       (existsb (@important S) (n_log n)) (stream_size (n_log n)) [] Stopped)). Qed.
Lemma m_effect w r : remote_effect (mwork w) (mreplica r) = mreplica (remote_effect w r).
Proof. destruct w; try reflexivity. cbn. now destruct names. Qed.
Lemma m_carry p r n : carry_on fresh p (mreplica r) (mnode n) = mnode (carry_on fresh' p r n).
Proof.
  unfold carry_on. destruct (n_work n) eqn:E; cbn [mnode n_work]; rewrite E; cbn [mwork]; try reflexivity.
  all: try (unfold mnode; rewrite E; reflexivity).
  - cbn [mreplica r_snapshot]. destruct (r_snapshot r); cbn [option_map].
    + cbn [n_important n_size mnode]. destruct (should_upload_eventstream _ _); [rewrite m_append|]; apply m_take.
    + rewrite m_append. apply m_take.
  - change (with_log (prune_events_to high_seq (n_log (mnode n))) (n_seq (mnode n)) (mnode n))
      with (mnode (with_log (prune_events_to high_seq (n_log n)) (n_seq n) n)). rewrite m_append. apply m_take.
  - cbn [mreplica r_streams]. destruct (filter _ _); [apply m_take|reflexivity].
  - destruct (tl names); [apply m_take|reflexivity].
  - destruct p; [rewrite m_append|]; apply m_take.
Qed.

Notation step' := (ReplicaModel.step exec' fresh' text_size stream_size).
Notation step := (ReplicaModel.step exec fresh text_size stream_size).
Lemma m_step s e : step (msys s) e = msys (step' s e).
Proof.
  destruct s as [n r]. unfold msys. cbn [fst snd].
  destruct e as [b ok|b| | | | |p|a|a]; cbn [ReplicaModel.step].
  - cbn [n_up mnode]. destruct (n_up n); [|reflexivity]. cbn [fst snd]. f_equal. apply m_transaction.
  - cbn [n_up mnode]. destruct (n_up n); [|reflexivity]. cbn [n_replicating n_db mnode]. rewrite m_body.
    destruct (run_body exec' (n_replicating n) b (n_db n)) as [rec [y|e]]; reflexivity.
  - cbn [n_up mnode]. destruct (n_up n); [reflexivity|]. cbn [fst snd]. unfold opened, mnode. cbn. now rewrite Hfresh.
  - cbn [n_up n_setup mnode]. destruct (n_up n && negb (n_setup n)); [|reflexivity]. cbn [fst snd]. now rewrite m_started.
  - cbn [n_up n_setup mnode]. now destruct (n_up n && negb (n_setup n)).
  - cbn [n_up n_setup n_observing mnode]. destruct (n_up n && n_setup n && negb (n_observing n)); [|reflexivity]. cbn [fst snd]. now rewrite m_started.
  - cbn [n_work mnode fst snd]. rewrite m_effect. f_equal. apply (m_carry p _ n).
  - cbn [n_work mnode]. destruct (n_work n) eqn:E; cbn [mwork]; try (unfold mnode; rewrite E; reflexivity).
    all: cbn [fst snd]; f_equal; try reflexivity; destruct a; try reflexivity; now destruct names.
  - cbn [n_work mnode fst snd]. f_equal. destruct a; [apply m_effect|reflexivity].
Qed.
Lemma m_run s es : ReplicaModel.run exec fresh text_size stream_size (msys s) es = msys (ReplicaModel.run exec' fresh' text_size stream_size s es).
Proof. unfold ReplicaModel.run. revert s. induction es as [|e es IH]; intros s; [reflexivity|]. cbn [fold_left]. rewrite m_step. apply IH. Qed.

Lemma m_recover r : recover exec (mreplica r) = match recover exec' r with Ok y => Ok (f y) | Err e => Err e end.
Proof.
  unfold recover. cbn [mreplica r_snapshot r_streams]. destruct (r_snapshot r) as [s|]; [|reflexivity]. cbn [option_map].
  generalize (sorted_event_streams (dvalues (r_streams r))). intros ls. revert s. induction ls as [|l ls IH]; intros s; [reflexivity|].
  cbn [replay_all]. unfold replay. rewrite m_rows. destruct (exec_rows exec' (map (statement (S:=S)) l) s); [apply IH|reflexivity].
Qed.

(** Every statement of the transaction counts as mutating. *)
Definition all_mutate (e : event S) : Prop :=
  match e with Txn b _ | TxnKill b => Forall (fun c => c_mutates c = true) b | _ => True end.
Lemma all_mutate_honest b : Forall (fun c => c_mutates c = true) b -> honest exec' b.
Proof. apply Forall_impl. intros c E1 E2. congruence. Qed.

Lemma m_harmless (ok settled : D -> Prop) s e : all_mutate e ->
  harmless exec ok settled (msys s) e -> harmless exec' (fun x => ok (f x)) (fun x => settled (f x)) s e.
Proof.
  intros AM. destruct s as [n r]. unfold msys. cbn [fst snd].
  assert (Hp : pruning (mwork (n_work n)) <-> pruning (n_work n)) by (destruct (n_work n); reflexivity).
  assert (Hs : first_snapshot n -> first_snapshot (mnode n)) by (unfold first_snapshot; cbn; destruct (n_work n); tauto).
  assert (Hr : forall ss x, exec_rows exec' ss (n_db n) = Ok x -> exec_rows exec ss (f (n_db n)) = Ok (f x)) by (intros ss x E; now rewrite m_rows, E).
  destruct e as [b [|]|b| | | | |p|[|]|[|]]; cbn [harmless calm mnode n_db n_replicating n_observing n_setup n_up n_work];
    try tauto.
  - intros (H1 & (d & H2 & H3) & H4 & H5). split; [now apply all_mutate_honest|]. split; [|split; [exact H4|intros X; apply H5; now apply Hs]].
    rewrite m_rows in H2. destruct (exec_rows exec' (executed b) (n_db n)) as [y|]; [|discriminate]. injection H2 as <-. now exists y.
  - intros [H1 H2]. split; [|intros x Hx; apply H2; now apply Hr].
    destruct H1 as [H1|(H1 & H3 & H4)]; [now left|right]. split; [exact H1|]. split; [now apply all_mutate_honest|]. tauto.
Qed.
Lemma m_harmless_all (ok settled : D -> Prop) es : Forall all_mutate es -> forall s,
  all_along exec fresh text_size stream_size (harmless exec ok settled) (msys s) es ->
  all_along exec' fresh' text_size stream_size (harmless exec' (fun x => ok (f x)) (fun x => settled (f x))) s es.
Proof.
  induction 1 as [|e es He Hes IH]; intros s H; [exact I|]. destruct H as [H1 H2]. split; [now apply m_harmless|].
  apply IH. now rewrite <- m_step.
Qed.
End Map.

(** * The ghost *)
Definition history := list (Z * Z * Z).
Definition store (m : mut) (h : history) : history := match m with InsToken v c t => h ++ [(v, c, t)] | _ => h end.
Definition gexec (m : mut) (x : db * history) : res exn (db * history) :=
  match sexec m (fst x) with Ok d => Ok (d, store m (snd x)) | Err e => Err e end.
Definition gfresh (x : db * history) : db * history := (restart (fst x), snd x).
Definition gsim (x y : db * history) : Prop := wsim (fst x) (fst y) /\ snd x = snd y.

Lemma gfaithful : faithful gexec gfresh gsim (fun x => wok (fst x)).
Proof.
  constructor.
  - intros [d h] W. split; [exact (faithful_fresh wfaithful _ W)|reflexivity].
  - intros m [a ha] [b hb] [b' hb'] [H1 H2] E. cbn [fst snd] in *. subst ha. unfold gexec in *. cbn [fst snd] in *.
    destruct (sexec m b) as [b1|e] eqn:Eb; [|discriminate]. injection E as -> <-.
    destruct (faithful_exec wfaithful _ _ _ H1 Eb) as (a' & Ea & S'). rewrite Ea. eexists. split; [reflexivity|]. now split.
  - intros [d h] W. exact (faithful_ok wfaithful _ W).
Qed.
Lemma grestartable : restartable gfresh gsim (fun x => wok (fst x)) (fun x => in_use (fst x) = []).
Proof. intros [a ha] [b hb] W St [H1 H2]. split; [exact (wrestartable W St H1)|exact H2]. Qed.

Lemma g_exec m x : sexec m (fst x) = match gexec m x with Ok y => Ok (fst y) | Err e => Err e end.
Proof. unfold gexec. now destruct (sexec m (fst x)). Qed.
Lemma g_fresh x : restart (fst x) = fst (gfresh x).
Proof. reflexivity. Qed.

(** Statements only ever add to the history; without adding none of them stores
    a token. *)
Lemma gexec_more m x y : gexec m x = Ok y -> exists more, snd y = snd x ++ more.
Proof.
  unfold gexec. destruct (sexec m (fst x)); [|discriminate]. intros [= <-]. cbn. destruct m; cbn; try (exists []; now rewrite app_nil_r).
  eexists; reflexivity.
Qed.
Lemma grows_more ms x y : exec_rows gexec ms x = Ok y -> exists more, snd y = snd x ++ more.
Proof.
  revert x. induction ms as [|m ms IH]; intros x; cbn; [intros [= <-]; exists []; now rewrite app_nil_r|].
  destruct (gexec m x) as [x1|e] eqn:E; [|discriminate]. intros H. destruct (IH x1 H) as (k & ->), (gexec_more E) as (j & ->).
  exists (j ++ k). now rewrite app_assoc.
Qed.

(** Later contents have no other random tokens for any group. *)
Definition thinner (old new : db) : Prop := forall v c, random_tokens new v c = [] \/ random_tokens old v c = random_tokens new v c.
Lemma thinner_refl d : thinner d d.
Proof. intros v c. now right. Qed.
Lemma thinner_trans a b c : thinner a b -> thinner b c -> thinner a c.
Proof. intros H1 H2 v k. destruct (H2 v k) as [E|E]; [now left|]. destruct (H1 v k) as [F|F]; [left|right]; congruence. Qed.
Lemma gexec_thinner m x y : gexec m x = Ok y -> snd y = snd x -> thinner (fst x) (fst y).
Proof.
  unfold gexec. destruct (sexec m (fst x)) as [d|e] eqn:E; [|discriminate]. intros [= <-]. cbn [fst snd]. intros Eh.
  destruct m; try solve [refine (proj2 (@benign_keeps _ (fst x) _ _ _ E (keeps_refl (fst x)))); exact I].
  - unfold sexec in E. cbn [exec_mut] in E. destruct (memZ _ _); injection E as <-; intros v c; now right.
  - cbn in Eh. exfalso. apply (f_equal (@length _)) in Eh. rewrite app_length in Eh. cbn in Eh. lia.
Qed.
Lemma grows_thinner ms x y : exec_rows gexec ms x = Ok y -> snd y = snd x -> thinner (fst x) (fst y).
Proof.
  revert x. induction ms as [|m ms IH]; intros x; cbn; [intros [= <-] _; apply thinner_refl|].
  destruct (gexec m x) as [x1|e] eqn:E; [|discriminate]. intros H Eh.
  destruct (grows_more H) as (k & Ek), (gexec_more E) as (j & Ej).
  assert (Z : j = [] /\ k = []). { rewrite Ek, Ej in Eh. apply (f_equal (@length _)) in Eh. rewrite !app_length in Eh. split; [destruct j|destruct k]; try reflexivity; cbn in Eh; lia. }
  destruct Z as [-> ->]. rewrite app_nil_r in *. apply thinner_trans with (b := fst x1); [exact (gexec_thinner E Ej)|]. exact (IH x1 H Ek).
Qed.

(** * Asking for a group's tokens again *)
Definition holds (v c : Z) (ts : list Z) (d : db) : Prop := behind d v c \/ random_tokens d v c = ts.
(** The statement does not touch the group's tokens unless it is behind. *)
Definition spares (v c : Z) (m : mut) (d : db) : Prop :=
  match m with
  | InsToken v' c' _ => ~ (v' = v /\ c' = c)
  | DelTokens v' c' => v' = v -> c' = c -> behind d v c
  | _ => True
  end.
Lemma behind_exec v c m d d' : sexec m d = Ok d' -> behind d v c -> behind d' v c.
Proof.
  unfold sexec. destruct (exec_mut m d) as [[k x]|e] eqn:E; [|discriminate]. intros [= ->] (r & H1 & H2 & H3).
  assert (Upd : forall g, (forall r0, v_number (g r0) = v_number r0 /\ v_counter r0 <= v_counter (g r0)) ->
    exists r0, In r0 (map g (vouchers d)) /\ v_number r0 = v /\ c < v_counter r0).
  { intros g Hg. exists (g r). split; [now apply in_map|]. destruct (Hg r). split; [congruence|lia]. }
  destruct m; cbn [exec_mut] in E;
    repeat match type of E with context [if ?c then _ else _] => destruct c eqn:? end;
    try discriminate E; injection E as _ <-; unfold behind; cbn [vouchers set_vouchers set_tokens]; try (now exists r).
  - exists r. split; [apply in_or_app; now left|now split].
  - apply Upd. intros r0. destruct (_ =? _); cbn; split; try reflexivity; lia.
  - apply Upd. intros r0. destruct (_ && _); cbn; split; try reflexivity; lia.
Qed.
Lemma spares_exec v c ts m d d' : spares v c m d -> sexec m d = Ok d' -> holds v c ts d -> holds v c ts d'.
Proof.
  intros Sp X [H|H]; [left; exact (behind_exec X H)|]. unfold sexec in X. destruct (exec_mut m d) as [[k x]|e] eqn:E; [|discriminate].
  injection X as ->.
  destruct m; cbn [exec_mut] in E;
    repeat match type of E with context [if ?c then _ else _] => destruct c eqn:? end;
    try discriminate E; injection E as _ <-; try (right; exact H).
  - right. unfold random_tokens in *. cbn [tokens set_tokens]. rewrite filter_app, map_app, H. cbn [filter t_voucher t_counter].
    destruct ((voucher =? v) && (counter =? c)) eqn:Q; [|cbn; apply app_nil_r]. apply andb_true_iff in Q as [Q1 Q2].
    destruct Sp. split; now apply Z.eqb_eq.
  - destruct (Z.eq_dec voucher v) as [->|Nv]; [destruct (Z.eq_dec counter c) as [->|Nc]|].
    + left. exact (Sp eq_refl eq_refl).
    + right. rewrite <- H. unfold random_tokens. cbn [tokens set_tokens]. f_equal. clear - Nc. induction (tokens d) as [|t l IH]; [reflexivity|]. cbn [filter].
      destruct ((t_voucher t =? v) && (t_counter t =? counter)) eqn:E1; cbn [negb filter].
      * rewrite IH. apply andb_true_iff in E1 as [E1 E2]. apply Z.eqb_eq in E2. destruct (Z.eqb_spec (t_counter t) c); [congruence|]. now rewrite andb_false_r.
      * now rewrite IH.
    + right. rewrite <- H. unfold random_tokens. cbn [tokens set_tokens]. f_equal. clear - Nv. induction (tokens d) as [|t l IH]; [reflexivity|]. cbn [filter].
      destruct ((t_voucher t =? voucher) && (t_counter t =? counter)) eqn:E1; cbn [negb filter].
      * rewrite IH. apply andb_true_iff in E1 as [E1 E2]. apply Z.eqb_eq in E1. destruct (Z.eqb_spec (t_voucher t) v); [congruence|]. reflexivity.
      * now rewrite IH.
Qed.
(** Neither a random token is stored nor some are deleted. *)
Definition plain (m : mut) : Prop := match m with InsToken _ _ _ | DelTokens _ _ => False | _ => True end.
Lemma plain_spares v c m d : plain m -> spares v c m d.
Proof. destruct m; cbn; tauto. Qed.

Fixpoint sparing {A} v c (p : prog A) (d : db) : Prop :=
  match p with
  | Ret _ | Raise _ => True
  | Mut _ m k => spares v c m d /\ forall n d', exec_mut m d = Ok (n, d') -> sparing v c (k n) d'
  | Many _ ms k => (forall m d0, In m ms -> spares v c m d0) /\ forall d', exec_muts ms d = Ok d' -> sparing v c k d'
  | Qry k => sparing v c (k d) d
  end.
Lemma spares_many v c ts ms d d' : (forall m d0, In m ms -> spares v c m d0) -> exec_muts ms d = Ok d' -> holds v c ts d -> holds v c ts d'.
Proof.
  revert d. induction ms as [|m ms IH]; intros d Sp; cbn [exec_muts]; [now intros [= <-]|].
  destruct (exec_mut m d) as [[k d1]|e] eqn:E; [|discriminate]. cbn. intros H1 H2. apply (IH d1); [|exact H1|].
  - intros m' d0 Hm. apply Sp. now right.
  - eapply spares_exec; [apply Sp; now left| |exact H2]. unfold sexec. now rewrite E.
Qed.
Lemma sparing_run {A} v c ts (p : prog A) : forall d, sparing v c p d -> holds v c ts d -> holds v c ts (snd (fst (StoreModel.run p d))).
Proof.
  induction p as [a|e|i m k IH|i ms k IH|k IH]; intros d Sp H; cbn in *; try exact H.
  - destruct Sp as [Sp1 Sp2]. destruct (exec_mut m d) as [[n d']|e] eqn:E; [|exact H].
    assert (H' : holds v c ts d') by (eapply spares_exec; [exact Sp1| |exact H]; unfold sexec; now rewrite E).
    specialize (IH n d' (Sp2 n d' eq_refl) H'). now destruct (StoreModel.run (k n) d') as [[r d''] rec].
  - destruct Sp as [Sp1 Sp2]. destruct (exec_muts ms d) as [d'|e] eqn:E; [|exact H].
    assert (H' : holds v c ts d') by (eapply spares_many; eauto).
    specialize (IH d' (Sp2 d' eq_refl) H'). now destruct (StoreModel.run k d') as [[r d''] rec].
  - exact (IH d d Sp H).
Qed.
Lemma sparing_pmap {A B} v c (g : A -> B) (p : prog A) : forall d, sparing v c p d -> sparing v c (pmap g p) d.
Proof. induction p as [a|e|i m k IH|i ms k IH|k IH]; intros d; cbn; auto; intros [H1 H2]; split; auto. Qed.

Fixpoint all_plain {A} (p : prog A) : Prop :=
  match p with
  | Ret _ | Raise _ => True
  | Mut _ m k => plain m /\ forall n, all_plain (k n)
  | Many _ ms k => Forall plain ms /\ all_plain k
  | Qry k => forall d, all_plain (k d)
  end.
Lemma plain_sparing {A} v c (p : prog A) : all_plain p -> forall d, sparing v c p d.
Proof.
  induction p as [a|e|i m k IH|i ms k IH|k IH]; intros P d; cbn in *; auto.
  - destruct P as [P1 P2]. split; [now apply plain_spares|]. intros. now apply IH.
  - destruct P as [P1 P2]. rewrite Forall_forall in P1. split; [intros m d0 Hm; apply plain_spares; now apply P1|]. intros. now apply IH.
Qed.
Lemma plain_map {A} (g : A -> mut) l : (forall x, plain (g x)) -> Forall plain (map g l).
Proof. intros H. apply Forall_forall. intros m Hm. apply in_map_iff in Hm as (x & <- & _). apply H. Qed.

Lemma ins_unblinded_vouchers g us d d' : exec_muts (map (fun t => InsUnblinded t g) us) d = Ok d' -> vouchers d' = vouchers d.
Proof.
  revert d. induction us as [|u us IH]; intros d; cbn [map exec_muts]; [now intros [= <-]|]. cbn [exec_mut]. destruct (memZ u _); [discriminate|].
  cbn. intros H. now apply IH in H.
Qed.

Lemma op_sparing v c o d : random_tokens d v c <> [] -> sparing v c (op_prog o) d.
Proof.
  intros Ne. destruct o; cbn [op_prog]; try exact I; apply sparing_pmap.
  - unfold add. cbn [sparing]. destruct (filter _ (tokens d)) as [|t l] eqn:F; [|exact I]. cbn [sparing]. split; [exact I|]. intros n d1 _.
    split; [|intros; exact I]. intros m d0 Hm. apply in_map_iff in Hm as (t & <- & _). cbn. intros [-> ->]. apply Ne. unfold random_tokens. now rewrite F.
  - unfold insert_unblinded_tokens_for_voucher. cbn [sparing]. split; [exact I|]. intros g d1 _. split; [exact I|]. intros n d2 _.
    destruct (n =? 0); [exact I|]. cbn [sparing]. destruct (filter _ (vouchers d2)) as [|r l] eqn:F; [exact I|]. cbn [sparing].
    split; [intros m d0 Hm; apply in_map_iff in Hm as (t & <- & _); exact I|]. intros d3 H3. split; [|intros; exact I].
    cbn. intros <- <-. exists r. rewrite (ins_unblinded_vouchers H3).
    assert (Hr : In r (r :: l)) by (now left). rewrite <- F in Hr. apply filter_In in Hr as [Hr1 Hr2]. split; [exact Hr1|]. split; [now apply Z.eqb_eq|lia].
  - apply plain_sparing. cbn. split; [exact I|]. intros n. destruct (n =? 0); exact I.
  - apply plain_sparing. unfold get_unblinded_tokens. destruct (_ >? _); [exact I|]. cbn. intros d0. destruct (_ <? _); cbn; [exact I|].
    split; [apply plain_map; intros; exact I|exact I].
  - apply plain_sparing. cbn. split; [apply plain_map; intros; exact I|]. auto.
  - apply plain_sparing. cbn. split; [apply plain_map; intros; exact I|]. auto.
  - apply plain_sparing. cbn. split; [apply plain_map; intros; exact I|]. auto.
  - apply plain_sparing. unfold get. cbn. intros d0. destruct (filter _ _) as [|r ?]; [exact I|]. destruct (from_row r); exact I.
  - apply plain_sparing. unfold list_vouchers. cbn. intros d0. destruct (map_res from_row (vouchers d0)); exact I.
  - apply plain_sparing. cbn. auto.
  - apply plain_sparing. unfold maint_observe. destruct (PricingModel.required_passes _ _); [|exact I]. destruct rowid; cbn; auto.
  - apply plain_sparing. unfold maint_finish. destruct rowid; cbn; auto.
Qed.

Lemma behind_rows v c ms d d' : exec_rows sexec ms d = Ok d' -> behind d v c -> behind d' v c.
Proof.
  revert d. induction ms as [|m ms IH]; intros d; cbn; [now intros [= <-]|]. destruct (sexec m d) as [d1|e] eqn:E; [|discriminate].
  intros H B. exact (IH d1 H (behind_exec E B)).
Qed.

Lemma holds_step v c ts o d : ts <> [] -> holds v c ts d -> holds v c ts (snd (StoreModel.step d o)).
Proof.
  intros Ne H. assert (N : o = ORestart \/ o <> ORestart) by (destruct o; auto; right; discriminate).
  destruct N as [->|N]; [exact H|]. rewrite leaves_step by exact N. destruct (returns o d); [|exact H].
  destruct H as [H|H]; [left; exact (behind_rows (call_rows o d) H)|].
  apply sparing_run; [apply op_sparing; congruence|now right].
Qed.
Lemma holds_steps v c ts os : ts <> [] -> forall d, holds v c ts d -> holds v c ts (snd (steps d os)).
Proof.
  intros Ne. induction os as [|o os IH]; intros d H; [exact H|]. pose proof (holds_step o Ne H) as H1. cbn [steps].
  destruct (StoreModel.step d o) as [x d1]. specialize (IH d1 H1). destruct (steps d1 os). exact IH.
Qed.

(** * Histories with the ghost *)
Lemma transaction_db D S (exec : S -> D -> res exn D) fresh text_size (b : body S) ok (n : node D S) :
  n_db (transaction exec fresh text_size b ok n) = n_db n \/
  exec_rows exec (executed b) (n_db n) = Ok (n_db (transaction exec fresh text_size b ok n)).
Proof.
  unfold transaction. destruct (run_body exec (n_replicating n) b (n_db n)) as [rec [d|e]] eqn:R; [|now left].
  destruct ok; [|now left]. right. rewrite (run_body_ok R). f_equal.
  unfold committed, signal. cbn [n_mutations with_mutations]. destruct (n_mutations n ++ rec) as [|m ms]; [reflexivity|].
  cbn [n_observing with_mutations with_db]. destruct (n_observing n); [|reflexivity].
  unfold observed. destruct (add_events _ _ _ _) as [l' seq']. destruct (should_upload_eventstream _ _); [|reflexivity].
  match goal with |- context [queue_job fresh JEvents ?m] => now destruct (queue_job_shape fresh JEvents m) as (js & w & -> & _) end.
Qed.

Lemma benign_history ms x y : Forall benign ms -> exec_rows gexec ms x = Ok y -> snd y = snd x.
Proof.
  intros B. revert x. induction B as [|m ms Hm B IH]; intros x; cbn; [now intros [= <-]|].
  destruct (gexec m x) as [x1|e] eqn:E; [|discriminate]. intros H. rewrite (IH x1 H). unfold gexec in E.
  destruct (sexec m (fst x)); [|discriminate]. injection E as <-. destruct m; try contradiction; reflexivity.
Qed.

Section Wallet.
Variable text_size : mut -> Z.
Variable stream_size : list (change mut) -> Z.
Notation gstep := (ReplicaModel.step gexec gfresh text_size stream_size).
Notation grun := (ReplicaModel.run gexec gfresh text_size stream_size).
Notation wrun := (wrun text_size stream_size).
Notation wstep := (wstep text_size stream_size).
Notation wevents := (wevents text_size stream_size).
Definition gsystem := ReplicaModel.system (db * history) mut.
Definition see (s : gsystem) : ReplicaModel.system db mut := msys fst s.
Definition gnew : gsystem := new_system mut (empty_db, []).

Lemma see_step s e : see (gstep s e) = ReplicaModel.step sexec restart text_size stream_size (see s) e.
Proof. unfold see. symmetry. apply m_step; [apply g_exec|apply g_fresh]. Qed.
Lemma see_wstep s e : see (gstep s (wevent_event (n_db (fst (see s))) e)) = wstep (see s) e.
Proof. apply see_step. Qed.
Lemma see_run s es : see (grun s es) = ReplicaModel.run sexec restart text_size stream_size (see s) es.
Proof. unfold see. symmetry. apply m_run; [apply g_exec|apply g_fresh]. Qed.

Definition onward (x y : db * history) : Prop :=
  (exists more, snd y = snd x ++ more) /\ (snd y = snd x -> thinner (fst x) (fst y)).
Lemma onward_refl x : onward x x.
Proof. split; [exists []; now rewrite app_nil_r|intros _; apply thinner_refl]. Qed.
Lemma onward_trans x y z : onward x y -> onward y z -> onward x z.
Proof.
  intros [(m1 & E1) T1] [(m2 & E2) T2]. split; [exists (m1 ++ m2); now rewrite E2, E1, app_assoc|].
  intros E. rewrite E2, E1 in E. assert (Z : m1 = [] /\ m2 = []).
  { apply (f_equal (@length _)) in E. rewrite !app_length in E. split; [destruct m1|destruct m2]; try reflexivity; cbn in E; lia. }
  destruct Z as [-> ->]. rewrite app_nil_r in *. apply thinner_trans with (b := fst y); auto.
Qed.
Lemma onward_rows ms x y : exec_rows gexec ms x = Ok y -> onward x y.
Proof. intros H. split; [exact (grows_more H)|exact (grows_thinner H)]. Qed.
Lemma onward_fresh x : onward x (gfresh x).
Proof. split; [exists []; now rewrite app_nil_r|]. intros _ v c. now right. Qed.

Lemma onward_step s e : onward (n_db (fst s)) (n_db (fst (gstep s e))).
Proof.
  destruct s as [n r]. cbn [fst]. destruct e as [b ok|b| | | | |p|a|a]; cbn [ReplicaModel.step].
  - destruct (n_up n); [|apply onward_refl]. cbn [fst]. destruct (transaction_db gexec gfresh text_size b ok n) as [->|H]; [apply onward_refl|].
    exact (onward_rows H).
  - destruct (n_up n); [|apply onward_refl]. destruct (run_body gexec (n_replicating n) b (n_db n)) as [rec [d|x]] eqn:R; [|apply onward_refl].
    cbn. exact (onward_rows (run_body_ok R)).
  - destruct (n_up n); [apply onward_refl|]. apply onward_fresh.
  - destruct (n_up n && negb (n_setup n)); [|apply onward_refl]. cbn [fst]. rewrite started_db. apply onward_refl.
  - destruct (n_up n && negb (n_setup n)); apply onward_refl.
  - destruct (n_up n && n_setup n && negb (n_observing n)); [|apply onward_refl]. cbn [fst]. rewrite started_db. apply onward_refl.
  - cbn [fst]. rewrite carry_on_db. apply onward_refl.
  - destruct (n_work n); apply onward_refl.
  - apply onward_refl.
Qed.
Lemma onward_run s es : onward (n_db (fst s)) (n_db (fst (grun s es))).
Proof.
  revert s. induction es as [|e es IH]; intros s; [apply onward_refl|]. change (grun s (e :: es)) with (grun (gstep s e) es).
  exact (onward_trans (onward_step s e) (IH _)).
Qed.

Lemma wevents_mutate s es : Forall (@all_mutate mut) (wevents s es).
Proof.
  revert s. induction es as [|e es IH]; intros s; [constructor|]. cbn [ReplicaStore.wevents]. constructor; [|apply IH].
  assert (B : forall o d, Forall (fun c => c_mutates c = true) (call_body o d)).
  { intros o d. unfold call_body. apply Forall_forall. intros c Hc. apply in_map_iff in Hc as (im & <- & _). reflexivity. }
  destruct e; cbn; auto. destruct (returns o _); cbn; auto.
Qed.

Hypothesis fit : sizes_fit text_size stream_size.

Lemma recovered_asks es n r : wall_along text_size stream_size (@wharmless) (@empty_wallet) es ->
  wrun (@empty_wallet) es = (n, r) -> n_work n = Idle ->
  exists a b, recover sexec r = Ok a /\ wallet_was text_size stream_size es b /\ same_tables a b /\
  forall v c ts, asked text_size stream_size es v c ts -> behind a v c \/ random_tokens a v c = ts.
Proof.
  intros H E Wk. destruct (grun gnew (wevents empty_wallet es)) as [gn gr] eqn:G.
  assert (See : forall es', see (grun gnew (wevents empty_wallet es')) = wrun empty_wallet es').
  { intros es'. rewrite see_run, wrun_run. reflexivity. }
  assert (Sn : (mnode fst gn, mreplica fst gr) = (n, r)) by (rewrite <- E, <- See, G; reflexivity).
  injection Sn as <- <-.
  pose proof E as E'. rewrite wrun_run in E'. destruct (@at_rest _ _ _ _ _ _ fit _ _ _ _ E' Wk) as (Sn & Pl & _). clear E'.
  cbn [mreplica r_snapshot] in Sn. destruct (r_snapshot gr) as [s|] eqn:Es; [|now destruct Sn]. clear Sn.
  assert (Rv : ReplicaRunProofs.recovers gexec gfresh text_size stream_size gsim gnew (wevents empty_wallet es)).
  { apply (harmless_recovers gfaithful (settled := fun x => in_use (fst x) = [])).
    - split; reflexivity.
    - exact grestartable.
    - apply (m_harmless_all (exec := sexec) (fresh := restart) g_exec g_fresh (ok := wok) (settled := fun d => in_use d = []) (wevents_mutate _ _)).
      apply (@wharmless_harmless text_size stream_size empty_wallet es); [apply base_new|split; reflexivity|exact H].
    - change (~ pruning (n_work (fst (grun gnew (wevents empty_wallet es))))). rewrite G. cbn [fst]. intros P. cbn [n_work mnode] in Wk.
      destruct (n_work gn); try destruct P; discriminate. }
  destruct (Rv gn gr s G Es) as (ga & gb & R & At & Sim & ga' & Rp & Sim').
  exists (fst ga), (fst gb). split; [rewrite (m_recover g_exec), R; reflexivity|].
  assert (Q : quiet_log (fst (wrun empty_wallet es))) by (apply quiet_run; split; [intros ? []|intros ? []]).
  rewrite E in Q. cbn [fst] in Q.
  assert (Bn : Forall benign (map (statement (S:=mut)) (n_log gn))).
  { apply Forall_forall. intros m Hm. apply in_map_iff in Hm as (c & <- & Hc). apply (proj2 Q); [exact Hc|]. now apply Pl. }
  pose proof (benign_history Bn Rp) as Eh. destruct Sim as [Sim Eh1], Sim' as [Sim' Eh2].
  assert (Hh : snd gb = snd (n_db gn)) by congruence. clear Eh Eh1 Eh2 Rp Sim' ga' Bn Q Pl R.
  destruct At as (l1 & l2 & El & Hb). apply wevents_prefix in El as (esb & esb' & Ees & ->).
  assert (Tb : same_tables (fst ga) (fst gb)) by exact (proj1 Sim).
  split; [exists esb, esb'; split; [exact Ees|]; rewrite <- Hb, <- See; reflexivity|].
  split; [exact Tb|].
  assert (Goal : forall v c ts, asked text_size stream_size es v c ts -> behind (fst gb) v c \/ random_tokens (fst gb) v c = ts).
  2: { intros v c ts A. destruct Tb as (T1 & T2 & _). unfold behind, random_tokens. rewrite T1, T2. exact (Goal v c ts A). }
  intros v c ts (es1 & ex & toks & now & es2 & Ee & Up & Ok & Ne).
  set (o := OAdd v ex c toks now) in *.
  (* right after the call the tokens are there *)
  assert (After : random_tokens (n_db (fst (wrun empty_wallet (es1 ++ [WCall o])))) v c = ts).
  { rewrite wrun_app. cbn [ReplicaStore.wrun fold_left].
    set (sy := fold_left wstep es1 empty_wallet) in *. change (wrun empty_wallet es1) with sy in *.
    assert (X : n_db (fst (wstep sy (WCall o))) = snd (StoreModel.step (n_db (fst sy)) o)).
    { unfold ReplicaStore.wstep. destruct sy as [n0 r0]. cbn [fst wevent_event ReplicaModel.step] in *. rewrite Up. cbn [fst]. rewrite call_db.
      symmetry. apply leaves_step. discriminate. }
    rewrite X. refine (proj1 (@add_stores v ex c toks now (n_db (fst sy)) ts _ Ok Ne)).
    pose proof (wrun_store text_size stream_size empty_wallet es1) as Y. unfold sy. change (fold_left wstep es1 empty_wallet) with (wrun empty_wallet es1).
    rewrite Y. apply tied_steps. intros t []. }
  assert (Gdb : forall es', fst (n_db (fst (grun gnew (wevents empty_wallet es')))) = n_db (fst (wrun empty_wallet es'))).
  { intros es'. rewrite <- See. reflexivity. }
  assert (Dich : (exists k, esb = (es1 ++ [WCall o]) ++ k) \/ (exists k, es1 = esb ++ k)).
  { clear - Ees Ee. rewrite Ee in Ees. clear Ee. revert es1 Ees. induction esb as [|x esb IH]; intros es1 Ees; [right; now exists es1|].
    destruct es1 as [|y es1]; cbn in Ees; injection Ees as -> Ees.
    - left. exists esb. reflexivity.
    - destruct (IH _ Ees) as [(k & ->)|(k & ->)]; [left|right]; now exists k. }
  destruct Dich as [(k & Ek)|(k & Ek)].
  - (* the backup shows a later time *)
    rewrite <- Hb. change (behind (fst (n_db (fst (grun gnew (wevents empty_wallet esb))))) v c \/ random_tokens (fst (n_db (fst (grun gnew (wevents empty_wallet esb))))) v c = ts).
    rewrite Gdb, Ek, wrun_app. rewrite wrun_store. apply holds_steps; [exact Ne|]. now right.
  - (* the backup shows an earlier time: nothing was stored since *)
    right. set (esp := es1 ++ [WCall o]) in *.
    assert (Hp : es = esp ++ es2) by (unfold esp; now rewrite <- app_assoc).
    assert (O1 : onward gb (n_db (fst (grun gnew (wevents empty_wallet esp))))).
    { rewrite <- Hb. replace esp with (esb ++ (k ++ [WCall o])) by (unfold esp; rewrite Ek; now rewrite <- app_assoc).
      rewrite wevents_app. unfold ReplicaModel.run at 2. rewrite fold_left_app. apply onward_run. }
    assert (O2 : onward (n_db (fst (grun gnew (wevents empty_wallet esp)))) (n_db gn)).
    { change gn with (fst (gn, gr)). rewrite <- G, Hp, wevents_app. unfold ReplicaModel.run at 2. rewrite fold_left_app. apply onward_run. }
    set (gp := n_db (fst (grun gnew (wevents empty_wallet esp)))) in *.
    assert (Eq : snd gp = snd gb).
    { destruct O1 as [(m1 & F1) _], O2 as [(m2 & F2) _]. rewrite <- Hh in F2. rewrite F1 in F2 |- *. rewrite <- app_assoc in F2.
      apply (f_equal (@length _)) in F2. rewrite !app_length in F2. destruct m1; [now rewrite app_nil_r|cbn in F2; lia]. }
    destruct (proj2 O1 Eq v c) as [X|X]; unfold gp in X; rewrite Gdb in X; rewrite After in X; congruence.
Qed.
End Wallet.
