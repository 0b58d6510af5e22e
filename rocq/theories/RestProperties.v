(** C137: a node that is lost while replication is at rest loses no voucher and
    no random token. *)
From Verif Require Import Prelude PreludeFacts StoreModel ReplicaModel ReplicaSpec ReplicaProofs ReplicaRunProofs ReplicaLogProofs ReplicaStore RestSpec RestProofs.
Set Implicit Arguments.

(** Whatever happened, failed uploads and killed processes included: when the
    loop waits for work there is a snapshot, no important change is left in the
    log, and the texts of the statements left there are below the limit.  This is
    so for every database. *)
Theorem C137_nothing_important_is_left :
  forall (D S : Type) (exec : S -> D -> res exn D) (fresh : D -> D) text_size stream_size,
  sizes_fit text_size stream_size ->
  forall d es n r, run exec fresh text_size stream_size (new_system S d) es = (n, r) -> n_work n = Idle ->
  r_snapshot r <> None /\ (forall c, In c (n_log n) -> important c = false) /\
  (n_log n = [] \/ total_size text_size (map (@statement S) (n_log n)) < 570000).
Proof. intros D S exec fresh ts ss F d es n r E Wk. exact (@at_rest _ _ exec fresh ts ss F d es n r E Wk). Qed.
Print Assumptions C137_nothing_important_is_left.

Section Wallet.
Variable text_size : mut -> Z.
Variable stream_size : list (change mut) -> Z.
Hypothesis fit : sizes_fit text_size stream_size.
Notation wrun := (wrun text_size stream_size).

(** The wallet recovered then has every voucher, and every random token that has
    not been exchanged for a signed one. *)
Theorem C137_recovered_wallet_keeps :
  forall es n r, wall_along text_size stream_size wharmless empty_wallet es ->
  wrun empty_wallet es = (n, r) -> n_work n = Idle ->
  exists a, recover sexec r = Ok a /\ keeps a (n_db n).
Proof. intros es n r H E Wk. exact (recovered_keeps fit H E Wk). Qed.

(** Operations complete one after the other. *)
Definition completions (ps : nat -> bool) (k : nat) : list wevent := map (fun i => WDone (ps i)) (seq 0 k).

Lemma completions_S ps k : completions ps (S k) = WDone (ps O) :: completions (fun i => ps (S i)) k.
Proof. unfold completions. cbn [seq map]. f_equal. rewrite <- seq_shift, map_map. reflexivity. Qed.
Lemma completions_dones ps k s : wevents text_size stream_size s (completions ps k) = dones mut ps k.
Proof.
  revert ps s. induction k as [|k IH]; intros ps s; [reflexivity|]. rewrite completions_S. cbn [wevents dones wevent_event]. f_equal. apply IH.
Qed.
Lemma along_app P s es1 es2 : wall_along text_size stream_size P s es1 -> wall_along text_size stream_size P (wrun s es1) es2 ->
  wall_along text_size stream_size P s (es1 ++ es2).
Proof. revert s. induction es1 as [|e es1 IH]; intros s H1 H2; [exact H2|]. destruct H1 as [A B]. split; [exact A|]. now apply IH. Qed.
Lemma completions_harmless ps k s : wall_along text_size stream_size wharmless s (completions ps k).
Proof. revert ps s. induction k as [|k IH]; intros ps s; [exact I|]. rewrite completions_S. split; [destruct s; exact I|apply IH]. Qed.
Lemma completions_db ps k s : n_db (fst (wrun s (completions ps k))) = n_db (fst s).
Proof.
  revert ps s. induction k as [|k IH]; intros ps s; [reflexivity|]. rewrite completions_S.
  change (n_db (fst (wrun (wstep text_size stream_size s (WDone (ps O))) (completions (fun i => ps (S i)) k))) = n_db (fst s)).
  rewrite IH. destruct s as [n r]. cbn [fst wstep wevent_event ReplicaModel.step]. unfold wstep. cbn [fst wevent_event ReplicaModel.step]. apply carry_on_db.
Qed.

(** As long as the loop is running, that is only a matter of some operations on
    the grid completing: whatever vouchers and random tokens the wallet has now can
    then be recovered. *)
Theorem C137_what_is_there_now_gets_safe :
  forall es n r ps, wall_along text_size stream_size wharmless empty_wallet es ->
  wrun empty_wallet es = (n, r) -> n_work n <> Stopped ->
  exists k a, recover sexec (snd (wrun (n, r) (completions ps k))) = Ok a /\ keeps a (n_db n).
Proof.
  intros es n r ps H E NS. pose proof (wbase text_size stream_size es) as HB. rewrite E in HB. cbn [fst snd] in HB.
  destruct (@gets_idle _ _ sexec restart text_size stream_size n r ps HB NS) as [k Hk]. exists k.
  assert (R : wrun (n, r) (completions ps k) = ReplicaModel.run sexec restart text_size stream_size (n, r) (dones mut ps k)).
  { rewrite wrun_run. now rewrite completions_dones. }
  destruct (wrun (n, r) (completions ps k)) as [n' r'] eqn:E2.
  assert (Ea : wrun empty_wallet (es ++ completions ps k) = (n', r')) by (rewrite wrun_app, E; exact E2).
  assert (Ha : wall_along text_size stream_size wharmless empty_wallet (es ++ completions ps k)).
  { apply along_app; [exact H|]. apply completions_harmless. }
  assert (Wk : n_work n' = Idle) by (rewrite <- R in Hk; exact Hk).
  destruct (@C137_recovered_wallet_keeps _ _ _ Ha Ea Wk) as (a & Ra & K). exists a. split; [exact Ra|].
  assert (Ed : n_db n' = n_db n). { pose proof (completions_db ps k (n, r)) as X. rewrite E2 in X. exact X. }
  now rewrite <- Ed.
Qed.

(** In particular for a voucher that has just been added: it is recovered with the
    tokens the call answered, new or old. *)
Theorem C137_an_added_voucher_gets_safe :
  forall es n r v e c toks now ts ps,
  wall_along text_size stream_size wharmless empty_wallet (es ++ [WCall (OAdd v e c toks now)]) ->
  wrun empty_wallet es = (n, r) -> n_work n <> Stopped ->
  fst (StoreModel.step (n_db n) (OAdd v e c toks now)) = Ok (RTokens ts) -> ts <> [] ->
  exists k a, recover sexec (snd (wrun empty_wallet (es ++ WCall (OAdd v e c toks now) :: completions ps k))) = Ok a /\
    In v (map v_number (vouchers a)) /\ random_tokens a v c = ts.
Proof.
  intros es n r v e c toks now ts ps H E NS Ok Ne. set (o := OAdd v e c toks now) in *.
  destruct (wrun empty_wallet (es ++ [WCall o])) as [n1 r1] eqn:E1.
  pose proof (wbase text_size stream_size es) as HB. rewrite E in HB. cbn [fst snd] in HB.
  assert (Up : n_up n = true) by (destruct HB as (_ & _ & _ & Hf); destruct Hf as (_ & _ & F3 & _); now destruct (F3 NS)).
  assert (Ret : returns o (n_db n) = true).
  { unfold returns. unfold StoreModel.step, with_cursor, o in Ok. unfold o. destruct (StoreModel.run _ _) as [[[x|x] y] z]; [reflexivity|discriminate]. }
  assert (Es1 : wstep text_size stream_size (n, r) (WCall o) = (n1, r1)) by (rewrite wrun_app, E in E1; exact E1).
  assert (Db : n_db n1 = snd (StoreModel.step (n_db n) o)).
  { rewrite leaves_step by discriminate. rewrite Ret. unfold wstep in Es1. cbn [fst wevent_event ReplicaModel.step] in Es1. rewrite Up in Es1.
    injection Es1 as <- _. rewrite call_db. now rewrite Ret. }
  assert (NS1 : n_work n1 <> Stopped).
  { unfold wstep in Es1. cbn [fst wevent_event ReplicaModel.step] in Es1. rewrite Up, Ret in Es1. injection Es1 as <- _.
    unfold transaction. destruct (run_body _ _ _ _) as [rec [d|x]]; [|exact NS]. unfold committed, signal. cbn [n_mutations with_mutations].
    destruct (n_mutations n ++ rec); [exact NS|]. cbn [n_observing with_mutations with_db]. destruct (n_observing n); [|exact NS].
    unfold observed. destruct (add_events _ _ _ _) as [l' seq']. destruct (should_upload_eventstream _ _); [|exact NS].
    match goal with |- context [queue_job restart JEvents ?m] => destruct (queue_job_shape restart JEvents m) as (js & w & -> & [->|[_ En]]) end; [exact NS|].
    cbn. intros ->. exact En. }
  destruct (@C137_what_is_there_now_gets_safe _ n1 r1 ps H E1 NS1) as (k & a & R & K1 & K2). exists k, a.
  split.
  { replace (es ++ WCall o :: completions ps k) with ((es ++ [WCall o]) ++ completions ps k) by (now rewrite <- app_assoc).
    rewrite wrun_app, E1. exact R. }
  assert (Rt : random_tokens (n_db n1) v c = ts /\ In v (map v_number (vouchers (n_db n1)))).
  { rewrite Db. apply add_stores; [|exact Ok|exact Ne].
    pose proof (wrun_store text_size stream_size empty_wallet es) as X. rewrite E in X. cbn [fst] in X. rewrite X. apply tied_steps. intros t []. }
  destruct Rt as [Rt1 Rt2]. split.
  - assert (X : map v_number (vouchers a) = map v_number (vouchers (n_db n1))).
    { clear - K1. induction K1 as [|x y l l' Hx Hl IH]; [reflexivity|]. cbn. destruct Hx as (-> & _). now rewrite IH. }
    now rewrite X.
  - destruct (K2 v c) as [X|X]; congruence.
Qed.
End Wallet.
Print Assumptions C137_recovered_wallet_keeps.
Print Assumptions C137_what_is_there_now_gets_safe.
Print Assumptions C137_an_added_voucher_gets_safe.

(** Every text of 10 characters, and streams of 100 bytes for each change. *)
Definition size10 (m : mut) : Z := 10.
Definition size100 (l : list (change mut)) : Z := 100 * Z.of_nat (length l).
Lemma sizes : sizes_fit size10 size100.
Proof.
  split; [intros s; unfold size10; lia|]. intros l. unfold size100. induction l as [|c l IH]; [reflexivity|].
  cbn [map sumZ length]. unfold size10 at 1. lia.
Qed.
Notation w := (wrun size10 size100 empty_wallet).

(** A voucher is added before replication is set up, another one while the first
    snapshot has been uploaded; the upload of its tokens fails, the process is started
    again; a group of the first voucher is redeemed, which is not uploaded at once;
    then all comes to rest. *)
Definition story : list wevent :=
  [WCall (OAdd 1 4 0 [11; 12] 1000); WSetUp; WDone false; WDone false; WDone false;
   WCall (OAdd 2 4 0 [21; 22] 1001); WFail false; WKill false; WOpen; WStart;
   WCall (OInsert 1 7 [31; 32] false true 1002)].
Ltac harmless_tac :=
  vm_compute; repeat match goal with |- _ /\ _ => split end;
  first [exact I | reflexivity | intros; left; reflexivity | intros; right; reflexivity | now intros [] | intros [X _]; discriminate X | now intros [_ []] | intros; discriminate ].
Example C137_example :
  wall_along size10 size100 wharmless empty_wallet story /\
  n_work (fst (w story)) <> Stopped /\ n_work (fst (w story)) <> Idle /\
  (let s := wrun size10 size100 (w story) (completions (fun _ => false) 3) in
   n_work (fst s) = Idle /\ r_snapshot (snd s) <> None /\
   exists a, recover sexec (snd s) = Ok a /\ random_tokens a 2 0 = [21; 22] /\ random_tokens (n_db (fst s)) 1 0 = []) /\
  (** ... and with a voucher added at the end: *)
  wall_along size10 size100 wharmless empty_wallet (story ++ [WCall (OAdd 3 4 0 [41] 1003)]) /\
  fst (StoreModel.step (n_db (fst (w story))) (OAdd 3 4 0 [41] 1003)) = Ok (RTokens [41]).
Proof.
  split; [harmless_tac|]. split; [vm_compute; discriminate|]. split; [vm_compute; discriminate|]. split.
  - split; [vm_compute; reflexivity|]. split; [vm_compute; discriminate|]. eexists. split; [vm_compute; reflexivity|]. split; vm_compute; reflexivity.
  - split; [harmless_tac|vm_compute; reflexivity].
Qed.

(** At rest the redemption of a group may be missing from the backup, as its
    statements are not important: here the wallet that is recovered has the random
    tokens of the group instead of the signed ones. *)
Definition story2 : list wevent :=
  [WSetUp; WDone false; WDone false; WDone false; WCall (OAdd 1 4 0 [11; 12] 1000); WDone false; WDone false;
   WCall (OInsert 1 7 [31; 32] false true 1002)].
Example C137_example_what_is_missing :
  wall_along size10 size100 wharmless empty_wallet story2 /\ n_work (fst (w story2)) = Idle /\
  random_tokens (n_db (fst (w story2))) 1 0 = [] /\ map u_token (unblinded (n_db (fst (w story2)))) = [31; 32] /\
  exists a, recover sexec (snd (w story2)) = Ok a /\ random_tokens a 1 0 = [11; 12] /\ unblinded a = [].
Proof.
  split; [harmless_tac|]. repeat (split; [vm_compute; reflexivity|]). eexists. split; [vm_compute; reflexivity|]. split; vm_compute; reflexivity.
Qed.
