(** Replication: C39-C43, C45, C48, C49, C72, C73. *)
From Verif Require Import Prelude PricingModel StoreModel ReplicaModel ReplicaSpec ReplicaProofs ReplicaRunProofs ReplicaLogProofs ReplicaStore.
From Coq Require Import Sorting.Sorted Sorting.Permutation.

(** * C39: a recovery reproduces the database *)

(** Any database, any relation between a recovered and an original database that
    its statements preserve.  At any time of a calm history, unless old streams
    are being removed at the moment: a recovery gives contents the database had
    at some time, and the changes waiting in the local log lead from there to
    the present.  What is missing from the full claim: a transaction that writes
    during the upload of a snapshot begun before any change was recorded (see
    [C39_recovery_reproduces_refuted]). *)
Theorem C39_recovery_reproduces_partial :
  forall (D S : Type) (exec : S -> D -> res exn D) (fresh : D -> D) text_size stream_size
         (sim : D -> D -> Prop) (ok : D -> Prop),
  faithful exec fresh sim ok ->
  forall d es n r s, ok d ->
  all_along exec fresh text_size stream_size (calm exec ok) (new_system S d) es ->
  run exec fresh text_size stream_size (new_system S d) es = (n, r) ->
  ~ pruning (n_work n) -> r_snapshot r = Some s ->
  exists a b, recover exec r = Ok a /\
    at_some_time exec fresh text_size stream_size (new_system S d) es b /\ sim a b /\
    exists a', replay exec (n_log n) a = Ok a' /\ sim a' (n_db n).
Proof.
  intros D S exec fresh ts ss sim ok F d es n r s Hd HA E NP Hs.
  refine (@calm_recovers D S exec fresh ts ss sim ok F d es Hd HA _ n r s E Hs). now rewrite E.
Qed.
Print Assumptions C39_recovery_reproduces_partial.

(** A database whose statements depend on nothing but its contents, recovered
    exactly: equality is such a relation. *)
Lemma eq_faithful D S (exec : S -> D -> res exn D) : faithful exec (fun d => d) eq (fun _ => True).
Proof. constructor; [reflexivity| |trivial]. intros s a b b' -> E. now exists b'. Qed.

Theorem C39_exact_recovery_partial :
  forall (D S : Type) (exec : S -> D -> res exn D) text_size stream_size d es n r s,
  all_along exec (fun d => d) text_size stream_size (calm exec (fun _ => True)) (new_system S d) es ->
  run exec (fun d => d) text_size stream_size (new_system S d) es = (n, r) ->
  ~ pruning (n_work n) -> r_snapshot r = Some s ->
  exists b, recover exec r = Ok b /\
    at_some_time exec (fun d => d) text_size stream_size (new_system S d) es b /\
    replay exec (n_log n) b = Ok (n_db n).
Proof.
  intros D S exec ts ss d es n r s HA E NP Hs.
  destruct (C39_recovery_reproduces_partial _ _ _ _ ts ss _ _ (eq_faithful D S exec) d es n r s I HA E NP Hs)
    as (a & b & H1 & H2 & <- & a' & H3 & <-).
  now exists a.
Qed.
Print Assumptions C39_exact_recovery_partial.

(** The wallet: every persistent table is recovered. *)
Theorem C39_wallet_recovery_partial :
  forall text_size stream_size es n r s,
  wall_along text_size stream_size wcalm empty_wallet es ->
  wrun text_size stream_size empty_wallet es = (n, r) ->
  ~ pruning (n_work n) -> r_snapshot r = Some s ->
  exists a b, recover sexec r = Ok a /\ wallet_was text_size stream_size es b /\ same_tables a b /\
    exists a', replay sexec (n_log n) a = Ok a' /\ same_tables a' (n_db n).
Proof.
  intros ts ss es n r s HA E NP Hs.
  refine (@wallet_recovers ts ss es HA _ n r s E Hs). now rewrite E.
Qed.
Print Assumptions C39_wallet_recovery_partial.

(** The database of the model does what the store model says. *)
Theorem C39_wallet_is_the_store :
  forall text_size stream_size es,
  n_db (fst (wrun text_size stream_size empty_wallet es)) =
  snd (steps empty_db (store_ops text_size stream_size empty_wallet es)).
Proof. intros. apply wrun_store. Qed.
Print Assumptions C39_wallet_is_the_store.

Definition size10 (m : mut) : Z := 10.
Definition size100 (l : list (change mut)) : Z := 100 * lenZ l.
Notation w := (wrun size10 size100 empty_wallet).
Notation along := (wall_along size10 size100).

Ltac calm_tac :=
  vm_compute; repeat match goal with |- _ /\ _ => split end;
  first [exact I | reflexivity | intros; left; reflexivity | intros; right; reflexivity | now intros [] | intros [X _]; discriminate X | now intros [_ []] | intros; discriminate ].

(** A first snapshot, a voucher added and uploaded, tokens stored, a second
    snapshot replacing the stream, and a change that is not uploaded yet. *)
Definition busy : list wevent :=
  [WCall (OAdd 1 4 0 [11; 12] 1000); WSetUp; WDone false; WDone false; WDone false;
   WCall (OAdd 2 4 0 [21; 22] 1001); WDone false; WDone true;
   WCall (OInsert 1 7 [31; 32] true true 1002);
   WDone false; WDone false; WDone false;
   WCall (OExtract (fun l => l) 1); WCall (OAdd 3 4 0 [41] 1003); WDone false; WDone false;
   WCall (ODiscard [31])].
Example C39_example :
  along wcalm empty_wallet busy /\ ~ pruning (n_work (fst (w busy))) /\
  (exists s, r_snapshot (snd (w busy)) = Some s) /\
  map fst (r_streams (snd (w busy))) = [11] /\ lenZ (n_log (fst (w busy))) = 4.
Proof.
  split; [|split; [|split; [|split]]].
  - calm_tac.
  - vm_compute. tauto.
  - vm_compute. eexists. reflexivity.
  - vm_compute. reflexivity.
  - vm_compute. reflexivity.
Qed.

(** The full claim fails: a voucher is added while the very first snapshot is
    being uploaded.  Its first change gets number 1, which is also the number
    assumed for a snapshot from before the first change, so it is removed from
    the log without being in the snapshot; the recovery raises. *)
Definition racing : list wevent :=
  [WSetUp; WDone false; WCall (OAdd 1 4 0 [11; 12] 1000);
   WDone false; WDone false; WDone false; WDone false].
(** No call raises and nothing is interrupted. *)
Definition smooth (s : system db mut) (e : wevent) : Prop :=
  match e with
  | WCall o => returns o (n_db (fst s)) = true
  | WSetUp | WDone _ => True
  | _ => False
  end.
Theorem C39_recovery_reproduces_refuted :
  exists es n r s,
  along smooth empty_wallet es /\ w es = (n, r) /\ r_snapshot r = Some s /\
  n_work n = Idle /\ n_log n = [] /\
  map v_number (vouchers (n_db n)) = [1] /\ recover sexec r = Err IntegrityError.
Proof.
  exists racing, (fst (w racing)), (snd (w racing)), empty_db.
  split; [vm_compute; repeat split|]. repeat (split; [vm_compute; reflexivity|]). vm_compute. reflexivity.
Qed.
Print Assumptions C39_recovery_reproduces_refuted.

(** * C40: rolled-back changes *)

(** Tokens for a voucher are stored with one of them twice: the call raises and
    is rolled back.  Adding the next voucher uploads what the rolled back call had
    done before it failed, and the recovered wallet has the first voucher redeemed
    though it is not. *)
Definition failing : list wevent :=
  [WCall (OAdd 1 4 0 [11; 12] 1000); WSetUp; WDone false; WDone false; WDone false;
   WCall (OAdd 2 4 0 [21] 1001); WDone false; WDone false;
   WCall (OInsert 1 7 [31; 31] true true 1002);
   WCall (OAdd 3 4 0 [41] 1003); WDone false; WDone false].
Theorem C40_rolled_back_changes_refuted :
  exists es n r s a,
  w es = (n, r) /\ r_snapshot r = Some s /\ n_work n = Idle /\ n_log n = [] /\
  (exists es1 o es2, es = es1 ++ WCall o :: es2 /\ o = OInsert 1 7 [31; 31] true true 1002 /\
     fst (StoreModel.step (n_db (fst (w es1))) o) = Err IntegrityError /\
     along (fun s e => e = WCall o \/ smooth s e) empty_wallet es) /\
  recover sexec r = Ok a /\
  map (fun v => (v_number v, v_state v)) (vouchers (n_db n)) = [(1, SPending); (2, SPending); (3, SPending)] /\
  map (fun v => (v_number v, v_state v)) (vouchers a) = [(1, SRedeemed); (2, SPending); (3, SPending)].
Proof.
  exists failing, (fst (w failing)), (snd (w failing)).
  destruct (recover sexec (snd (w failing))) as [a|] eqn:E; [|vm_compute in E; discriminate].
  destruct (r_snapshot (snd (w failing))) as [s|] eqn:Es; [|vm_compute in Es; discriminate].
  exists s, a. split; [apply surjective_pairing|]. split; [reflexivity|].
  split; [vm_compute; reflexivity|]. split; [vm_compute; reflexivity|]. split.
  - exists (firstn 8 failing), (OInsert 1 7 [31; 31] true true 1002), (skipn 9 failing).
    split; [reflexivity|]. split; [reflexivity|]. split; [vm_compute; reflexivity|].
    vm_compute. repeat split; try (right; reflexivity); try (right; exact I); left; reflexivity.
  - split; [reflexivity|]. vm_compute in E. injection E as <-. split; vm_compute; reflexivity.
Qed.
Print Assumptions C40_rolled_back_changes_refuted.

(** What is recorded exactly: if no transaction is rolled back after a mutating
    statement, the statements of the transactions committed while observed and
    nothing else. *)
Theorem C40_only_committed_changes_partial :
  forall (D S : Type) (exec : S -> D -> res exn D) (fresh : D -> D) text_size stream_size d es,
  all_along exec fresh text_size stream_size (no_stale exec) (new_system S d) es ->
  map (@statement S) (journal exec fresh text_size stream_size (new_system S d) es) =
  committed_while_observed exec fresh text_size stream_size (new_system S d) es.
Proof. intros. apply journal_statements; [apply base_new|reflexivity|assumption]. Qed.
Print Assumptions C40_only_committed_changes_partial.

(** * C41: interruptions *)

(** A voucher is added; the process ends when the upload of the change has taken
    effect but has not been acknowledged.  After the restart another voucher is
    added, and both changes go into another stream.  The recovery raises. *)
Definition kill_after_upload : list wevent :=
  [WSetUp; WDone false; WDone false; WDone false;
   WCall (OAdd 1 4 0 [11] 1000); WKill true;
   WOpen; WStart; WCall (OAdd 2 4 0 [21] 1001); WDone false; WDone false; WDone false; WDone false].
(** The process ends when a new snapshot has been uploaded, before the streams
    it contains have been removed. *)
Definition kill_before_pruning : list wevent :=
  [WSetUp; WDone false; WDone false; WDone false;
   WCall (OAdd 1 4 0 [11] 1000); WDone false; WDone true; WDone false; WKill false;
   WOpen; WStart; WDone false].
(** The process ends when a call has been committed, before it is recorded:
    the change is never uploaded. *)
Definition kill_before_recording : list wevent :=
  [WSetUp; WDone false; WDone false; WDone false;
   WCallKill (OAdd 1 4 0 [11] 1000);
   WOpen; WStart; WDone false; WCall (OAdd 2 4 0 [21] 1001); WDone false; WDone false].
(** Not interrupting an upload at all: a token is taken for use, the node is
    restarted, the token is taken again.  Both are recorded, and the recovery
    raises. *)
Definition restart_in_use : list wevent :=
  [WCall (OAdd 1 4 0 [11] 1000); WCall (OInsert 1 7 [31] true true 1001); WSetUp; WDone false; WDone false; WDone false;
   WCall (OAdd 2 4 0 [21] 1002); WDone false; WDone false;
   WCall (OExtract (fun l => l) 1); WKill false;
   WOpen; WStart; WDone false; WCall (OExtract (fun l => l) 1);
   WCall (OAdd 3 4 0 [41] 1003); WDone false; WDone false].

Definition calls_return (s : system db mut) (e : wevent) : Prop :=
  match e with WCall o | WCallKill o => returns o (n_db (fst s)) = true | _ => True end.

Theorem C41_interruptions_refuted :
  (forall es, In es [kill_after_upload; kill_before_pruning; restart_in_use] ->
     along calls_return empty_wallet es /\
     n_work (fst (w es)) = Idle /\ n_log (fst (w es)) = [] /\
     (exists s, r_snapshot (snd (w es)) = Some s) /\
     recover sexec (snd (w es)) = Err IntegrityError) /\
  (let es := kill_before_recording in
   along calls_return empty_wallet es /\
   n_work (fst (w es)) = Idle /\ n_log (fst (w es)) = [] /\
   map v_number (vouchers (n_db (fst (w es)))) = [1; 2] /\
   exists a, recover sexec (snd (w es)) = Ok a /\ map v_number (vouchers a) = [2]).
Proof.
  split.
  - intros es [<-|[<-|[<-|[]]]]; (split; [vm_compute; repeat split|]); (split; [vm_compute; reflexivity|]);
      (split; [vm_compute; reflexivity|]); (split; [vm_compute; eexists; reflexivity|vm_compute; reflexivity]).
  - split; [vm_compute; repeat split|]. split; [vm_compute; reflexivity|]. split; [vm_compute; reflexivity|].
    split; [vm_compute; reflexivity|]. eexists. split; vm_compute; reflexivity.
Qed.
Print Assumptions C41_interruptions_refuted.

(** Interruptions that do no harm: the process ends, or an upload fails, before
    the operation under way takes effect, not while streams are being removed,
    not between commit and recording, and with no token in use. *)
Theorem C41_harmless_interruptions_partial :
  forall text_size stream_size es n r s,
  wall_along text_size stream_size wharmless empty_wallet es ->
  wrun text_size stream_size empty_wallet es = (n, r) ->
  ~ pruning (n_work n) -> r_snapshot r = Some s ->
  exists a b, recover sexec r = Ok a /\ wallet_was text_size stream_size es b /\ same_tables a b /\
    exists a', replay sexec (n_log n) a = Ok a' /\ same_tables a' (n_db n).
Proof.
  intros ts ss es n r s HA E NP Hs. refine (@wallet_harmless ts ss es HA _ n r s E Hs). now rewrite E.
Qed.
Print Assumptions C41_harmless_interruptions_partial.

(** The same for any database. *)
Theorem C41_harmless_interruptions_any_partial :
  forall (D S : Type) (exec : S -> D -> res exn D) (fresh : D -> D) text_size stream_size
         (sim : D -> D -> Prop) (ok settled : D -> Prop),
  faithful exec fresh sim ok -> restartable fresh sim ok settled ->
  forall d es n r s, ok d ->
  all_along exec fresh text_size stream_size (harmless exec ok settled) (new_system S d) es ->
  run exec fresh text_size stream_size (new_system S d) es = (n, r) ->
  ~ pruning (n_work n) -> r_snapshot r = Some s ->
  exists a b, recover exec r = Ok a /\
    at_some_time exec fresh text_size stream_size (new_system S d) es b /\ sim a b /\
    exists a', replay exec (n_log n) a = Ok a' /\ sim a' (n_db n).
Proof.
  intros D S exec fresh ts ss sim ok settled F Rs d es n r s Hd HA E NP Hs.
  refine (@harmless_recovers D S exec fresh ts ss sim ok F settled d es Hd Rs HA _ n r s E Hs). now rewrite E.
Qed.
Print Assumptions C41_harmless_interruptions_any_partial.

(** An upload is interrupted twice, once by a failure and once by a kill. *)
Definition interrupted : list wevent :=
  [WCall (OAdd 1 4 0 [11; 12] 1000); WSetUp; WDone false; WFail false; WKill false; WOpen; WStart; WDone false; WDone false; WDone false;
   WCall (OAdd 2 4 0 [21] 1001); WKill false; WOpen; WStart; WCall (OAdd 3 4 0 [31] 1002); WDone false; WDone false;
   WCall (OAdd 4 4 0 [41] 1003)].
Example C41_example :
  along wharmless empty_wallet interrupted /\ ~ pruning (n_work (fst (w interrupted))) /\
  (exists s, r_snapshot (snd (w interrupted)) = Some s) /\
  map fst (r_streams (snd (w interrupted))) = [4] /\ lenZ (n_log (fst (w interrupted))) = 2.
Proof.
  split; [|split; [|split; [|split]]].
  - calm_tac.
  - vm_compute. tauto.
  - vm_compute. eexists. reflexivity.
  - vm_compute. reflexivity.
  - vm_compute. reflexivity.
Qed.

(** Whatever happened before, a snapshot makes the replica sound again: from
    when it and the removal of the old streams are complete, in a calm
    continuation. *)
Theorem C41_snapshot_heals_partial :
  forall text_size stream_size es1 es2 n r q n2 r2 s,
  wrun text_size stream_size empty_wallet es1 = (n, r) ->
  n_work n = SendingSnapshot q (restart (n_db n)) -> q = match n_seq n with Some x => x | None => 1 end ->
  n_mutations n = [] -> wall_along text_size stream_size wcalm (n, r) es2 ->
  wrun text_size stream_size empty_wallet (es1 ++ es2) = (n2, r2) ->
  ~ pruning (n_work n2) -> (forall q' s', n_work n2 <> SendingSnapshot q' s') -> r_snapshot r2 = Some s ->
  exists a b, recover sexec r2 = Ok a /\ wallet_was text_size stream_size (es1 ++ es2) b /\ same_tables a b /\
    exists a', replay sexec (n_log n2) a = Ok a' /\ same_tables a' (n_db n2).
Proof.
  intros ts ss es1 es2 n r q n2 r2 s E Wk Eq Hm HA E2 NP NS Hs.
  refine (@wallet_heals ts ss es1 es2 n r q E Wk Eq Hm HA _ _ n2 r2 s E2 Hs); now rewrite E2.
Qed.
Print Assumptions C41_snapshot_heals_partial.

(** The broken replica of [kill_after_upload] is healed by the snapshot that is
    taken next. *)
Definition broken_then_snapshot : list wevent := firstn 11 kill_after_upload ++ [WDone true].
Definition healing : list wevent := [WDone false; WDone false; WDone false; WDone false; WCall (OAdd 3 4 0 [31] 1002); WDone false].
Example C41_heals_example :
  let n := fst (w broken_then_snapshot) in
  recover sexec (snd (w broken_then_snapshot)) = Err IntegrityError /\
  (exists q, n_work n = SendingSnapshot q (restart (n_db n)) /\ q = match n_seq n with Some x => x | None => 1 end) /\
  n_mutations n = [] /\ along wcalm (w broken_then_snapshot) healing /\
  n_work (fst (w (broken_then_snapshot ++ healing))) = Weighing.
Proof.
  split; [vm_compute; reflexivity|]. split; [eexists; split; vm_compute; reflexivity|]. split; [vm_compute; reflexivity|].
  split; [calm_tac|vm_compute; reflexivity].
Qed.

(** * C42: what is removed from the log *)

Section Any.
Variables D S : Type.
Variable exec : S -> D -> res exn D.
Variable fresh : D -> D.
Variable text_size : S -> Z.
Variable stream_size : list (change S) -> Z.
Notation step := (ReplicaModel.step exec fresh text_size stream_size).
Notation run := (ReplicaModel.run exec fresh text_size stream_size).

(** An upload of events: when it completes the log has lost exactly the uploaded
    ones, whatever was recorded meanwhile, and they are in the directory. *)
Theorem C42_upload_removes_exactly_what_was_uploaded :
  forall d es n r events h policy,
  run (new_system S d) es = (n, r) -> n_work n = Sending events h ->
  exists newer, n_log n = events ++ newer /\
    n_log (fst (step (n, r) (Done policy))) = newer /\
    In (h, events) (r_streams (snd (step (n, r) (Done policy)))).
Proof.
  intros d es n r evs h p E Wk. apply upload_done; [|exact Wk].
  pose proof (base_reach exec fresh text_size stream_size d es) as H. now rewrite E in H.
Qed.

(** Nothing else than the completion of an upload removes anything; every other
    step only adds at the end. *)
Theorem C42_nothing_else_removes :
  forall s e,
  (forall policy events h, e = Done policy -> n_work (fst s) <> Sending events h) ->
  (forall policy q snap, e = Done policy -> n_work (fst s) <> SendingSnapshot q snap) ->
  exists news, n_log (fst (step s e)) = n_log (fst s) ++ news.
Proof.
  intros [n r] e N1 N2. destruct (step_log exec fresh text_size stream_size n r e) as [(ss & imp & (A1 & _) & _)|(p & h & -> & _ & _ & [(evs & W)|(sn & W)])].
  - cbn [fst]. rewrite A1. eauto.
  - destruct (N1 p evs h eq_refl W).
  - destruct (N2 p h sn eq_refl W).
Qed.

(** A snapshot: the contents at some time, and when its upload completes the log
    has lost exactly what had been recorded by then.  Missing: a snapshot from
    before any change was ever recorded (next theorem). *)
Theorem C42_snapshot_removes_what_it_contains_partial :
  forall d es n r q snap policy,
  run (new_system S d) es = (n, r) -> n_work n = SendingSnapshot q snap ->
  exists es1 es2 newer, es = es1 ++ es2 /\ snap = fresh (n_db (fst (run (new_system S d) es1))) /\
    n_log n = n_log (fst (run (new_system S d) es1)) ++ newer /\
    r_snapshot (snd (step (n, r) (Done policy))) = Some snap /\
    (n_seq (fst (run (new_system S d) es1)) <> None -> n_log (fst (step (n, r) (Done policy))) = newer).
Proof.
  intros d es n r q snap p E Wk.
  pose proof (snapshot_origin exec fresh text_size stream_size d es) as O. unfold origin in O. rewrite E in O. cbn [fst] in O. rewrite Wk in O.
  destruct O as (es1 & es2 & -> & Es & Eq & newer & El & Hn & _). exists es1, es2, newer.
  split; [reflexivity|]. split; [exact Es|]. split; [exact El|].
  cbn [ReplicaModel.step fst snd]. rewrite Wk. split; [reflexivity|]. intros Ns.
  rewrite (proj2 (carry_on_log _ _ _ _)), Wk.
  pose proof (base_reach exec fresh text_size stream_size d es1) as (Hl & _).
  assert (Q : q = last_number (fst (run (new_system S d) es1))).
  { unfold last_number. destruct (n_seq (fst (run (new_system S d) es1))); [exact Eq|congruence]. }
  apply (prune_split El).
  - intros c Hc. destruct Hl as (_ & L2 & _). apply L2 in Hc. rewrite Q, last_number_bound. lia.
  - intros c Hc. rewrite Q. now apply Hn.
Qed.

(** * C43: what is recorded *)

(** A transaction that commits while observed: its mutating statements are added
    to the log, each once, in order and with the next numbers, after those of
    the transactions rolled back since the last commit (see C40), if any. *)
Theorem C43_commits_are_recorded :
  forall d es n r b d', run (new_system S d) es = (n, r) -> n_observing n = true ->
  exec_rows exec (executed b) (n_db n) = Ok d' ->
  exists stale news imp,
    n_log (fst (step (n, r) (Txn b true))) = n_log n ++ news /\
    records n (stale ++ mutating b) imp news /\
    (n_mutations n = [] -> stale = [] /\ (mutating b <> [] -> imp = valuable b)).
Proof.
  intros d es n r b d' E Ob Hd.
  pose proof (base_reach exec fresh text_size stream_size d es) as HB. rewrite E in HB. cbn [fst snd] in HB.
  destruct HB as (_ & _ & _ & Hf). destruct Hf as (_ & _ & _ & F4 & F5 & _). destruct (F5 Ob) as [Up Hs].
  assert (Rp : n_replicating n = true) by (now rewrite F4).
  exact (@commit_recorded D S exec fresh text_size stream_size n r b d' Ob Up Rp Hd).
Qed.

(** Over a whole history: numbers go up by one from 1, in the order of
    recording. *)
Theorem C43_numbers_increase :
  forall d es,
  let j := journal exec fresh text_size stream_size (new_system S d) es in
  increasing (map (@sequence S) j) /\
  map (@sequence S) j = map (fun i => 1 + Z.of_nat i) (seq 0 (length j)).
Proof.
  intros d es j. destruct (@journal_numbers D S exec fresh text_size stream_size (new_system S d) es (base_new _ _)) as [H _].
  assert (E : map (@sequence S) j = map (fun i => 1 + Z.of_nat i) (seq 0 (length j))) by exact H.
  split; [|exact E]. rewrite E. apply sorted_seq.
Qed.

(** Queries are not recorded. *)
Theorem C43_queries_are_not_recorded :
  forall s b ok, read_only b -> n_mutations (fst s) = [] ->
  n_log (fst (step s (Txn b ok))) = n_log (fst s) /\ n_mutations (fst (step s (Txn b ok))) = [].
Proof.
  intros [n r] b o RO Hm. cbn [fst] in *. split.
  - destruct (step_log exec fresh text_size stream_size n r (Txn b o)) as [(ss & imp & (A1 & _) & [[-> _]|(b' & [= <- _] & _ & _ & _ & -> & _)])|(p & h & X & _)]; [| |discriminate].
    + cbn in A1. now rewrite app_nil_r in A1.
    + unfold told in A1. destruct (run_body exec (n_replicating n) b (n_db n)) as [rec x] eqn:R.
      cbn [fst] in A1. rewrite (run_body_read_only RO R), Hm in A1. cbn in A1. now rewrite app_nil_r in A1.
  - apply mutations_step; [right; exact RO|exact Hm].
Qed.

(** Nothing is recorded before replication is set up. *)
Theorem C43_nothing_recorded_before_set_up :
  forall d es n r, run (new_system S d) es = (n, r) -> n_setup n = false ->
  n_log n = [] /\ n_seq n = None /\ n_mutations n = [] /\ r = empty_replica D S.
Proof.
  intros d es n r E Hs. pose proof (base_reach exec fresh text_size stream_size d es) as HB. rewrite E in HB. cbn [fst snd] in HB.
  destruct HB as (_ & _ & _ & Hf). destruct Hf as (_ & _ & _ & _ & _ & _ & F7). destruct (F7 Hs) as (H1 & H2 & H3 & _ & H5). auto.
Qed.

(** * C45: order of replay *)
Theorem C45_streams_in_order :
  forall ls : list (list (change S)),
  Permutation (sorted_event_streams ls) (filter (fun l => match l with [] => false | _ => true end) ls) /\
  StronglySorted (fun a b => forall i j, highest_sequence a = Some i -> highest_sequence b = Some j -> i <= j)
    (sorted_event_streams ls).
Proof. apply sorted_streams_spec. Qed.

(** The directory of a node: the order its entries are listed in does not
    matter. *)
Theorem C45_any_listing_order :
  forall d es n r streams,
  run (new_system S d) es = (n, r) -> Permutation streams (r_streams r) ->
  recover exec (Replica (r_snapshot r) streams) = recover exec r.
Proof.
  intros d es n r st E P. pose proof (base_reach exec fresh text_size stream_size d es) as HB. rewrite E in HB. cbn [fst snd] in HB.
  destruct HB as (_ & Hd & _). exact (listing_order exec (r_snapshot r) Hd P).
Qed.

(** * C48: requests *)
Theorem C48_no_job_waits_twice :
  forall d es n r, run (new_system S d) es = (n, r) -> NoDup (n_jobs n).
Proof.
  intros d es n r E. pose proof (base_reach exec fresh text_size stream_size d es) as HB. rewrite E in HB.
  destruct HB as (_ & _ & _ & Hf). apply Hf.
Qed.

(** A job that waits keeps waiting until it is begun, as long as the process
    lives. *)
Theorem C48_waiting_jobs_are_kept :
  forall d es n r e j, run (new_system S d) es = (n, r) -> goes_on e -> In j (n_jobs n) ->
  In j (n_jobs (fst (step (n, r) e))) \/ begun fresh j (fst (step (n, r) e)).
Proof.
  intros d es n r e j E G H. pose proof (base_reach exec fresh text_size stream_size d es) as HB. rewrite E in HB.
  now apply jobs_kept.
Qed.

(** A request, whether or not one of its kind is being served. *)
Theorem C48_requests_are_not_lost :
  forall j (n : node D S), In j (n_jobs (queue_job fresh j n)) \/ begun fresh j (queue_job fresh j n).
Proof. intros. apply queue_begins. Qed.

(** As long as nothing fails the loop gets through its work, whatever the
    snapshot policy decides, and an upload that was requested has then taken
    place: nothing is left in the log. *)
Theorem C48_work_gets_done :
  forall d es n r policy, run (new_system S d) es = (n, r) -> n_work n <> Stopped ->
  exists k, let n' := fst (run (n, r) (dones S policy k)) in
    n_work n' = Idle /\ n_jobs n' = [] /\
    (In JEvents (n_jobs n) \/ begun fresh JEvents n -> n_log n' = []).
Proof.
  intros d es n r ps E NS. pose proof (base_reach exec fresh text_size stream_size d es) as HB. rewrite E in HB. cbn [fst snd] in HB.
  destruct (@gets_idle D S exec fresh text_size stream_size n r ps HB NS) as [k Hk]. exists k. split; [exact Hk|]. split.
  - pose proof (@base_run _ _ exec fresh text_size stream_size (dones S ps k) (n, r) HB) as HB'.
    destruct HB' as (_ & _ & _ & Hf). destruct Hf as (_ & F2 & _). now apply F2.
  - intros Rq. now apply upload_happens.
Qed.

(** * C49: when an upload is requested *)

(** From any state in which the node observes and nothing stale is pending: a
    series of transactions that commit and write, of which no proper beginning
    is important or large enough, leaves the jobs as they are until the last
    one; and that one requests an upload exactly if it completes an important
    or large enough batch. *)
Theorem C49_uploads_are_requested_exactly_when_due :
  forall d es n r bs b, run (new_system S d) es = (n, r) ->
  n_observing n = true -> n_mutations n = [] -> all_commit exec (bs ++ [b]) (n_db n) ->
  (forall pre post, bs = pre ++ post -> pre <> [] -> ~ enough (sum_important n pre) (sum_size text_size n pre)) ->
  let before := fst (run (n, r) (txns bs)) in
  let after := fst (run (n, r) (txns (bs ++ [b]))) in
  n_jobs before = n_jobs n /\ n_work before = n_work n /\
  (enough (sum_important n (bs ++ [b])) (sum_size text_size n (bs ++ [b])) ->
     (In JEvents (n_jobs after) \/ begun fresh JEvents after) /\ n_important after = false /\ n_size after = 0) /\
  (~ enough (sum_important n (bs ++ [b])) (sum_size text_size n (bs ++ [b])) ->
     n_jobs after = n_jobs n /\ n_work after = n_work n).
Proof.
  intros d es n r bs b E Ob Hm HA Q. pose proof (base_reach exec fresh text_size stream_size d es) as HB. rewrite E in HB. cbn [fst snd] in HB.
  now apply batch_request.
Qed.

(** What counts at the start of the service is what was left in the log. *)
Theorem C49_counting_starts_with_the_log :
  forall n r, n_up n = true -> n_setup n = true -> n_observing n = false ->
  let n' := fst (step (n, r) Start) in
  n_important n' = existsb (@important S) (n_log n) /\ n_size n' = stream_size (n_log n).
Proof.
  intros n r Up Hs Ob n'. unfold n'. cbn [ReplicaModel.step]. rewrite Up, Hs, Ob. cbn [andb negb fst]. unfold started.
  match goal with |- context [take_jobs _ ?l ?m] => destruct (take_jobs_shape fresh l m) as (x & js & -> & _) end. split; reflexivity.
Qed.

(** * C72: failures of uploads *)

(** Refuted: when a remote operation fails, nothing is ever uploaded again until
    the process is restarted, whatever is committed and requested. *)
Theorem C72_replication_survives_failures_refuted :
  forall d es n r applied more,
  run (new_system S d) es = (n, r) -> n_work n <> Stopped -> n_work n <> Idle -> Forall (@goes_on S) more ->
  let s := step (n, r) (Fail applied) in
  snd (run s more) = snd s /\ n_work (fst (run s more)) = Stopped.
Proof.
  intros d es n r a more E NS NI G. pose proof (base_reach exec fresh text_size stream_size d es) as HB. rewrite E in HB. cbn [fst snd] in HB.
  destruct HB as (_ & _ & _ & Hf). destruct Hf as (_ & _ & F3 & _). destruct (F3 NS) as [_ Ob].
  cbn [ReplicaModel.step].
  destruct (n_work n); try congruence; apply dead_run; auto.
Qed.
End Any.
Print Assumptions C42_upload_removes_exactly_what_was_uploaded.
Print Assumptions C42_nothing_else_removes.
Print Assumptions C42_snapshot_removes_what_it_contains_partial.
Print Assumptions C43_commits_are_recorded.
Print Assumptions C43_numbers_increase.
Print Assumptions C43_queries_are_not_recorded.
Print Assumptions C43_nothing_recorded_before_set_up.
Print Assumptions C45_streams_in_order.
Print Assumptions C45_any_listing_order.
Print Assumptions C48_no_job_waits_twice.
Print Assumptions C48_waiting_jobs_are_kept.
Print Assumptions C48_requests_are_not_lost.
Print Assumptions C48_work_gets_done.
Print Assumptions C49_uploads_are_requested_exactly_when_due.
Print Assumptions C49_counting_starts_with_the_log.
Print Assumptions C72_replication_survives_failures_refuted.

(** C42: the first change of the voucher is removed from the log when the upload
    of the snapshot completes, and is neither in the snapshot nor in a stream. *)
Theorem C42_removed_without_upload_refuted :
  exists es n r n' r',
  along smooth empty_wallet (es ++ [WDone false]) /\ w es = (n, r) /\ w (es ++ [WDone false]) = (n', r') /\
  map (@statement mut) (n_log n) = [InsVoucherIgnore 1 4 1000; InsToken 1 0 11; InsToken 1 0 12] /\
  map (@statement mut) (n_log n') = [InsToken 1 0 11; InsToken 1 0 12] /\
  r' = Replica (Some empty_db) [].
Proof.
  exists (firstn 3 racing), (fst (w (firstn 3 racing))), (snd (w (firstn 3 racing))),
    (fst (w (firstn 4 racing))), (snd (w (firstn 4 racing))).
  split; [vm_compute; repeat split|]. repeat (split; [vm_compute; reflexivity|]). vm_compute. reflexivity.
Qed.
Print Assumptions C42_removed_without_upload_refuted.

(** Non-trivial cases for the theorems of the section, all with the wallet. *)
Definition events es : list (event mut) := wevents size10 size100 empty_wallet es.
Notation srun := (ReplicaModel.run sexec restart size10 size100).
Lemma srun_w es : srun (new_system mut empty_db) (events es) = w es.
Proof. symmetry. apply wrun_run. Qed.

(** Events are being uploaded and one more has been recorded meanwhile. *)
Definition uploading : list wevent :=
  [WSetUp; WDone false; WDone false; WDone false; WCall (OAdd 1 4 0 [11; 12] 1000); WCall (OAdd 2 4 0 [21] 1001)].
Example C42_upload_example :
  exists evs newer, n_work (fst (w uploading)) = Sending evs 3 /\ n_log (fst (w uploading)) = evs ++ newer /\
  length evs = 3%nat /\ length newer = 2%nat /\ n_jobs (fst (w uploading)) = [JEvents].
Proof. eexists; eexists. split; [vm_compute; reflexivity|]. split; [vm_compute; reflexivity|]. repeat split. Qed.
Example C42_snapshot_example :
  let es := firstn 9 busy in
  exists q s, n_work (fst (w es)) = SendingSnapshot q s /\ n_seq (fst (w (firstn 8 busy))) = Some 3 /\ length (n_log (fst (w es))) = 5%nat.
Proof. eexists; eexists. split; [vm_compute; reflexivity|]. split; vm_compute; reflexivity. Qed.

(** C43: after a rolled back call there are stale statements, otherwise not. *)
Example C43_example :
  n_observing (fst (w (firstn 9 failing))) = true /\
  length (n_mutations (fst (w (firstn 9 failing)))) = 2%nat /\
  map (@statement mut) (n_log (fst (w (firstn 10 failing)))) =
    [InsGroup 1 7 true; UpdVoucherGroupDone SRedeemed 2 0 1002 1; InsVoucherIgnore 3 4 1003; InsToken 3 0 41] /\
  n_observing (fst (w uploading)) = true /\ n_mutations (fst (w uploading)) = [] /\
  map (@sequence mut) (journal sexec restart size10 size100 empty_wallet (events uploading)) = [1; 2; 3; 4; 5].
Proof. repeat split; vm_compute; reflexivity. Qed.
Example C43_query_example : read_only (call_body OList empty_db) /\ returns OList empty_db = true /\ n_setup (fst (w [WCall (OAdd 1 4 0 [11] 5)])) = false.
Proof. split; [constructor|split; reflexivity]. Qed.

(** C45: two streams, listed in the wrong order. *)
Definition two_streams : list wevent :=
  [WSetUp; WDone false; WDone false; WDone false; WCall (OAdd 1 4 0 [11] 1000); WDone false; WDone false;
   WCall (OAdd 2 4 0 [21] 1001); WDone false; WDone false].
Example C45_example :
  let r := snd (w two_streams) in
  map fst (r_streams r) = [2; 4] /\ Permutation (rev (r_streams r)) (r_streams r) /\ rev (r_streams r) <> r_streams r /\
  exists a, recover sexec (Replica (r_snapshot r) (rev (r_streams r))) = Ok a /\ map v_number (vouchers a) = [1; 2].
Proof.
  split; [vm_compute; reflexivity|]. split; [apply Permutation_sym, Permutation_rev|]. split; [vm_compute; discriminate|].
  eexists. split; vm_compute; reflexivity.
Qed.

(** C48: an upload is under way and another one is waiting; three steps later all
    is done. *)
Example C48_example :
  In JEvents (n_jobs (fst (w uploading))) /\ n_work (fst (w uploading)) <> Stopped /\
  let n' := fst (srun (w uploading) (dones mut (fun _ => false) 4)) in n_work n' = Idle /\ n_log n' = [].
Proof. split; [vm_compute; left; reflexivity|]. split; [vm_compute; discriminate|]. split; vm_compute; reflexivity. Qed.

(** C49: bookkeeping of lease maintenance is not important: nothing happens until
    the size is reached.  Each of these statements is of size 200000. *)
Definition big (m : mut) : Z := 200000.
Definition maintenance : list (body mut) := [[Call false true [InsMaint 5]]; [Call false true [UpdMaintCount 3 1]]].
Definition maintenance_end : body mut := [Call false true [UpdMaintFinish 9 1]].
Definition ready := wrun big size100 empty_wallet (firstn 4 uploading).
Example C49_example :
  let n := fst ready in
  n_observing n = true /\ n_mutations n = [] /\ all_commit sexec (maintenance ++ [maintenance_end]) (n_db n) /\
  (forall pre post, maintenance = pre ++ post -> pre <> [] -> ~ enough (sum_important n pre) (sum_size big n pre)) /\
  enough (sum_important n (maintenance ++ [maintenance_end])) (sum_size big n (maintenance ++ [maintenance_end])).
Proof.
  split; [vm_compute; reflexivity|]. split; [vm_compute; reflexivity|]. split; [|split].
  - cbn [maintenance maintenance_end app all_commit].
    assert (X : forall m : mut, ~ read_only [Call false true [m]]) by (intros m H; inversion H; discriminate).
    split; [apply X|]. eexists. split; [vm_compute; reflexivity|]. split; [apply X|]. eexists. split; [vm_compute; reflexivity|].
    split; [apply X|]. eexists. split; [vm_compute; reflexivity|exact I].
  - intros pre post E Np. unfold enough. assert (B : sum_important (fst ready) pre = false /\ sum_size big (fst ready) pre <= 400000).
    { destruct pre as [|a [|b [|c pre]]]; [congruence| | |discriminate E].
      - injection E as <- _. split; vm_compute; congruence.
      - injection E as <- <- _. split; vm_compute; congruence. }
    destruct B as [-> B]. unfold UPLOAD_SIZE. intros [X|X]; [discriminate|lia].
  - right. vm_compute. discriminate.
Qed.

(** C72: the upload of a voucher fails; another one is added; nothing happens. *)
Example C72_example :
  n_work (fst (w uploading)) <> Stopped /\ n_work (fst (w uploading)) <> Idle /\
  let s := w (uploading ++ [WFail false; WCall (OAdd 3 4 0 [31] 1002); WDone false; WDone false]) in
  r_streams (snd s) = [] /\ map v_number (vouchers (n_db (fst s))) = [1; 2; 3] /\ length (n_log (fst s)) = 7%nat.
Proof. split; [vm_compute; discriminate|]. split; [vm_compute; discriminate|]. repeat split; vm_compute; reflexivity. Qed.

(** * C73: which calls are important *)
Section Important.
Variable text_size : mut -> Z.
Variable stream_size : list (change mut) -> Z.

(** Every call but [add] is recorded as unimportant. *)
Theorem C73_other_calls_are_not_important :
  forall o d, (forall v e c toks now, o <> OAdd v e c toks now) -> valuable (call_body o d) = false.
Proof.
  intros o d N. unfold valuable, call_body. apply not_true_is_false. intros X. apply existsb_exists in X as (c & Hc & X).
  apply in_map_iff in Hc as ([imp ms] & <- & Hc). cbn in X. rewrite (others_unimportant N Hc) in X. discriminate X.
Qed.

(** While the node observes and no rolled back statements are pending, a call
    of [add] that changes the wallet is recorded with every change marked
    important, and an upload is requested. *)
Theorem C73_new_tokens_are_uploaded_at_once :
  forall d es n r v e c toks now,
  ReplicaModel.run sexec restart text_size stream_size (new_system mut d) es = (n, r) ->
  n_observing n = true -> n_mutations n = [] ->
  let o := OAdd v e c toks now in
  returns o (n_db n) = true ->
  snd (StoreModel.step (n_db n) o) <> n_db n ->
  let after := fst (wstep text_size stream_size (n, r) (WCall o)) in
  (In JEvents (n_jobs after) \/ begun restart JEvents after) /\
  n_db after = snd (StoreModel.step (n_db n) o) /\
  exists news, n_log after = n_log n ++ news /\ news <> [] /\ Forall (fun x => important x = true) news /\
    map (@statement mut) news = InsVoucherIgnore v e now :: map (InsToken v c) toks.
Proof.
  intros d es n r v e c toks now E Ob Hm o Hr Ch after.
  destruct (add_changes Hr Ch) as (B1 & B2 & B3). fold o in B1, B2, B3. set (d' := snd (StoreModel.step (n_db n) o)) in *.
  pose proof (base_reach sexec restart text_size stream_size d es) as HB. rewrite E in HB. cbn [fst snd] in HB.
  assert (Ea : after = fst (ReplicaModel.step sexec restart text_size stream_size (n, r) (Txn (call_body o (n_db n)) true))).
  { unfold after, wstep. cbn [fst wevent_event]. now rewrite Hr. }
  assert (HA : all_commit sexec ([] ++ [call_body o (n_db n)]) (n_db n)).
  { cbn. split; [|exists d'; split; [exact B3|exact I]]. intros RO. apply call_read_only in RO. rewrite RO in B1. discriminate B1. }
  split.
  - pose proof (@batch_request db mut sexec restart text_size stream_size n r [] (call_body o (n_db n)) HB Ob Hm HA) as Q.
    cbn zeta in Q. destruct Q as (_ & _ & Q & _).
    { intros pre post X. destruct pre; [congruence|discriminate X]. }
    destruct Q as (Q & _ & _).
    { left. unfold sum_important. cbn. rewrite B2. now rewrite orb_true_r. }
    rewrite Ea. exact Q.
  - split.
    { destruct HB as (_ & _ & _ & Hf). destruct Hf as (_ & _ & _ & F4 & F5 & _). destruct (F5 Ob) as [Up Hs].
      rewrite Ea. cbn [ReplicaModel.step]. rewrite Up. cbn [fst]. pose proof (call_db text_size o n) as C. rewrite Hr in C. rewrite C. unfold d'. now rewrite leaves_step, Hr by discriminate. }
    destruct (C43_commits_are_recorded db mut sexec restart text_size stream_size d es n r (call_body o (n_db n)) d' E Ob B3) as (stale & news & imp & L & R & S).
    destruct (S Hm) as [-> S2].
    exists news. rewrite Ea. split; [exact L|].
    assert (Mu : mutating (call_body o (n_db n)) = InsVoucherIgnore v e now :: map (InsToken v c) toks).
    { rewrite mutating_call. exact B1. }
    rewrite Mu in *. cbn [app] in R. specialize (S2 ltac:(discriminate)). rewrite B2 in S2. subst imp.
    destruct R as [R1 R2].
    split; [intros ->; discriminate R1|]. split; [|exact R1].
    apply Forall_forall. intros x Hx. apply In_nth_error in Hx as [i Hi]. now destruct (R2 i x Hi).
Qed.
End Important.
Print Assumptions C73_other_calls_are_not_important.
Print Assumptions C73_new_tokens_are_uploaded_at_once.

(** The node is ready and idle, and a voucher with two tokens is added. *)
Example C73_example :
  let s := w (firstn 4 uploading) in
  let o := OAdd 1 4 0 [11; 12] 1000 in
  n_observing (fst s) = true /\ n_mutations (fst s) = [] /\ returns o (n_db (fst s)) = true /\
  length (tokens (snd (StoreModel.step (n_db (fst s)) o))) = 2%nat /\ tokens (n_db (fst s)) = [] /\
  n_work (fst (w (firstn 5 uploading))) <> Idle.
Proof. repeat split; try (vm_compute; reflexivity). vm_compute. discriminate. Qed.
