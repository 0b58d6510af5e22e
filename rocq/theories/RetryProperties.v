(** C138: a recovered wallet asks the issuer with the tokens the lost one asked
    with. *)
From Verif Require Import Prelude PreludeFacts StoreModel ReplicaModel ReplicaSpec ReplicaProofs ReplicaRunProofs ReplicaLogProofs ReplicaStore RestSpec RestProofs RestProperties RetrySpec RetryProofs.
Set Implicit Arguments.

Lemma answers_again v c ts d e toks now : ts <> [] -> random_tokens d v c = ts ->
  fst (StoreModel.step d (OAdd v e c toks now)) = Ok (RTokens ts).
Proof.
  intros Ne E. unfold random_tokens in E. unfold StoreModel.step, with_cursor. cbn [op_prog]. unfold add. cbn [pmap StoreModel.run].
  destruct (filter (fun r => (t_voucher r =? v) && (t_counter r =? c)) (tokens d)) as [|t l]; [now destruct Ne|].
  cbn [pmap StoreModel.run]. cbn [fst]. now rewrite E.
Qed.

Section Wallet.
Variable text_size : mut -> Z.
Variable stream_size : list (change mut) -> Z.
Hypothesis fit : sizes_fit text_size stream_size.
Notation wrun := (wrun text_size stream_size).

(** Whatever the lost node asked the issuer to sign, before or after the time the
    backup shows: the recovered wallet has the signed tokens of that group behind
    it, or has the same random tokens for it; and whatever happens to it then, restarts
    included, it asks with them again until it has the group behind it. *)
Theorem C138_recovered_wallet_asks_alike :
  forall es n r, wall_along text_size stream_size wharmless empty_wallet es ->
  wrun empty_wallet es = (n, r) -> n_work n = Idle ->
  exists a, recover sexec r = Ok a /\
  forall v c ts, asked text_size stream_size es v c ts ->
  behind a v c \/
  random_tokens a v c = ts /\
  forall os e toks now, behind (snd (steps a os)) v c \/
    fst (StoreModel.step (snd (steps a os)) (OAdd v e c toks now)) = Ok (RTokens ts).
Proof.
  intros es n r H E Wk. destruct (recovered_asks fit H E Wk) as (a & b & R & _ & _ & A). exists a. split; [exact R|].
  intros v c ts As. destruct (A v c ts As) as [B|B]; [now left|right]. split; [exact B|]. intros os e toks now.
  assert (Ne : ts <> []) by (destruct As as (? & ? & ? & ? & ? & _ & _ & _ & Ne); exact Ne).
  destruct (@holds_steps v c ts os Ne a (or_intror B)) as [X|X]; [now left|right]. now apply answers_again.
Qed.

(** So the issuer is never shown two sets of tokens for a group that is not
    behind the recovered wallet. *)
Corollary C138_one_set_of_tokens :
  forall es n r, wall_along text_size stream_size wharmless empty_wallet es ->
  wrun empty_wallet es = (n, r) -> n_work n = Idle ->
  exists a, recover sexec r = Ok a /\
  forall v c ts ts', asked text_size stream_size es v c ts -> asked text_size stream_size es v c ts' -> ~ behind a v c -> ts = ts'.
Proof.
  intros es n r H E Wk. destruct (@C138_recovered_wallet_asks_alike es n r H E Wk) as (a & R & A). exists a. split; [exact R|].
  intros v c ts ts' A1 A2 NB. destruct (A v c ts A1) as [B|[B _]]; [contradiction|]. destruct (A v c ts' A2) as [B'|[B' _]]; [contradiction|]. congruence.
Qed.

(** As long as the loop is running that takes nothing but the completion of some
    operations on the grid. *)
Theorem C138_requests_get_safe :
  forall es n r ps, wall_along text_size stream_size wharmless empty_wallet es ->
  wrun empty_wallet es = (n, r) -> n_work n <> Stopped ->
  exists k a, recover sexec (snd (wrun (n, r) (completions ps k))) = Ok a /\
  forall v c ts, asked text_size stream_size es v c ts ->
  behind a v c \/
  random_tokens a v c = ts /\
  forall os e toks now, behind (snd (steps a os)) v c \/
    fst (StoreModel.step (snd (steps a os)) (OAdd v e c toks now)) = Ok (RTokens ts).
Proof.
  intros es n r ps H E NS. pose proof (wbase text_size stream_size es) as HB. rewrite E in HB. cbn [fst snd] in HB.
  destruct (@gets_idle _ _ sexec restart text_size stream_size n r ps HB NS) as [k Hk]. exists k.
  assert (R : wrun (n, r) (completions ps k) = ReplicaModel.run sexec restart text_size stream_size (n, r) (dones mut ps k)).
  { rewrite wrun_run. now rewrite completions_dones. }
  destruct (wrun (n, r) (completions ps k)) as [n' r'] eqn:E2.
  assert (Ea : wrun empty_wallet (es ++ completions ps k) = (n', r')) by (rewrite wrun_app, E; exact E2).
  assert (Ha : wall_along text_size stream_size wharmless empty_wallet (es ++ completions ps k)).
  { apply along_app; [exact H|]. apply completions_harmless. }
  assert (Wk : n_work n' = Idle) by (rewrite <- R in Hk; exact Hk).
  destruct (@C138_recovered_wallet_asks_alike _ _ _ Ha Ea Wk) as (a & Ra & K). exists a. split; [exact Ra|].
  intros v c ts (es1 & ex & toks & now & es2 & -> & U). apply K. exists es1, ex, toks, now, (es2 ++ completions ps k).
  split; [now rewrite <- app_assoc|exact U].
Qed.
End Wallet.
Print Assumptions C138_recovered_wallet_asks_alike.
Print Assumptions C138_one_set_of_tokens.
Print Assumptions C138_requests_get_safe.

Notation w := (wrun size10 size100 empty_wallet).

(** The group of the first voucher was redeemed after the time the backup shows; the
    second one before. *)
Definition story3 : list wevent :=
  [WSetUp; WDone false; WDone false; WDone false; WCall (OAdd 2 4 0 [21; 22] 999); WCall (OInsert 2 7 [41; 42] false true 1000);
   WCall (OAdd 1 4 0 [11; 12] 1000); WDone false; WDone false; WDone false; WDone false; WCall (OInsert 1 7 [31; 32] false true 1002)].
Example C138_example :
  wall_along size10 size100 wharmless empty_wallet story3 /\ n_work (fst (w story3)) = Idle /\
  asked size10 size100 story3 1 0 [11; 12] /\ asked size10 size100 story3 2 0 [21; 22] /\
  random_tokens (n_db (fst (w story3))) 1 0 = [] /\ behind (n_db (fst (w story3))) 1 0 /\
  exists a, recover sexec (snd (w story3)) = Ok a /\ ~ behind a 1 0 /\ behind a 2 0 /\ random_tokens a 1 0 = [11; 12] /\
    fst (StoreModel.step (restart a) (OAdd 1 4 0 [51; 52] 2000)) = Ok (RTokens [11; 12]).
Proof.
  split; [harmless_tac|]. split; [vm_compute; reflexivity|].
  split.
  { exists (firstn 6 story3), 4, [11; 12], 1000, (skipn 7 story3). split; [reflexivity|]. split; [vm_compute; reflexivity|].
    split; [vm_compute; reflexivity|discriminate]. }
  split.
  { exists (firstn 4 story3), 4, [21; 22], 999, (skipn 5 story3). split; [reflexivity|]. split; [vm_compute; reflexivity|].
    split; [vm_compute; reflexivity|discriminate]. }
  split; [vm_compute; reflexivity|].
  split. { eexists. split; [vm_compute; right; left; reflexivity|]. split; vm_compute; reflexivity. }
  eexists. split; [vm_compute; reflexivity|].
  split. { intros (r & Hr & Hn & Hc). vm_compute in Hr. destruct Hr as [<-|[<-|[]]]; vm_compute in Hn, Hc; discriminate. }
  split. { eexists. split; [vm_compute; left; reflexivity|]. split; vm_compute; reflexivity. }
  split; vm_compute; reflexivity.
Qed.
