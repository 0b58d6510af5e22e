(** C138 (continued) A wallet that has a group of a voucher behind it has stored as many
    answers for the voucher. *)
From Verif Require Import Prelude PreludeFacts StoreModel StoreSpec StoreProofs ReplicaModel ReplicaSpec ReplicaStore RestSpec RestProofs RestProperties RetrySpec RetryProofs RetryProperties.
Set Implicit Arguments.

(** The number of answers stored for the voucher: the groups of signed tokens that came
    for it. *)
Definition answers_stored (d : db) (v : Z) : Z := Z.of_nat (length (filter (fun g => g_voucher g =? v) (StoreModel.groups d))).

Definition counted (d : db) : Prop :=
  (forall r, In r (vouchers d) -> v_counter r = answers_stored d (v_number r)) /\
  (forall g, In g (StoreModel.groups d) -> In (g_voucher g) (map v_number (vouchers d))).
(** The statement neither adds a group nor counts one. *)
Definition calm (m : mut) : Prop := match m with InsGroup _ _ _ | UpdVoucherGroupDone _ _ _ _ _ => False | _ => True end.
Lemma counted_same d d' : vouchers d' = vouchers d -> StoreModel.groups d' = StoreModel.groups d -> counted d -> counted d'.
Proof. intros V G. unfold counted, answers_stored. now rewrite V, G. Qed.
Lemma none_stored v (l : list group_row) : ~ In v (map g_voucher l) -> filter (fun g => g_voucher g =? v) l = [].
Proof.
  induction l as [|g l IH]; intros N; [reflexivity|]. cbn [filter]. destruct (Z.eqb_spec (g_voucher g) v) as [E|_]; [destruct N; now left|].
  apply IH. intros X. apply N. now right.
Qed.
Lemma calm_exec m d k d' : calm m -> exec_mut m d = Ok (k, d') -> counted d -> counted d'.
Proof.
  intros C E H. destruct m; try contradiction; cbn [exec_mut] in E;
    repeat match type of E with context [if ?c then _ else _] => destruct c eqn:? end;
    try discriminate E; injection E as _ <-; try exact H; destruct H as [H1 H2].
  - apply not_true_iff_false in Heqb. rewrite memZ_true in Heqb. split.
    + intros r Hr. cbn [vouchers set_vouchers] in Hr. apply in_app_or in Hr as [Hr|[<-|[]]]; [exact (H1 r Hr)|]. cbn [v_counter v_number].
      unfold answers_stored. cbn [StoreModel.groups set_vouchers]. rewrite none_stored; [reflexivity|]. intros X. apply Heqb.
      apply in_map_iff in X as (g & <- & Hg). exact (H2 g Hg).
    + intros g Hg. cbn [vouchers set_vouchers]. rewrite map_app. apply in_or_app. left. exact (H2 g Hg).
  - split.
    + intros r Hr. cbn [vouchers set_vouchers] in Hr. apply in_map_iff in Hr as (r0 & <- & Hr). specialize (H1 r0 Hr).
      destruct (_ && _); exact H1.
    + intros g Hg. cbn [vouchers set_vouchers]. rewrite map_map. specialize (H2 g Hg). apply in_map_iff in H2 as (r0 & E0 & H0).
      apply in_map_iff. exists r0. split; [|exact H0]. rewrite <- E0. destruct (_ && _); reflexivity.
Qed.
Lemma calm_many ms : Forall calm ms -> forall d d', exec_muts ms d = Ok d' -> counted d -> counted d'.
Proof.
  induction 1 as [|m ms C _ IH]; intros d d'; cbn [exec_muts]; [now intros [= <-]|]. destruct (exec_mut m d) as [[k d1]|e] eqn:E; [|discriminate].
  cbn. intros H1 H2. exact (IH d1 d' H1 (@calm_exec m d k d1 C E H2)).
Qed.
Fixpoint all_calm {A} (p : prog A) : Prop :=
  match p with
  | Ret _ | Raise _ => True
  | Mut _ m k => calm m /\ forall n, all_calm (k n)
  | Many _ ms k => Forall calm ms /\ all_calm k
  | Qry k => forall d, all_calm (k d)
  end.
Lemma calm_run {A} (p : prog A) : all_calm p -> forall d, counted d -> counted (snd (fst (StoreModel.run p d))).
Proof.
  induction p as [a|e|i m k IH|i ms k IH|k IH]; intros C d H; cbn in *; try exact H.
  - destruct C as [C1 C2]. destruct (exec_mut m d) as [[n d']|e] eqn:E; [|exact H].
    specialize (IH n (C2 n) d' (@calm_exec m d n d' C1 E H)). now destruct (StoreModel.run (k n) d') as [[r d''] rec].
  - destruct C as [C1 C2]. destruct (exec_muts ms d) as [d'|e] eqn:E; [|exact H].
    specialize (IH C2 d' (@calm_many ms C1 d d' E H)). now destruct (StoreModel.run k d') as [[r d''] rec].
  - exact (IH d (C d) d H).
Qed.
Lemma calm_pmap {A B} (f : A -> B) (p : prog A) : all_calm p -> all_calm (pmap f p).
Proof. induction p as [a|e|i m k IH|i ms k IH|k IH]; cbn; auto; intros [H1 H2]; auto. Qed.
Lemma calm_map {A} (g : A -> mut) l : (forall x, calm (g x)) -> Forall calm (map g l).
Proof. intros H. apply Forall_forall. intros m Hm. apply in_map_iff in Hm as (x & <- & _). apply H. Qed.
Lemma op_calm o : (forall v pk ts cm s now, o <> OInsert v pk ts cm s now) -> all_calm (op_prog o).
Proof.
  intros N. destruct o; cbn [op_prog]; try exact I; try (exfalso; eapply N; reflexivity); apply calm_pmap; try (cbn; solve [auto]).
  - unfold add. cbn. intros d. destruct (filter _ (tokens d)); cbn; [|exact I]. split; [exact I|]. intros _. split; [apply calm_map; intros; exact I|exact I].
  - cbn. split; [exact I|]. intros n. destruct (n =? 0); exact I.
  - unfold get_unblinded_tokens. destruct (_ >? _); [exact I|]. cbn. intros d0. destruct (_ <? _); cbn; [exact I|]. split; [apply calm_map; intros; exact I|exact I].
  - cbn. split; [apply calm_map; intros; exact I|]. auto.
  - cbn. split; [apply calm_map; intros; exact I|]. auto.
  - cbn. split; [apply calm_map; intros; exact I|]. auto.
  - unfold get. cbn. intros d0. destruct (filter _ _) as [|r ?]; [exact I|]. destruct (from_row r); exact I.
  - unfold list_vouchers. cbn. intros d0. destruct (map_res from_row (vouchers d0)); exact I.
  - unfold maint_observe. destruct (PricingModel.required_passes _ _); [|exact I]. destruct rowid; cbn; auto.
  - unfold maint_finish. destruct rowid; cbn; auto.
Qed.
Lemma counts_one v pk s st a b now d : 
  count_if (fun r => v_number r =? v) (vouchers d) <> 0 -> counted d ->
  counted (set_vouchers (map (fun r => if v_number r =? v then group_done st a b now r else r) (vouchers d))
             (set_groups (StoreModel.groups d ++ [GR (next_id (map g_id (StoreModel.groups d))) v pk s]) d)).
Proof.
  intros K [H1 H2]. assert (Nu : map v_number (map (fun r => if v_number r =? v then group_done st a b now r else r) (vouchers d)) = map v_number (vouchers d)).
  { rewrite map_map. apply map_ext. intros r. now destruct (v_number r =? v). }
  split.
  - intros r Hr. cbn [vouchers set_vouchers set_groups] in Hr. apply in_map_iff in Hr as (r0 & <- & Hr). specialize (H1 r0 Hr).
    unfold answers_stored in *. cbn [StoreModel.groups set_vouchers set_groups]. rewrite filter_app, app_length. cbn [filter g_voucher].
    destruct (Z.eqb_spec (v_number r0) v) as [Ev|Nv]; [rewrite <- Ev in *; clear Ev v|].
    + cbn [group_done v_counter v_number]. rewrite Z.eqb_refl. cbn [length]. lia.
    + destruct (Z.eqb_spec v (v_number r0)); [congruence|]. cbn [length]. now rewrite Nat.add_0_r.
  - intros g Hg. cbn [vouchers set_vouchers set_groups StoreModel.groups] in *. rewrite Nu. apply in_app_or in Hg as [Hg|[<-|[]]]; [exact (H2 g Hg)|].
    cbn [g_voucher]. destruct (in_dec Z.eq_dec v (map v_number (vouchers d))) as [I|I]; [exact I|]. exfalso. apply K. clear -I.
    unfold count_if, PricingModel.lenZ. induction (vouchers d) as [|r l IH]; [reflexivity|]. cbn [filter map In] in *.
    destruct (Z.eqb_spec (v_number r) v); [exfalso; auto|]. apply IH. auto.
Qed.
Lemma counted_step d o : counted d -> counted (snd (StoreModel.step d o)).
Proof.
  intros H. assert (N : o = ORestart \/ o <> ORestart) by (destruct o; auto; right; discriminate).
  destruct N as [->|N]; [exact H|]. rewrite leaves_step by exact N. destruct (returns o d) eqn:R; [|exact H].
  assert (D : (forall v pk ts cm s now, o <> OInsert v pk ts cm s now) \/ exists v pk ts cm s now, o = OInsert v pk ts cm s now).
  { destruct o; try (left; discriminate). right. eauto 10. }
  destruct D as [D|(v & pk & ts & cm & s & now & ->)]; [exact (@calm_run _ _ (op_calm D) d H)|]. clear N.
  pose proof (@leaves_step (OInsert v pk ts cm s now) d ltac:(discriminate)) as S. rewrite R in S. rewrite <- S. clear S R.
  cbn [StoreModel.step op_prog]. rewrite with_cursor_pmap. unfold with_cursor, insert_unblinded_tokens_for_voucher. cbn [StoreModel.run exec_mut].
  cbn [vouchers set_groups]. destruct (Z.eqb_spec (count_if (fun r => v_number r =? v) (vouchers d)) 0) as [Z0|Z0]; [exact H|].
  pose proof (@counts_one v pk s (if cm then SRedeemed else SPending) (if s then PricingModel.lenZ ts else 0) (if s then 0 else PricingModel.lenZ ts) now d Z0 H) as C.
  cbn [StoreModel.run]. set (d1 := set_vouchers _ _) in *. destruct (filter _ (vouchers d1)) as [|r l]; [exact H|]. cbn [StoreModel.run].
  destruct (exec_muts _ d1) as [d2|e] eqn:E2; [|exact H]. cbn. assert (C2 : counted d2) by (refine (@calm_many _ _ _ _ E2 C); apply calm_map; intros; exact I).
  exact C2.
Qed.
Lemma counted_steps os : forall d, counted d -> counted (snd (steps d os)).
Proof.
  induction os as [|o os IH]; intros d H; [exact H|]. pose proof (counted_step o H) as H1. cbn [steps].
  destruct (StoreModel.step d o) as [x d1]. specialize (IH d1 H1). destruct (steps d1 os). exact IH.
Qed.

Section Wallet.
Variable text_size : mut -> Z.
Variable stream_size : list (change mut) -> Z.
Hypothesis fit : sizes_fit text_size stream_size.

(** A group is behind a wallet, whether recovered or not, just if more answers for the
    voucher are stored there than groups come before it. *)
Theorem C138_behind_means_stored :
  (forall os v c, behind (snd (steps empty_db os)) v c <->
     In v (map v_number (vouchers (snd (steps empty_db os)))) /\ c < answers_stored (snd (steps empty_db os)) v) /\
  forall es n r, wall_along text_size stream_size wharmless empty_wallet es ->
  wrun text_size stream_size empty_wallet es = (n, r) -> n_work n = Idle ->
  exists a, recover sexec r = Ok a /\
  forall os v c, behind (snd (steps a os)) v c <->
    In v (map v_number (vouchers (snd (steps a os)))) /\ c < answers_stored (snd (steps a os)) v.
Proof.
  assert (X : forall d v c, counted d -> (behind d v c <-> In v (map v_number (vouchers d)) /\ c < answers_stored d v)).
  { intros d v c [H _]. split.
    - intros (r & Hr & <- & Lt). rewrite <- (H r Hr). split; [now apply in_map|exact Lt].
    - intros [Hv Lt]. apply in_map_iff in Hv as (r & <- & Hr). exists r. rewrite (H r Hr). auto. }
  assert (Z : counted empty_db) by (split; intros ? []).
  split; [intros os v c; apply X; now apply counted_steps|].
  intros es n r H E Wk. destruct (recovered_asks fit H E Wk) as (a & b & Rc & (p & q & _ & Eb) & (V & _ & _ & _ & G & _) & _). exists a. split; [exact Rc|].
  assert (Ca : counted a).
  { apply (@counted_same b a V G). rewrite <- Eb, wrun_store. now apply counted_steps. }
  intros os v c. apply X. now apply counted_steps.
Qed.
End Wallet.
Print Assumptions C138_behind_means_stored.

(** The example of C138: the recovered wallet has the answer for the second voucher and
    none for the first. *)
Example C138_example_behind :
  exists a, recover sexec (snd (wrun size10 size100 empty_wallet story3)) = Ok a /\ answers_stored a 2 = 1 /\ answers_stored a 1 = 0 /\
    answers_stored (snd (steps a [OInsert 1 7 [31; 32] false true 2001])) 1 = 1.
Proof. eexists. split; [vm_compute; reflexivity|]. split; [|split]; vm_compute; reflexivity. Qed.
