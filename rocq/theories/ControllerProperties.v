(** Property theorems C28-C30, C32-C38 and C71: voucher redemption. *)
From Verif Require Import Prelude PreludeFacts PricingModel StoreModel StoreSpec StoreProofs
  ControllerModel ControllerSpec ControllerProofs ControllerRunProofs.

(** ** Concrete redeemers and histories *)

(** Tokens below zero, numbered from [s]. *)
Definition old_tokens (s v k n : Z) : list Z := map (fun i => - (s + Z.of_nat i)) (seq 0 (Z.to_nat n)).
(** Tokens above zero, different for different vouchers. *)
Definition slot (v : Z) : nat := Z.to_nat (if v <? 0 then -2 * v - 1 else 2 * v).
Definition new_tokens (v k n : Z) : list Z :=
  map (fun i => 2 ^ Z.of_nat (slot v) * (2 * Z.of_nat i + 1)) (seq 0 (Z.to_nat n)).

Lemma old_enough s : enough (old_tokens s).
Proof. intros v c n Hn. unfold old_tokens. rewrite map_length, seq_length. lia. Qed.
Lemma new_enough : enough new_tokens.
Proof. intros v c n Hn. unfold new_tokens. rewrite map_length, seq_length. lia. Qed.

Lemma odd_part a : forall b x y, 2 ^ Z.of_nat a * (2 * x + 1) = 2 ^ Z.of_nat b * (2 * y + 1) -> a = b.
Proof.
  induction a as [|a IH]; intros [|b] x y H; [reflexivity| | |].
  - rewrite Nat2Z.inj_succ, Z.pow_succ_r in H by lia. change (2 ^ Z.of_nat 0) with 1 in H. lia.
  - rewrite Nat2Z.inj_succ, Z.pow_succ_r in H by lia. change (2 ^ Z.of_nat 0) with 1 in H. lia.
  - f_equal. apply (IH b x y). rewrite !Nat2Z.inj_succ, !Z.pow_succ_r in H by lia. lia.
Qed.

Lemma new_fresh d : (forall t, In t (map t_text (tokens d)) -> t <= 0) -> fresh_tokens new_tokens d.
Proof.
  intros H. split; [apply new_enough|]. unfold new_tokens. split; [|split].
  - intros v _ n. assert (P : 0 < 2 ^ Z.of_nat (slot v)) by (apply Z.pow_pos_nonneg; lia).
    apply FinFun.Injective_map_NoDup; [|apply seq_NoDup]. intros i j E. apply Z.mul_reg_l in E; lia.
  - intros v _ n t I J. apply H in J. apply in_map_iff in I. destruct I as (i & <- & _).
    assert (P : 0 < 2 ^ Z.of_nat (slot v)) by (apply Z.pow_pos_nonneg; lia). nia.
  - intros v _ n v' _ n' t I J. apply in_map_iff in I. apply in_map_iff in J. destruct I as (i & <- & _). destruct J as (j & E & _).
    apply odd_part in E. revert E. unfold slot. destruct (Z.ltb_spec v 0); destruct (Z.ltb_spec v' 0); lia.
Qed.

(** Two groups of two tokens, key 5 allowed.  [ex_smooth] is a redemption with a
    crash and a restart in the middle, the second group under a key that is not
    allowed; [ex_bumpy] one where the issuer first says that the voucher is not paid
    for, and where a network error follows later. *)
Definition ex_smooth : list timed :=
  [(EStart, 10, old_tokens 50); (ESubmit 7 (Some 5), 11, old_tokens 100); (ESubmit 7 None, 12, old_tokens 200);
   (EKillAfterAnswer 0 (ASuccess [11; 12; 13] 5), 13, old_tokens 300); (EStart, 14, old_tokens 400);
   (EAnswer 0 (AError 3), 15, old_tokens 500); (EStart, 16, old_tokens 600);
   (EAnswer 0 (ASuccess [14; 15] 6), 17, old_tokens 700)].
Definition ex_bumpy : list timed :=
  [(EStart, 10, old_tokens 50); (ESubmit 7 (Some 4), 11, old_tokens 100); (EAnswer 0 AUnpaid, 12, old_tokens 200);
   (ETimer, 13, old_tokens 300); (EAnswer 0 (ASuccess [11; 12] 5), 14, old_tokens 400);
   (EAnswer 0 (AError 3), 15, old_tokens 500); (ETimer, 16, old_tokens 600);
   (EAnswer 0 (ASuccess [13; 14] 5), 17, old_tokens 700); (EAnswer 0 (ASuccess [15; 16] 5), 18, old_tokens 800)].

Ltac properly := unfold ex_smooth, ex_bumpy; cbn [firstn app]; repeat constructor; apply old_enough || apply new_enough.
Lemma ex_smooth_proper : Forall proper ex_smooth.
Proof. properly. Qed.
Lemma ex_bumpy_proper n : Forall proper (firstn n ex_bumpy).
Proof. apply Forall_forall. intros x I. assert (J : In x ex_bumpy) by (rewrite <- (firstn_skipn n ex_bumpy); apply in_or_app; auto).
  clear I. revert x J. clear n. apply Forall_forall. properly. Qed.

Definition ex_end n := snd (controller_run 2 4 [5] new_node (firstn n ex_bumpy)).
Definition ex_out n := fst (controller_run 2 4 [5] new_node (firstn n ex_bumpy)).
Lemma ex_lived n : lived 2 4 [5] (firstn n ex_bumpy) (ex_out n) (ex_end n).
Proof. split; [apply ex_bumpy_proper|]. apply surjective_pairing. Qed.
Definition sm_end := snd (controller_run 2 4 [5] new_node ex_smooth).
Definition sm_out := fst (controller_run 2 4 [5] new_node ex_smooth).
Lemma sm_lived : lived 2 4 [5] ex_smooth sm_out sm_end.
Proof. split; [apply ex_smooth_proper|]. apply surjective_pairing. Qed.

Example ex_smooth_outputs : sm_out =
  [Requested 7 0 [-100; -101; -102]; Credited 7 0 [11; 12; 13] true; Requested 7 1 [-400; -401];
   Requested 7 1 [-400; -401]; Credited 7 1 [14; 15] false].
Proof. vm_compute. reflexivity. Qed.
Example ex_bumpy_outputs : ex_out 9 =
  [Requested 7 0 [-100; -101]; Requested 7 0 [-100; -101]; Credited 7 0 [11; 12] true; Requested 7 1 [-400; -401];
   Requested 7 0 [-600; -601]; Credited 7 0 [13; 14] true; Requested 7 1 [-700; -701]; Credited 7 1 [15; 16] true].
Proof. vm_compute. reflexivity. Qed.

(** Taking a history apart at a known place. *)
Lemma apart A (l a : list A) x b : l = a ++ x :: b -> exists q, nth_error l q = Some x /\ a = firstn q l.
Proof.
  intros ->. exists (length a). split.
  - rewrite nth_error_app2, Nat.sub_diag by lia. reflexivity.
  - rewrite firstn_app, Nat.sub_diag, firstn_all. cbn. now rewrite app_nil_r.
Qed.
Arguments apart {A l a x b}.

(** ** C28 Redemption groups add up *)

Theorem C28_group_sizes_add_up : forall groups total, 1 <= groups <= total ->
  exists sizes,
    map (token_count_for_group groups total) (map Z.of_nat (seq 0 (Z.to_nat groups))) = map (@Ok exn Z) sizes /\
    length sizes = Z.to_nat groups /\ sumZ sizes = total /\
    (forall n, In n sizes -> 1 <= n) /\ (forall n m, In n sizes -> In m sizes -> n <= m + 1).
Proof.
  intros groups total [H1 H2]. destruct (token_counts_add_up H1 H2) as (ns & E & H). exists ns. split; [|exact H].
  clear -E. unfold group_indices in E. revert ns E. generalize (map Z.of_nat (seq 0 (Z.to_nat groups))).
  induction l as [|k l IH]; intros ns E; cbn in E.
  - injection E as <-. reflexivity.
  - destruct (token_count_for_group groups total k) as [n|e] eqn:T; [|discriminate E]. cbn in E.
    destruct (map_res (token_count_for_group groups total) l) as [ms|e]; [|discriminate E]. injection E as <-.
    cbn [map]. rewrite T, (IH ms eq_refl). reflexivity.
Qed.
Print Assumptions C28_group_sizes_add_up.

(** The larger groups come first. *)
Theorem C28_larger_groups_first : forall groups total k k' n n',
  token_count_for_group groups total k = Ok n -> token_count_for_group groups total k' = Ok n' -> k <= k' -> n' <= n.
Proof.
  intros * A B L. apply token_count_Ok in A. apply token_count_Ok in B. destruct A as (_ & _ & A). destruct B as (_ & _ & B). subst.
  destruct (Z.ltb_spec k (total mod groups)); destruct (Z.ltb_spec k' (total mod groups)); lia.
Qed.
Print Assumptions C28_larger_groups_first.

Theorem C28_impossible_arguments_are_refused : forall groups total k,
  (exists n, token_count_for_group groups total k = Ok n) <-> groups <= total /\ 0 <= k < groups.
Proof.
  intros groups total k. split.
  - intros [n E]. apply token_count_Ok in E. lia.
  - intros [H1 H2]. unfold token_count_for_group.
    replace (total <? groups) with false by (symmetry; apply Z.ltb_ge; lia).
    replace (k >=? groups) with false by (symmetry; rewrite Z.geb_leb; apply Z.leb_gt; lia).
    replace (k <? 0) with false by (symmetry; apply Z.ltb_ge; lia).
    replace (groups =? 0) with false by (symmetry; apply Z.eqb_neq; lia). cbn [orb].
    destruct (_ <? _); eauto.
Qed.
Print Assumptions C28_impossible_arguments_are_refused.

(** What the redeemer is asked for is the size of the group. *)
Theorem C28_requests_have_the_size_of_the_group : forall groups dflt allowed es out c r k toks,
  lived groups dflt allowed es out c -> row c r -> In (Requested (v_number r) k toks) out ->
  token_count_for_group groups (v_expected r) k = Ok (lenZ toks).
Proof. intros * L Hr Q. destruct (lived_sizes L) as [_ A]. exact (A r k toks Hr Q). Qed.
Print Assumptions C28_requests_have_the_size_of_the_group.

Example C28_ex : map (token_count_for_group 4 10) [0; 1; 2; 3] = [Ok 3; Ok 3; Ok 2; Ok 2] /\
  token_count_for_group 4 3 0 = Err ValueError /\ token_count_for_group 4 10 4 = Err ValueError.
Proof. vm_compute. auto. Qed.

(** ** C29 A redeemed voucher yields exactly its tokens *)

(** The counter and the reported counts are what was received. *)
Theorem C29_counts_are_what_was_received : forall groups dflt allowed es out c r,
  lived groups dflt allowed es out c -> row c r ->
  v_counter r = Z.of_nat (length (credits (v_number r) out)) /\
  coalesce0 (v_token_count r) = received true (v_number r) out /\
  v_sequestered r = received false (v_number r) out.
Proof. intros * L Hr. destruct (i_row (lived_inv L) r Hr) as (_ & _ & H). exact H. Qed.
Print Assumptions C29_counts_are_what_was_received.

(** A redeemed voucher reports the number of spendable tokens received. *)
Theorem C29_redeemed_count : forall groups dflt allowed es out c r,
  lived groups dflt allowed es out c -> row c r -> v_state r = SRedeemed ->
  exists finished, get_voucher c (v_number r) =
    Ok (V (v_number r) (v_expected r) (v_created r) (PRedeemed finished (received true (v_number r) out)),
        CRedeemed finished (received true (v_number r) out)).
Proof.
  intros * L Hr S. pose proof (lived_inv L) as J. destruct (i_row J r Hr) as (Rd & _ & _ & T & _).
  destruct (@get_voucher_spec _ _ _ _ J Hr) as (s & G & Rp). rewrite G.
  inversion Rp as [f n ? F N| | | | | ]; try congruence. subst s. exists f. rewrite <- T, N. cbn [coalesce0].
  unfold shown, pst. rewrite S, F, N. reflexivity.
Qed.
Print Assumptions C29_redeemed_count.

(** What is received is stored, once, and nothing else is: spendable or
    sequestered as its key says. *)
Theorem C29_received_tokens_are_stored : forall groups dflt allowed es out c te o c',
  lived groups dflt allowed es out c -> proper te -> (forall w, fst (fst te) <> EWallet w) ->
  controller_step groups dflt allowed c te = (o, c') ->
  map u_token (unblinded (c_db c')) = map u_token (unblinded (c_db c)) ++ credited_tokens o /\
  (forall v k toks s, In (Credited v k toks s) o -> NoDup toks) /\
  (forall v k toks s t, In (Credited v k toks s) o -> In t toks ->
     stored (c_db c') s t /\ ~ In t (map u_token (unblinded (c_db c)))) /\
  (forall s t, stored (c_db c) s t -> stored (c_db c') s t).
Proof.
  intros * L P N E. destruct (@step_stores _ _ _ _ _ _ _ _ P (lived_inv L) E N) as (A & B & C & D). auto.
Qed.
Print Assumptions C29_received_tokens_are_stored.

(** "Each group contributes its tokens at most once" does not hold ... *)
Theorem C29_each_group_at_most_once_refuted : ~ (forall groups dflt allowed es out c v,
  lived groups dflt allowed es out c -> NoDup (credited_counters v out)).
Proof.
  intros H. specialize (H 2 4 [5] _ _ _ 7 (ex_lived 9)).
  assert (E : credited_counters 7 (ex_out 9) = [0; 0; 1]) by (vm_compute; reflexivity).
  rewrite E in H. inversion H as [|? ? X]. apply X. left. reflexivity.
Qed.
Print Assumptions C29_each_group_at_most_once_refuted.

(** ... and neither does "a redeemed voucher yields as many tokens as expected",
    when every answer has as many tokens as were asked for. *)
Theorem C29_total_refuted : ~ (forall groups dflt allowed es out c r,
  lived groups dflt allowed es out c -> full_answers groups dflt allowed (v_number r) es -> row c r -> v_state r = SRedeemed ->
  received true (v_number r) out + received false (v_number r) out = v_expected r).
Proof.
  intros H. pose (r := VR 7 11 4 SRedeemed (Some 18) (Some 6) 0 3).
  specialize (H 2 4 [5] (firstn 9 ex_bumpy) _ _ r (ex_lived 9)).
  assert (F : full_answers 2 4 [5] (v_number r) (firstn 9 ex_bumpy)).
  { intros es1 i toks pk now gen es2 out c f E R N _.
    destruct E as [E|E]; destruct (apart E) as (q & A & B); rewrite B in R; clear -A R N.
    2:{ do 9 (destruct q as [|q]; [discriminate A|]). destruct q; discriminate A. }
    do 9 (destruct q as [|q]; [cbn in A; try discriminate A; injection A as <- <- <- <- <-; vm_compute in R; injection R as <- <-; cbn in N; injection N as <-; reflexivity|]).
    cbn in A. destruct q; discriminate A. }
  assert (I : row (ex_end 9) r) by (vm_compute; left; reflexivity).
  specialize (H F I eq_refl). vm_compute in H. discriminate H.
Qed.
Print Assumptions C29_total_refuted.

(** For a voucher that is always paid for they do: the groups contribute once
    each, in order, all of them before the voucher is redeemed. *)
Theorem C29_each_group_once_partial : forall groups dflt allowed es out c r,
  lived groups dflt allowed es out c -> paid groups dflt allowed (v_number r) es -> row c r ->
  credited_counters (v_number r) out = map Z.of_nat (seq 0 (Z.to_nat (v_counter r))) /\
  (v_state r = SRedeemed -> v_counter r = groups) /\ (v_state r <> SRedeemed -> v_counter r < groups).
Proof.
  intros * L P Hr. destruct (lived_good L P) as [O _].
  destruct (i_order (lived_inv L) r O Hr) as (A & _ & _ & B & C & _). auto.
Qed.
Print Assumptions C29_each_group_once_partial.

Theorem C29_total_partial : forall groups dflt allowed es out c r,
  lived groups dflt allowed es out c -> paid groups dflt allowed (v_number r) es ->
  full_answers groups dflt allowed (v_number r) es -> row c r -> v_state r = SRedeemed ->
  received true (v_number r) out + received false (v_number r) out = v_expected r.
Proof.
  intros * L P F Hr S. destruct (lived_good L P) as [O _]. destruct (i_row (lived_inv L) r Hr) as (_ & _ & _ & <- & <-).
  eapply redeemed_total; eauto.
Qed.
Print Assumptions C29_total_partial.

Definition sm_row := VR 7 11 5 SRedeemed (Some 17) (Some 3) 2 2.
Lemma sm_paid : paid 2 4 [5] 7 ex_smooth.
Proof.
  intros es1 i a now gen es2 out c f E _ _ _ ->.
  destruct E as [E|E]; destruct (apart E) as (q & A & _); clear -A;
  do 8 (destruct q as [|q]; [discriminate A|]); destruct q; discriminate A.
Qed.
Lemma sm_full : full_answers 2 4 [5] 7 ex_smooth.
Proof.
  intros es1 i toks pk now gen es2 out c f E R N _.
  destruct E as [E|E]; destruct (apart E) as (q & A & B); rewrite B in R; clear -A R N;
  do 8 (destruct q as [|q]; [cbn in A; try discriminate A; injection A as <- <- <- <- <-; vm_compute in R; injection R as <- <-; cbn in N; injection N as <-; reflexivity|]);
  destruct q; discriminate A.
Qed.
Example C29_ex : lived 2 4 [5] ex_smooth sm_out sm_end /\ paid 2 4 [5] 7 ex_smooth /\ full_answers 2 4 [5] 7 ex_smooth /\
  row sm_end sm_row /\ received true 7 sm_out = 3 /\ received false 7 sm_out = 2.
Proof.
  split; [exact sm_lived|]. split; [exact sm_paid|]. split; [exact sm_full|]. split; [vm_compute; left; reflexivity|].
  split; vm_compute; reflexivity.
Qed.

(** ** C30 Retrying a redemption group reuses the same secrets *)

(** Two requests for a group between which no group of the voucher was stored
    carry the same tokens. *)
Theorem C30_retries_send_the_same_tokens : forall groups dflt allowed es out c a v k t1 b t2 d,
  lived groups dflt allowed es out c ->
  out = a ++ Requested v k t1 :: b ++ Requested v k t2 :: d -> credits v b = [] -> t1 = t2.
Proof. intros * L E N. destruct (lived_kept L) as [_ S]. eapply S; eauto. Qed.
Print Assumptions C30_retries_send_the_same_tokens.

(** The tokens are in the database from the request until then. *)
Theorem C30_requested_tokens_are_kept : forall groups dflt allowed es out c a v k t b,
  lived groups dflt allowed es out c ->
  out = a ++ Requested v k t :: b -> credits v b = [] -> random_tokens v k (c_db c) = t.
Proof. intros * L E N. destruct (lived_kept L) as [K _]. rewrite random_tokens_eq. eapply K; eauto. Qed.
Print Assumptions C30_requested_tokens_are_kept.

(** It does not hold until the group itself has been received ... *)
Theorem C30_until_that_group_succeeds_refuted : ~ (forall groups dflt allowed es out c a v k t1 b t2 d,
  lived groups dflt allowed es out c ->
  out = a ++ Requested v k t1 :: b ++ Requested v k t2 :: d ->
  (forall toks s, ~ In (Credited v k toks s) out) -> t1 = t2).
Proof.
  intros H. specialize (H 2 4 [5] _ _ _
    [Requested 7 0 [-100; -101]; Requested 7 0 [-100; -101]; Credited 7 0 [11; 12] true] 7 1 [-400; -401]
    [Requested 7 0 [-600; -601]; Credited 7 0 [13; 14] true] [-700; -701] [] (ex_lived 8)).
  assert (E : ex_out 8 = [Requested 7 0 [-100; -101]; Requested 7 0 [-100; -101]; Credited 7 0 [11; 12] true; Requested 7 1 [-400; -401];
     Requested 7 0 [-600; -601]; Credited 7 0 [13; 14] true; Requested 7 1 [-700; -701]]) by (vm_compute; reflexivity).
  specialize (H E). rewrite E in H. discriminate H.
  intros toks s I. cbn in I. intuition discriminate.
Qed.
Print Assumptions C30_until_that_group_succeeds_refuted.

(** ... except for a voucher that is always paid for. *)
Theorem C30_until_that_group_succeeds_partial : forall groups dflt allowed es out c v k t1 t2,
  lived groups dflt allowed es out c -> paid groups dflt allowed v es ->
  In (Requested v k t1) out -> In (Requested v k t2) out -> t1 = t2.
Proof.
  intros * L P Q1 Q2. pose proof (lived_inv L) as J. destruct (lived_good L P) as [O _].
  destruct (known_dec c v) as [(r & Hr & <-)|N]; [|destruct (i_unknown J v N) as [_ X]; destruct (X _ _ Q1)].
  destruct (i_order J r O Hr) as (_ & _ & _ & _ & _ & _ & X). eapply X; eauto.
Qed.
Print Assumptions C30_until_that_group_succeeds_partial.

Example C30_ex : sm_out = [Requested 7 0 [-100; -101; -102]; Credited 7 0 [11; 12; 13] true] ++
  Requested 7 1 [-400; -401] :: [] ++ Requested 7 1 [-400; -401] :: [Credited 7 1 [14; 15] false].
Proof. vm_compute. reflexivity. Qed.

(** ** C32 Voucher state only moves forward *)

Theorem C32_one_event_moves_forward : forall groups dflt allowed es out c te o c' r,
  lived groups dflt allowed es out c -> proper te -> controller_step groups dflt allowed c te = (o, c') -> row c r ->
  exists r', row c' r' /\ forward r r'.
Proof. intros * L P E Hr. eapply step_forward; eauto. apply (lived_inv L). Qed.
Print Assumptions C32_one_event_moves_forward.

(** Vouchers begin pending with nothing done. *)
Theorem C32_vouchers_begin_pending : forall groups dflt allowed es out c te o c' r,
  lived groups dflt allowed es out c -> proper te -> controller_step groups dflt allowed c te = (o, c') -> row c' r ->
  (exists r0, row c r0 /\ v_number r0 = v_number r) \/ v_state r = SPending /\ v_counter r = 0.
Proof. intros * L P E Hr. eapply step_new_rows; eauto. apply (lived_inv L). Qed.
Print Assumptions C32_vouchers_begin_pending.

Theorem C32_progress_never_lost : forall groups dflt allowed es out c more o c' r,
  lived groups dflt allowed es out c -> Forall proper more ->
  controller_run groups dflt allowed c more = (o, c') -> row c r -> exists r', row c' r' /\ later r r'.
Proof. intros * L P E Hr. eapply run_later; eauto. apply (lived_inv L). Qed.
Print Assumptions C32_progress_never_lost.

Example C32_ex : map v_state (vouchers (c_db (ex_end 2))) = [SPending] /\ map v_counter (vouchers (c_db (ex_end 2))) = [0] /\
  map v_state (vouchers (c_db (ex_end 5))) = [SPending] /\ map v_counter (vouchers (c_db (ex_end 5))) = [1] /\
  map v_state (vouchers (c_db (ex_end 9))) = [SRedeemed].
Proof. vm_compute. auto. Qed.

(** ** C33 Submitting a voucher again has no effect *)

Theorem C33_known_voucher_is_kept : forall groups dflt allowed es out c r n now gen o c',
  lived groups dflt allowed es out c -> enough gen -> row c r ->
  controller_step groups dflt allowed c (ESubmit (v_number r) n, now, gen) = (o, c') ->
  vouchers (c_db c') = vouchers (c_db c) /\
  (exists more, tokens (c_db c') = tokens (c_db c) ++ more) /\
  (forall k toks, In (Requested (v_number r) k toks) o -> random_tokens (v_number r) k (c_db c) <> [] ->
     toks = random_tokens (v_number r) k (c_db c)).
Proof.
  intros * L En Hr E. cbn [controller_step] in E.
  destruct (@redeem_again _ _ _ _ _ _ _ _ _ _ (lived_inv L) (in_map v_number _ _ Hr) E) as (A & B & C).
  split; [exact A|]. split; [exact B|]. intros k toks Q. rewrite random_tokens_eq. intros N. apply C; [exact Q|].
  intros X. apply N. unfold group_tokens. now rewrite X.
Qed.
Print Assumptions C33_known_voucher_is_kept.

(** The store alone, whatever is passed to it. *)
Theorem C33_store_add_known_voucher : forall v total k ts now d x d', wf d ->
  In v (map v_number (vouchers d)) -> with_cursor (add v total k ts now) d = (x, d') ->
  vouchers d' = vouchers d /\
  (random_tokens v k d <> [] -> x = Ok (random_tokens v k d) /\ d' = d) /\
  (random_tokens v k d = [] -> x = Ok ts /\ random_tokens v k d' = ts /\ (exists more, tokens d' = tokens d ++ more) \/
     (exists e, x = Err e) /\ d' = d).
Proof.
  intros * W K E. rewrite !random_tokens_eq.
  assert (Nil : group_rows v k d = [] <-> group_tokens v k d = []).
  { unfold group_tokens. split; [now intros -> | apply map_eq_nil]. }
  destruct (@add_cases _ _ _ _ _ _ _ _ W E) as [(e & -> & -> & G & _)|[(-> & G & ->)|(-> & G & _ & _ & ->)]].
  - split; [reflexivity|]. split; [intros N; exfalso; apply N, Nil, G|]. intros _. right. eauto.
  - split; [reflexivity|]. split; [auto|]. intros N. exfalso. apply G, Nil, N.
  - assert (X : with_voucher v total now d = d).
    { unfold with_voucher. destruct (memZ_spec v (map v_number (vouchers d))); [reflexivity|contradiction]. }
    rewrite X. split; [reflexivity|]. split; [intros N; exfalso; apply N, Nil, G|]. intros _. left. split; [reflexivity|].
    split; [|eexists; reflexivity]. rewrite group_tokens_app. apply Nil in G. rewrite G. cbn [app].
    clear. induction ts as [|t ts IH]; [reflexivity|]. cbn. rewrite !Z.eqb_refl. cbn. f_equal. exact IH.
Qed.
Print Assumptions C33_store_add_known_voucher.

(** The store's count of random tokens grows by those of a group that is added
    and by nothing if the group had tokens before. *)
Theorem C33_random_tokens_are_counted : forall v total k ts now d ts' d', wf d ->
  StoreModel.step d (OAdd v total k ts now) = (Ok (RTokens ts'), d') ->
  exists n, StoreModel.step d OCountRandom = (Ok (RNum n), d) /\
    StoreModel.step d' OCountRandom =
      (Ok (RNum (n + match random_tokens v k d with [] => Z.of_nat (length ts') | _ => 0 end)), d').
Proof.
  intros * W E. exists (lenZ (tokens d)). split; [reflexivity|].
  change (StoreModel.step d' OCountRandom) with (Ok (E := exn) (RNum (lenZ (tokens d'))), d'). f_equal. f_equal. f_equal. rewrite random_tokens_eq.
  cbn [StoreModel.step op_prog] in E. rewrite with_cursor_pmap in E. destruct (with_cursor (add v total k ts now) d) as [x d1] eqn:A.
  destruct x as [toks|e]; [|discriminate]. injection E as <- <-.
  destruct (@add_cases _ _ _ _ _ _ _ _ W A) as [(e & X & _)|[(X & G & ->)|(X & G & _ & _ & ->)]]; [discriminate| |]; injection X as ->; unfold group_tokens.
  - destruct (group_rows v k d); [contradiction|]. cbn. lia.
  - rewrite G. cbn [map]. unfold with_voucher. unfold lenZ.
    destruct (memZ _ _); unfold set_tokens; cbn [tokens]; rewrite app_length, map_length; lia.
Qed.
Print Assumptions C33_random_tokens_are_counted.

Example C33_ex : fst (controller_step 2 4 [5] (ex_end 3) (ESubmit 7 (Some 99), 30, new_tokens)) = [Requested 7 0 [-100; -101]] /\
  vouchers (c_db (ex_end 3)) = [VR 7 11 4 SPending None None 0 0].
Proof. vm_compute. auto. Qed.

Example C33_count_ex : let d := c_db (ex_end 3) in let '(r, d') := StoreModel.step d (OAdd 8 4 0 [901; 902] 30) in
  r = Ok (RTokens [901; 902]) /\ StoreModel.step d OCountRandom = (Ok (RNum 2), d) /\ fst (StoreModel.step d' OCountRandom) = Ok (RNum 4).
Proof. vm_compute. auto. Qed.

(** ** C34 At most one redemption attempt per voucher at a time *)

(** However events come, the requests without an answer (read off the events
    and outputs) are for different vouchers. *)
Theorem C34_one_open_request_per_voucher : forall groups dflt allowed es out c,
  lived groups dflt allowed es out c -> NoDup (open_requests groups dflt allowed new_node [] es).
Proof. intros * L. rewrite (lived_open L). apply (i_nodup (lived_inv L)). Qed.
Print Assumptions C34_one_open_request_per_voucher.

Definition ex_two : list timed :=
  [(EStart, 10, old_tokens 50); (ESubmit 7 (Some 4), 11, old_tokens 100); (ESubmit 8 (Some 4), 11, old_tokens 200);
   (ESubmit 7 (Some 4), 12, old_tokens 300); (EAnswer 1 AUnpaid, 13, old_tokens 400); (ETimer, 14, old_tokens 500); (ETimer, 15, old_tokens 600)].
Example C34_ex : Forall proper ex_two /\ open_requests 2 4 [5] new_node [] ex_two = [7; 8] /\
  length (requested_vouchers (fst (controller_run 2 4 [5] new_node ex_two))) = 3%nat.
Proof. split; [unfold ex_two; properly|]. vm_compute. auto. Qed.

(** ** C35 Redemption resumes where it left off *)

Theorem C35_retry_starts_at_the_first_missing_group_refuted : ~ (forall groups dflt allowed es out c now gen o c' r k toks,
  lived groups dflt allowed es out c -> enough gen -> controller_step groups dflt allowed c (ETimer, now, gen) = (o, c') ->
  row c r -> In (Requested (v_number r) k toks) o -> k = v_counter r).
Proof.
  intros H. pose proof (H 2 4 [5] _ _ (ex_end 6) 16 new_tokens _ _ (VR 7 11 4 SPending (Some 14) (Some 2) 0 1) 0 (new_tokens 7 0 2)
    (ex_lived 6) new_enough (surjective_pairing _)) as X.
  assert (X1 : 0 = v_counter (VR 7 11 4 SPending (Some 14) (Some 2) 0 1)); [|discriminate X1].
  apply X; vm_compute; left; reflexivity.
Qed.
Print Assumptions C35_retry_starts_at_the_first_missing_group_refuted.

(** An attempt begun by a submission, the timer or a start is for the first
    group missing, if that is the first group of all, if the voucher was never
    answered with "not paid for", or if the process is new. *)
Theorem C35_retry_starts_at_the_first_missing_group_partial : forall groups dflt allowed es out c e now gen o c' v k toks,
  lived groups dflt allowed es out c -> enough gen -> attempt e ->
  controller_step groups dflt allowed c (e, now, gen) = (o, c') -> In (Requested v k toks) o ->
  exists r, row c' r /\ v_number r = v /\
    (v_counter r = 0 \/ paid groups dflt allowed v es \/ fresh_process e -> k = v_counter r).
Proof.
  intros * L En At E Q. destruct (@attempt_asks _ _ _ _ _ _ _ _ _ _ En (lived_inv L) At E _ _ _ Q) as (r & Hr & Nr & H).
  exists r. split; [exact Hr|]. split; [exact Nr|]. intros C. destruct H as [H|(H & U & F)]; [exact H|].
  destruct C as [C|[C|C]]; [congruence| |contradiction]. destruct (lived_good L C) as [_ X]. contradiction.
Qed.
Print Assumptions C35_retry_starts_at_the_first_missing_group_partial.

(** A voucher that is always paid for is never asked for out of order, by
    whatever event. *)
Theorem C35_requests_in_order_partial : forall groups dflt allowed es out c v,
  lived groups dflt allowed es out c -> paid groups dflt allowed v es -> in_order v out.
Proof. intros * L P. exact (proj1 (lived_good L P)). Qed.
Print Assumptions C35_requests_in_order_partial.

Example C35_ex : attempt ETimer /\
  fst (controller_step 2 4 [5] (ex_end 3) (ETimer, 16, new_tokens)) = [Requested 7 0 [-100; -101]] /\
  fst (controller_step 2 4 [5] (ex_end 6) (EStart, 16, new_tokens)) = [Requested 7 1 [-400; -401]] /\
  in_order 7 sm_out.
Proof.
  split; [exact I|]. split; [vm_compute; reflexivity|]. split; [vm_compute; reflexivity|].
  exact (proj1 (lived_good sm_lived sm_paid)).
Qed.

(** ** C36 Every unfinished voucher is eventually retried *)

(** Timer firings, at any times. *)
Definition timers (l : list (Z * (Z -> Z -> Z -> list Z))) : list timed := map (fun x => (ETimer, fst x, snd x)) l.

(** After an error the timer never asks for the voucher again, however often it
    fires in the running process. *)
Definition ex_error : list timed :=
  [(EStart, 10, old_tokens 50); (ESubmit 7 (Some 4), 11, old_tokens 100); (EAnswer 0 (AError 3), 12, old_tokens 200)].
Definition er_end := snd (controller_run 2 4 [5] new_node ex_error).
Lemma er_lived : lived 2 4 [5] ex_error (fst (controller_run 2 4 [5] new_node ex_error)) er_end.
Proof. split; [unfold ex_error; properly|apply surjective_pairing]. Qed.
Lemma er_timer now gen : controller_step 2 4 [5] er_end (ETimer, now, gen) = ([Died ValueError], er_end).
Proof. reflexivity. Qed.
Lemma er_timers l : controller_run 2 4 [5] er_end (timers l) = (map (fun _ => Died ValueError) l, er_end).
Proof.
  induction l as [|[now gen] l IH]; [reflexivity|]. cbn [timers map controller_run fst snd]. rewrite er_timer.
  fold (timers l). rewrite IH. reflexivity.
Qed.
Theorem C36_every_failed_voucher_is_retried_refuted : ~ (forall groups dflt allowed es out c r,
  lived groups dflt allowed es out c -> running es -> row c r -> v_state r = SPending ->
  ~ In (v_number r) (outstanding c) ->
  exists n, forall l, (n <= length l)%nat -> Forall (fun x => fresh_tokens (snd x) (c_db c)) l ->
    exists k toks, In (Requested (v_number r) k toks) (fst (controller_run groups dflt allowed c (timers l)))).
Proof.
  intros H. destruct (H 2 4 [5] _ _ er_end (VR 7 11 4 SPending None None 0 0) er_lived) as [n X].
  - exists [], 10, (old_tokens 50), (tl ex_error). split; [reflexivity|]. repeat constructor.
  - vm_compute. left. reflexivity.
  - reflexivity.
  - vm_compute. auto.
  - destruct (X (repeat (16, new_tokens) n)) as (k & toks & Q).
    + rewrite repeat_length. lia.
    + apply Forall_forall. intros x I. apply repeat_spec in I. subst x. apply new_fresh. intros t T. vm_compute in T. intuition lia.
    + rewrite er_timers in Q. cbn [fst] in Q. apply in_map_iff in Q. destruct Q as (? & Q & _). discriminate Q.
Qed.
Print Assumptions C36_every_failed_voucher_is_retried_refuted.

(** After "not paid for" the very next firing asks again. *)
Theorem C36_unpaid_voucher_is_retried_partial : forall groups dflt allowed es out c r finished now gen o c',
  lived groups dflt allowed es out c -> running es -> fresh_tokens gen (c_db c) -> row c r ->
  reported c r (CUnpaid finished) ->
  controller_step groups dflt allowed c (ETimer, now, gen) = (o, c') ->
  exists toks, In (Requested (v_number r) 0 toks) o.
Proof.
  intros * L R F Hr Rp E. inversion Rp; subst. eapply timer_unpaid; eauto.
  - apply F.
  - eapply in_dkeys; eauto.
  - rewrite <- (i_active (lived_inv L)). assumption.
Qed.
Print Assumptions C36_unpaid_voucher_is_retried_partial.

(** The timer keeps running while the process does. *)
Theorem C36_timer_keeps_running_partial : forall groups dflt allowed es out c,
  lived groups dflt allowed es out c -> running es -> c_retrying c = true.
Proof. intros * L R. eapply lived_running; eauto. Qed.
Print Assumptions C36_timer_keeps_running_partial.

Example C36_ex : running (firstn 3 ex_bumpy) /\ fresh_tokens new_tokens (c_db (ex_end 3)) /\
  row (ex_end 3) (VR 7 11 4 SPending None None 0 0) /\ reported (ex_end 3) (VR 7 11 4 SPending None None 0 0) (CUnpaid 12) /\
  fst (controller_step 2 4 [5] (ex_end 3) (ETimer, 16, new_tokens)) = [Requested 7 0 [-100; -101]].
Proof.
  split; [exists [], 10, (old_tokens 50), (firstn 2 (tl ex_bumpy)); split; [reflexivity|]; repeat constructor|].
  split; [apply new_fresh; intros t T; vm_compute in T; intuition lia|].
  split; [vm_compute; left; reflexivity|].
  split; [apply rep_unpaid; [reflexivity|vm_compute; auto|left; reflexivity]|]. vm_compute. reflexivity.
Qed.

(** ** C37 After a restart every pending voucher is resumed at its progress counter *)

(** Not when the progress counter has reached the number of groups, which a
    voucher started over at group zero (C35) brings about. *)
Definition ex_stuck : list timed := firstn 7 ex_bumpy ++ [(EKillAfterAnswer 0 (ASuccess [13; 14] 5), 17, old_tokens 700)].
Definition st_end := snd (controller_run 2 4 [5] new_node ex_stuck).
Lemma st_lived : lived 2 4 [5] ex_stuck (fst (controller_run 2 4 [5] new_node ex_stuck)) st_end.
Proof. split; [unfold ex_stuck; properly|apply surjective_pairing]. Qed.
Definition resumed (r : voucher_row) : bool := match v_state r with SPending => true | _ => false end.
Theorem C37_exactly_the_pending_vouchers_refuted : ~ (forall groups dflt allowed es out c now gen o c',
  lived groups dflt allowed es out c -> fresh_tokens gen (c_db c) ->
  controller_step groups dflt allowed c (EStart, now, gen) = (o, c') ->
  request_keys o = map (fun r => (v_number r, v_counter r)) (filter resumed (vouchers (c_db c)))).
Proof.
  intros H. pose proof (fun o c' => H 2 4 [5] _ _ st_end 20 new_tokens o c' st_lived) as X.
  assert (F : fresh_tokens new_tokens (c_db st_end)) by (apply new_fresh; intros t T; vm_compute in T; intuition lia).
  specialize (X _ _ F (surjective_pairing _)). vm_compute in X. discriminate X.
Qed.
Print Assumptions C37_exactly_the_pending_vouchers_refuted.

(** Exactly the pending vouchers with a group to go are asked for, in the order of the
    table, each at its counter; nothing else happens. *)
Theorem C37_exactly_the_pending_vouchers_partial : forall groups dflt allowed es out c now gen o c',
  lived groups dflt allowed es out c -> fresh_tokens gen (c_db c) ->
  controller_step groups dflt allowed c (EStart, now, gen) = (o, c') ->
  request_keys o = map (fun r => (v_number r, v_counter r))
    (filter (fun r => resumed r && (v_counter r <? groups)) (vouchers (c_db c))) /\
  only_requests o.
Proof.
  intros * L F E. destruct (@boot_exact _ _ _ _ _ _ _ _ (proj1 F) F (lived_inv L) E) as [A B]. split; [|exact B].
  rewrite A. reflexivity.
Qed.
Print Assumptions C37_exactly_the_pending_vouchers_partial.

(** With vouchers that are always paid for, exactly the pending ones. *)
Theorem C37_exactly_the_pending_vouchers_when_paid_partial : forall groups dflt allowed es out c now gen o c',
  lived groups dflt allowed es out c -> (forall r, row c r -> paid groups dflt allowed (v_number r) es) ->
  fresh_tokens gen (c_db c) -> controller_step groups dflt allowed c (EStart, now, gen) = (o, c') ->
  request_keys o = map (fun r => (v_number r, v_counter r)) (filter resumed (vouchers (c_db c))) /\ only_requests o.
Proof.
  intros * L P F E. destruct (C37_exactly_the_pending_vouchers_partial _ _ _ _ _ _ _ _ _ _ L F E) as [A B].
  split; [|exact B]. rewrite A. f_equal. apply filter_ext_in. intros r Hr.
  destruct (lived_good L (P r Hr)) as [O _]. destruct (i_order (lived_inv L) r O Hr) as (_ & _ & _ & _ & X & _).
  unfold resumed. destruct (v_state r) eqn:S; try reflexivity. cbn [andb]. apply Z.ltb_lt. apply X. discriminate.
Qed.
Print Assumptions C37_exactly_the_pending_vouchers_when_paid_partial.

Example C37_ex : fresh_tokens new_tokens (c_db (ex_end 6)) /\
  controller_step 2 4 [5] (ex_end 6) (EStart, 20, new_tokens) =
    ([Requested 7 1 [-400; -401]], snd (controller_step 2 4 [5] (ex_end 6) (EStart, 20, new_tokens))).
Proof. split; [apply new_fresh; intros t T; vm_compute in T; intuition lia|]. vm_compute. reflexivity. Qed.

(** ** C38 What the user sees of a voucher is consistent *)

(** Every stored voucher is reported, with exactly one state, the one the
    specification [reported] allows. *)
Theorem C38_reported_state : forall groups dflt allowed es out c r s,
  lived groups dflt allowed es out c -> row c r ->
  ((exists vo, get_voucher c (v_number r) = Ok (vo, s) /\ number vo = v_number r /\
      expected_tokens vo = v_expected r /\ created vo = v_created r) <-> reported c r s).
Proof.
  intros * L Hr. destruct (@report_exact _ _ _ _ _ _ L r s Hr) as [A B]. split.
  - intros (vo & G & _). destruct (@get_voucher_spec _ _ _ _ (lived_inv L) Hr) as (s' & G' & R'). rewrite G' in G. injection G as _ <-. exact R'.
  - intros R. exists (shown r). split; [apply B, R|]. auto.
Qed.
Print Assumptions C38_reported_state.

Theorem C38_always_reported : forall groups dflt allowed es out c r,
  lived groups dflt allowed es out c -> row c r -> exists s, reported c r s.
Proof. intros * L Hr. destruct (@get_voucher_spec _ _ _ _ (lived_inv L) Hr) as (s & _ & R). eauto. Qed.
Print Assumptions C38_always_reported.

(** A voucher is reported as being redeemed exactly while a request for it is
    without an answer; the counter shown is the stored one. *)
Theorem C38_redeeming_iff_open : forall groups dflt allowed es out c r,
  lived groups dflt allowed es out c -> row c r ->
  ((exists started k, reported c r (CRedeeming started k)) <->
   In (v_number r) (open_requests groups dflt allowed new_node [] es)) /\
  (forall started k, reported c r (CRedeeming started k) -> k = v_counter r).
Proof.
  intros * L Hr. pose proof (lived_inv L) as J. rewrite (lived_open L). split.
  - split.
    + intros (s & k & R). inversion R; subst. rewrite <- (i_active J). eapply in_dkeys; eauto.
    + intros I. assert (Pe : v_state r = SPending).
      { apply in_map_iff in I. destruct I as (f & N & I). destruct (i_flight J f I) as (_ & _ & _ & r' & Hr' & Nr' & P & _).
        rewrite (@row_unique _ r r' _ _ J Hr Hr'); [exact P|congruence]. }
      rewrite <- (i_active J) in I. unfold dkeys in I. apply in_map_iff in I. destruct I as ([v [s k]] & N & I). cbn in N. subst v.
      exists s, k. apply rep_redeeming; auto.
  - intros s k R. inversion R as [ | |? ? Ps Ia| | | ]; subst. destruct (td_counter (lived_tidy L) _ _ _ Ia) as (r' & Hr' & Nr' & ->).
    f_equal. eapply row_unique; eauto.
Qed.
Print Assumptions C38_redeeming_iff_open.

(** A finished voucher is never shown as in progress, unpaid or in error. *)
Theorem C38_finished_is_shown_finished : forall groups dflt allowed es out c r s vo,
  lived groups dflt allowed es out c -> row c r -> v_state r <> SPending -> get_voucher c (v_number r) = Ok (vo, s) ->
  match v_state r, s with
  | SRedeemed, CRedeemed f n => v_finished r = Some f /\ v_token_count r = Some n
  | SDoubleSpend, CDoubleSpend f => v_finished r = Some f
  | _, _ => False
  end.
Proof.
  intros * L Hr N G. destruct (@get_voucher_spec _ _ _ _ (lived_inv L) Hr) as (s' & G' & R). rewrite G' in G. injection G as _ <-.
  inversion R as [f n S F T|f S F|? ? S|? S|? ? S|S]; rewrite S; auto; congruence.
Qed.
Print Assumptions C38_finished_is_shown_finished.

Example C38_ex : option_map snd (match get_voucher (ex_end 2) 7 with Ok x => Some x | Err _ => None end) = Some (CRedeeming 11 0) /\
  option_map snd (match get_voucher (ex_end 3) 7 with Ok x => Some x | Err _ => None end) = Some (CUnpaid 12) /\
  option_map snd (match get_voucher (ex_end 6) 7 with Ok x => Some x | Err _ => None end) = Some (CUnpaid 12) /\
  option_map snd (match get_voucher er_end 7 with Ok x => Some x | Err _ => None end) = Some (CError 12 3) /\
  option_map snd (match get_voucher (ex_end 9) 7 with Ok x => Some x | Err _ => None end) = Some (CRedeemed 18 6).
Proof. vm_compute. auto 6. Qed.

(** ** C71 An issuer that keeps its word never makes a voucher double-spent *)

Definition ex_double : list timed := firstn 7 ex_bumpy ++ [(EAnswer 0 AAlreadySpent, 17, old_tokens 700)].
Definition db_end := snd (controller_run 2 4 [5] new_node ex_double).
Lemma db_lived : lived 2 4 [5] ex_double (fst (controller_run 2 4 [5] new_node ex_double)) db_end.
Proof. split; [unfold ex_double; properly|apply surjective_pairing]. Qed.
Theorem C71_honest_issuer_refuted : ~ (forall groups dflt allowed es out c r,
  lived groups dflt allowed es out c -> honest groups dflt allowed es -> row c r -> v_state r <> SDoubleSpend).
Proof.
  intros H. apply (H 2 4 [5] _ _ db_end (VR 7 11 4 SDoubleSpend (Some 17) (Some 2) 0 1) db_lived); [|vm_compute; left; reflexivity|reflexivity].
  intros es1 i a now gen es2 out c f E R N.
  destruct E as [E|E]; destruct (apart E) as (q & A & B); rewrite B in R; clear -A R N.
  - do 8 (destruct q as [|q]; [cbn in A; try discriminate A; injection A as <- <- <- <-; try exact I|]).
    + vm_compute in R. injection R as <- <-. cbn in N. injection N as <-. exists [-100; -101]. cbn.
      split; [auto|discriminate].
    + destruct q; discriminate A.
  - do 8 (destruct q as [|q]; [discriminate A|]). destruct q; discriminate A.
Qed.
Print Assumptions C71_honest_issuer_refuted.

Theorem C71_honest_issuer_partial : forall groups dflt allowed es out c r,
  lived groups dflt allowed es out c -> honest groups dflt allowed es -> paid groups dflt allowed (v_number r) es ->
  row c r -> v_state r <> SDoubleSpend.
Proof. intros * L H P Hr. destruct (lived_good L P) as [O _]. eapply honest_not_double; eauto. Qed.
Print Assumptions C71_honest_issuer_partial.

Example C71_ex : lived 2 4 [5] ex_smooth sm_out sm_end /\ honest 2 4 [5] ex_smooth /\ paid 2 4 [5] 7 ex_smooth /\ row sm_end sm_row.
Proof.
  split; [exact sm_lived|]. split; [|split; [exact sm_paid|vm_compute; left; reflexivity]].
  intros es1 i a now gen es2 out c f E R N.
  destruct E as [E|E]; destruct (apart E) as (q & A & _); clear -A;
  do 8 (destruct q as [|q]; [cbn in A; try discriminate A; injection A as <- <- <- <-; exact I|]);
  destruct q; discriminate A.
Qed.
