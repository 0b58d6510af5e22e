(** C139: a voucher outlives the node it was submitted to. *)
From Verif Require Import Prelude PreludeFacts StoreModel StoreSpec ReplicaModel ReplicaSpec ReplicaStore ReplicaProperties RestSpec RestProperties RetrySpec
  ControllerModel ControllerSpec ControllerProofs ControllerRunProofs ControllerProperties LossModel LossSpec LossProofs.
Set Implicit Arguments.

Lemma Forall2_in_right A B (R : A -> B -> Prop) l l' y : Forall2 R l l' -> In y l' -> exists x, In x l /\ R x y.
Proof. intros F. induction F as [|x z l l' H F IH]; [intros []|]. intros [->|Hi]; [exists x; cbn; auto|]. destruct (IH Hi) as (w & H1 & H2). exists w. cbn; auto. Qed.

Section Wallet.
Variable text_size : mut -> Z.
Variable stream_size : list (change mut) -> Z.
Hypothesis fit : sizes_fit text_size stream_size.
Notation node_life := (node_life text_size stream_size).

(** The node is lost while replication is at rest, and another one recovers its
    wallet and is started.  If the issuer says "already spent" only when it has
    seen different tokens for the same group, whichever of the two nodes sent
    them, the voucher never becomes double-spent. *)
Theorem C139_never_double_spent :
  forall groups dflt allowed es ws n r, node_life groups dflt allowed es ws ->
  wall_along text_size stream_size wharmless empty_wallet ws ->
  wrun text_size stream_size empty_wallet ws = (n, r) -> n_work n = Idle ->
  exists a, recover sexec r = Ok a /\
  forall v es2 out2 c2 vr, Forall proper es2 -> restarted es2 ->
  controller_run groups dflt allowed (recovered_node a) es2 = (out2, c2) ->
  is_paid groups dflt allowed v new_node es -> is_paid groups dflt allowed v (recovered_node a) es2 ->
  keeps_its_word groups dflt allowed v [] new_node es ->
  keeps_its_word groups dflt allowed v (fst (controller_run groups dflt allowed new_node es)) (recovered_node a) es2 ->
  row c2 vr -> v_number vr = v -> v_state vr <> SDoubleSpend.
Proof.
  intros groups dflt allowed es ws n r L H E Wk. destruct (lost_and_recovered fit L H E Wk) as (a & eb & Rc & C & Pb & Ra & As). exists a. split; [exact Rc|].
  intros v es2 out2 c2 vr P2 (te & rest & -> & St) R2 Pd1 Pd2 H1 H2 Hr Nv.
  destruct (life_facts L) as (Pe & _).
  assert (Lv : lived groups dflt allowed es (fst (controller_run groups dflt allowed new_node es)) (snd (controller_run groups dflt allowed new_node es))) by (split; [exact Pe|apply surjective_pairing]).
  assert (Ho : answers_about groups dflt allowed v new_node (eb ++ te :: rest) honest_answer).
  { eapply honest_after; eauto; [|discriminate]. intros k toks Hi. exact (@i_nonempty _ _ _ (lived_inv Lv) v k toks Hi). }
  pose proof (@joined_lived groups dflt allowed a eb Pb Ra (te :: rest) out2 c2 P2 St ltac:(discriminate) R2) as Lj.
  assert (Pd : paid groups dflt allowed v (eb ++ te :: rest)).
  { apply (@joined_answers groups dflt allowed a eb Ra (te :: rest) St v (fun _ _ x => x <> AUnpaid)); auto.
    exact (@answers_cut groups dflt allowed v es eb _ C Pd1). }
  destruct (lived_good Lj Pd) as [O _]. eapply honest_about_not_double; eauto.
Qed.

(** Once redeemed, it has given all its tokens: those in the backup and those
    received since add up to the voucher's number. *)
Theorem C139_whole_value :
  forall groups dflt allowed es ws n r, node_life groups dflt allowed es ws ->
  wall_along text_size stream_size wharmless empty_wallet ws ->
  wrun text_size stream_size empty_wallet ws = (n, r) -> n_work n = Idle ->
  exists a, recover sexec r = Ok a /\
  forall v es2 out2 c2 vr, Forall proper es2 -> restarted es2 ->
  controller_run groups dflt allowed (recovered_node a) es2 = (out2, c2) ->
  is_paid groups dflt allowed v new_node es -> is_paid groups dflt allowed v (recovered_node a) es2 ->
  answers_in_full groups dflt allowed v new_node es -> answers_in_full groups dflt allowed v (recovered_node a) es2 ->
  row c2 vr -> v_number vr = v -> v_state vr = SRedeemed ->
  coalesce0 (v_token_count vr) + v_sequestered vr = v_expected vr.
Proof.
  intros groups dflt allowed es ws n r L H E Wk. destruct (lost_and_recovered fit L H E Wk) as (a & eb & Rc & C & Pb & Ra & As). exists a. split; [exact Rc|].
  intros v es2 out2 c2 vr P2 (te & rest & -> & St) R2 Pd1 Pd2 H1 H2 Hr Nv Rd.
  pose proof (@joined_lived groups dflt allowed a eb Pb Ra (te :: rest) out2 c2 P2 St ltac:(discriminate) R2) as Lj.
  assert (Pd : paid groups dflt allowed v (eb ++ te :: rest)).
  { apply (@joined_answers groups dflt allowed a eb Ra (te :: rest) St v (fun _ _ x => x <> AUnpaid)); auto.
    exact (@answers_cut groups dflt allowed v es eb _ C Pd1). }
  assert (Fa : answers_in_full groups dflt allowed v new_node (eb ++ te :: rest)).
  { apply (@joined_answers groups dflt allowed a eb Ra (te :: rest) St v (fun _ f x => match x with ASuccess toks _ => length toks = length (f_tokens f) | _ => True end)); auto.
    exact (@answers_cut groups dflt allowed v es eb _ C H1). }
  destruct (lived_good Lj Pd) as [O _]. rewrite <- Nv in O. eapply redeemed_total; eauto.
  intros es1 i toks pk now gen es2' out c f Ev Rn Nt Vf. exact (Fa es1 i _ now gen es2' out c f Ev Rn Nt (eq_trans Vf Nv)).
Qed.

(** Every voucher the lost node had is there, and when the new node is started it
    goes on with those that the backup shows unfinished, at the group reached. *)
Theorem C139_resumed :
  forall groups dflt allowed es ws n r, node_life groups dflt allowed es ws ->
  wall_along text_size stream_size wharmless empty_wallet ws ->
  wrun text_size stream_size empty_wallet ws = (n, r) -> n_work n = Idle ->
  exists a, recover sexec r = Ok a /\
  forall vr, row (snd (controller_run groups dflt allowed new_node es)) vr ->
  exists va, In va (vouchers a) /\ same_voucher va vr /\
  (is_paid groups dflt allowed (v_number vr) new_node es -> v_state va = SPending ->
   forall now gen, fresh_tokens gen a ->
   In (v_number va, v_counter va) (request_keys (fst (controller_step groups dflt allowed (recovered_node a) (EStart, now, gen))))).
Proof.
  intros groups dflt allowed es ws n r L H E Wk. destruct (lost_and_recovered fit L H E Wk) as (a & eb & Rc & C & Pb & Ra & _). exists a. split; [exact Rc|].
  destruct (C137_recovered_wallet_keeps fit ws H E Wk) as (a' & Rc' & Kv & _). rewrite Rc in Rc'. injection Rc' as <-.
  destruct (life_facts L) as (_ & Er & _). rewrite E in Er. unfold wdb in Er. cbn [fst] in Er.
  set (c := snd (controller_run groups dflt allowed new_node es)) in *. set (cb := snd (controller_run groups dflt allowed new_node eb)) in *.
  assert (Ev : vouchers (n_db n) = vouchers (c_db c)) by (exact (f_equal vouchers Er)).
  assert (Eb : vouchers (c_db cb) = vouchers a) by (exact (f_equal vouchers Ra)).
  assert (Et : tokens (c_db cb) = tokens a) by (exact (f_equal tokens Ra)).
  intros vr Hr. unfold row in Hr. rewrite <- Ev in Hr. destruct (@Forall2_in_right _ _ _ _ _ vr Kv Hr) as (va & Ha & Sv). exists va. split; [exact Ha|]. split; [exact Sv|].
  intros Pd Pe now gen Fg. assert (Lb : lived groups dflt allowed eb (fst (controller_run groups dflt allowed new_node eb)) cb) by (split; [exact Pb|apply surjective_pairing]).
  assert (Fb : fresh_tokens gen (c_db cb)) by (unfold fresh_tokens in *; rewrite Et; exact Fg).
  destruct (C37_exactly_the_pending_vouchers_partial _ _ _ _ _ _ _ _ _ _ Lb Fb (surjective_pairing (controller_step groups dflt allowed cb (EStart, now, gen)))) as [A _].
  rewrite (@restart_step groups dflt allowed (recovered_node a) cb (EStart, now, gen) (eq_sym Ra) I), A.
  apply (in_map (fun r => (v_number r, v_counter r))). apply filter_In. rewrite Eb. split; [exact Ha|]. unfold resumed. rewrite Pe. cbn [andb].
  assert (Nv : v_number va = v_number vr) by apply Sv.
  destruct (lived_good Lb (@answers_cut groups dflt allowed (v_number vr) es eb _ C Pd)) as [O _]. rewrite <- Nv in O.
  assert (Hb : row cb va) by (unfold row; rewrite Eb; exact Ha).
  destruct (i_order (lived_inv Lb) va O Hb) as (_ & _ & _ & _ & X & _). apply Z.ltb_lt, X. rewrite Pe. discriminate.
Qed.
End Wallet.
Print Assumptions C139_never_double_spent.
Print Assumptions C139_whole_value.
Print Assumptions C139_resumed.

(** A voucher of four tokens in two groups.  The first group is redeemed; the second
    one too, but the node is lost before that reaches the replica, though the tokens
    it asked with have.  The node that recovers asks for the second group with the
    same tokens, and gets the other half of the value. *)
Definition lost_es : list timed :=
  [(EStart, 0, old_tokens 10); (ESubmit 7 (Some 4), 1, old_tokens 20); (EAnswer 0 (ASuccess [101; 102] 5), 2, old_tokens 30);
   (EAnswer 0 (ASuccess [103; 104] 5), 3, old_tokens 40)].
Definition lost_at (i : nat) : ctl := snd (controller_run 2 4 [5] new_node (firstn i lost_es)).
Definition lost_te (i : nat) : timed := nth i lost_es (EStart, 0, old_tokens 10).
Definition dones (n : nat) : list wevent := repeat (WDone false) n.
Definition lost_before (i : nat) : list wevent := match i with O => WSetUp :: dones 3 | _ => [] end.
Fixpoint lost_ws (i : nat) : list wevent :=
  match i with
  | O => []
  | S j => (lost_ws j ++ wallet_events 2 4 [5] (lost_at j) (lost_te j) (lost_before j) false) ++ dones (match j with 1%nat => 2 | 2%nat => 4 | _ => 0 end)
  end.
Notation w := (wrun size10 size100 empty_wallet).
Lemma life_more text_size stream_size groups dflt allowed es ws l :
  node_life text_size stream_size groups dflt allowed es ws -> Forall replicating_event l ->
  node_life text_size stream_size groups dflt allowed es (ws ++ l).
Proof.
  intros L F. revert ws L. induction F as [|e l He F IH]; intros ws L; [now rewrite app_nil_r|].
  replace (ws ++ e :: l) with ((ws ++ [e]) ++ l) by (now rewrite <- app_assoc). apply IH, life_replication; assumption.
Qed.
Lemma dones_replicate n : Forall replicating_event (dones n).
Proof. apply Forall_forall. intros e H. rewrite (repeat_spec _ _ _ H). exact I. Qed.
Lemma lost_life : node_life size10 size100 2 4 [5] lost_es (lost_ws 4).
Proof.
  assert (F : forall i, (i <= 4)%nat -> node_life size10 size100 2 4 [5] (firstn i lost_es) (lost_ws i)).
  { intros i. induction i as [|j IH]; intros Hi; [constructor|]. specialize (IH ltac:(lia)).
    assert (E : firstn (S j) lost_es = firstn j lost_es ++ [lost_te j]) by (do 4 (destruct j as [|j]; [reflexivity|]); lia).
    rewrite E. cbn [lost_ws]. apply life_more; [|apply dones_replicate].
    apply life_redemption; [exact IH| | |].
    - do 4 (destruct j as [|j]; [apply old_enough|]). lia.
    - destruct j; [|constructor]. constructor; [exact I|]. apply dones_replicate.
    - do 4 (destruct j as [|j]; [vm_compute; auto|]). lia. }
  exact (F 4%nat ltac:(lia)).
Qed.
Definition lost_backup : db := match recover sexec (snd (w (lost_ws 4))) with Ok a => a | Err _ => c_db new_node end.
Definition found_es : list timed := [(EStart, 100, new_tokens); (EAnswer 0 (ASuccess [103; 104] 5), 101, new_tokens)].
Definition found : list output * ctl := controller_run 2 4 [5] (recovered_node lost_backup) found_es.
Ltac about :=
  intros es1 i a now gen es2 out c f E R N V; destruct E as [E|E]; destruct (apart E) as (q & A & B); rewrite B in R; clear -A R N;
  do 4 (destruct q as [|q]; [cbn in A; try discriminate A; try (injection A as <- <- <- <-; try (injection A as <-); vm_compute in R; injection R as <- <-; cbn in N; injection N as <-; first [exact I|reflexivity|discriminate])|]);
  try (cbn in A; discriminate A); destruct q; discriminate A.
Example C139_example :
  node_life size10 size100 2 4 [5] lost_es (lost_ws 4) /\
  wall_along size10 size100 wharmless empty_wallet (lost_ws 4) /\ n_work (fst (w (lost_ws 4))) = Idle /\
  recover sexec (snd (w (lost_ws 4))) = Ok lost_backup /\
  Forall proper found_es /\ restarted found_es /\
  is_paid 2 4 [5] 7 new_node lost_es /\ is_paid 2 4 [5] 7 (recovered_node lost_backup) found_es /\
  keeps_its_word 2 4 [5] 7 [] new_node lost_es /\
  keeps_its_word 2 4 [5] 7 (fst (controller_run 2 4 [5] new_node lost_es)) (recovered_node lost_backup) found_es /\
  answers_in_full 2 4 [5] 7 new_node lost_es /\ answers_in_full 2 4 [5] 7 (recovered_node lost_backup) found_es /\
  fresh_tokens new_tokens lost_backup /\
  (** the lost node had redeemed the voucher, the backup shows it half redeemed: *)
  map v_state (vouchers (c_db (lost_at 4))) = [SRedeemed] /\ map v_state (vouchers lost_backup) = [SPending] /\
  In (Requested 7 1 [-30; -31]) (fst (controller_run 2 4 [5] new_node lost_es)) /\
  fst found = [Requested 7 1 [-30; -31]; Credited 7 1 [103; 104] true] /\
  map (fun r => (v_state r, v_token_count r, v_expected r)) (vouchers (c_db (snd found))) = [(SRedeemed, Some 4, 4)].
Proof.
  split; [exact lost_life|]. split; [harmless_tac|]. split; [vm_compute; reflexivity|]. split; [vm_compute; reflexivity|].
  split; [repeat constructor; apply new_enough|]. split; [eexists _, _; split; [reflexivity|exact I]|].
  split; [about|]. split; [about|]. split; [about|]. split; [about|]. split; [about|]. split; [about|].
  split; [apply new_fresh; intros t T; vm_compute in T; intuition lia|].
  repeat (split; [vm_compute; try reflexivity; auto|]). vm_compute. reflexivity.
Qed.
