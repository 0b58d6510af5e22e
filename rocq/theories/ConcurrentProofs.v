(** Proofs for ConcurrentProperties. *)
From Verif Require Import Prelude PreludeFacts PricingModel StoreModel StoreSpec StoreProofs PricingSpec PricingProofs
  SpendModel SpendSpec SpendProofs ConcurrentModel ConcurrentSpec.
Set Implicit Arguments.

(** ** Lists *)
Lemma concat_mid A (l1 l2 : list (list A)) b : Permutation (concat (l1 ++ b :: l2)) (b ++ concat (l1 ++ l2)).
Proof.
  rewrite !concat_app. cbn [concat]. rewrite !app_assoc. apply Permutation_app_tail.
  apply Permutation_app_comm.
Qed.

Lemma in_concat_mid A (l1 l2 : list (list A)) b x : In x (concat (l1 ++ b :: l2)) <-> In x b \/ In x (concat (l1 ++ l2)).
Proof.
  split; intros H.
  - apply (Permutation_in _ (concat_mid l1 l2 b)) in H. now apply in_app_or.
  - apply (Permutation_in _ (Permutation_sym (concat_mid l1 l2 b))). now apply in_or_app.
Qed.

Lemma NoDup_app_inv A (l1 l2 : list A) : NoDup (l1 ++ l2) -> NoDup l1 /\ NoDup l2 /\ (forall x, In x l1 -> ~ In x l2).
Proof.
  induction l1 as [|a l1 IH]; cbn [app]; intros N.
  - repeat split; auto; constructor.
  - inversion N as [|? ? H1 H2]; subst. destruct (IH H2) as (A1 & A2 & A3). repeat split; auto.
    + constructor; auto. intros X. apply H1, in_or_app. auto.
    + intros x [<-|X]; [intros Y; apply H1, in_or_app; auto|now apply A3].
Qed.

Lemma length_ub_minus l D : NoDup D -> (forall x, In x D -> In x (map u_token l)) -> NoDup (map u_token l) ->
  lenZ (ub_minus l D) + lenZ D = lenZ l.
Proof.
  unfold lenZ. intros N Sub Nl.
  assert (Pm : Permutation (map u_token l) (map u_token (ub_minus l D) ++ D)).
  { apply NoDup_Permutation; [exact Nl| |].
    - apply NoDup_app_intro; [unfold ub_minus; now apply NoDup_map_filter|exact N|].
      intros x X. apply in_ub_minus_tok in X. tauto.
    - intros x. rewrite in_app_iff, in_ub_minus_tok. split.
      + intros X. destruct (in_dec Z.eq_dec x D); auto.
      + intros [[X _]|X]; auto. }
  apply Permutation_length in Pm. rewrite app_length, !map_length in Pm. lia.
Qed.

Lemma ub_minus_drop l A B : (forall x, In x (map u_token l) -> ~ In x A) -> ub_minus l (A ++ B) = ub_minus l B.
Proof.
  intros H. unfold ub_minus. apply filter_ext_in. intros u Hu. f_equal.
  assert (N : ~ In (u_token u) A) by (apply H, in_map, Hu).
  destruct (memZ_spec (u_token u) B) as [X|X].
  - apply memZ_true, in_or_app. auto.
  - apply memZ_false. intros Y. apply in_app_or in Y. tauto.
Qed.

Section Concurrent.
Variable P : Type.
Variable to_pass : Z -> Z -> res exn P.
Hypothesis Hconv : forall m, convertible to_pass m.
Implicit Types (t : task P) (ts : list (task P)) (g : group P).

Definition spends (k : kind) (r : result) g : list Z :=
  match k with
  | SpendAll => map fst g
  | SpendForBuckets pv size => allocation_spends pv size r g
  end.
Definition kind_ok (k : kind) : Prop := match k with SpendAll => True | SpendForBuckets pv _ => 0 < pv end.

Lemma spends_sub k r g x : In x (spends k r g) -> In x (map fst g).
Proof. destruct k; cbn [spends]; [auto|apply allocation_sub]. Qed.

Lemma spends_nodup k r g : NoDup (map fst g) -> NoDup (spends k r g).
Proof.
  intros N. destruct k as [|pv size]; cbn [spends]; [exact N|]. unfold allocation_spends.
  destruct (required_passes _ _) as [n|e]; [|constructor]. rewrite <- firstn_map.
  rewrite <- (firstn_skipn (Z.to_nat n) (map fst g)) in N. now apply NoDup_app_inv in N.
Qed.

Lemma success_all k : @success_ok P result (on_success k) (spends k).
Proof. destruct k as [|pv size]; cbn [on_success spends]; [apply spend_all_ok|apply allocation_ok]. Qed.

Lemma in_firstn_nth A (l : list A) a : forall n, In a (firstn n l) <-> exists i, nth_error l i = Some a /\ (i < n)%nat.
Proof.
  induction l as [|b l IH]; intros n.
  - rewrite firstn_nil. cbn. split; [tauto|]. intros ([|i] & E & _); discriminate.
  - destruct n as [|n]; cbn [firstn].
    + split; [intros []|]. intros (i & _ & L). lia.
    + cbn [In]. rewrite IH. split.
      * intros [<-|(i & E & L)]; [exists O; cbn; split; auto; lia|exists (S i); cbn; split; auto; lia].
      * intros ([|i] & E & L); cbn in E; [left; congruence|right; exists i; split; auto; lia].
Qed.

Lemma owes_spends k r g x : kind_ok k -> (owes k r g x <-> In x (spends k r g)).
Proof.
  destruct k as [|pv size]; cbn [kind_ok owes spends]; intros K.
  - rewrite in_map_fst. reflexivity.
  - unfold allocation_spends. rewrite required_passes_pos by exact K.
    set (n0 := sumZ _). assert (E0 : exact_price pv (repeat size (length (snd r))) n0) by now apply exact_price_sum.
    rewrite in_map_iff. split.
    + intros (n & i & p & E & G & L). rewrite (exact_price_unique E E0) in L.
      exists (x, p). split; [reflexivity|]. apply in_firstn_nth. exists i. split; [exact G|]. lia.
    + intros ([x' p] & Ex & H). cbn in Ex. subst x'. apply in_firstn_nth in H. destruct H as (i & G & L).
      exists n0, i, p. repeat split; auto. lia.
Qed.

(** ** The invariant *)
Definition held_list t : list Z := match t_phase t with Waiting g => map fst g | Done _ => [] end.

Definition good_group (c : call) g : Prop :=
  (0 <= c_num c -> lenZ g = c_num c) /\ NoDup (map fst g) /\
  Forall (fun tp => to_pass (c_message c) (fst tp) = Ok (snd tp)) g.

Definition task_ok t : Prop :=
  kind_ok (c_kind (t_call t)) /\
  Forall (fun a => good_group (t_call t) (fst a)) (t_past t) /\
  match t_phase t with
  | Waiting g => good_group (t_call t) g
  | Done (Ok r) => exists g, accepted (t_past t) r g
  | Done (Err _) => True
  end.

Definition bill_of t (b : list Z) : Prop := forall x, In x b <-> rejected_by t x \/ paid_with t x.

Record inv (d0 : db) (n : Z) (s : system P) : Prop := {
  i_wf : wf (s_db s);
  i_clean : clean (s_db s);
  i_nodup : NoDup (concat (map held_list (s_tasks s)));
  i_use : forall x, In x (in_use (s_db s)) <-> In x (concat (map held_list (s_tasks s)));
  i_bills : exists bs, Forall2 bill_of (s_tasks s) bs /\ NoDup (concat bs) /\
    lenZ (unblinded (s_db s)) + lenZ (concat bs) = lenZ (unblinded d0) + n /\
    (forall x, In x (concat bs) -> ~ In x (map u_token (unblinded (s_db s))));
  i_rejected : forall x, some (@rejected_by P) (s_tasks s) x -> In x (map fst (invalid (s_db s)));
  i_paid : forall x, some (@paid_with P) (s_tasks s) x -> ~ In x (map fst (invalid (s_db s)));
  i_rest : forall x, some (@presented P) (s_tasks s) x -> ~ some (@rejected_by P) (s_tasks s) x ->
    ~ some (@paid_with P) (s_tasks s) x -> stored (s_db s) true x;
  i_else : forall b x, stored d0 b x -> ~ some (@presented P) (s_tasks s) x -> stored (s_db s) b x }.

Lemma holds_list t x : holds t x <-> In x (held_list t).
Proof.
  unfold holds, held_list. destruct (t_phase t) as [g|r].
  - rewrite in_map_fst. split.
    + intros (g' & p & [= <-] & H). now exists p.
    + intros (p & H). now exists g, p.
  - cbn. split; [|tauto]. intros (g & p & E & _). discriminate.
Qed.

Lemma some_mid (Q : task P -> Z -> Prop) l1 t l2 x : some Q (l1 ++ t :: l2) x <-> Q t x \/ some Q (l1 ++ l2) x.
Proof.
  unfold some. split.
  - intros (t0 & H & q). apply in_elt_inv in H. destruct H as [<-|H]; [now left|right; now exists t0].
  - intros [q|(t0 & H & q)].
    + exists t. split; [apply in_elt|exact q].
    + exists t0. split; [|exact q]. apply in_or_app. apply in_app_or in H. destruct H; cbn; auto.
Qed.

(** What a step of one call does, with [D] the tokens it takes out of the wallet. *)
Record moves (t t' : task P) (d d' : db) (D : list Z) (bad : bool) : Prop := {
  m_ok : task_ok t';
  m_wf : wf d';
  m_clean : clean d';
  m_nodup : NoDup (held_list t');
  m_new : forall x, In x (held_list t') -> (In x (held_list t) /\ ~ In x D) \/ In x (available d);
  m_out : NoDup D;
  m_from : forall x, In x D -> In x (held_list t);
  m_count : lenZ (unblinded d') + lenZ D = lenZ (unblinded d);
  m_stored : forall b x, stored d' b x <-> stored d b x /\ ~ In x D;
  m_use : forall x, In x (in_use d') <-> (In x (in_use d) /\ ~ In x (held_list t)) \/ In x (held_list t');
  m_invalid : forall x, In x (map fst (invalid d')) <-> In x (map fst (invalid d)) \/ (bad = true /\ In x D);
  m_rejected : forall x, rejected_by t' x <-> rejected_by t x \/ (bad = true /\ In x D);
  m_paid : forall x, paid_with t' x <-> bad = false /\ In x D;
  m_presented : forall x, presented t' x <-> presented t x \/ In x (held_list t');
  m_call : t_call t' = t_call t;
  m_keep : forall x, In x (held_list t) -> ~ In x D -> held_list t' = [] \/ In x (held_list t');
  m_bad : bad = false -> D = [] \/ held_list t' = [];
  m_short : t_phase t' = Done (Err (Raised NotEnoughTokens)) ->
    (bad = true \/ D = []) /\
    (SQLITE3_INTEGER_MAX < c_num (t_call t) - (lenZ (held_list t) - lenZ D) \/
     forall l, NoDup l -> (forall x, In x l -> In x (available d)) ->
       lenZ l < c_num (t_call t) - (lenZ (held_list t) - lenZ D)) }.

Lemma not_paid_waiting c past g x : ~ paid_with (Task c past (Waiting g)) x.
Proof. intros (r & g0 & E & _). discriminate. Qed.

Lemma advance d0 n l1 t l2 t' d d' D bad :
  inv d0 n (System d (l1 ++ t :: l2)) -> (forall x, ~ paid_with t x) -> moves t t' d d' D bad ->
  inv d0 n (System d' (l1 ++ t' :: l2)).
Proof.
  intros I Np M. destruct I as [W C N U B Rj Pd Rs El]. cbn [s_db s_tasks] in *.
  destruct M as [Mok Mwf Mcl Mnd Mnew Mout Mfrom Mcnt Mst Muse Minv Mrej Mpaid Mpres _ _ _ _].
  rewrite map_app in N. cbn [map] in N.
  assert (U' : forall x, In x (in_use d) <-> In x (held_list t) \/ In x (concat (map held_list (l1 ++ l2)))).
  { intros x. rewrite U, !map_app. cbn [map]. now rewrite in_concat_mid. }
  pose proof (Permutation_NoDup (concat_mid _ _ _) N) as N'. apply NoDup_app_inv in N'.
  destruct N' as (Nt & Nrest & Ndis). rewrite <- map_app in Nrest, Ndis.
  assert (Avail : forall x, In x (available d) -> ~ In x (in_use d)) by (intros x X; apply in_available in X; tauto).
  assert (Dheld : forall x, In x D -> stored d true x).
  { intros x X. apply W. apply U'. left. now apply Mfrom. }
  split; cbn [s_db s_tasks].
  - exact Mwf.
  - exact Mcl.
  - rewrite map_app. cbn [map]. apply (Permutation_NoDup (Permutation_sym (concat_mid _ _ _))). rewrite <- map_app.
    apply NoDup_app_intro; auto. intros x X Y. destruct (Mnew x X) as [[Z0 _]|Z0].
    + now apply (Ndis x).
    + apply (Avail x Z0). apply U'. auto.
  - intros x. rewrite Muse, U'. rewrite (map_app held_list l1 (t' :: l2)). cbn [map].
    rewrite in_concat_mid, <- map_app.
    pose proof (Ndis x). tauto.
  - destruct B as (bs & F & Nb & Cnt & Gone).
    apply Forall2_app_inv_l in F. destruct F as (b1 & b2' & F1 & F2 & ->). inversion F2 as [|? b ? b2 Ft F2' ]; subst.
    exists (b1 ++ (D ++ b) :: b2). split; [|].
    + apply Forall2_app; auto. constructor; auto. intros x. rewrite in_app_iff, Mrej, Mpaid, (Ft x).
      pose proof (Np x). destruct bad; intuition congruence.
    + assert (Pm : Permutation (concat (b1 ++ (D ++ b) :: b2)) (D ++ concat (b1 ++ b :: b2))).
      { eapply perm_trans; [apply concat_mid|]. rewrite <- app_assoc. apply Permutation_app_head.
        apply Permutation_sym, concat_mid. }
      split; [|split].
      * apply (Permutation_NoDup (Permutation_sym Pm)). apply NoDup_app_intro; auto.
        intros x X Y. apply (Gone x Y). now apply stored_in with true, Dheld.
      * apply Permutation_length in Pm. unfold lenZ in *. rewrite Pm, app_length. lia.
      * intros x X. apply (Permutation_in _ Pm) in X. apply in_app_or in X. intros Y.
        apply in_stored in Y; [|exact Mwf]. destruct Y as (b0 & Y). apply Mst in Y.
        destruct X as [X|X]; [tauto|]. apply (Gone x X). apply stored_in with b0. tauto.
  - intros x X. apply some_mid in X. rewrite Minv. destruct X as [X|X].
    + apply Mrej in X. destruct X as [X|X]; [|auto]. left. apply Rj, some_mid. auto.
    + left. apply Rj, some_mid. auto.
  - intros x X Y. apply some_mid in X. apply Minv in Y. destruct X as [X|X].
    + apply Mpaid in X. destruct X as [-> X]. destruct Y as [Y|[Y _]]; [|discriminate].
      apply (C x); [|exact Y]. now apply stored_in with true, Dheld.
    + assert (X' : some (@paid_with P) (l1 ++ t :: l2) x) by (apply some_mid; auto).
      destruct Y as [Y|[_ Y]]; [now apply (Pd x)|].
      destruct X as (t0 & I0 & X0).
      destruct B as (bs & F & _ & _ & Gone).
      assert (In x (concat bs)) as Xb.
      { assert (I0' : In t0 (l1 ++ t :: l2)) by (apply in_or_app; apply in_app_or in I0; cbn; tauto).
        clear - F I0' X0. induction F as [|t1 b1 ts bs Hb F IH]; [destruct I0'|]. cbn [concat]. apply in_or_app.
        destruct I0' as [->|I0']; [left; apply Hb; auto|right; auto]. }
      apply (Gone x Xb). now apply stored_in with true, Dheld.
  - intros x X Nr Npd. rewrite some_mid in Nr, Npd.
    apply Mst. rewrite Mrej in Nr. rewrite Mpaid in Npd. split.
    + apply some_mid in X. destruct X as [X|X].
      * apply Mpres in X. destruct X as [X|X].
        -- apply Rs; [apply some_mid; auto| |].
           ++ rewrite some_mid. tauto.
           ++ rewrite some_mid. pose proof (Np x). tauto.
        -- destruct (Mnew x X) as [[Y _]|Y].
           ++ apply W, U'. auto.
           ++ apply in_available in Y. tauto.
      * apply Rs; [apply some_mid; auto| |].
        -- rewrite some_mid. tauto.
        -- rewrite some_mid. pose proof (Np x). tauto.
    + intros Y. destruct bad; tauto.
  - intros b x X Y. rewrite some_mid, Mpres in Y. apply Mst. split.
    + apply El; [exact X|]. rewrite some_mid. tauto.
    + intros Z0. apply Y. left. left. left. apply holds_list. now apply Mfrom.
Qed.

(** ** The steps of one call *)
Lemma taken_app (a b : list (attempt P result)) x : taken (a ++ b) x <-> taken a x \/ taken b x.
Proof.
  unfold taken. split.
  - intros (g & r & p & H & K). apply in_app_or in H. destruct H; [left|right]; exists g, r, p; auto.
  - intros [(g & r & p & H & K)|(g & r & p & H & K)]; exists g, r, p; split; auto; apply in_or_app; auto.
Qed.
Lemma rejected_app (a b : list (attempt P result)) x : rejected (a ++ b) x <-> rejected a x \/ rejected b x.
Proof.
  unfold rejected. split.
  - intros (g & v & q & f & i & p & H & K). apply in_app_or in H. destruct H; [left|right]; exists g, v, q, f, i, p; auto.
  - intros [(g & v & q & f & i & p & H & K)|(g & v & q & f & i & p & H & K)];
      exists g, v, q, f, i, p; split; auto; apply in_or_app; auto.
Qed.
Lemma taken_one g (resp : response result) x : taken [(g, resp)] x <-> In x (map fst g).
Proof. rewrite taken_cons. cbn [fst]. split; [|auto]. intros [H|H]; [exact H|now apply not_taken_nil in H]. Qed.

Lemma presented_after c past g resp ph x :
  presented (Task c (past ++ [(g, resp)]) ph) x <->
  presented (Task c past (Waiting g)) x \/ In x (held_list (Task c (past ++ [(g, resp)]) ph)).
Proof.
  unfold presented. rewrite !holds_list. cbn [t_past]. rewrite taken_app, taken_one.
  change (held_list (Task c past (Waiting g))) with (map fst g). tauto.
Qed.

Lemma lenZ_nil A : lenZ (@nil A) = 0.
Proof. reflexivity. Qed.

Lemma held_ok_of c past g d : task_ok (Task c past (Waiting g)) -> wf d -> clean d ->
  (forall x, In x (map fst g) -> In x (in_use d)) -> held_ok g d.
Proof. intros (_ & _ & (_ & N & _)) W C U. split; auto. Qed.

Lemma past_ok c past g resp ph : task_ok (Task c past (Waiting g)) ->
  match ph with
  | Waiting g' => good_group c g'
  | Done (Ok r) => exists g', accepted (past ++ [(g, resp)]) r g'
  | Done (Err _) => True
  end -> task_ok (Task c (past ++ [(g, resp)]) ph).
Proof.
  intros (K & F & G) H. cbn in *. split; [exact K|]. split; [|exact H]. cbn.
  apply Forall_app. split; [exact F|]. repeat constructor; apply G.
Qed.

(** Giving up: everything goes back. *)
Lemma fail_moves c past g resp f d t' d' : task_ok (Task c past (Waiting g)) -> held_ok g d ->
  (forall x, ~ rejected [(g, resp)] x) -> f <> Raised NotEnoughTokens ->
  fail c (past ++ [(g, resp)]) f g d = (t', d') ->
  moves (Task c past (Waiting g)) t' d d' [] false.
Proof.
  intros T H Nr Nf E. unfold fail in E. rewrite reset_eq in E by apply H. injection E as <- <-.
  destruct (release_facts H) as (W' & C' & I' & _).
  split; cbn [In]; auto.
  - now apply past_ok.
  - constructor.
  - intros x [].
  - constructor.
  - intros x [].
  - rewrite lenZ_nil. cbn. lia.
  - intros b x. unfold stored. cbn. tauto.
  - intros x. cbn. rewrite in_minus. tauto.
  - intros x. rewrite I'. intuition discriminate.
  - intros x. unfold rejected_by. cbn. rewrite rejected_app. pose proof (Nr x). intuition discriminate.
  - intros x. split; [|tauto]. intros (r & g0 & E & _). discriminate.
  - intros x. apply presented_after.
  - intros E. cbn in E. congruence.
Qed.

Lemma get_short scan m n d d' : wf d -> (forall l, Permutation (scan l) l) ->
  get to_pass scan m n d = (Err NotEnoughTokens, d') ->
  SQLITE3_INTEGER_MAX < n \/ lenZ (available d) < n.
Proof.
  intros W Sc E. rewrite get_step in E.
  destruct (Z_le_gt_dec n SQLITE3_INTEGER_MAX) as [L1|G1]; [|lia].
  destruct (Z_le_gt_dec n (lenZ (available d))) as [L2|G2]; [|lia].
  destruct (@extract_success scan n d W Sc L1 L2) as (toks & E1 & _). rewrite E1 in E.
  destruct (tokens_to_passes_ok toks (Hconv m)) as (ps & Ep & _). rewrite Ep in E. discriminate.
Qed.

Lemma incl_lenZ (l l' : list Z) : NoDup l -> (forall x, In x l -> In x l') -> lenZ l <= lenZ l'.
Proof. intros N I. unfold lenZ. apply inj_le. now apply NoDup_incl_length. Qed.

Lemma success_no_short k r g d d' : wf d -> kind_ok k -> on_success k r g d <> (Err NotEnoughTokens, d').
Proof.
  intros W K E. destruct k as [|pv size]; cbn [on_success] in E.
  - unfold spend_all in E. rewrite mark_spent_eq in E by exact W. discriminate.
  - unfold spend_for_allocate_buckets in E. rewrite required_passes_pos in E by exact K.
    destruct (split _ g) as [a b]. rewrite mark_spent_eq in E by exact W.
    rewrite reset_eq in E by (apply wf_remove; exact W). discriminate.
Qed.

Lemma resume_moves scan c past g resp d t' d' : (forall l, Permutation (scan l) l) ->
  task_ok (Task c past (Waiting g)) -> held_ok g d ->
  resume to_pass scan c past g resp d = (t', d') ->
  exists D bad, moves (Task c past (Waiting g)) t' d d' D bad.
Proof.
  intros Sc T H E. unfold resume in E. pose proof T as (K & F & (L & N & B)). cbn [t_phase t_call] in L, N, B, K, F.
  pose proof H as [W C _ U].
  destruct resp as [r|v q failed|e].
  - destruct (@success_all (c_kind c) r g d W N) as [(d2 & Es & D2)|(e & Es)]; rewrite Es in E.
    + injection E as <- <-. exists (spends (c_kind c) r g), false.
      destruct (@success_facts P g d (spends (c_kind c) r g) H (@spends_sub (c_kind c) r g)) as (W2 & C2 & I2 & _ & _).
      rewrite <- D2 in W2, C2, I2.
      split; auto.
      * apply past_ok; [exact T|]. cbn. exists g, past. reflexivity.
      * constructor.
      * intros x [].
      * now apply spends_nodup.
      * intros x. apply spends_sub.
      * rewrite D2. cbn. apply length_ub_minus; [now apply spends_nodup| |apply W].
        intros x X. apply spends_sub in X. apply stored_in with true. apply W. auto.
      * intros b x. rewrite D2. apply stored_minus.
      * intros x. rewrite D2. cbn. rewrite in_minus. tauto.
      * intros x. rewrite I2. intuition discriminate.
      * intros x. unfold rejected_by. cbn. rewrite rejected_app.
        pose proof (@not_rejected_accept P result g r x). intuition discriminate.
      * intros x. rewrite <- owes_spends by exact K. unfold paid_with. cbn. split.
        -- intros (r0 & g0 & [= <-] & (past0 & A) & O). apply app_inj_tail in A. destruct A as [_ [= <-]]. auto.
        -- intros [_ O]. exists r, g. split; [reflexivity|]. split; [now exists past|exact O].
      * intros x. apply presented_after.
      * intros E. cbn in E. discriminate.
    + exists [], false. eapply fail_moves; eauto; [intros x; apply not_rejected_accept|].
      intros [= ->]. revert Es. apply success_no_short; [exact W|exact K].
  - destruct (@invalidate_cases P result to_pass (spends (c_kind c)) (@spends_sub (c_kind c)) g failed d H) as [[-> Ei]|(Ne & rej & okay & Ei & Sp)]; rewrite Ei in E.
    + exists [], false. eapply fail_moves; eauto; [|discriminate]. intros x X. apply rejected_one in X.
      destruct X as (i & p & _ & []).
    + unfold split in Sp. destruct (@split_from_spec P to_pass _ _ _ _ _ Sp) as (Srej & Sok & Pm).
      destruct (@invalid_facts P g rej okay d H Pm) as (H2 & Inv2 & I2).
      set (d2 := after_invalid d (map fst rej)) in *.
      pose proof (Permutation_map fst Pm) as Pf. rewrite map_app in Pf.
      assert (Nf : NoDup (map fst rej ++ map fst okay)) by (eapply Permutation_NoDup; eauto).
      apply NoDup_app_inv in Nf. destruct Nf as (Nrej & Nok & Ndis).
      assert (Gin : forall x, In x (map fst g) <-> In x (map fst rej) \/ In x (map fst okay)).
      { intros x. rewrite <- in_app_iff. split; intros X.
        - eapply Permutation_in; eauto.
        - eapply Permutation_in; [apply Permutation_sym|]; eauto. }
      assert (Nu : forall x, In x (in_use d) -> ~ In x (map fst (invalid d))).
      { intros x X. apply C. apply stored_in with true. now apply W. }
      assert (St2 : forall b x, stored d2 b x <-> stored d b x /\ ~ In x (map fst rej)).
      { intros b x. unfold d2. rewrite stored_after_invalid, in_app_iff. split; [tauto|]. intros [X Y].
        split; [exact X|]. intros [Z0|Z0]; [|auto]. apply (C x); [|exact Z0]. now apply stored_in with b. }
      assert (Us2 : forall x, In x (in_use d2) <-> In x (in_use d) /\ ~ In x (map fst rej)).
      { intros x. unfold d2. cbn. rewrite in_minus, in_app_iff. pose proof (Nu x). tauto. }
      assert (Ct2 : lenZ (unblinded d2) + lenZ (map fst rej) = lenZ (unblinded d)).
      { unfold d2. cbn. rewrite ub_minus_drop by exact C. apply length_ub_minus; [exact Nrej| |apply W].
        intros x X. apply stored_in with true. apply W, U, Gin. auto. }
      assert (Rj : forall x, rejected (past ++ [(g, Refuse v q failed)]) x <->
                     rejected past x \/ true = true /\ In x (map fst rej)).
      { intros x. rewrite rejected_app, rejected_one, in_map_fst. split.
        - intros [X|(i & p & X & Y)]; [auto|]. right. split; [reflexivity|]. exists p. apply Srej. exists i.
          split; [exact X|]. now apply memZ_true.
        - intros [X|(_ & p & X)]; [auto|]. right. apply Srej in X. destruct X as (i & X & Y). exists i, p.
          split; [exact X|]. now apply memZ_true in Y. }
      assert (Np : forall ph x, match ph with Done (Ok _) => False | _ => True end ->
                ~ paid_with (Task c (past ++ [(g, Refuse v q failed)]) ph) x).
      { intros ph x Hp (r & g0 & Ep & _). cbn in Ep. subst ph. exact Hp. }
      unfold expand in E.
      destruct (@get_cases P to_pass scan (c_message c) (c_num c - lenZ okay) d2 (h_wf H2) Sc (Hconv (c_message c)))
        as [Eg|(more & Eg & Nm & Am & Lm & Bm)]; rewrite Eg in E.
      * unfold fail in E. rewrite reset_eq in E by apply H2. injection E as <- <-.
        exists (map fst rej), true. destruct (release_facts H2) as (W' & C' & I' & _).
        split; auto.
        -- now apply past_ok.
        -- constructor.
        -- intros x [].
        -- intros x X. apply Gin. auto.
        -- intros x. change (in_use (after_release d2 (map fst okay))) with (minus (in_use d2) (map fst okay)).
           rewrite in_minus, Us2.
           change (held_list (Task c past (Waiting g))) with (map fst g). rewrite Gin. cbn. tauto.
        -- intros x. rewrite I', I2. intuition discriminate.
        -- intros x. split; [intros X; now apply Np in X|intros [X _]; discriminate].
        -- intros x. apply presented_after.
        -- intros _. split; [auto|]. change (held_list (Task c past (Waiting g))) with (map fst g). cbn [t_call].
           assert (Len : lenZ (map fst g) - lenZ (map fst rej) = lenZ okay).
           { apply Permutation_length in Pm. rewrite app_length in Pm. unfold lenZ. rewrite !map_length. lia. }
           rewrite Len. destruct (@get_short scan _ _ _ _ (h_wf H2) Sc Eg) as [X|X]; [auto|]. right. intros l Nl Il.
           eapply Z.le_lt_trans; [|exact X]. apply incl_lenZ; [exact Nl|]. intros x Hx. specialize (Il x Hx).
           apply in_available in Il. apply in_available. rewrite St2, Us2. destruct Il as [A1 A2].
           split; [|tauto]. split; [exact A1|]. intros Y. apply A2, U, Gin. auto.
      * injection E as <- <-. exists (map fst rej), true.
        assert (H3 : held_ok (okay ++ more) (set_in_use (in_use d2 ++ map fst more) d2)) by now apply extend_facts.
        assert (Lo : 0 <= c_num c -> 0 <= c_num c - lenZ okay).
        { intros X0. specialize (L X0). apply Permutation_length in Pm. rewrite app_length in Pm. unfold lenZ in *. lia. }
        split; auto.
        -- apply past_ok; [exact T|]. repeat split.
           ++ intros X0. specialize (Lm (Lo X0)). unfold lenZ in *. rewrite app_length. lia.
           ++ apply H3.
           ++ apply Forall_app. split; [|exact Bm]. apply Forall_forall. intros [x p] X. rewrite Forall_forall in B.
              apply B. apply (Permutation_in _ (Permutation_sym Pm)). apply in_or_app. auto.
        -- apply H3.
        -- apply H3.
        -- apply H3.
        -- intros x X. change (held_list (Task c past (Waiting g))) with (map fst g).
           change (held_list _) with (map fst (okay ++ more)) in X. rewrite map_app, in_app_iff in X.
           destruct X as [X|X].
           ++ left. split; [apply Gin; auto|]. intros Y. now apply (Ndis x).
           ++ right. apply Am, in_available in X. apply in_available. rewrite St2, Us2 in X. tauto.
        -- intros x X. apply Gin. auto.
        -- intros x. assert (X : In x (in_use (set_in_use (in_use d2 ++ map fst more) d2)) <->
             In x (in_use d2) \/ In x (map fst more)) by apply in_app_iff.
           rewrite Us2 in X. etransitivity; [exact X|]. clear X. change (held_list (Task c past (Waiting g))) with (map fst g).
           change (held_list _) with (map fst (okay ++ more)). rewrite map_app, in_app_iff, Gin.
           assert (In x (map fst okay) -> In x (in_use d)) by (intros X; apply U, Gin; auto).
           pose proof (Ndis x). destruct (in_dec Z.eq_dec x (map fst okay)); tauto.
        -- intros x. change (invalid (set_in_use (in_use d2 ++ map fst more) d2)) with (invalid d2).
           rewrite I2. intuition discriminate.
        -- intros x. split; [intros X; now apply Np in X|intros [X _]; discriminate].
        -- intros x. apply presented_after.
        -- intros x X Y. right. change (held_list (Task c past (Waiting g))) with (map fst g) in X.
           change (held_list _) with (map fst (okay ++ more)). rewrite map_app. apply in_or_app. apply Gin in X. tauto.
        -- discriminate.
        -- discriminate.
  - exists [], false. eapply fail_moves; eauto; [|discriminate]. intros x. apply not_rejected_fail.
Qed.

(** Beginning is advancing from a call that holds nothing. *)
Lemma begin_moves scan c d t' d' : (forall l, Permutation (scan l) l) -> kind_ok (c_kind c) -> wf d -> clean d ->
  begin to_pass scan c d = (t', d') -> moves (Task c [] (Waiting [])) t' d d' [] false.
Proof.
  intros Sc K W C E. unfold begin in E.
  destruct (@get_cases P to_pass scan (c_message c) (c_num c) d W Sc (Hconv (c_message c)))
    as [Eg|(more & Eg & Nm & Am & Lm & Bm)]; rewrite Eg in E; injection E as <- <-.
  - split; auto; try (intros x []; fail).
    + split; [exact K|]. split; [constructor|exact I].
    + constructor.
    + constructor.
    + rewrite lenZ_nil. lia.
    + intros b x. cbn. tauto.
    + intros x. cbn. tauto.
    + intros x. cbn. tauto.
    + intros x. unfold rejected_by. cbn. tauto.
    + intros x. split; [intros (r & g0 & E & _); discriminate|cbn; tauto].
    + intros x. unfold presented. rewrite !holds_list. cbn. tauto.
    + intros _. split; [auto|]. change (held_list (Task c [] (Waiting []))) with (@nil Z). cbn [t_call].
      rewrite !lenZ_nil, Z.sub_0_r.
      destruct (@get_short scan _ _ _ _ W Sc Eg) as [X|X]; [auto|]. right. intros l Nl Il.
      eapply Z.le_lt_trans; [|exact X]. now apply incl_lenZ.
  - assert (H0 : held_ok (@nil (Z * P)) d) by now apply held_nil.
    pose proof (@extend_facts P [] more d H0 Nm Am) as H3. cbn [app] in H3.
    split; auto; try (intros x []; fail).
    + split; [exact K|]. split; [constructor|]. split; auto.
    + apply H3.
    + constructor.
    + rewrite lenZ_nil. cbn. lia.
    + intros b x. cbn. unfold stored. cbn. tauto.
    + intros x. cbn. rewrite in_app_iff. tauto.
    + intros x. cbn. tauto.
    + intros x. unfold rejected_by. cbn. tauto.
    + intros x. split; [intros (r & g0 & E & _); discriminate|cbn; tauto].
    + intros x. unfold presented. rewrite !holds_list. cbn. tauto.
    + discriminate.
Qed.

(** ** All events *)
Lemma replace_mid i t t' ts : nth_error ts i = Some t ->
  exists l1 l2, ts = l1 ++ t :: l2 /\ replace i t' ts = l1 ++ t' :: l2.
Proof.
  revert i. induction ts as [|t0 ts IH]; intros i E; destruct i as [|i]; cbn in E; try discriminate.
  - injection E as <-. exists [], ts. auto.
  - destruct (IH i E) as (l1 & l2 & -> & Er). exists (t0 :: l1), l2. cbn. now rewrite Er.
Qed.

Lemma inv_start d0 n d ts c : inv d0 n (System d ts) -> inv d0 n (System d (ts ++ [Task c [] (Waiting [])])).
Proof.
  intros [W C N U B Rj Pd Rs El]. cbn [s_db s_tasks] in *.
  assert (Hh : concat (map held_list (ts ++ [Task c [] (Waiting [])])) = concat (map held_list ts)).
  { rewrite map_app, concat_app. cbn. now rewrite !app_nil_r. }
  assert (Hs : forall (Q : task P -> Z -> Prop) x, ~ Q (Task c [] (Waiting [])) x ->
     (some Q (ts ++ [Task c [] (Waiting [])]) x <-> some Q ts x)).
  { intros Q x Nq. rewrite some_mid, app_nil_r. tauto. }
  assert (N1 : forall x, ~ rejected_by (Task c [] (Waiting (@nil (Z * P)))) x) by (intros x X; now apply not_rejected_nil in X).
  assert (N2 : forall x, ~ presented (Task c [] (Waiting (@nil (Z * P)))) x).
  { intros x [X|X]; [apply holds_list in X; destruct X|now apply not_taken_nil in X]. }
  pose proof (@not_paid_waiting c [] []) as N3.
  split; cbn [s_db s_tasks]; auto.
  - now rewrite Hh.
  - intros x. now rewrite Hh.
  - destruct B as (bs & F & Nb & Cnt & Gone). exists (bs ++ [[]]).
    assert (Eb : concat (bs ++ [[]]) = concat bs) by (rewrite concat_app; cbn; now rewrite !app_nil_r).
    rewrite Eb. repeat split; auto. apply Forall2_app; auto. constructor; [|constructor].
    intros x. cbn. specialize (N1 x). specialize (N3 x). tauto.
  - intros x. rewrite Hs; auto.
  - intros x. rewrite Hs; auto.
  - intros x. rewrite !Hs; auto.
  - intros b x. rewrite Hs; auto.
Qed.

Lemma inv_other d0 n d ts o : inv d0 n (System d ts) -> harmless ts d o ->
  inv d0 (n + match o with
              | OInsert _ _ new _ _ _ => match fst (step d o) with Ok _ => lenZ new | Err _ => 0 end
              | _ => 0
              end) (System (snd (step d o)) ts).
Proof.
  intros I H. pose proof I as [W C N U B Rj Pd Rs El]. cbn [s_db s_tasks] in *.
  assert (F : fair o) by (destruct o; cbn in *; auto; contradiction).
  pose proof (@wf_step d o W F) as W1.
  assert (Same : forall d', wf d' -> unblinded d' = unblinded d -> groups d' = groups d -> in_use d' = in_use d ->
            invalid d' = invalid d -> inv d0 (n + 0) (System d' ts)).
  { intros d' W' E1 E2 E3 E4. split; cbn [s_db s_tasks]; unfold clean, stored in *; rewrite ?E1, ?E2, ?E3, ?E4, ?Z.add_0_r; auto. }
  destruct o; try contradiction;
    try (match goal with |- context [step d ?o] =>
           pose proof (@quiet_effect d o W Logic.I) as (E1 & E2 & E3 & E4); apply Same; auto end; fail).
  - match goal with |- context [step d (OAdd ?v ?e ?c ?ts ?now)] =>
      pose proof (@add_effect v e c ts now d W) as (E1 & E2 & E3 & E4); apply Same; auto end.
  - revert W1. rewrite step_insert_eq by exact W. cbn in H.
    destruct (filter _ (vouchers d)) as [|r rs]; [intros W1; cbn; apply Same; auto|].
    cbv zeta. set (id := next_id _).
    match goal with |- context [exec_muts ?m ?x] => destruct (exec_muts m x) as [d2|e] eqn:E end;
      cbn [fst snd]; [|intros W1; apply Same; auto].
    intros W1. apply ins_unblinded_Ok in E. destruct E as (Nn & Dn & ->). cbn [unblinded set_unblinded] in *.
    match goal with |- inv _ _ (System ?x ts) => set (d' := x) in * end.
    assert (E1 : unblinded d' = unblinded d ++ map (fun x => UR x id) toks) by reflexivity.
    assert (E2 : groups d' = groups d ++ [GR id voucher pk spendable]) by reflexivity.
    assert (E3 : in_use d' = in_use d) by reflexivity.
    assert (E4 : invalid d' = invalid d) by reflexivity.
    assert (St : forall b x, stored d b x -> stored d' b x).
    { intros b x (g & v & p & X & Y). exists g, v, p. rewrite E1, E2. split; apply in_or_app; auto. }
    assert (Un : forall x, In x (map u_token (unblinded d')) <-> In x (map u_token (unblinded d)) \/ In x toks).
    { intros x. rewrite E1, map_app, in_app_iff, map_u_token_UR. tauto. }
    split; cbn [s_db s_tasks]; rewrite ?E3, ?E4; auto.
    + intros x X. rewrite E4. apply Un in X. destruct X as [X|X]; [now apply C|now apply H].
    + destruct B as (bs & Fb & Nb & Cnt & Gone). exists bs. repeat split; auto.
      * rewrite E1. unfold lenZ in *. rewrite app_length, map_length. lia.
      * intros x X Y. apply Un in Y. destruct Y as [Y|Y]; [now apply (Gone x)|].
        apply (proj1 (H x Y)). clear - Fb X. induction Fb as [|t b ts bs Hb Fb IH]; [destruct X|].
        cbn [concat] in X. apply in_app_or in X. destruct X as [X|X].
        -- apply Hb in X. exists t. split; [now left|]. right. destruct X as [X|X].
           ++ destruct X as (g & v & q & f & i & p & X & Y & _). exists g, (Refuse v q f), p. split; [exact X|].
              now apply nth_error_In in Y.
           ++ destruct X as (r & g & _ & (past & ->) & O). apply taken_app. right. apply taken_one.
              apply in_map_fst. destruct (c_kind (t_call t)); cbn in O; [exact O|].
              destruct O as (n & i & p & _ & O & _). exists p. now apply nth_error_In in O.
        -- destruct (IH X) as (t0 & I0 & P0). exists t0. split; [now right|exact P0].
Qed.

Lemma inv_happen d0 n s e : inv d0 n s -> Forall task_ok (s_tasks s) -> may_happen s e ->
  inv d0 (n + match e with
              | Other (OInsert _ _ new _ _ _ as o) =>
                  match fst (step (s_db s) o) with Ok _ => lenZ new | Err _ => 0 end
              | _ => 0
              end) (happen to_pass s e) /\ Forall task_ok (s_tasks (happen to_pass s e)).
Proof.
  intros I T M. destruct s as [d ts]. cbn [s_db s_tasks] in *. destruct e as [scan c|scan i resp|o]; cbn [may_happen happen s_db s_tasks] in *.
  - destruct M as [Sc K]. rewrite Z.add_0_r.
    destruct (begin to_pass scan c d) as [t' d'] eqn:E. cbn [s_tasks].
    pose proof (@begin_moves scan c d t' d' Sc K (i_wf I) (i_clean I) E) as Mv. split.
    + apply inv_start with (c := c) in I. eapply advance; eauto. apply not_paid_waiting.
    + apply Forall_app. split; [exact T|]. constructor; [|constructor]. apply Mv.
  - rewrite Z.add_0_r. destruct (nth_error ts i) as [[c past [g|r]]|] eqn:En; [|auto|auto].
    destruct (resume to_pass scan c past g resp d) as [t' d'] eqn:E.
    destruct (@replace_mid i _ t' ts En) as (l1 & l2 & Ets & Er). cbn [s_tasks]. rewrite Er. subst ts.
    pose proof T as T0. apply Forall_app in T. destruct T as [T1 T2]. inversion T2 as [|? ? Tt T2']; subst.
    assert (H : held_ok g d).
    { apply held_ok_of with (c := c) (past := past); auto; [apply (i_wf I)|apply (i_clean I)|].
      intros x X. apply (i_use I). cbn [s_tasks]. rewrite map_app. cbn [map]. apply in_concat_mid. left. exact X. }
    destruct (@resume_moves scan c past g resp d t' d' M Tt H E) as (D & bad & Mv). split.
    + eapply advance; eauto. apply not_paid_waiting.
    + apply Forall_app. split; [exact T1|]. constructor; [apply Mv|exact T2'].
  - split; [now apply inv_other|exact T].
Qed.

Lemma inv_run es : forall d0 n s, inv d0 n s -> Forall task_ok (s_tasks s) -> may_run to_pass s es ->
  inv d0 (n + received to_pass s es) (run to_pass s es) /\ Forall task_ok (s_tasks (run to_pass s es)).
Proof.
  unfold run. induction es as [|e es IH]; intros d0 n s I T M; cbn [received fold_left].
  - now rewrite Z.add_0_r.
  - destruct M as [M Ms]. destruct (@inv_happen d0 n s e I T M) as [I1 T1]. rewrite Z.add_assoc. apply IH; auto.
Qed.

Lemma inv_init s : starts s -> inv (s_db s) 0 s /\ Forall task_ok (s_tasks s).
Proof.
  destruct s as [d ts]. intros (F & U & E). cbn [s_db s_tasks] in *. subst ts. split; [|constructor].
  destruct (fresh_clean F) as [W C].
  split; cbn [s_db s_tasks map concat]; auto.
  - constructor.
  - intros x. rewrite U. tauto.
  - exists []. split; [constructor|]. split; [constructor|]. split; [cbn; lia|intros x []].
  - intros x (t & [] & _).
  - intros x (t & [] & _).
  - intros x (t & [] & _).
Qed.

Lemma story s es : starts s -> may_run to_pass s es ->
  inv (s_db s) (received to_pass s es) (run to_pass s es) /\ Forall task_ok (s_tasks (run to_pass s es)).
Proof.
  intros S M. destruct (inv_init S) as [I T]. exact (@inv_run es _ _ _ I T M).
Qed.

(** ** Consequences *)
Lemma some_nth (Q : task P -> Z -> Prop) ts x : some Q ts x <-> exists i t, nth_error ts i = Some t /\ Q t x.
Proof.
  unfold some. split.
  - intros (t & H & q). apply In_nth_error in H. destruct H as (i & H). eauto.
  - intros (i & t & H & q). apply nth_error_In in H. eauto.
Qed.

(** Two members of a list whose lists are disjoint. *)
Lemma concat_share (f : task P -> list Z -> Prop) ts bs i j t1 t2 b1 b2 x :
  Forall2 f ts bs -> NoDup (concat bs) ->
  nth_error ts i = Some t1 -> nth_error ts j = Some t2 ->
  nth_error bs i = Some b1 -> nth_error bs j = Some b2 -> In x b1 -> In x b2 -> i = j.
Proof.
  intros F. revert i j. induction F as [|t b ts bs Hb F IH]; intros i j N E1 E2 B1 B2 X1 X2.
  - destruct i; discriminate.
  - cbn [concat] in N. apply NoDup_app_inv in N. destruct N as (_ & N & Dis).
    assert (K : forall k b0, nth_error bs k = Some b0 -> In x b0 -> In x (concat bs)).
    { intros k b0 Hk Hx. apply in_concat. exists b0. split; [now apply nth_error_In in Hk|exact Hx]. }
    destruct i as [|i], j as [|j]; cbn in *; auto.
    + injection B1 as ->. exfalso. apply (Dis x X1). eauto.
    + injection B2 as ->. exfalso. apply (Dis x X2). eauto.
Qed.

Lemma forall2_nth (f : task P -> list Z -> Prop) ts bs i t : Forall2 f ts bs -> nth_error ts i = Some t ->
  exists b, nth_error bs i = Some b /\ f t b.
Proof.
  intros F. revert i. induction F as [|t0 b ts bs Hb F IH]; intros i E; destruct i; cbn in *; try discriminate.
  - injection E as ->. eauto.
  - eauto.
Qed.

Lemma hold_share ts i j t1 t2 x : NoDup (concat (map held_list ts)) ->
  nth_error ts i = Some t1 -> nth_error ts j = Some t2 -> holds t1 x -> holds t2 x -> i = j.
Proof.
  intros N E1 E2 H1 H2. apply holds_list in H1, H2.
  assert (F : Forall2 (fun t b => b = held_list t) ts (map held_list ts)).
  { clear. induction ts; cbn; constructor; auto. }
  eapply (@concat_share _ ts (map held_list ts) i j t1 t2 (held_list t1) (held_list t2)); eauto; now apply map_nth_error.
Qed.

(** ** Enough passes for all *)
Lemma asked_mid l1 t l2 : asked_for (l1 ++ t :: l2) = c_num (t_call t) + asked_for (l1 ++ l2).
Proof. induction l1 as [|a l1 IH]; cbn [app asked_for]; [reflexivity|]. rewrite IH. lia. Qed.

Section Enough.
Variable d0 : db.
Variable T0 : list Z.
Hypothesis HN : NoDup T0.
Hypothesis HS : forall x, In x T0 -> stored d0 true x.
Hypothesis HM : lenZ T0 <= SQLITE3_INTEGER_MAX.

Definition enough (s : system P) : Prop :=
  (forall t, In t (s_tasks s) -> 0 <= c_num (t_call t)) /\
  exists pl rl, lists rl (some (@rejected_by P) (s_tasks s)) /\
    (forall x, some (@presented P) (s_tasks s) x -> In x pl) /\
    lenZ pl <= asked_for (s_tasks s) + lenZ rl /\
    (asked_for (s_tasks s) + lenZ rl <= lenZ T0 -> forall t, In t (s_tasks s) -> ~ ran_short t).

Lemma minus_lenZ (A B : list Z) : NoDup A -> lenZ A - lenZ B <= lenZ (minus A B).
Proof.
  intros N. assert (H : lenZ A <= lenZ (minus A B ++ B)).
  { apply incl_lenZ; [exact N|]. intros x X. apply in_or_app. rewrite in_minus.
    destruct (in_dec Z.eq_dec x B); auto. }
  unfold lenZ in *. rewrite app_length in H. lia.
Qed.

Lemma minus_nodup (A B : list Z) : NoDup A -> NoDup (minus A B).
Proof. intros N. unfold minus. now apply NoDup_filter. Qed.

(** A step from a call that still lacks [need] passes. *)
Lemma enough_step n l1 t l2 t' d d' D bad base pl rl :
  inv d0 n (System d (l1 ++ t :: l2)) -> moves t t' d d' D bad ->
  0 <= c_num (t_call t) ->
  NoDup (held_list t) ->
  (forall x, ~ paid_with t x) ->
  base = asked_for (l1 ++ l2) + lenZ (held_list t) ->
  (held_list t = [] \/ lenZ (held_list t) = c_num (t_call t)) ->
  (forall t0, In t0 (l1 ++ l2) -> 0 <= c_num (t_call t0)) ->
  lists rl (some (@rejected_by P) (l1 ++ t :: l2)) ->
  (forall x, some (@presented P) (l1 ++ t :: l2) x -> In x pl) ->
  lenZ pl <= base + lenZ rl ->
  (base + lenZ rl <= lenZ T0 -> forall t0, In t0 (l1 ++ l2) -> ~ ran_short t0) ->
  enough (System d' (l1 ++ t' :: l2)).
Proof.
  intros I M Nn Nh Np -> Hh Hc [Nr Hr] Hp Hl Hs.
  pose proof (m_call M) as Ec.
  split; cbn [s_tasks].
  { intros t0 X. apply in_elt_inv in X. destruct X as [<-|X]; [rewrite Ec; exact Nn|now apply Hc]. }
  set (extra := minus (held_list t') (held_list t)).
  set (new := if bad then D else []).
  assert (Cnum : lenZ (held_list t) <= c_num (t_call t)) by (destruct Hh as [-> | ->]; [rewrite lenZ_nil|]; lia).
  assert (Ex : lenZ extra <= (c_num (t_call t) - lenZ (held_list t)) + lenZ new).
  { assert (Zn : 0 <= lenZ new) by (unfold lenZ; lia).
    assert (E0 : held_list t' = [] \/ held_list t' <> []) by (destruct (held_list t'); [auto|right; discriminate]).
    destruct E0 as [E0|E0]; [unfold extra; rewrite E0; cbn; lia|].
    assert (Len' : lenZ (held_list t') = c_num (t_call t)).
    { pose proof (m_ok M) as (_ & _ & G). unfold held_list in E0 |- *. destruct (t_phase t') as [g'|r']; [|congruence].
      destruct G as (L & _ & _). rewrite Ec in L. specialize (L Nn). unfold lenZ in *. now rewrite map_length. }
    assert (Dn : lenZ D <= lenZ new).
    { unfold new. destruct bad; [lia|]. destruct (m_bad M eq_refl) as [->|X]; [lia|congruence]. }
    assert (Keep : lenZ (held_list t) - lenZ D <= lenZ (minus (held_list t) D)) by now apply minus_lenZ.
    assert (Sum : lenZ (extra ++ minus (held_list t) D) <= lenZ (held_list t')).
    { apply incl_lenZ.
      - apply NoDup_app_intro; [apply minus_nodup; apply (m_nodup M)|now apply minus_nodup|].
        intros x X Y. apply in_minus in X, Y. tauto.
      - intros x X. apply in_app_or in X. destruct X as [X|X]; apply in_minus in X; [tauto|].
        destruct (m_keep M x (proj1 X) (proj2 X)) as [Y|Y]; [congruence|exact Y]. }
    unfold lenZ in Sum, Keep |- *. rewrite app_length in Sum. unfold lenZ in *. lia. }
  assert (Rn : lists (new ++ rl) (some (@rejected_by P) (l1 ++ t' :: l2))).
  { split.
    - apply NoDup_app_intro; [unfold new; destruct bad; [apply (m_out M)|constructor]|exact Nr|].
      intros x X Y. unfold new in X. destruct bad; [|destruct X]. apply Hr in Y.
      pose proof (i_rejected I Y) as Z0. cbn [s_db] in Z0.
      apply (i_clean I x); [|exact Z0]. cbn [s_db]. apply stored_in with true. apply (i_wf I).
      apply (i_use I). cbn [s_tasks]. rewrite map_app. apply in_concat_mid. left. now apply (m_from M).
    - intros x. rewrite in_app_iff, Hr, !some_mid, (m_rejected M). unfold new. destruct bad; cbn; intuition discriminate. }
  exists (extra ++ pl), (new ++ rl). split; [exact Rn|]. split; [|split].
  - intros x X. apply some_mid in X. apply in_or_app. destruct X as [X|X].
    + apply (m_presented M) in X. destruct X as [X|X]; [right; apply Hp, some_mid; auto|].
      destruct (in_dec Z.eq_dec x (held_list t)) as [Y|Y].
      * right. apply Hp, some_mid. left. left. now apply holds_list.
      * left. apply in_minus. auto.
    + right. apply Hp, some_mid. auto.
  - rewrite asked_mid, Ec. unfold lenZ in *. rewrite !app_length. lia.
  - rewrite asked_mid, Ec. intros Le t0 X. apply in_elt_inv in X.
    assert (Lapp : lenZ (new ++ rl) = lenZ new + lenZ rl) by (unfold lenZ; rewrite app_length; lia).
    rewrite Lapp in Le. assert (Zn : 0 <= lenZ new) by (unfold lenZ; lia).
    destruct X as [<-|X].
    + intros Sh. destruct (m_short M Sh) as (Bd & Short).
      assert (Dn : lenZ D <= lenZ new).
      { unfold new. destruct bad; [lia|]. destruct Bd as [X| ->]; [discriminate|lia]. }
      assert (Zr : 0 <= lenZ rl) by (unfold lenZ; lia).
      assert (Za : 0 <= asked_for (l1 ++ l2)).
      { clear - Hc. induction (l1 ++ l2) as [|a l IH]; cbn [asked_for]; [lia|].
        assert (0 <= c_num (t_call a)) by (apply Hc; now left).
        assert (0 <= asked_for l) by (apply IH; intros t0 X; apply Hc; now right). lia. }
      assert (Zh : 0 <= lenZ (held_list t)) by (unfold lenZ; lia).
      destruct Short as [Short|Short]; [lia|].
      specialize (Short (minus T0 pl) (minus_nodup _ HN)).
      assert (lenZ (minus T0 pl) < c_num (t_call t) - (lenZ (held_list t) - lenZ D)).
      { apply Short. intros x X. apply in_minus in X. destruct X as [X Y].
        assert (Nx : ~ some (@presented P) (l1 ++ t :: l2) x) by (intros Z0; apply Y, Hp, Z0).
        apply in_available. split; [exact (i_else I (HS x X) Nx)|].
        intros Us. apply (i_use I) in Us. cbn [s_tasks] in Us. apply Nx.
        apply in_concat in Us. destruct Us as (h & H1 & H2). apply in_map_iff in H1. destruct H1 as (t1 & <- & H1).
        exists t1. split; [exact H1|]. left. now apply holds_list. }
      pose proof (@minus_lenZ T0 pl HN). lia.
    + apply Hs; [lia|exact X].
Qed.
End Enough.

Lemma enough_happen d0 T0 n s e : NoDup T0 -> (forall x, In x T0 -> stored d0 true x) -> lenZ T0 <= SQLITE3_INTEGER_MAX ->
  inv d0 n s -> Forall task_ok (s_tasks s) -> may_happen s e ->
  (forall scan c, e = Start scan c -> 0 <= c_num c) ->
  enough T0 s -> enough T0 (happen to_pass s e).
Proof.
  intros HN HS HM I T M Pos [Hc (pl & rl & Rl & Pl & Le & Sh)]. destruct s as [d ts]. cbn [s_db s_tasks] in *.
  destruct e as [scan c|scan i resp|o]; cbn [may_happen happen s_db s_tasks] in *.
  - destruct M as [Sc K]. destruct (begin to_pass scan c d) as [t' d'] eqn:E.
    pose proof (@begin_moves scan c d t' d' Sc K (i_wf I) (i_clean I) E) as Mv.
    assert (Ns : forall (Q : task P -> Z -> Prop) x, ~ Q (Task c [] (Waiting [])) x ->
       (some Q (ts ++ [Task c [] (Waiting [])]) x <-> some Q ts x)).
    { intros Q x Nq. rewrite some_mid, app_nil_r. tauto. }
    assert (N1 : forall x, ~ rejected_by (Task c [] (Waiting (@nil (Z * P)))) x)
      by (intros x X; now apply not_rejected_nil in X).
    assert (N2 : forall x, ~ presented (Task c [] (Waiting (@nil (Z * P)))) x).
    { intros x [X|X]; [apply holds_list in X; destruct X|now apply not_taken_nil in X]. }
    eapply (@enough_step d0 T0 HN HS HM n ts (Task c [] (Waiting [])) [] t' d d' [] false) with (pl := pl) (rl := rl).
    + now apply inv_start.
    + exact Mv.
    + cbn. eapply Pos. reflexivity.
    + constructor.
    + apply not_paid_waiting.
    + reflexivity.
    + left. reflexivity.
    + rewrite app_nil_r. exact Hc.
    + destruct Rl as [Nr Hr]. split; [exact Nr|]. intros x. rewrite Ns by apply N1. apply Hr.
    + intros x X. apply Ns in X; [|apply N2]. now apply Pl.
    + rewrite app_nil_r. cbn. lia.
    + rewrite app_nil_r. intros L. apply Sh. cbn in L. lia.
  - destruct (nth_error ts i) as [[c past [g|r]]|] eqn:En;
      [|split; [exact Hc|exists pl, rl; auto]|split; [exact Hc|exists pl, rl; auto]].
    destruct (resume to_pass scan c past g resp d) as [t' d'] eqn:E.
    destruct (@replace_mid i _ t' ts En) as (l1 & l2 & Ets & Er). rewrite Er. subst ts.
    apply Forall_app in T. destruct T as [T1 T2]. inversion T2 as [|? ? Tt T2']; subst.
    assert (H : held_ok g d).
    { apply held_ok_of with (c := c) (past := past); auto; [apply (i_wf I)|apply (i_clean I)|].
      intros x X. apply (i_use I). cbn [s_tasks]. rewrite map_app. cbn [map]. apply in_concat_mid. left. exact X. }
    destruct (@resume_moves scan c past g resp d t' d' M Tt H E) as (D & bad & Mv).
    assert (Nc : 0 <= c_num c) by (apply (Hc (Task c past (Waiting g))), in_elt).
    assert (Lg : lenZ (held_list (Task c past (Waiting g))) = c_num c).
    { destruct Tt as (_ & _ & (L & _ & _)). unfold held_list. cbn [t_phase]. cbn [t_call] in L. specialize (L Nc).
      unfold lenZ in *. now rewrite map_length. }
    eapply (@enough_step d0 T0 HN HS HM n l1 (Task c past (Waiting g)) l2 t' d d' D bad) with (pl := pl) (rl := rl); auto.
    + apply H.
    + apply not_paid_waiting.
    + intros t0 X. apply Hc. apply in_or_app. apply in_app_or in X. cbn. tauto.
    + rewrite Lg. rewrite asked_mid in Le. cbn [t_call] in Le. lia.
    + rewrite Lg. rewrite asked_mid in Sh. cbn [t_call] in Sh. intros L t0 X. apply Sh; [lia|].
      apply in_or_app. apply in_app_or in X. cbn. tauto.
  - split; [exact Hc|exists pl, rl; auto].
Qed.

Lemma enough_run T0 es : forall d0 n s, NoDup T0 -> (forall x, In x T0 -> stored d0 true x) -> lenZ T0 <= SQLITE3_INTEGER_MAX ->
  inv d0 n s -> Forall task_ok (s_tasks s) -> may_run to_pass s es ->
  (forall scan c, In (Start scan c) es -> 0 <= c_num c) ->
  enough T0 s -> enough T0 (run to_pass s es).
Proof.
  unfold run. induction es as [|e es IH]; intros d0 n s HN HS HM I T M Pos En; cbn [fold_left]; [exact En|].
  destruct M as [M Ms]. destruct (@inv_happen d0 n s e I T M) as [I1 T1].
  eapply IH; eauto.
  - intros scan c X. apply (Pos scan c). now right.
  - eapply enough_happen; eauto. intros scan c ->. apply (Pos scan c). now left.
Qed.

Lemma enough_for_all s es T0 rl : starts s -> may_run to_pass s es ->
  (forall scan c, In (Start scan c) es -> 0 <= c_num c) ->
  NoDup T0 -> (forall x, In x T0 -> stored (s_db s) true x) -> lenZ T0 <= SQLITE3_INTEGER_MAX ->
  lists rl (some (@rejected_by P) (s_tasks (run to_pass s es))) ->
  asked_for (s_tasks (run to_pass s es)) + lenZ rl <= lenZ T0 ->
  forall t, In t (s_tasks (run to_pass s es)) -> ~ ran_short t.
Proof.
  intros S M Pos HN HS HM [Nr Hr] Le. destruct (inv_init S) as [I T].
  assert (E0 : enough T0 s).
  { destruct S as (_ & _ & E). unfold enough. rewrite E. split; [intros t []|]. exists [], []. split; [|split; [|split]].
    - split; [constructor|]. intros x. split; [intros []|intros (t & [] & _)].
    - intros x (t & [] & _).
    - cbn. lia.
    - intros _ t []. }
  destruct (@enough_run T0 es _ _ _ HN HS HM I T M Pos E0) as (_ & pl & rl' & [Nr' Hr'] & _ & _ & K).
  apply K. assert (Eq : lenZ rl' = lenZ rl).
  { assert (lenZ rl' <= lenZ rl) by (apply incl_lenZ; [exact Nr'|]; intros x X; apply Hr, Hr', X).
    assert (lenZ rl <= lenZ rl') by (apply incl_lenZ; [exact Nr|]; intros x X; apply Hr', Hr, X). lia. }
  lia.
Qed.

(** ** The loop of SpendModel is one of the ways the system can run *)
Lemma run_app s es1 es2 : run to_pass s (es1 ++ es2) = run to_pass (run to_pass s es1) es2.
Proof. unfold run. apply fold_left_app. Qed.

Lemma run_others os : forall d ts, run to_pass (System d ts) (map Other os) = System (snd (steps d os)) ts.
Proof.
  unfold run. induction os as [|o os IH]; intros d ts; [reflexivity|]. cbn [map fold_left steps happen s_db s_tasks].
  rewrite IH. destruct (step d o) as [r d1]. cbn [snd]. now destruct (steps d1 os).
Qed.

Lemma fail_give_up c f g d tr :
  match give_up (R := result) f g d tr with
  | Some (r, d', tr') => fail c tr f g d = (Task c tr' (Done r), d')
  | None => False
  end.
Proof. unfold give_up, fail. now destruct (reset g d) as [[]]. Qed.

Lemma replace_last ts t t' : replace (length ts) t' (ts ++ [t]) = ts ++ [t'].
Proof. induction ts as [|t0 ts IH]; cbn; [reflexivity|]. now rewrite IH. Qed.
Lemma nth_last ts t : nth_error (ts ++ [t]) (length ts) = Some t.
Proof. induction ts; cbn; auto. Qed.

Lemma loop_runs server scan c fuel : forall past g d r d' tr ts,
  attempts to_pass server scan (c_message c) (c_num c) (on_success (c_kind c)) fuel past g d = Some (r, d', tr) ->
  exists es, run to_pass (System d (ts ++ [Task c past (Waiting g)])) es = System d' (ts ++ [Task c tr (Done r)]).
Proof.
  induction fuel as [|fuel IH]; intros past g d r d' tr ts; cbn [attempts]; [discriminate|].
  destruct (server past g d) as [others resp]. set (d1 := snd (steps d others)). set (tr1 := past ++ [(g, resp)]).
  intros E.
  assert (One : forall t1 d2, resume to_pass (scan (length tr1)) c past g resp d1 = (t1, d2) ->
     run to_pass (System d (ts ++ [Task c past (Waiting g)])) (map Other others ++ [Answer (scan (length tr1)) (length ts) resp])
     = System d2 (ts ++ [t1])).
  { intros t1 d2 Er. rewrite run_app, run_others. fold d1. unfold run. cbn [fold_left happen s_tasks s_db].
    rewrite nth_last, Er, replace_last. reflexivity. }
  assert (Give : forall f g0 d2, give_up f g0 d2 tr1 = Some (r, d', tr) ->
    fail c tr1 f g0 d2 = (Task c tr (Done r), d')).
  { intros f g0 d2 Eg. pose proof (@fail_give_up c f g0 d2 tr1) as K. now rewrite Eg in K. }
  unfold resume in One. fold tr1 in One. destruct resp as [x|v q failed|e].
  - destruct (on_success (c_kind c) x g d1) as [[u|e] d2].
    + injection E as <- <- <-. eexists. apply One. reflexivity.
    + eexists. apply One. now apply Give.
  - destruct (invalidate_rejected_passes g failed d1) as [[[okay|]|e] d2].
    + destruct (expand to_pass (scan (length tr1)) (c_message c) okay (c_num c - lenZ okay) d2) as [[g'|e] d3].
      * destruct (IH _ _ _ _ _ _ ts E) as (es & Es). eexists. rewrite run_app, (One _ _ eq_refl). exact Es.
      * eexists. apply One. now apply Give.
    + eexists. apply One. now apply Give.
    + eexists. apply One. now apply Give.
  - eexists. apply One. now apply Give.
Qed.
Lemma call_runs server scan c fuel d r d' tr ts :
  call_with_passes_with_manual_spend to_pass server scan (c_message c) (c_num c) (on_success (c_kind c)) fuel d = Some (r, d', tr) ->
  exists es, run to_pass (System d ts) (Start (scan 0%nat) c :: es) = System d' (ts ++ [Task c tr (Done r)]).
Proof.
  unfold call_with_passes_with_manual_spend. intros E.
  unfold run. cbn [fold_left happen s_db s_tasks]. unfold begin.
  destruct (get to_pass (scan 0%nat) (c_message c) (c_num c) d) as [[g|e] d1].
  - destruct (@loop_runs server scan c fuel [] g d1 r d' tr ts E) as (es & Es). exists es. exact Es.
  - injection E as <- <- <-. exists []. reflexivity.
Qed.
End Concurrent.
