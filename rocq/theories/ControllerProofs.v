(** Lemmas about voucher redemption. *)
From Verif Require Import Prelude PreludeFacts PricingModel StoreModel StoreSpec StoreProofs ControllerModel ControllerSpec.
Set Implicit Arguments.

(** ** Splitting into groups (C28) *)

Lemma token_count_Ok groups total g n : token_count_for_group groups total g = Ok n <->
  0 <= g < groups /\ groups <= total /\ n = total / groups + (if g <? total mod groups then 1 else 0).
Proof.
  unfold token_count_for_group.
  destruct (Z.ltb_spec total groups); [split; [discriminate|lia]|].
  destruct ((g >=? groups) || (g <? 0)) eqn:G; [split; [discriminate|lia]|].
  destruct (Z.eqb_spec groups 0); [split; [discriminate|lia]|].
  destruct (g <? total mod groups); split; intros E.
  - injection E as <-. lia.
  - destruct E as (_ & _ & ->). reflexivity.
  - injection E as <-. lia.
  - destruct E as (_ & _ & ->). f_equal. lia.
Qed.

Lemma token_count_pos groups total g n : token_count_for_group groups total g = Ok n -> 1 <= n.
Proof.
  intros E. apply token_count_Ok in E. destruct E as (A & B & ->).
  assert (1 <= total / groups). { apply Z.div_le_lower_bound; lia. }
  destruct (g <? total mod groups); lia.
Qed.

Definition group_indices (groups : Z) : list Z := map Z.of_nat (seq 0 (Z.to_nat groups)).

Lemma sum_prefix_ltb m r : 0 <= r -> 
  sumZ (map (fun i => if Z.of_nat i <? r then 1 else 0) (seq 0 m)) = Z.min (Z.of_nat m) r.
Proof.
  intros Hr. induction m as [|m IH]; [cbn; lia|].
  rewrite seq_S, map_app, sumZ_app, IH. cbn [map sumZ plus]. destruct (Z.ltb_spec (Z.of_nat m) r); lia.
Qed.

Lemma sum_const A (l : list A) x : sumZ (map (fun _ => x) l) = Z.of_nat (length l) * x.
Proof. induction l; cbn [map sumZ length]; lia. Qed.

Lemma sumZ_map_add A (f g : A -> Z) l : sumZ (map (fun x => f x + g x) l) = sumZ (map f l) + sumZ (map g l).
Proof. induction l as [|a l IH]; cbn [map sumZ]; lia. Qed.

Lemma token_counts_add_up groups total : 1 <= groups -> groups <= total ->
  exists ns, map_res (token_count_for_group groups total) (group_indices groups) = Ok ns /\
    length ns = Z.to_nat groups /\ sumZ ns = total /\
    (forall n, In n ns -> 1 <= n) /\ (forall n m, In n ns -> In m ns -> n <= m + 1).
Proof.
  intros Hg Ht. set (f := fun g => total / groups + (if g <? total mod groups then 1 else 0)).
  exists (map f (group_indices groups)).
  assert (E : forall l, (forall g, In g l -> 0 <= g < groups) -> map_res (token_count_for_group groups total) l = Ok (map f l)).
  { induction l as [|g l IH]; intros H; [reflexivity|]. cbn [map_res map].
    rewrite (proj2 (@token_count_Ok groups total g (f g))) by (split; [apply H; left; reflexivity|split; [lia|reflexivity]]).
    cbn [bind]. rewrite IH by (intros; apply H; right; assumption). reflexivity. }
  assert (G : forall g, In g (group_indices groups) -> 0 <= g < groups).
  { intros g I. unfold group_indices in I. apply in_map_iff in I. destruct I as (i & <- & I). apply in_seq in I. lia. }
  split; [apply E, G|]. split; [unfold group_indices; now rewrite !map_length, seq_length|].
  assert (D : total = groups * (total / groups) + total mod groups) by (apply Z.div_mod; lia).
  pose proof (Z.mod_pos_bound total groups ltac:(lia)) as M.
  split; [|split].
  - unfold group_indices. rewrite map_map. unfold f. rewrite sumZ_map_add, sum_const, sum_prefix_ltb, seq_length by lia. lia.
  - intros n I. apply in_map_iff in I. destruct I as (g & <- & _). unfold f.
    assert (1 <= total / groups) by (apply Z.div_le_lower_bound; lia). destruct (g <? _); lia.
  - intros n m I J. apply in_map_iff in I. apply in_map_iff in J. destruct I as (g & <- & _), J as (h & <- & _).
    unfold f. destruct (g <? _), (h <? _); lia.
Qed.

(** ** Reading rows *)

Definition readable (r : voucher_row) : Prop :=
  0 < v_expected r /\ 0 <= v_counter r /\ (v_state r <> SPending -> v_finished r <> None) /\
  (v_state r = SRedeemed -> v_token_count r <> None).

Definition pst (r : voucher_row) : pstate :=
  match v_state r with
  | SPending => PPending (v_counter r)
  | SRedeemed => PRedeemed (coalesce0 (v_finished r)) (coalesce0 (v_token_count r))
  | SDoubleSpend => PDoubleSpend (coalesce0 (v_finished r))
  end.

Lemma from_row_readable r : readable r -> from_row r = Ok (V (v_number r) (v_expected r) (v_created r) (pst r)).
Proof.
  intros (A & B & C & D). unfold from_row, pst. destruct (v_state r).
  - destruct (Z.ltb_spec (v_counter r) 0); [lia|]. cbn [bind]. destruct (Z.leb_spec (v_expected r) 0); [lia|reflexivity].
  - destruct (v_finished r); [|exfalso; apply C; congruence]. cbn [bind coalesce0].
    destruct (Z.leb_spec (v_expected r) 0); [lia|reflexivity].
  - destruct (v_token_count r); [|exfalso; apply D; congruence].
    destruct (v_finished r); [|exfalso; apply C; congruence]. cbn [bind coalesce0].
    destruct (Z.leb_spec (v_expected r) 0); [lia|reflexivity].
Qed.

Lemma get_eq v d : with_cursor (get v) d =
  (match filter (fun r => v_number r =? v) (vouchers d) with [] => Err KeyError | r :: _ => from_row r end, d).
Proof.
  unfold with_cursor, get. cbn [run]. destruct (filter _ _) as [|r l]; [reflexivity|].
  destruct (from_row r); reflexivity.
Qed.

Lemma get_known d r : NoDup (map v_number (vouchers d)) -> In r (vouchers d) ->
  fst (with_cursor (get (v_number r)) d) = from_row r.
Proof. intros N I. rewrite get_eq, (@filter_voucher_one _ _ _ N I eq_refl). reflexivity. Qed.

Lemma get_unknown v d : ~ In v (map v_number (vouchers d)) -> fst (with_cursor (get v) d) = Err KeyError.
Proof. intros N. rewrite get_eq. apply filter_voucher_nil in N. rewrite N. reflexivity. Qed.

(** ** Adding tokens *)

Definition group_rows (v c : Z) (d : db) : list token_row :=
  filter (fun t => (t_voucher t =? v) && (t_counter t =? c)) (tokens d).
Definition group_tokens (v c : Z) (d : db) : list Z := map t_text (group_rows v c d).

Definition new_row v total now := VR v now total SPending None None 0 0.
Definition with_voucher v total now d :=
  if memZ v (map v_number (vouchers d)) then d else set_vouchers (vouchers d ++ [new_row v total now]) d.

Lemma add_cases v total c ts now d r d' : wf d -> with_cursor (add v total c ts now) d = (r, d') ->
  (exists e, r = Err e /\ d' = d /\ group_rows v c d = [] /\ ~ (NoDup ts /\ disjoint ts (map t_text (tokens d)))) \/
  (r = Ok (group_tokens v c d) /\ group_rows v c d <> [] /\ d' = d) \/
  (r = Ok ts /\ group_rows v c d = [] /\ NoDup ts /\ disjoint ts (map t_text (tokens d)) /\
   d' = set_tokens (tokens d ++ map (fun t => TR t v c) ts) (with_voucher v total now d)).
Proof.
  intros W E. pose proof (step_add_eq v total c ts now W) as S. cbn [step op_prog] in S. rewrite with_cursor_pmap, E in S.
  unfold group_tokens, group_rows. destruct (filter _ (tokens d)) as [|x l] eqn:F.
  - cbv zeta in S. fold (new_row v total now) in S. fold (with_voucher v total now d) in S.
    assert (K : In v (map v_number (vouchers (with_voucher v total now d)))).
    { unfold with_voucher. destruct (memZ_spec v (map v_number (vouchers d))); [assumption|]. cbn. rewrite map_app.
      apply in_or_app. right. left. reflexivity. }
    assert (T : tokens (with_voucher v total now d) = tokens d).
    { unfold with_voucher. destruct (memZ _ _); reflexivity. }
    destruct (exec_muts (map (InsToken v c) ts) (with_voucher v total now d)) as [d2|e] eqn:X.
    + apply ins_token_Ok in X; [|exact K]. rewrite T in X. destruct X as (A & B & C).
      destruct r as [a|e]; [|discriminate]. injection S as -> ->. right. right. auto.
    + destruct r as [a|e']; [discriminate|]. injection S as -> ->. left. exists e. repeat split; auto.
      intros [A B]. pose proof (proj2 (@ins_token_Ok v c ts (with_voucher v total now d) _ K)
        ltac:(rewrite T; repeat split; [exact A|exact B])) as Y. congruence.
  - destruct r as [a|e]; [|discriminate]. injection S as -> ->. right. left. split; [reflexivity|]. split; [discriminate|reflexivity].
Qed.

(** ** Storing a group of tokens *)

Lemma insert_cases v pk ts (completed spendable : bool) now d r d' row : wf d -> In row (vouchers d) -> v_number row = v ->
  with_cursor (insert_unblinded_tokens_for_voucher v pk ts completed spendable now) d = (r, d') ->
  (exists e, r = Err e /\ d' = d) \/
  (r = Ok tt /\ NoDup ts /\ disjoint ts (map u_token (unblinded d)) /\
   let id := next_id (map g_id (groups d)) in
   d' = DB (upd_voucher (group_done (if completed then SRedeemed else SPending) (if spendable then lenZ ts else 0)
              (if spendable then 0 else lenZ ts) now) v (vouchers d))
           (filter (fun t => negb ((t_voucher t =? v) && (t_counter t =? v_counter row))) (tokens d))
           (unblinded d ++ map (fun t => UR t id) ts) (invalid d) (groups d ++ [GR id v pk spendable]) (maint d)
           (in_use d) (to_discard d) (to_reset d)).
Proof.
  intros W I N E. pose proof (step_insert_eq v pk ts completed spendable now W) as S.
  cbn [step op_prog] in S. rewrite with_cursor_pmap, E in S.
  rewrite (@filter_voucher_one _ _ _ (wf_vouchers W) I N) in S. cbv zeta in S.
  destruct (exec_muts _ _) as [d2|e] eqn:X.
  - apply ins_unblinded_Ok in X. destruct X as (A & B & ->). cbn [unblinded set_vouchers set_groups] in B.
    destruct r as [[]|e]; [|discriminate]. right. injection S as ->. auto.
  - destruct r as [a|e']; [discriminate|]. injection S as -> ->. left. eauto.
Qed.

(** ** Marking as spent *)

Lemma double_cases v now d r d' row : wf d -> In row (vouchers d) -> v_number row = v -> v_state row = SPending ->
  with_cursor (mark_voucher_double_spent v now) d = (r, d') ->
  r = Ok tt /\ d' = set_vouchers (upd_voucher (double_spent now) v (vouchers d)) d.
Proof.
  intros W I N P E. pose proof (step_double_eq v now d) as S. cbn [step op_prog] in S. rewrite with_cursor_pmap, E in S.
  cbv zeta in S.
  assert (M : map (fun r => if (v_number r =? v) && vstate_eqb (v_state r) SPending then double_spent now r else r) (vouchers d)
              = upd_voucher (double_spent now) v (vouchers d)).
  { unfold upd_voucher. apply map_ext_in. intros r0 J. destruct (Z.eqb_spec (v_number r0) v) as [K|K]; [|reflexivity].
    assert (r0 = row) by (eapply NoDup_map_inj; [apply (wf_vouchers W)| | |]; eauto; congruence). subst r0. rewrite P. reflexivity. }
  rewrite M in S. destruct (filter _ (vouchers d)) as [|x l] eqn:F.
  - exfalso. rewrite filter_nil_iff in F. specialize (F row I). rewrite N, P, Z.eqb_refl in F. discriminate.
  - destruct r as [[]|e]; [|discriminate]. injection S as ->. auto.
Qed.

(** ** Outputs *)

Lemma credits_app v a b : credits v (a ++ b) = credits v a ++ credits v b.
Proof. unfold credits. apply flat_map_app. Qed.

Lemma received_app s v a b : received s v (a ++ b) = received s v a + received s v b.
Proof. unfold received. rewrite credits_app, map_app, sumZ_app. reflexivity. Qed.

Lemma in_order_app v a b : in_order v (a ++ b) -> in_order v a.
Proof.
  intros O x c toks y E. apply (O x c toks (y ++ b)). rewrite E, <- app_assoc. reflexivity.
Qed.

Lemma in_order_last a v c toks : in_order v (a ++ [Requested v c toks]) -> c = Z.of_nat (length (credits v a)).
Proof. intros O. exact (O a c toks [] eq_refl). Qed.

Lemma snoc_split A (a : list A) x l y b : a ++ [x] = l ++ y :: b ->
  (b = [] /\ l = a /\ y = x) \/ exists b', b = b' ++ [x] /\ a = l ++ y :: b'.
Proof.
  destruct (exists_last (l := y :: b) ltac:(discriminate)) as (b' & z & E). intros H.
  rewrite E, app_assoc in H. apply app_inj_tail in H. destruct H as [-> ->].
  destruct b' as [|w b'].
  - injection E as -> ->. left. rewrite app_nil_r. auto.
  - injection E as -> ->. right. exists b'. auto.
Qed.

(** The invariant of a node's life. *)
Record inv (groups : Z) (out : list output) (c : ctl) : Prop := {
  i_wf : wf (c_db c);
  i_active : dkeys (c_active c) = outstanding c;
  i_nodup : NoDup (outstanding c);
  i_flight : forall f, In f (c_flights c) ->
    0 <= f_counter f < groups /\
    group_tokens (f_voucher f) (f_counter f) (c_db c) = f_tokens f /\
    In (Requested (f_voucher f) (f_counter f) (f_tokens f)) out /\
    exists r, row c r /\ v_number r = f_voucher f /\ v_state r = SPending /\ v_expected r = f_total f;
  i_row : forall r, row c r ->
    readable r /\ 0 < groups <= v_expected r /\
    v_counter r = Z.of_nat (length (credits (v_number r) out)) /\
    coalesce0 (v_token_count r) = received true (v_number r) out /\
    v_sequestered r = received false (v_number r) out;
  i_failed : forall v, In v (dkeys (c_error c)) \/ In v (dkeys (c_unpaid c)) ->
    In v (map v_number (vouchers (c_db c)));
  i_unknown : forall v, ~ In v (map v_number (vouchers (c_db c))) ->
    credits v out = [] /\ forall k toks, ~ In (Requested v k toks) out;
  i_nonempty : forall v k toks, In (Requested v k toks) out -> toks <> [];
  i_order : forall r, in_order (v_number r) out -> row c r ->
    credited_counters (v_number r) out = map Z.of_nat (seq 0 (Z.to_nat (v_counter r))) /\
    (forall f, In f (c_flights c) -> f_voucher f = v_number r -> f_counter f = v_counter r) /\
    (forall t, In t (tokens (c_db c)) -> t_voucher t = v_number r -> t_counter t = v_counter r) /\
    (v_state r = SRedeemed -> v_counter r = groups) /\
    (v_state r <> SRedeemed -> v_counter r < groups) /\
    (forall k toks, In (Requested (v_number r) k toks) out -> k <= v_counter r /\
       (k = v_counter r -> group_tokens (v_number r) k (c_db c) = toks)) /\
    (forall k t1 t2, In (Requested (v_number r) k t1) out -> In (Requested (v_number r) k t2) out -> t1 = t2) }.

Definition silent (o : output) : Prop := match o with Died _ => True | _ => False end.

Lemma credits_silent v o : Forall silent o -> credits v o = [].
Proof. induction 1 as [|x o S _ IH]; [reflexivity|]. destruct x; cbn in S; try contradiction. exact IH. Qed.

Lemma requested_silent v k t o : Forall silent o -> ~ In (Requested v k t) o.
Proof. intros F I. rewrite Forall_forall in F. exact (F _ I). Qed.

Lemma requested_app_silent v k t out o : Forall silent o -> In (Requested v k t) (out ++ o) -> In (Requested v k t) out.
Proof. intros F I. apply in_app_or in I. destruct I as [I|I]; [exact I|]. now apply requested_silent in I. Qed.

Lemma inv_silent groups out o c : Forall silent o -> inv groups out c -> inv groups (out ++ o) c.
Proof.
  intros F [A B C D E G H M I].
  assert (X : forall v, credits v (out ++ o) = credits v out) by (intros v; rewrite credits_app, (credits_silent v F), app_nil_r; reflexivity).
  assert (Y : forall s v, received s v (out ++ o) = received s v out) by (intros s v; unfold received; now rewrite X).
  split; auto.
  - intros f If. destruct (D f If) as (D1 & D2 & D3 & D4). repeat split; auto; try lia. apply in_or_app; auto.
  - intros r Hr. rewrite X, !Y. auto.
  - intros v Hv. destruct (H v Hv) as [H1 H2]. rewrite X. split; [exact H1|]. intros k t J. eapply H2.
    eapply requested_app_silent; eauto.
  - intros v k t J. eapply M. eapply requested_app_silent; eauto.
  - intros r O Hr. apply in_order_app in O. destruct (I r O Hr) as (I1 & I2 & I3 & I4 & I5 & I6 & I7).
    unfold credited_counters. rewrite X. repeat split; auto.
    + apply (I6 k toks). eapply requested_app_silent; eauto.
    + intros Ek. apply (I6 k toks); [|exact Ek]. eapply requested_app_silent; eauto.
    + intros k t1 t2 J1 J2. eapply I7; eapply requested_app_silent; eauto.
Qed.

Lemma row_unique c r r' groups out : inv groups out c -> row c r -> row c r' -> v_number r = v_number r' -> r = r'.
Proof. intros J A B E. eapply NoDup_map_inj; [apply (wf_vouchers (i_wf J))|exact A|exact B|exact E]. Qed.

(** What starting a group does. *)
Inductive started groups now gen v total counter (c : ctl) : list output -> ctl -> Prop :=
| st_end : counter >= groups -> started groups now gen v total counter c [] c
| st_died e : counter < groups -> (0 <= counter -> groups <= total ->
     group_rows v counter (c_db c) = [] /\ exists n, 1 <= n /\
     ~ (NoDup (gen v counter n) /\ disjoint (gen v counter n) (map t_text (tokens (c_db c))))) ->
     started groups now gen v total counter c [Died e] c
| st_request k toks d : 0 <= counter < groups -> groups <= total ->
    (group_rows v counter (c_db c) <> [] /\ toks = group_tokens v counter (c_db c) /\ d = c_db c \/
     group_rows v counter (c_db c) = [] /\ NoDup toks /\ disjoint toks (map t_text (tokens (c_db c))) /\
     (exists n, 1 <= n /\ token_count_for_group groups total counter = Ok n /\ toks = gen v counter n) /\
     d = set_tokens (tokens (c_db c) ++ map (fun t => TR t v counter) toks) (with_voucher v total now (c_db c))) ->
    (k = 0 /\ ~ In v (map v_number (vouchers (c_db c))) \/ exists r, row c r /\ v_number r = v /\ k = v_counter r) ->
    started groups now gen v total counter c [Requested v counter toks]
      (with_flights (c_flights c ++ [Flight v counter total toks])
         (with_active (dset v (now, k) (c_active c)) (with_db d c))).

Definition startable v total (c : ctl) : Prop :=
  ~ In v (map v_number (vouchers (c_db c))) \/
  exists r, row c r /\ v_number r = v /\ v_state r = SPending /\ v_expected r = total.

Lemma group_rows_known v k d : wf d -> group_rows v k d <> [] -> In v (map v_number (vouchers d)).
Proof.
  intros W N. destruct (group_rows v k d) as [|t l] eqn:E; [congruence|].
  assert (I : In t (group_rows v k d)) by (rewrite E; left; reflexivity). unfold group_rows in I. apply filter_In in I.
  destruct I as [I X]. apply andb_prop in X. destruct X as [X _]. apply Z.eqb_eq in X. subst v. now apply (wf_fk W).
Qed.

Lemma start_group_spec groups now gen v total counter c o c' out :
  inv groups out c -> startable v total c ->
  start_group groups now gen v total counter c = (o, c') -> started groups now gen v total counter c o c'.
Proof.
  intros J S E. pose proof (i_wf J) as W. unfold start_group in E.
  destruct (Z.geb_spec counter groups) as [Ge|Lt]; [injection E as <- <-; apply st_end; lia|].
  destruct (token_count_for_group groups total counter) as [n|e] eqn:T.
  2:{ injection E as <- <-. apply st_died; [lia|]. intros A B. exfalso.
      pose proof (proj2 (@token_count_Ok groups total counter _) (conj (conj A Lt) (conj B eq_refl))). congruence. }
  pose proof (token_count_pos _ _ _ T) as Np. pose proof T as T0. apply token_count_Ok in T. destruct T as (T1 & T2 & T3).
  destruct (with_cursor (add v total counter (gen v counter n) now) (c_db c)) as [ra d'] eqn:Ea.
  destruct (@add_cases _ _ _ _ _ _ _ _ W Ea) as [(e & -> & -> & F & N)|[(-> & F & ->)|(-> & F & N & D & ->)]].
  - injection E as <- <-. destruct c. cbn. apply st_died; [lia|]. intros _ _. split; [exact F|]. exists n. auto.
  - pose proof (@group_rows_known _ _ _ W F) as K. destruct S as [S|(r & Hr & Nr & Pr & Tr)]; [contradiction|].
    rewrite <- Nr, (@get_known (c_db c) r (wf_vouchers W) Hr), (from_row_readable (proj1 (i_row J _ Hr))) in E.
    unfold pst in E. cbn [state] in E. rewrite Pr in E. injection E as <- <-. rewrite Nr.
    apply st_request; try lia; [left; auto|right; eauto].
  - assert (Hg : forall P, (exists r, In r (vouchers (with_voucher v total now (c_db c))) /\ v_number r = v /\ v_state r = SPending /\ readable r /\
       (v_counter r = 0 /\ ~ In v (map v_number (vouchers (c_db c))) \/ row c r)) -> P \/ True) by auto.
    clear Hg.
    assert (R : exists r, In r (vouchers (with_voucher v total now (c_db c))) /\ v_number r = v /\ v_state r = SPending /\ readable r /\
       (v_counter r = 0 /\ ~ In v (map v_number (vouchers (c_db c))) \/ row c r)).
    { unfold with_voucher. destruct (memZ_spec v (map v_number (vouchers (c_db c)))) as [K|K].
      - destruct S as [S|(r & Hr & Nr & Pr & Tr)]; [contradiction|]. exists r. repeat split; auto; apply (i_row J _ Hr).
      - exists (new_row v total now). cbn [vouchers set_vouchers]. split; [apply in_or_app; right; left; reflexivity|].
        split; [reflexivity|]. split; [reflexivity|]. split; [|left; auto].
        repeat split; cbn; try lia; try congruence. }
    destruct R as (r & Ir & Nr & Pr & Rr & Kr).
    assert (W' : wf (with_voucher v total now (c_db c))).
    { unfold with_voucher. destruct (memZ_spec v (map v_number (vouchers (c_db c)))) as [K|K]; [exact W|].
      apply wf_set_vouchers; [| |exact W]; rewrite map_app; [apply NoDup_snoc; [apply W|exact K]|apply incl_appl, incl_refl]. }
    rewrite get_eq in E. cbn [fst vouchers set_tokens] in E.
    rewrite (@filter_voucher_one v _ r (wf_vouchers W') Ir Nr), (from_row_readable Rr) in E.
    unfold pst in E. cbn [state] in E. rewrite Pr in E. injection E as <- <-.
    apply st_request; try lia.
    + right. repeat split; auto. exists n. auto.
    + destruct Kr as [[Kr Kn]|Kr]; [left; auto|right; exists r; auto].
Qed.

(** ** Starting a group *)

Lemma dkeys_dset_new V k (x : V) d : ~ In k (dkeys d) -> dkeys (dset k x d) = dkeys d ++ [k].
Proof.
  induction d as [|[k' x'] d IH]; intros N; [reflexivity|]. cbn [dset dkeys map fst] in *.
  destruct (Z.eqb_spec k k') as [->|Ne]; [exfalso; apply N; left; reflexivity|].
  cbn [map fst app]. f_equal. apply IH. intros I. apply N. right. exact I.
Qed.

Lemma group_tokens_app v k d l : group_tokens v k (set_tokens (tokens d ++ l) d) =
  group_tokens v k d ++ map t_text (filter (fun t => (t_voucher t =? v) && (t_counter t =? k)) l).
Proof. unfold group_tokens, group_rows. cbn [tokens set_tokens]. now rewrite filter_app, map_app. Qed.

Lemma filter_TR v k v' k' ts :
  map t_text (filter (fun t => (t_voucher t =? v) && (t_counter t =? k)) (map (fun t => TR t v' k') ts)) =
  if (v' =? v) && (k' =? k) then ts else [].
Proof.
  induction ts as [|t ts IH]; [destruct (_ && _); reflexivity|]. cbn [map filter t_voucher t_counter].
  destruct ((v' =? v) && (k' =? k)); cbn [map t_text]; [f_equal|]; exact IH.
Qed.

Lemma tokens_with_voucher v total now d : tokens (with_voucher v total now d) = tokens d.
Proof. unfold with_voucher. destruct (memZ _ _); reflexivity. Qed.

Lemma wf_with_voucher v total now d : wf d -> wf (with_voucher v total now d).
Proof.
  intros W. unfold with_voucher. destruct (memZ_spec v (map v_number (vouchers d))) as [K|K]; [exact W|].
  apply wf_set_vouchers; [| |exact W]; rewrite map_app; [apply NoDup_snoc; [apply W|exact K]|apply incl_appl, incl_refl].
Qed.

(** The database after tokens for a group have been found or made. *)
Record grown v counter total (now : Z) toks (d d' : db) : Prop := {
  gr_wf : wf d';
  gr_old : incl (vouchers d) (vouchers d');
  gr_new : forall r, In r (vouchers d') -> In r (vouchers d) \/
    r = new_row v total now /\ ~ In v (map v_number (vouchers d));
  gr_there : exists r, In r (vouchers d') /\ v_number r = v /\ v_state r = SPending /\ v_expected r = total;
  gr_tokens : group_tokens v counter d' = toks;
  gr_other : forall v' k, v' <> v \/ k <> counter -> group_tokens v' k d' = group_tokens v' k d;
  gr_again : group_rows v counter d <> [] -> group_tokens v counter d = toks;
  gr_rows : forall t, In t (tokens d') -> In t (tokens d) \/ t_voucher t = v /\ t_counter t = counter }.

Lemma started_grown v counter total now toks c d : wf (c_db c) -> startable v total c ->
  (group_rows v counter (c_db c) <> [] /\ toks = group_tokens v counter (c_db c) /\ d = c_db c \/
   group_rows v counter (c_db c) = [] /\ NoDup toks /\ disjoint toks (map t_text (tokens (c_db c))) /\
   d = set_tokens (tokens (c_db c) ++ map (fun t => TR t v counter) toks) (with_voucher v total now (c_db c))) ->
  grown v counter total now toks (c_db c) d.
Proof.
  intros W S [(F & -> & ->)|(F & N & D & ->)].
  - pose proof (@group_rows_known _ _ _ W F) as K. destruct S as [S|(r & Hr & Nr & Pr & Tr)]; [contradiction|].
    split; auto using incl_refl. exists r; auto.
  - set (w := with_voucher v total now (c_db c)) in *.
    assert (Ww : wf w) by now apply wf_with_voucher.
    assert (Tw : tokens w = tokens (c_db c)) by apply tokens_with_voucher.
    rewrite <- Tw.
    assert (Kw : In v (map v_number (vouchers w))).
    { unfold w, with_voucher. destruct (memZ_spec v (map v_number (vouchers (c_db c)))); [assumption|].
      cbn [vouchers set_vouchers]. rewrite map_app. apply in_or_app. right. left. reflexivity. }
    assert (G : forall v' k, group_tokens v' k w = group_tokens v' k (c_db c))
      by (intros; unfold group_tokens, group_rows; rewrite Tw; reflexivity).
    split.
    + apply wf_set_tokens; [| |exact Ww].
      * rewrite map_app, map_t_text_TR. apply NoDup_app_intro; [apply Ww|exact N|]. rewrite Tw. intros x I J. exact (D x J I).
      * intros t I. apply in_app_or in I. destruct I as [I|I]; [now apply (wf_fk Ww)|].
        apply in_map_iff in I. destruct I as (x & <- & _). exact Kw.
    + cbn [vouchers set_tokens]. unfold w, with_voucher. destruct (memZ _ _); [apply incl_refl|apply incl_appl, incl_refl].
    + cbn [vouchers set_tokens]. unfold w, with_voucher. intros r I.
      destruct (memZ_spec v (map v_number (vouchers (c_db c)))) as [K|K]; [auto|].
      cbn [vouchers set_vouchers] in I. apply in_app_or in I. destruct I as [I|[<-|[]]]; auto.
    + cbn [vouchers set_tokens]. unfold w, with_voucher.
      destruct (memZ_spec v (map v_number (vouchers (c_db c)))) as [K|K].
      * destruct S as [S|(r & Hr & Nr & Pr & Tr)]; [contradiction|]. exists r; auto.
      * exists (new_row v total now). cbn [vouchers set_vouchers]. split; [apply in_or_app; right; left; reflexivity|]. auto.
    + rewrite group_tokens_app, filter_TR, !Z.eqb_refl, G. unfold group_tokens at 1. rewrite F. reflexivity.
    + intros v' k Ne. rewrite group_tokens_app, filter_TR, G.
      replace ((v =? v') && (counter =? k)) with false; [apply app_nil_r|]. symmetry. apply andb_false_iff.
      destruct Ne; [left|right]; apply Z.eqb_neq; congruence.
    + intros X. contradiction.
    + cbn [tokens set_tokens]. intros t I. apply in_app_or in I. rewrite Tw in I. destruct I as [I|I]; [auto|].
      apply in_map_iff in I. destruct I as (x & <- & _). auto.
Qed.

Lemma credits_request v v' k toks out : credits v (out ++ [Requested v' k toks]) = credits v out.
Proof. rewrite credits_app. cbn. apply app_nil_r. Qed.

Lemma in_known d r : In r (vouchers d) -> In (v_number r) (map v_number (vouchers d)).
Proof. apply in_map. Qed.

Lemma inv_start groups now gen v total counter c o c' out : enough gen ->
  inv groups out c -> startable v total c -> ~ In v (outstanding c) ->
  started groups now gen v total counter c o c' -> inv groups (out ++ o) c'.
Proof.
  intros En J S NO R. destruct R as [Ge|e Lt X|k toks d B1 B2 Hd Hk].
  - rewrite app_nil_r. exact J.
  - apply inv_silent; [repeat constructor|exact J].
  - assert (Ne : toks <> []).
    { destruct Hd as [(F & -> & _)|(_ & _ & _ & (n & Hn & _ & ->) & _)].
      - unfold group_tokens. destruct (group_rows v counter (c_db c)); [congruence|discriminate].
      - pose proof (En v counter n ltac:(lia)). intros E. rewrite E in H. cbn in H. lia. }
    assert (Gr : grown v counter total now toks (c_db c) d).
    { apply started_grown; [apply J|exact S|]. destruct Hd as [H|(F & N & D & _ & H)]; [left|right]; auto. }
    clear Hd. destruct Gr as [G1 G2 G3 G4 G5 G6 G7 G8]. destruct J as [A B C D E G H M I].
    assert (Kd : incl (map v_number (vouchers (c_db c))) (map v_number (vouchers d))) by now apply incl_map.
    assert (Kv : In v (map v_number (vouchers d))).
    { destruct G4 as (r & Hr & <- & _). now apply in_known. }
    assert (RC : forall s v', received s v' (out ++ [Requested v counter toks]) = received s v' out)
      by (intros; unfold received; now rewrite credits_request).
    assert (Again : forall k' t, In (Requested v k' t) out -> k' = counter -> group_tokens v counter (c_db c) = t -> t = toks).
    { intros k' t Q -> Et. rewrite <- Et. apply G7. intros Z. unfold group_tokens in Et. rewrite Z in Et. cbn in Et.
      exact (M _ _ _ Q (eq_sym Et)). }
    split; cbn [c_db c_error c_unpaid c_active c_flights with_flights with_active with_db].
    + exact G1.
    + unfold outstanding in *. cbn [c_flights with_flights with_active with_db]. rewrite map_app. cbn [map f_voucher].
      rewrite dkeys_dset_new, B; [reflexivity|]. rewrite B. exact NO.
    + unfold outstanding in *. cbn [c_flights with_flights with_active with_db]. rewrite map_app. cbn [map f_voucher].
      apply NoDup_snoc; auto.
    + intros f If. apply in_app_or in If. destruct If as [If|[<-|[]]].
      * destruct (D f If) as (D1 & D2 & D3 & r & D4 & D5). split; [exact D1|]. split; [|split].
        -- rewrite G6; [exact D2|]. left. intros Ev. apply NO. rewrite <- Ev. unfold outstanding. now apply in_map.
        -- apply in_or_app; auto.
        -- exists r. split; [apply G2; exact D4|exact D5].
      * cbn [f_voucher f_counter f_total f_tokens]. split; [exact B1|]. split; [exact G5|]. split.
        -- apply in_or_app. right. left. reflexivity.
        -- destruct G4 as (r & G4). exists r. exact G4.
    + intros r Hr. unfold row in Hr. cbn [c_db with_flights with_active with_db] in Hr. rewrite credits_request, !RC.
      destruct (G3 _ Hr) as [Old|[-> Kn]]; [exact (E r Old)|]. cbn [v_number v_counter v_token_count v_sequestered v_expected new_row coalesce0].
      destruct (H v Kn) as [Hc _]. unfold received. rewrite Hc. cbn. repeat split; cbn; try lia; try congruence.
    + intros v' Hv. apply Kd. auto.
    + intros v' Hv. destruct (H v' (fun X => Hv (Kd _ X))) as [H1 H2]. rewrite credits_request. split; [exact H1|].
      intros k' t Q. apply in_app_or in Q. destruct Q as [Q|[Q|[]]]; [exact (H2 _ _ Q)|]. injection Q as <- _ _. contradiction.
    + intros v' k' t Q. apply in_app_or in Q. destruct Q as [Q|[Q|[]]]; [exact (M _ _ _ Q)|]. injection Q as _ _ <-. exact Ne.
    + intros r O Hr. unfold row in Hr. cbn [c_db with_flights with_active with_db] in Hr.
      assert (Ec : v_number r = v -> counter = Z.of_nat (length (credits v out))).
      { intros Ev. rewrite Ev in O. exact (@in_order_last _ _ _ _ O). }
      apply in_order_app in O.
      assert (Ea : v_number r = v -> v_counter r = counter /\ v_state r = SPending).
      { intros Ev. specialize (Ec Ev). destruct (G3 _ Hr) as [Old|[-> Kn]].
        - destruct (E r Old) as (_ & _ & Er & _). rewrite Er, Ev, Ec. split; [reflexivity|].
          destruct S as [S|(r' & Hr' & Nr' & Pr' & _)]; [exfalso; apply S; rewrite <- Ev; now apply in_known|].
          rewrite <- Pr'. f_equal. eapply NoDup_map_inj; [apply (wf_vouchers A)|exact Old|exact Hr'|congruence].
        - destruct (H v Kn) as [Hc _]. rewrite Hc in Ec. cbn in Ec. cbn. split; [congruence|reflexivity]. }
      assert (Cc : credited_counters (v_number r) out = map Z.of_nat (seq 0 (Z.to_nat (v_counter r)))).
      { destruct (G3 _ Hr) as [Old|[-> Kn]]; [apply (I r O Old)|]. cbn [v_number v_counter new_row].
        unfold credited_counters. rewrite (proj1 (H v Kn)). reflexivity. }
      unfold credited_counters at 1. rewrite credits_request. fold (credited_counters (v_number r) out).
      destruct (Z.eq_dec (v_number r) v) as [Ev|Nv].
      * destruct (Ea Ev) as [Ec' Ep].
        assert (Q : forall k' t, In (Requested v k' t) out -> k' <= counter /\ (k' = counter -> t = toks)).
        { intros k' t Q. destruct (G3 _ Hr) as [Old|[-> Kn]]; [|exfalso; eapply H; eauto].
          destruct (I r O Old) as (_ & _ & _ & _ & _ & I6 & _). rewrite Ev, Ec' in I6. destruct (I6 _ _ Q) as [Q1 Q2].
          split; [exact Q1|]. intros Ek. eapply Again; eauto. rewrite <- Ek. auto. }
        split; [exact Cc|]. split; [|split; [|split; [|split; [|split]]]].
        -- intros f If Ef. apply in_app_or in If. destruct If as [If|[<-|[]]]; [|cbn; congruence].
           exfalso. apply NO. rewrite <- Ev, <- Ef. unfold outstanding. now apply in_map.
        -- intros t It Et. destruct (G8 t It) as [Old|[_ Et']]; [|congruence].
           destruct (G3 _ Hr) as [Or|[-> Kn]]; [|exfalso; apply Kn; rewrite <- Ev, <- Et; now apply (wf_fk A)].
           destruct (I r O Or) as (_ & _ & I3 & _). auto.
        -- congruence.
        -- lia.
        -- intros k' t It. apply in_app_or in It. rewrite Ev, Ec' in *. destruct It as [It|[It|[]]].
           ++ destruct (Q _ _ It) as [Q1 Q2]. split; [exact Q1|]. intros Ek. rewrite Ek, G5. symmetry. auto.
           ++ injection It as <- <-. split; [lia|auto].
        -- intros k' t1 t2 I1 I2. rewrite Ev in *. apply in_app_or in I1, I2.
           destruct I1 as [I1|[I1|[]]], I2 as [I2|[I2|[]]].
           ++ destruct (G3 _ Hr) as [Old|[-> Kn]]; [|exfalso; eapply H; eauto].
              rewrite <- Ev in O. destruct (I r O Old) as (_ & _ & _ & _ & _ & _ & I7). rewrite Ev in I7. eapply I7; eauto.
           ++ injection I2 as <- <-. now apply (Q counter).
           ++ injection I1 as <- <-. symmetry. now apply (Q counter).
           ++ congruence.
      * destruct (G3 _ Hr) as [Old|[-> Kn]]; [|cbn in Nv; congruence].
        destruct (I r O Old) as (I1 & I2 & I3 & I4 & I5 & I6 & I7).
        assert (Z : forall k' t, In (Requested (v_number r) k' t) (out ++ [Requested v counter toks]) -> In (Requested (v_number r) k' t) out).
        { intros k' t Q. apply in_app_or in Q. destruct Q as [Q|[Q|[]]]; [exact Q|]. injection Q as Q _ _. congruence. }
        split; [exact I1|]. split; [|split; [|split; [|split; [|split]]]]; auto.
        -- intros f If Ef. apply in_app_or in If. destruct If as [If|[<-|[]]]; [auto|cbn in Ef; congruence].
        -- intros t It Et. destruct (G8 t It) as [Ot|[Et' _]]; [auto|congruence].
        -- intros k' t Q. destruct (I6 k' t (Z _ _ Q)) as [Q1 Q2]. split; [exact Q1|]. intros Ek.
           rewrite G6 by auto. auto.
        -- intros k' t1 t2 Q1 Q2. eauto.
Qed.

(** ** Settling a group *)

Lemma take_at_split A i : forall (l : list A) x rest, take_at i l = Some (x, rest) ->
  exists a b, l = a ++ x :: b /\ rest = a ++ b /\ nth_error l i = Some x.
Proof.
  induction i as [|i IH]; intros [|y l] x rest E; cbn in E; try discriminate.
  - injection E as -> ->. exists [], rest. auto.
  - destruct (take_at i l) as [[z l']|] eqn:T; [|discriminate]. injection E as -> <-.
    destruct (IH _ _ _ T) as (a & b & -> & -> & N). exists (y :: a), b. auto.
Qed.

Lemma dkeys_ddel V k (d : dict V) : dkeys (ddel k d) = filter (fun k' => negb (k' =? k)) (dkeys d).
Proof.
  unfold ddel, dkeys. induction d as [|[k' x] d IH]; [reflexivity|]. cbn [filter map fst].
  destruct (negb (k' =? k)); cbn [map fst]; rewrite IH; reflexivity.
Qed.

Lemma filter_out_mid (a b : list Z) k : NoDup (a ++ k :: b) -> filter (fun k' => negb (k' =? k)) (a ++ k :: b) = a ++ b.
Proof.
  intros N. apply NoDup_remove in N. destruct N as [_ N].
  assert (X : forall l, ~ In k l -> filter (fun k' => negb (k' =? k)) l = l).
  { induction l as [|y l IH]; intros M; [reflexivity|]. cbn [filter].
    destruct (Z.eqb_spec y k) as [->|]; [exfalso; apply M; left; reflexivity|]. cbn [negb]. f_equal. apply IH.
    intros Q. apply M. right. exact Q. }
  rewrite filter_app. cbn [filter]. rewrite Z.eqb_refl. cbn [negb].
  rewrite !X; [reflexivity| |]; intros Q; apply N; apply in_or_app; auto.
Qed.

Lemma dkeys_dset_in V k (x : V) d k' : In k' (dkeys (dset k x d)) -> In k' (dkeys d) \/ k' = k.
Proof.
  induction d as [|[q y] d IH]; cbn [dset dkeys map fst]; [intros [<-|[]]; auto|].
  destruct (Z.eqb_spec k q) as [->|Ne]; cbn [map fst].
  - intros [<-|I]; auto. left. right. exact I.
  - intros [<-|I]; [left; left; reflexivity|]. destruct (IH I); [left; right; assumption|auto].
Qed.

Inductive settled groups allowed now (f : flight) (c : ctl) : answer -> bool -> list output -> ctl -> Prop :=
| se_fail a e u : (forall v, In v (dkeys e) -> In v (dkeys (c_error c)) \/ v = f_voucher f) ->
    (forall v, In v (dkeys u) -> In v (dkeys (c_unpaid c)) \/ v = f_voucher f) ->
    a <> AAlreadySpent ->
    (a = AUnpaid -> In (f_voucher f) (dkeys u)) -> (a <> AUnpaid -> u = c_unpaid c) ->
    (NoDup (dkeys (c_error c)) -> NoDup (dkeys e)) -> (NoDup (dkeys (c_unpaid c)) -> NoDup (dkeys u)) ->
    (forall x, a = AError x -> In (f_voucher f, (now, x)) e) -> (a = AUnpaid -> In (f_voucher f, now) u) ->
    settled groups allowed now f c a false []
      (Ctl (c_db c) e u (ddel (f_voucher f) (c_active c)) (c_flights c) (c_retrying c))
| se_credit toks pk r d : row c r -> v_number r = f_voucher f -> v_state r = SPending ->
    NoDup toks -> disjoint toks (map u_token (unblinded (c_db c))) ->
    (let completed := f_counter f + 1 =? groups in
     let spendable := memZ pk allowed in
     let id := next_id (map g_id (StoreModel.groups (c_db c))) in
     d = DB (upd_voucher (group_done (if completed then SRedeemed else SPending) (if spendable then lenZ toks else 0)
              (if spendable then 0 else lenZ toks) now) (f_voucher f) (vouchers (c_db c)))
           (filter (fun t => negb ((t_voucher t =? f_voucher f) && (t_counter t =? v_counter r))) (tokens (c_db c)))
           (unblinded (c_db c) ++ map (fun t => UR t id) toks) (invalid (c_db c))
           (StoreModel.groups (c_db c) ++ [GR id (f_voucher f) pk spendable]) (maint (c_db c))
           (in_use (c_db c)) (to_discard (c_db c)) (to_reset (c_db c))) ->
    settled groups allowed now f c (ASuccess toks pk) true [Credited (f_voucher f) (f_counter f) toks (memZ pk allowed)]
      (Ctl d (c_error c) (c_unpaid c) (ddel (f_voucher f) (c_active c)) (c_flights c) (c_retrying c))
| se_double r : row c r -> v_number r = f_voucher f -> v_state r = SPending ->
    settled groups allowed now f c AAlreadySpent false []
      (Ctl (set_vouchers (upd_voucher (double_spent now) (f_voucher f) (vouchers (c_db c))) (c_db c))
         (c_error c) (c_unpaid c) (ddel (f_voucher f) (c_active c)) (c_flights c) (c_retrying c)).

Lemma dset_self V k (x : V) d : In (k, x) (dset k x d).
Proof.
  induction d as [|[q y] d IH]; cbn [dset]; [left; reflexivity|].
  destruct (Z.eqb_spec k q) as [->|Ne]; [left; reflexivity|right; exact IH].
Qed.

Lemma dset_wf V k (x : V) d : NoDup (dkeys d) -> NoDup (dkeys (dset k x d)).
Proof.
  induction d as [|[q y] d IH]; intros N; cbn [dset dkeys map fst] in *; [repeat constructor; intros []|].
  inversion N as [|? ? N1 N2]; subst. destruct (Z.eqb_spec k q) as [->|Ne]; cbn [map fst]; [exact N|].
  constructor; [|apply IH; exact N2]. intros I. apply dkeys_dset_in in I. destruct I; [contradiction|congruence].
Qed.

Lemma dkeys_dset_self V k (x : V) d : In k (dkeys (dset k x d)).
Proof.
  induction d as [|[q y] d IH]; cbn [dset dkeys map fst]; [left; reflexivity|].
  destruct (Z.eqb_spec k q) as [->|Ne]; cbn [map fst]; [left; reflexivity|right; exact IH].
Qed.

Lemma settle_spec groups allowed now f a rest c go o c' r : wf (c_db c) -> row c r -> v_number r = f_voucher f -> v_state r = SPending ->
  settle groups allowed now f a (with_flights rest c) = (go, o, c') -> settled groups allowed now f (with_flights rest c) a go o c'.
Proof.
  intros W Hr Nr Pr E. unfold settle in E. destruct a as [toks pk| | |x]; cbn [c_db with_flights] in E.
  - destruct (with_cursor _ (c_db c)) as [ra d] eqn:Ea.
    destruct (@insert_cases _ _ _ _ _ _ _ _ _ _ W Hr Nr Ea) as [(e & -> & ->)|(-> & N & D & X)].
    + injection E as <- <- <-. refine (@se_fail _ _ _ f (with_flights rest c) _ (c_error c) (c_unpaid c) _ _ _ _ _ _ _ _ _); auto; discriminate.
    + injection E as <- <- <-. eapply (@se_credit _ _ _ f (with_flights rest c)); eauto.
  - destruct (with_cursor _ (c_db c)) as [ra d] eqn:Ea.
    destruct (@double_cases _ _ _ _ _ _ W Hr Nr Pr Ea) as [-> ->]. injection E as <- <- <-.
    eapply (@se_double _ _ _ f (with_flights rest c)); eauto.
  - injection E as <- <- <-.
    refine (@se_fail _ _ _ f (with_flights rest c) _ (c_error c) (dset (f_voucher f) now (c_unpaid c)) _ _ _ _ _ _ _ _ _); auto using dset_wf, dset_self; try discriminate.
    + intros v I. now apply dkeys_dset_in in I.
    + intros _. apply dkeys_dset_self.
    + congruence.
  - injection E as <- <- <-.
    refine (@se_fail _ _ _ f (with_flights rest c) _ (dset (f_voucher f) (now, x) (c_error c)) (c_unpaid c) _ _ _ _ _ _ _ _ _); auto using dset_wf; try discriminate.
    + intros v I. now apply dkeys_dset_in in I.
    + intros y Y. injection Y as <-. apply dset_self.
Qed.

Lemma upd_voucher_in g v vs r : In r (upd_voucher g v vs) <->
  (In r vs /\ v_number r <> v \/ exists r0, In r0 vs /\ v_number r0 = v /\ r = g r0).
Proof.
  unfold upd_voucher. rewrite in_map_iff. split.
  - intros (x & <- & I). destruct (Z.eqb_spec (v_number x) v) as [E|N]; [right; eauto|left; auto].
  - intros [[I N]|(r0 & I & N & ->)]; eexists; (split; [|exact I]).
    + destruct (Z.eqb_spec (v_number r) v); [contradiction|reflexivity].
    + destruct (Z.eqb_spec (v_number r0) v); [reflexivity|contradiction].
Qed.

Lemma group_tokens_del v k v' k' d d' : tokens d' = filter (fun t => negb ((t_voucher t =? v') && (t_counter t =? k'))) (tokens d) ->
  v <> v' -> group_tokens v k d' = group_tokens v k d.
Proof.
  intros E Ne. unfold group_tokens, group_rows. rewrite E. clear E. f_equal. induction (tokens d) as [|t l IH]; [reflexivity|].
  cbn [filter]. destruct ((t_voucher t =? v) && (t_counter t =? k)) eqn:X.
  - apply andb_prop in X. destruct X as [X X2]. apply Z.eqb_eq in X.
    replace (t_voucher t =? v') with false by (symmetry; apply Z.eqb_neq; congruence). cbn [negb andb filter].
    rewrite X, Z.eqb_refl, X2. cbn [andb]. f_equal. exact IH.
  - destruct (negb _); [|exact IH]. cbn [filter]. rewrite X. exact IH.
Qed.

Lemma credits_credit v v' k toks s out :
  credits v (out ++ [Credited v' k toks s]) = credits v out ++ (if v' =? v then [(k, toks, s)] else []).
Proof. rewrite credits_app. cbn. now rewrite app_nil_r. Qed.

Lemma received_credit b v v' k toks s out : received b v (out ++ [Credited v' k toks s]) =
  received b v out + (if (v' =? v) && Bool.eqb s b then lenZ toks else 0).
Proof.
  rewrite received_app. f_equal. unfold received, credits. cbn [flat_map]. rewrite app_nil_r.
  destruct (v' =? v); cbn [map snd fst sumZ andb]; [|reflexivity]. destruct (Bool.eqb s b); unfold lenZ; lia.
Qed.

Lemma requested_credit v k t out v' k' toks s : In (Requested v k t) (out ++ [Credited v' k' toks s]) -> In (Requested v k t) out.
Proof. intros I. apply in_app_or in I. destruct I as [I|[I|[]]]; [exact I|discriminate]. Qed.

Lemma inv_settled groups allowed now f a a0 b0 c go o c' out : inv groups out c -> c_flights c = a0 ++ f :: b0 ->
  settled groups allowed now f (with_flights (a0 ++ b0) c) a go o c' ->
  inv groups (out ++ o) c' /\ ~ In (f_voucher f) (outstanding c') /\
  (go = true -> f_counter f + 1 < groups -> startable (f_voucher f) (f_total f) c').
Proof.
  intros J Fl S. destruct J as [A B C D E G H M I].
  assert (If : In f (c_flights c)) by (rewrite Fl; apply in_or_app; right; left; reflexivity).
  assert (Ib : incl (a0 ++ b0) (c_flights c)).
  { rewrite Fl. intros x X. apply in_app_or in X. apply in_or_app. destruct X; [auto|right; right; assumption]. }
  assert (Ac : dkeys (ddel (f_voucher f) (c_active c)) = map f_voucher (a0 ++ b0)).
  { rewrite dkeys_ddel, B. unfold outstanding in *. rewrite Fl, !map_app in *. cbn [map] in *. now apply filter_out_mid. }
  assert (Nd : NoDup (map f_voucher (a0 ++ b0)) /\ ~ In (f_voucher f) (map f_voucher (a0 ++ b0))).
  { unfold outstanding in C. rewrite Fl, map_app in C. cbn [map] in C. rewrite map_app. now apply NoDup_remove. }
  destruct Nd as [Nd Nf].
  assert (Of : forall f', In f' (a0 ++ b0) -> f_voucher f' <> f_voucher f).
  { intros f' X Y. apply Nf. rewrite <- Y. now apply in_map. }
  assert (Known : In (f_voucher f) (map v_number (vouchers (c_db c)))).
  { destruct (D f If) as (_ & _ & _ & r & Hr & <- & _). now apply in_known. }
  destruct S as [a e u He Hu Na Hu1 Hu2 _ _ _ _|toks pk r d Hr Nr Pr N Dj Ed|r Hr Nr Pr]; cbn [c_db c_error c_unpaid c_active c_flights c_retrying with_flights] in *.
  - rewrite app_nil_r. split; [|split; [exact Nf|discriminate]].
    split; cbn [c_db c_error c_unpaid c_active c_flights]; auto.
    + intros v [X|X]; [destruct (He v X)|destruct (Hu v X)]; subst; auto.
    + intros r O Hr. destruct (I r O Hr) as (I1 & I2 & I3). auto.
  - set (st := if f_counter f + 1 =? groups then SRedeemed else SPending) in *.
    set (g := group_done st (if memZ pk allowed then lenZ toks else 0) (if memZ pk allowed then 0 else lenZ toks) now) in *.
    assert (Vd : vouchers d = upd_voucher g (f_voucher f) (vouchers (c_db c))) by (rewrite Ed; reflexivity).
    assert (Td : tokens d = filter (fun t => negb ((t_voucher t =? f_voucher f) && (t_counter t =? v_counter r))) (tokens (c_db c))) by (rewrite Ed; reflexivity).
    assert (Num : map v_number (vouchers d) = map v_number (vouchers (c_db c))) by (rewrite Vd; apply upd_voucher_numbers; reflexivity).
    assert (Wd : wf d).
    { pose proof (@wf_step (c_db c) (OInsert (f_voucher f) pk toks (f_counter f + 1 =? groups) (memZ pk allowed) now) A Logic.I) as Q.
      rewrite step_insert_eq in Q by exact A. rewrite (@filter_voucher_one _ _ _ (wf_vouchers A) Hr Nr) in Q. cbv zeta in Q.
      destruct (exec_muts _ _) as [d2|er] eqn:X.
      - apply ins_unblinded_Ok in X. destruct X as (_ & _ & ->). cbn [snd] in Q. rewrite Ed. exact Q.
      - exfalso. match type of X with exec_muts (map (fun t => InsUnblinded t ?gid) _) ?w = _ =>
          pose proof (proj2 (@ins_unblinded_Ok gid toks w _) ltac:(repeat split; [exact N|exact Dj])) as Y end. congruence. }
    assert (Rd : forall r', In r' (vouchers d) -> In r' (vouchers (c_db c)) /\ v_number r' <> f_voucher f \/ r' = g r).
    { intros r' X. rewrite Vd in X. apply upd_voucher_in in X. destruct X as [X|(r0 & X & Y & ->)]; [auto|right]. f_equal.
      eapply NoDup_map_inj; [apply (wf_vouchers A)|exact X|exact Hr|congruence]. }
    clear Ed. cbn [outstanding c_flights map].
    split; [|split; [exact Nf|]].
    2:{ intros _ Lt. right. exists (g r). unfold row. cbn [c_db]. split.
        - rewrite Vd. apply upd_voucher_in. right. exists r. auto.
        - split; [exact Nr|]. split.
          + unfold g, st. cbn. destruct (Z.eqb_spec (f_counter f + 1) groups); [lia|reflexivity].
          + cbn. destruct (D f If) as (_ & _ & _ & r2 & Hr2 & Nr2 & _ & <-). f_equal.
            eapply NoDup_map_inj; [apply (wf_vouchers A)|exact Hr|exact Hr2|congruence]. }
    split; cbn [c_db c_error c_unpaid c_active c_flights]; auto.
    + intros f' If'. destruct (D f' (Ib _ If')) as (D1 & D2 & D3 & r2 & D4 & D5 & D6).
      split; [exact D1|]. split; [|split].
      * rewrite (@group_tokens_del _ _ _ _ (c_db c) d Td); [exact D2|]. now apply Of.
      * apply in_or_app; auto.
      * exists r2. unfold row in *. cbn [c_db]. split; [|auto]. rewrite Vd. apply upd_voucher_in. left. split; [exact D4|].
        rewrite D5. now apply Of.
    + intros r' Hr'. unfold row in Hr'. cbn [c_db] in Hr'. rewrite credits_credit, !received_credit. destruct (Rd _ Hr') as [[Old Ne]| ->].
      * destruct (Z.eqb_spec (f_voucher f) (v_number r')) as [X|X]; [congruence|]. cbn [andb]. rewrite app_nil_r, !Z.add_0_r.
        exact (E r' Old).
      * destruct (E r Hr) as ((E1 & E1' & E1'') & E2 & E3 & E4 & E5).
        cbn [v_number v_counter v_token_count v_sequestered v_expected g group_done coalesce0].
        rewrite Nr in *. rewrite Z.eqb_refl, app_length. cbn [andb length].
        split; [|repeat split; try tauto; try lia].
        -- repeat split; cbn; try lia; discriminate.
        -- rewrite E4. destruct (memZ pk allowed); cbn [Bool.eqb]; lia.
        -- rewrite E5. destruct (memZ pk allowed); cbn [Bool.eqb]; lia.
    + intros v Hv. rewrite Num. auto.
    + intros v Hv. rewrite Num in Hv. destruct (H v Hv) as [H1 H2]. rewrite credits_credit, H1.
      destruct (Z.eqb_spec (f_voucher f) v) as [<-|X]; [contradiction|]. split; [reflexivity|].
      intros k t Q. apply requested_credit in Q. exact (H2 _ _ Q).
    + intros v k t Q. apply requested_credit in Q. exact (M _ _ _ Q).
    + intros r' O Hr'. apply in_order_app in O. unfold row in Hr'. cbn [c_db] in Hr'.
      unfold credited_counters at 1. rewrite credits_credit.
      destruct (Rd _ Hr') as [[Old Ne]| ->].
      * destruct (I r' O Old) as (I1 & I2 & I3 & I4 & I5 & I6 & I7).
        destruct (Z.eqb_spec (f_voucher f) (v_number r')) as [X|X]; [congruence|]. rewrite app_nil_r.
        split; [exact I1|]. split; [|split; [|split; [|split; [|split]]]]; auto.
        -- intros t It. rewrite Td in It. apply filter_In in It. destruct It as [It _]. auto.
        -- intros k t Q. apply requested_credit in Q. destruct (I6 _ _ Q) as [Q1 Q2]. split; [exact Q1|]. intros Ek.
           rewrite (@group_tokens_del _ _ _ _ (c_db c) d Td) by congruence. auto.
        -- intros k t1 t2 Q1 Q2. apply requested_credit in Q1, Q2. eauto.
      * destruct (I r O Hr) as (I1 & I2 & I3 & I4 & I5 & I6 & I7).
        pose proof (I2 f If (eq_sym Nr)) as Fc. destruct (E r Hr) as ((_ & E1 & _) & E2 & _).
        destruct (D f If) as (Dr & _).
        assert (Ng : v_number (g r) = f_voucher f) by exact Nr. rewrite Ng.
        assert (Cg : v_counter (g r) = v_counter r + 1) by reflexivity. rewrite Cg. rewrite Nr in *.
        rewrite Z.eqb_refl, map_app. fold (credited_counters (f_voucher f) out). rewrite I1. cbn [map fst].
        split; [|split; [|split; [|split; [|split; [|split]]]]].
        -- rewrite Z2Nat.inj_add by lia. change (Z.to_nat 1) with 1%nat. rewrite seq_app, map_app. cbn [seq map]. f_equal. f_equal. lia.
        -- intros f' If' Ef. exfalso. exact (Of f' If' Ef).
        -- intros t It Et. rewrite Td in It. apply filter_In in It. destruct It as [It X].
           rewrite Et, (I3 t It Et), !Z.eqb_refl in X. discriminate.
        -- unfold g, st. cbn. destruct (Z.eqb_spec (f_counter f + 1) groups); [lia|discriminate].
        -- unfold g, st. cbn. destruct (Z.eqb_spec (f_counter f + 1) groups); [congruence|lia].
        -- intros k t Q. apply requested_credit in Q. destruct (I6 _ _ Q) as [Q1 Q2]. split; [lia|]. intros Ek. lia.
        -- intros k t1 t2 Q1 Q2. apply requested_credit in Q1, Q2. eauto.
  - rewrite app_nil_r. set (g := double_spent now) in *.
    set (d := set_vouchers (upd_voucher g (f_voucher f) (vouchers (c_db c))) (c_db c)).
    assert (Vd : vouchers d = upd_voucher g (f_voucher f) (vouchers (c_db c))) by reflexivity.
    assert (Num : map v_number (vouchers d) = map v_number (vouchers (c_db c))) by (rewrite Vd; apply upd_voucher_numbers; reflexivity).
    assert (Rd : forall r', In r' (vouchers d) -> In r' (vouchers (c_db c)) /\ v_number r' <> f_voucher f \/ r' = g r).
    { intros r' X. rewrite Vd in X. apply upd_voucher_in in X. destruct X as [X|(r0 & X & Y & ->)]; [auto|right]. f_equal.
      eapply NoDup_map_inj; [apply (wf_vouchers A)|exact X|exact Hr|congruence]. }
    split; [|split; [exact Nf|discriminate]].
    split; cbn [c_db c_error c_unpaid c_active c_flights]; fold d; auto.
    + subst d. apply wf_set_vouchers; [| |exact A]; rewrite upd_voucher_numbers by reflexivity; [apply A|apply incl_refl].
    + intros f' If'. destruct (D f' (Ib _ If')) as (D1 & D2 & D3 & r2 & D4 & D5 & D6).
      split; [exact D1|]. split; [exact D2|]. split; [exact D3|].
      exists r2. unfold row in *. cbn [c_db]. fold d. split; [|auto]. rewrite Vd. apply upd_voucher_in. left. split; [exact D4|].
      rewrite D5. now apply Of.
    + intros r' Hr'. unfold row in Hr'. cbn [c_db] in Hr'. destruct (Rd _ Hr') as [[Old Ne]| ->]; [exact (E r' Old)|].
      destruct (E r Hr) as ((E1 & E1' & E1'') & E2). cbn [v_number v_counter v_token_count v_sequestered v_expected g double_spent].
      split; [|exact E2]. repeat split; cbn; try lia; discriminate.
    + intros v Hv. rewrite Num. auto.
    + intros v Hv. rewrite Num in Hv. exact (H v Hv).
    + intros r' O Hr'. unfold row in Hr'. cbn [c_db] in Hr'. destruct (Rd _ Hr') as [[Old Ne]| ->].
      * destruct (I r' O Old) as (I1 & I2 & I3). auto.
      * destruct (I r O Hr) as (I1 & I2 & I3 & I4 & I5 & I6 & I7).
        cbn [v_number v_counter v_state g double_spent]. split; [exact I1|]. split; [|split; [exact I3|split; [discriminate|split; [|split; [exact I6|exact I7]]]]].
        -- intros f' If' Ef. auto.
        -- intros _. apply I5. congruence.
Qed.

(** ** Other changes *)

Lemma inv_db groups out c d : wf d -> vouchers d = vouchers (c_db c) -> tokens d = tokens (c_db c) ->
  inv groups out c -> inv groups out (with_db d c).
Proof.
  intros W V T [A B C D E G H M I].
  assert (Gt : forall v k, group_tokens v k d = group_tokens v k (c_db c)) by (intros; unfold group_tokens, group_rows; now rewrite T).
  split; auto; cbn [c_db c_error c_unpaid c_active c_flights with_db].
  - intros f If. destruct (D f If) as (D1 & D2 & D3 & r & D4 & D5). rewrite Gt. repeat split; auto; try lia.
    exists r. split; [unfold row in *; cbn; rewrite V; exact D4|exact D5].
  - intros r Hr. unfold row in Hr. cbn in Hr. rewrite V in Hr. auto.
  - intros v. rewrite V. auto.
  - intros v. rewrite V. auto.
  - intros r O Hr. unfold row in Hr. cbn in Hr. rewrite V in Hr. destruct (I r O Hr) as (I1 & I2 & I3 & I4 & I5 & I6 & I7).
    rewrite T. repeat (split; [now auto|]). split; [|exact I7]. intros k t Q. rewrite Gt. auto.
Qed.

Lemma wallet_keeps d o : wf d -> wallet_call o ->
  vouchers (snd (step d o)) = vouchers d /\ tokens (snd (step d o)) = tokens d.
Proof.
  intros W F. destruct o; cbn [wallet_call] in F; try contradiction.
  - rewrite step_extract_eq. destruct (count >? SQLITE3_INTEGER_MAX); [auto|]. cbv zeta. destruct (_ <? count); [auto|].
    destruct (exec_muts _ d) as [d2|e] eqn:E; [|auto]. apply ins_in_use_Ok in E. destruct E as (_ & _ & ->). auto.
  - rewrite step_discard_eq by apply W. auto.
  - rewrite step_invalidate_eq. destruct (exec_muts _ d) as [d2|e] eqn:E; [|auto].
    apply ins_invalid_Ok in E. destruct E as (_ & _ & ->). auto.
  - rewrite step_reset_eq by apply W. auto.
  - rewrite step_query; [auto|exact I].
  - rewrite step_query; [auto|exact I].
  - rewrite step_query; [auto|exact I].
  - rewrite step_query; [auto|exact I].
  - destruct (@step_maint (OMaintStart now) d (wf_maint W) I) as (m & -> & N). auto.
  - destruct (@step_maint (OMaintObserve pass_value rowid sizes) d (wf_maint W) I) as (m & -> & N). auto.
  - destruct (@step_maint (OMaintFinish rowid now) d (wf_maint W) I) as (m & -> & N). auto.
  - rewrite step_query; [auto|exact I].
Qed.

Lemma wallet_fair o : wallet_call o -> fair o.
Proof. destruct o; cbn; auto; contradiction. Qed.

Lemma inv_killed groups out c : inv groups out c -> inv groups out (killed c).
Proof.
  intros [A B C D E G H M I]. split; cbn; auto.
  - exact (@wf_step (c_db c) ORestart A Logic.I).
  - constructor.
  - intros f [].
  - intros v [[]|[]].
  - intros r O Hr. destruct (I r O Hr) as (I1 & I2 & I3 & I4 & I5 & I6 & I7).
    split; [exact I1|]. split; [intros f []|]. repeat (split; [now auto|]). auto.
Qed.

Lemma inv_retrying groups out c b : inv groups out c -> inv groups out (with_retrying b c).
Proof. intros [A B C D E G H M I]. split; auto. Qed.

Lemma inv_new groups : inv groups [] new_node.
Proof.
  split; cbn; auto.
  - apply wf_empty.
  - constructor.
  - intros f [].
  - intros r [].
  - intros v [[]|[]].
  - intros _ r [].
Qed.

(** ** Small steps *)

(** Why a group is started. *)
Definition reason (out : list output) v total counter (c : ctl) : Prop :=
  startable v total c /\ ~ In v (outstanding c) /\
  (counter = 0 /\ (~ In v (map v_number (vouchers (c_db c))) \/ In v (dkeys (c_unpaid c))) \/
   exists r, row c r /\ v_number r = v /\ (in_order v out -> counter = v_counter r)).

Inductive micro groups now gen (out : list output) : ctl -> list output -> ctl -> Prop :=
| mi_start v total counter c o c' : reason out v total counter c ->
    started groups now gen v total counter c o c' -> micro groups now gen out c o c'
| mi_killed c : micro groups now gen out c [] (killed c)
| mi_retrying c b : micro groups now gen out c [] (with_retrying b c)
| mi_died c e : micro groups now gen out c [Died e] c.

Inductive micros groups now gen (out : list output) : ctl -> list output -> ctl -> Prop :=
| ms_refl c : micros groups now gen out c [] c
| ms_step c o c1 o' c' : micro groups now gen out c o c1 ->
    micros groups now gen (out ++ o) c1 o' c' -> micros groups now gen out c (o ++ o') c'.

Lemma micros_one groups now gen out c o c' : micro groups now gen out c o c' -> micros groups now gen out c o c'.
Proof. intros M. rewrite <- (app_nil_r o). eapply ms_step; [exact M|constructor]. Qed.

Lemma micros_trans groups now gen out c o c1 o' c' : micros groups now gen out c o c1 ->
  micros groups now gen (out ++ o) c1 o' c' -> micros groups now gen out c (o ++ o') c'.
Proof.
  intros M. induction M as [out c|out c o c1 o1 c2 M Ms IH]; intros N.
  - rewrite app_nil_r in N. exact N.
  - rewrite <- app_assoc. eapply ms_step; [exact M|]. apply IH. rewrite <- app_assoc. exact N.
Qed.

Lemma micros_snoc groups now gen out c o c1 o' c' : micros groups now gen out c o c1 ->
  micro groups now gen (out ++ o) c1 o' c' -> micros groups now gen out c (o ++ o') c'.
Proof. intros A B. eapply micros_trans; [exact A|now apply micros_one]. Qed.

Lemma inv_micro groups now gen out c o c' : enough gen -> inv groups out c ->
  micro groups now gen out c o c' -> inv groups (out ++ o) c'.
Proof.
  intros En J M. destruct M as [v total counter c o c' (R1 & R2 & _) S|c|c b|c e];
    rewrite ?app_nil_r.
  - eapply inv_start; eauto.
  - now apply inv_killed.
  - now apply inv_retrying.
  - apply inv_silent; [repeat constructor|exact J].
Qed.

Lemma inv_micros groups now gen out c o c' : enough gen -> micros groups now gen out c o c' ->
  inv groups out c -> inv groups (out ++ o) c'.
Proof.
  intros En M. induction M as [out c|out c o c1 o1 c2 M Ms IH]; intros J.
  - now rewrite app_nil_r.
  - rewrite app_assoc. apply IH. eapply inv_micro; eauto.
Qed.

(** ** The reported state *)

Lemma dget_Some V k (x : V) d : dget k d = Some x -> In (k, x) d.
Proof.
  induction d as [|[q y] d IH]; cbn [dget]; [discriminate|]. destruct (Z.eqb_spec k q) as [->|].
  - intros E. injection E as ->. left. reflexivity.
  - intros E. right. auto.
Qed.

Lemma dget_None V k (d : dict V) : dget k d = None -> ~ In k (dkeys d).
Proof.
  induction d as [|[q y] d IH]; cbn [dget dkeys map fst]; [intros _ []|]. destruct (Z.eqb_spec k q) as [->|]; [discriminate|].
  intros E [->|I]; [congruence|exact (IH E I)].
Qed.

Lemma in_dkeys V k (x : V) d : In (k, x) d -> In k (dkeys d).
Proof. intros I. apply in_map_iff. exists (k, x). auto. Qed.

Definition shown (r : voucher_row) : voucher := V (v_number r) (v_expected r) (v_created r) (pst r).

Lemma get_voucher_spec groups out c r : inv groups out c -> row c r ->
  exists s, get_voucher c (v_number r) = Ok (shown r, s) /\ reported c r s.
Proof.
  intros J Hr. destruct (i_row J r Hr) as (Rr & _). unfold get_voucher.
  rewrite (@get_known (c_db c) r (wf_vouchers (i_wf J)) Hr), (from_row_readable Rr). fold (shown r).
  eexists. split; [reflexivity|]. unfold incorporate_transient_state. cbn [state shown number]. unfold pst.
  destruct Rr as (_ & _ & R3 & R4). destruct (v_state r) eqn:Es.
  - destruct (dget (v_number r) (c_active c)) as [[s k]|] eqn:Ga; [apply rep_redeeming; auto; now apply dget_Some|].
    apply dget_None in Ga.
    destruct (dget (v_number r) (c_unpaid c)) as [fin|] eqn:Gu; [apply rep_unpaid; auto; now apply dget_Some|].
    apply dget_None in Gu.
    destruct (dget (v_number r) (c_error c)) as [[fin x]|] eqn:Ge; [apply rep_error; auto; now apply dget_Some|].
    apply dget_None in Ge. now apply rep_pending.
  - cbn [of_persistent]. destruct (v_finished r) as [x|] eqn:Ef; [|exfalso; apply R3; congruence]. now apply rep_double.
  - cbn [of_persistent]. destruct (v_finished r) as [x|] eqn:Ef; [|exfalso; apply R3; congruence].
    destruct (v_token_count r) as [n|] eqn:Et; [|exfalso; now apply R4]. now apply rep_redeemed.
Qed.

Lemma get_voucher_unknown c v : ~ In v (map v_number (vouchers (c_db c))) -> get_voucher c v = Err KeyError.
Proof. intros N. unfold get_voucher. now rewrite get_unknown. Qed.

Lemma known_dec c v : (exists r, row c r /\ v_number r = v) \/ ~ In v (map v_number (vouchers (c_db c))).
Proof.
  destruct (memZ_spec v (map v_number (vouchers (c_db c)))) as [K|K]; [left|right; exact K].
  apply in_map_iff in K. destruct K as (r & E & I). exists r. auto.
Qed.

Lemma outstanding_known groups out c v : inv groups out c -> In v (outstanding c) -> In v (map v_number (vouchers (c_db c))).
Proof.
  intros J I. unfold outstanding in I. apply in_map_iff in I. destruct I as (f & <- & I).
  destruct (i_flight J f I) as (_ & _ & _ & r & Hr & <- & _). now apply in_known.
Qed.

(** What [redeem] does, by the voucher's situation. *)
Inductive redeem_case groups now gen dflt (out : list output) v n (c : ctl) (o : list output) (c' : ctl) : Prop :=
| rc_new : ~ In v (map v_number (vouchers (c_db c))) ->
    reason out v (match n with Some x => x | None => dflt end) 0 c ->
    started groups now gen v (match n with Some x => x | None => dflt end) 0 c o c' ->
    redeem_case groups now gen dflt out v n c o c'
| rc_pending r : row c r -> v_number r = v -> reported c r (CPending (v_counter r)) ->
    reason out v (v_expected r) (v_counter r) c ->
    started groups now gen v (v_expected r) (v_counter r) c o c' -> redeem_case groups now gen dflt out v n c o c'
| rc_unpaid r fin : row c r -> v_number r = v -> reported c r (CUnpaid fin) -> reason out v (v_expected r) 0 c ->
    started groups now gen v (v_expected r) 0 c o c' -> redeem_case groups now gen dflt out v n c o c'
| rc_error r fin x : row c r -> v_number r = v -> reported c r (CError fin x) -> o = [Died ValueError] -> c' = c ->
    redeem_case groups now gen dflt out v n c o c'
| rc_done r s : row c r -> v_number r = v -> reported c r s -> should_start_redemption s = false -> o = [] -> c' = c ->
    redeem_case groups now gen dflt out v n c o c'.

Lemma redeem_spec groups dflt now gen out v n c o c' : inv groups out c ->
  redeem groups dflt now gen v n c = (o, c') -> redeem_case groups now gen dflt out v n c o c'.
Proof.
  intros J E. unfold redeem in E. destruct (known_dec c v) as [(r & Hr & Nr)|N].
  - subst v. destruct (@get_voucher_spec _ _ _ _ J Hr) as (s & Gv & Rs). rewrite Gv in E.
    assert (St : v_state r = SPending -> startable (v_number r) (v_expected r) c) by (intros P; right; exists r; auto).
    assert (No : ~ In (v_number r) (dkeys (c_active c)) -> ~ In (v_number r) (outstanding c)) by now rewrite (i_active J).
    destruct s as [k|st k|fin tc|fin|fin|fin x]; cbn [should_start_redemption start_at_counter expected_tokens shown] in E.
    + inversion Rs as [ | | | | |Ps Na Nu Ne Ek]; subst k.
      assert (R : reason out (v_number r) (v_expected r) (v_counter r) c) by (split; [auto|]; split; [auto|]; right; exists r; auto).
      eapply rc_pending; eauto. eapply start_group_spec; [exact J|apply R|exact E].
    + injection E as <- <-. eapply rc_done; eauto.
    + injection E as <- <-. eapply rc_done; eauto.
    + injection E as <- <-. eapply rc_done; eauto.
    + inversion Rs as [ | | |? Ps Na Iu| | ]; subst.
      assert (R : reason out (v_number r) (v_expected r) 0 c).
      { split; [auto|]; split; [auto|]; left. split; [reflexivity|]. right. eapply in_dkeys; eauto. }
      eapply rc_unpaid; eauto. eapply start_group_spec; [exact J|apply R|exact E].
    + injection E as <- <-. eapply rc_error; eauto.
  - rewrite get_voucher_unknown in E by exact N.
    assert (R : reason out v (match n with Some x => x | None => dflt end) 0 c).
    { split; [left; exact N|]. split; [|left; auto]. intros I. apply N. eapply outstanding_known; eauto. }
    apply rc_new; auto. eapply start_group_spec; [exact J|apply R|exact E].
Qed.

Lemma redeem_micros groups dflt now gen out v n c o c' : inv groups out c ->
  redeem groups dflt now gen v n c = (o, c') -> micros groups now gen out c o c'.
Proof.
  intros J E. destruct (@redeem_spec _ _ _ _ _ _ _ _ _ _ J E) as [N R S|r Hr Nr Rp R S|r fin Hr Nr Rp R S|r fin x Hr Nr Rp -> ->|r s Hr Nr Rp X -> ->].
  - apply micros_one. eapply mi_start; eauto.
  - apply micros_one. eapply mi_start; eauto.
  - apply micros_one. eapply mi_start; eauto.
  - apply micros_one. apply mi_died.
  - constructor.
Qed.

Lemma retry_loop_micros groups dflt now gen vs : enough gen -> forall out c o c', inv groups out c ->
  retry_loop groups dflt now gen vs c = (o, c') -> micros groups now gen out c o c'.
Proof.
  intros En. induction vs as [|v vs IH]; intros out c o c' J E; cbn [retry_loop] in E.
  - injection E as <- <-. constructor.
  - destruct (memZ v (dkeys (c_active c))); [eauto|].
    destruct (get_voucher c v) as [[vo s]|e].
    + destruct (should_start_redemption s); [|eauto].
      destruct (redeem groups dflt now gen v None c) as [o1 c1] eqn:E1.
      destruct (retry_loop groups dflt now gen vs c1) as [o2 c2] eqn:E2. injection E as <- <-.
      pose proof (@redeem_micros _ _ _ _ out _ _ _ _ _ J E1) as M1. eapply micros_trans; [exact M1|].
      eapply IH; [|exact E2]. eapply inv_micros; eauto.
    + injection E as <- <-. change [Died e] with ([Died e] ++ []). eapply ms_step; [apply mi_died|]. apply micros_one. apply mi_retrying.
Qed.

Lemma check_loop_micros groups dflt now gen vs : enough gen -> forall out c o c', inv groups out c ->
  check_loop groups dflt now gen vs c = (o, c') -> micros groups now gen out c o c'.
Proof.
  intros En. induction vs as [|v vs IH]; intros out c o c' J E; cbn [check_loop] in E.
  - injection E as <- <-. constructor.
  - destruct (should_start_redemption _); [|eauto].
    destruct (redeem groups dflt now gen (number v) None c) as [o1 c1] eqn:E1.
    destruct (check_loop groups dflt now gen vs c1) as [o2 c2] eqn:E2. injection E as <- <-.
    pose proof (@redeem_micros _ _ _ _ out _ _ _ _ _ J E1) as M1. eapply micros_trans; [exact M1|].
    eapply IH; [|exact E2]. eapply inv_micros; eauto.
Qed.

Lemma boot_micros groups dflt now gen upto out c o c' : enough gen -> inv groups out c ->
  boot groups dflt now gen upto c = (o, c') -> micros groups now gen out c o c'.
Proof.
  intros En J E. unfold boot in E. pose proof (inv_killed J) as Jk.
  assert (K : micros groups now gen out c [] (killed c)) by (apply micros_one; apply mi_killed).
  destruct (fst _) as [vs|e].
  - destruct upto as [n|].
    + destruct (check_loop groups dflt now gen (firstn n vs) (killed c)) as [o1 c1] eqn:E1. injection E as <- <-.
      change o1 with ([] ++ o1). eapply micros_trans; [exact K|]. rewrite app_nil_r. rewrite <- (app_nil_r o1).
      eapply micros_snoc; [eapply check_loop_micros; eauto|apply mi_killed].
    + destruct (check_loop groups dflt now gen vs (killed c)) as [o1 c1] eqn:E1. injection E as <- <-.
      change o1 with ([] ++ o1). eapply micros_trans; [exact K|]. rewrite app_nil_r. rewrite <- (app_nil_r o1).
      eapply micros_snoc; [eapply check_loop_micros; eauto|apply mi_retrying].
  - injection E as <- <-. change [Died e] with ([] ++ [Died e]). eapply micros_snoc; [exact K|apply mi_died].
Qed.

Lemma settle_at groups allowed now out i a c f rest go o c' : inv groups out c -> take_at i (c_flights c) = Some (f, rest) ->
  settle groups allowed now f a (with_flights rest c) = (go, o, c') ->
  exists a0 b0, c_flights c = a0 ++ f :: b0 /\ rest = a0 ++ b0 /\ nth_error (c_flights c) i = Some f /\
  settled groups allowed now f (with_flights (a0 ++ b0) c) a go o c'.
Proof.
  intros J T E. destruct (@take_at_split _ _ _ _ _ T) as (a0 & b0 & Fl & -> & Nth). exists a0, b0.
  assert (If : In f (c_flights c)) by (rewrite Fl; apply in_or_app; right; left; reflexivity).
  destruct (i_flight J f If) as (_ & _ & _ & r & Hr & Nr & Pr & _).
  pose proof (@settle_spec _ _ _ _ _ _ _ _ _ _ _ (i_wf J) Hr Nr Pr E) as S. repeat split; auto.
Qed.

(** One event: possibly an answer is dealt with, then small steps. *)
Inductive settling groups allowed now (e : event) (c : ctl) : list output -> ctl -> Prop :=
| sg_none : (forall w, e <> EWallet w) -> settling groups allowed now e c [] c
| sg_wallet w : e = EWallet w -> wallet_call w -> settling groups allowed now e c [] (with_db (snd (step (c_db c) w)) c)
| sg_one i a f a0 b0 go o c' : e = EAnswer i a \/ e = EKillAfterAnswer i a ->
    c_flights c = a0 ++ f :: b0 -> nth_error (c_flights c) i = Some f -> i = length a0 ->
    settled groups allowed now f (with_flights (a0 ++ b0) c) a go o c' -> settling groups allowed now e c o c'.

Lemma inv_settling groups allowed now e c o c' out : inv groups out c -> settling groups allowed now e c o c' -> inv groups (out ++ o) c'.
Proof.
  intros J [_|w _ W|i a f a0 b0 go o1 c1 _ Fl _ _ S]; rewrite ?app_nil_r; [exact J| |eapply inv_settled; eauto].
  destruct (@wallet_keeps _ _ (i_wf J) W) as [V T]. apply inv_db; auto. apply wf_step; [apply J|now apply wallet_fair].
Qed.

Lemma take_at_index A i : forall (l : list A) x rest, take_at i l = Some (x, rest) ->
  exists a b, l = a ++ x :: b /\ rest = a ++ b /\ i = length a.
Proof.
  induction i as [|i IH]; intros [|y l] x rest E; cbn in E; try discriminate.
  - injection E as -> ->. exists [], rest. auto.
  - destruct (take_at i l) as [[z l']|] eqn:T; [|discriminate]. injection E as -> <-.
    destruct (IH _ _ _ T) as (a & b & -> & -> & ->). exists (y :: a), b. auto.
Qed.

Lemma NoDup_split_unique A B (g : A -> B) a0 b0 a1 b1 x : NoDup (map g (a0 ++ x :: b0)) -> a0 ++ x :: b0 = a1 ++ x :: b1 ->
  a0 = a1 /\ b0 = b1.
Proof.
  revert a1. induction a0 as [|y a0 IH]; intros [|z a1] N E; cbn in *.
  - injection E as ->. auto.
  - injection E as -> ->. exfalso. inversion N as [|? ? N1 _]; subst. apply N1. apply in_map_iff. exists z.
    split; [reflexivity|]. apply in_or_app. right. left. reflexivity.
  - injection E as -> <-. exfalso. inversion N as [|? ? N1 _]; subst. apply N1. apply in_map_iff. exists x.
    split; [reflexivity|]. apply in_or_app. right. left. reflexivity.
  - injection E as -> E. inversion N; subst. destruct (IH a1) as [-> ->]; auto.
Qed.

Lemma settling_at groups allowed now e out i a c f rest go o c' : inv groups out c -> e = EAnswer i a \/ e = EKillAfterAnswer i a ->
  take_at i (c_flights c) = Some (f, rest) ->
  settle groups allowed now f a (with_flights rest c) = (go, o, c') -> settling groups allowed now e c o c'.
Proof.
  intros J He T E. destruct (@settle_at groups allowed now out i a c f rest go o c' J T E) as (a0 & b0 & Fl & Er & Nth & S).
  destruct (@take_at_index _ _ _ _ _ T) as (a1 & b1 & Fl1 & Er1 & Ei).
  assert (X : a0 = a1 /\ b0 = b1).
  { apply (@NoDup_split_unique _ _ f_voucher a0 b0 a1 b1 f); [|congruence]. rewrite <- Fl. apply (i_nodup J). }
  destruct X as [<- <-]. eapply sg_one; eauto.
Qed.

Lemma answered_shape groups allowed now gen out i a c o c' : enough gen -> inv groups out c ->
  answered groups allowed now gen i a c = (o, c') ->
  exists o1 c1 o2, settling groups allowed now (EAnswer i a) c o1 c1 /\ o = o1 ++ o2 /\ micros groups now gen (out ++ o1) c1 o2 c'.
Proof.
  intros En J E. unfold answered in E. destruct (take_at i (c_flights c)) as [[f rest]|] eqn:T.
  2:{ injection E as <- <-. exists [], c, []. repeat split; constructor. discriminate. }
  destruct (settle groups allowed now f a (with_flights rest c)) as [[go o1] c1] eqn:E1.
  pose proof (@settling_at groups allowed now (EAnswer i a) out i a c f rest go o1 c1 J (or_introl eq_refl) T E1) as Sg.
  destruct (@settle_at groups allowed now out i a c f rest go o1 c1 J T E1) as (a0 & b0 & Fl & Er & _ & S).
  destruct go; [|injection E as <- <-; exists o1, c1, []; rewrite app_nil_r; repeat split; [exact Sg|constructor]].
  destruct (start_group _ _ _ _ _ _ c1) as [o2 c2] eqn:E2. injection E as <- <-. exists o1, c1, o2. split; [exact Sg|]. split; [reflexivity|].
  destruct (@inv_settled _ _ _ _ _ _ _ _ _ _ _ _ J Fl S) as (J1 & No & St). specialize (St eq_refl).
  destruct (Z_lt_ge_dec (f_counter f + 1) groups) as [Lt|Ge].
  - apply micros_one. eapply mi_start; [|eapply start_group_spec; [exact J1|exact (St Lt)|exact E2]].
    split; [exact (St Lt)|]. split; [exact No|]. right.
    inversion S as [|toks pk r d Hr Nr Pr Nd Dj Ed|]; subst.
    exists (group_done (if f_counter f + 1 =? groups then SRedeemed else SPending) (if memZ pk allowed then lenZ toks else 0)
              (if memZ pk allowed then 0 else lenZ toks) now r).
    unfold row. cbn [c_db vouchers]. cbv zeta in Ed; rewrite Ed; cbn [vouchers]. split; [apply upd_voucher_in; right; exists r; auto|]. split; [exact Nr|].
    intros O. apply in_order_app in O. assert (If : In f (c_flights c)) by (rewrite Fl; apply in_or_app; right; left; reflexivity).
    rewrite <- Nr in O. destruct (i_order J r O Hr) as (_ & I2 & _). cbn. rewrite <- (I2 f If); [lia|auto].
  - unfold start_group in E2. destruct (Z.geb_spec (f_counter f + 1) groups); [|lia]. injection E2 as <- <-. constructor.
Qed.

Lemma step_shape groups dflt allowed out c e now gen o c' : proper (e, now, gen) -> inv groups out c ->
  controller_step groups dflt allowed c (e, now, gen) = (o, c') -> enough gen /\
  exists o1 c1 o2, settling groups allowed now e c o1 c1 /\ o = o1 ++ o2 /\ micros groups now gen (out ++ o1) c1 o2 c'.
Proof.
  intros P J E. assert (En : enough gen) by (destruct e; try exact P; apply P). split; [exact En|].
  assert (X : forall o2, (forall w, e <> EWallet w) -> micros groups now gen out c o2 c' ->
     exists o1 c1 o3, settling groups allowed now e c o1 c1 /\ o2 = o1 ++ o3 /\ micros groups now gen (out ++ o1) c1 o3 c').
  { intros o2 N M. exists [], c, o2. rewrite app_nil_r. split; [constructor; exact N|auto]. }
  cbn [controller_step] in E. destruct e as [v n|i a| | |w|i a|n|n].
  - apply X; [discriminate|]. eapply redeem_micros; eauto.
  - eapply answered_shape; eauto.
  - apply X; [discriminate|]. unfold retry_redemption in E. destruct (c_retrying c); [|injection E as <- <-; constructor]. eapply retry_loop_micros; eauto.
  - apply X; [discriminate|]. eapply boot_micros; eauto.
  - injection E as <- <-. exists [], (with_db (snd (step (c_db c) w)) c), []. split; [apply sg_wallet; [reflexivity|apply P]|]. split; [reflexivity|constructor].
  - destruct (take_at i (c_flights c)) as [[f rest]|] eqn:T.
    + destruct (settle groups allowed now f a (with_flights rest c)) as [[go o1] c1] eqn:E1. injection E as <- <-.
      exists o1, c1, []. rewrite app_nil_r. split; [|split; [reflexivity|apply micros_one; apply mi_killed]].
      eapply settling_at; eauto.
    + injection E as <- <-. apply X; [discriminate|]. apply micros_one. apply mi_killed.
  - destruct (retry_loop groups dflt now gen _ c) as [o1 c1] eqn:E1. injection E as <- <-.
    apply X; [discriminate|]. rewrite <- (app_nil_r o1). eapply micros_snoc; [eapply retry_loop_micros; eauto|apply mi_killed].
  - apply X; [discriminate|]. eapply boot_micros; eauto.
Qed.

Lemma inv_step groups dflt allowed out c te o c' : proper te -> inv groups out c ->
  controller_step groups dflt allowed c te = (o, c') -> inv groups (out ++ o) c'.
Proof.
  destruct te as [[e now] gen]. intros P J E.
  destruct (@step_shape groups dflt allowed out c e now gen o c' P J E) as (En & o1 & c1 & o2 & Sg & -> & M).
  rewrite app_assoc. eapply inv_micros; eauto. eapply inv_settling; eauto.
Qed.

(** Induction over a run: a property of the outputs and the state that holds at
    the start and survives every event. *)
Lemma run_induction groups dflt allowed (P : list timed -> list output -> ctl -> Prop) :
  P [] [] new_node ->
  (forall es out c te o c', Forall proper es -> proper te -> controller_run groups dflt allowed new_node es = (out, c) ->
     inv groups out c -> P es out c -> controller_step groups dflt allowed c te = (o, c') -> inv groups (out ++ o) c' ->
     P (es ++ [te]) (out ++ o) c') ->
  forall es out c, lived groups dflt allowed es out c -> P es out c.
Proof.
  intros P0 PS es. assert (X : forall es, Forall proper es -> exists out c, controller_run groups dflt allowed new_node es = (out, c) /\
    inv groups out c /\ P es out c).
  { clear es. intros es. induction es as [|te es IH] using rev_ind; intros F.
    - exists [], new_node. split; [reflexivity|]. split; [apply inv_new|exact P0].
    - apply Forall_app in F. destruct F as [F1 F2]. inversion F2; subst. destruct (IH F1) as (out & c & E & J & Q).
      destruct (controller_step groups dflt allowed c te) as [o c'] eqn:S. exists (out ++ o), c'.
      pose proof (@inv_step groups dflt allowed out c te o c' ltac:(assumption) J S) as J'.
      split; [|split; [exact J'|eapply PS; eauto]].
      assert (R : forall es c0 out c, controller_run groups dflt allowed c0 es = (out, c) -> controller_step groups dflt allowed c te = (o, c') ->
        controller_run groups dflt allowed c0 (es ++ [te]) = (out ++ o, c')).
      { clear. induction es as [|t es IH]; intros c0 out c E S; cbn [controller_run app] in *.
        - injection E as <- <-. rewrite S. now rewrite app_nil_r.
        - destruct (controller_step groups dflt allowed c0 t) as [o1 c1]. destruct (controller_run groups dflt allowed c1 es) as [o2 c2] eqn:E2.
          injection E as <- <-. rewrite (IH _ _ _ E2 S). now rewrite app_assoc. }
      eapply R; eauto. }
  intros out c [F E]. destruct (X es F) as (out' & c' & E' & _ & Q). congruence.
Qed.

Lemma lived_inv groups dflt allowed es out c : lived groups dflt allowed es out c -> inv groups out c.
Proof. apply (run_induction (fun es out c => inv groups out c)); [apply inv_new|]. auto. Qed.
