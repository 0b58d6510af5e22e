(** Proofs about the server's log (C134). *)
From Verif Require Import Prelude PreludeFacts BytesModel BytesProofs PassModel PricingModel PricingSpec PricingProofs
  ContainerModel ContainerProofs TahoeModel ServerModel ServerSpec ServerProofs ServerStateProofs ServerRequestProofs
  ServerLogModel ServerLogSpec.
Set Implicit Arguments.

(** ** Logging changes nothing *)
Section Erase.
Variable signed : bytes -> bytes -> bytes -> bool.
Variables pv mv : Z.

Lemma erase_required cur tw : snd (log_required_new_passes pv cur tw) = get_required_new_passes_for_mutable_write pv cur tw.
Proof.
  unfold log_required_new_passes, get_required_new_passes_for_mutable_write.
  destruct (required_passes pv (dvalues cur)); cbn [bind]; [|reflexivity].
  destruct (required_passes pv _); reflexivity.
Qed.
Lemma erase_price si dir tw now : snd (log_writev_price pv si dir tw now) = get_writev_price pv dir tw now.
Proof.
  unfold log_writev_price, get_writev_price, log_get_share_sizes. cbv zeta.
  destruct (get_share_sizes dir _) as [sizes|e]; cbn [lift bind]; [|reflexivity].
  destruct (inactive_shares dir now _) as [l|e]; cbn [lift bind]; [|reflexivity].
  rewrite <- erase_required. destruct (log_required_new_passes pv _ tw) as [l1 r]. reflexivity.
Qed.
Lemma erase_check si dir v : snd (log_check_for_lease pv si dir v) = check_pass_quantity_for_lease pv dir v.
Proof.
  unfold log_check_for_lease, check_pass_quantity_for_lease, log_get_share_sizes. cbv zeta.
  destruct (get_share_sizes dir _) as [sizes|e]; reflexivity.
Qed.
Lemma erase_serve now room passes q sv : snd (log_serve signed pv mv now room passes q sv) = serve signed pv mv now room passes q sv.
Proof.
  unfold log_serve, serve. destruct q as [si rn cn shs sz|si rn cn|si we rn cn tw rv].
  - unfold log_allocate_buckets. destruct (remote_allocate_buckets _ _ _ _ _ _ _ _ _ _ _); reflexivity.
  - unfold log_add_lease, remote_add_lease. destruct (validate_passes _ _ _) as [v|e]; [|reflexivity].
    rewrite <- (erase_check si). destruct (log_check_for_lease pv si _ v) as [l [x|e]]; cbn [snd]; [|reflexivity].
    destruct (tahoe_add_lease _ _ _ _ _ _) as [[y|e] st]; reflexivity.
  - unfold log_slot_writev, remote_slot_writev. destruct (first_new_length tw); [reflexivity|].
    destruct (validate_passes _ _ _) as [v|e]; [|reflexivity].
    rewrite <- (erase_price si). destruct (log_writev_price pv si _ tw now) as [l [x|e]]; cbn [snd]; [|reflexivity].
    destruct (x >? lenZ (valid v)); [reflexivity|].
    destruct (tahoe_writev _ _ _ _ _ _) as [[[good read]|e] st]; [|reflexivity].
    destruct (add_leases_for_writev _ _ _ _ _ _ _) as [[y|e] st']; reflexivity.
Qed.
End Erase.

(** ** What looks alike gives the same log *)
Lemma pairwise_Forall2 A B (R : A -> B -> Prop) a b : pairwise R a b -> Forall2 R a b.
Proof.
  revert b. induction a as [|x a IH]; intros [|y b] [L H]; try discriminate; constructor.
  - exact (H 0%nat x y eq_refl eq_refl).
  - apply IH. split; [now injection L|]. intros i. exact (H (S i)).
Qed.
Lemma Forall2_map_eq A B C (R : A -> B -> Prop) (f : A -> C) (g : B -> C) a b :
  (forall x y, R x y -> f x = g y) -> Forall2 R a b -> map f a = map g b.
Proof. intros E. induction 1; cbn [map]; f_equal; auto. Qed.

Lemma alike_lenZ (a b : bytes) : length a = length b -> lenZ a = lenZ b.
Proof. unfold lenZ. congruence. Qed.

Lemma alike_summary tw1 tw2 : Forall2 alike_vector tw1 tw2 -> summarize tw1 = summarize tw2.
Proof.
  intros F. unfold summarize. eapply Forall2_map_eq; [|exact F].
  intros [k1 v1] [k2 v2] (E & T & D & L). cbn [fst snd] in *. subst k2. f_equal. rewrite L. f_equal.
  - eapply Forall2_map_eq; [|apply pairwise_Forall2, T]. intros [[o l] s] [[o' l'] s'] [X Y]. cbn [fst snd] in *.
    injection X as <- <-. now rewrite (alike_lenZ _ _ Y).
  - eapply Forall2_map_eq; [|apply pairwise_Forall2, D]. intros [o s] [o' s'] [X Y]. cbn [fst snd] in *.
    subst. now rewrite (alike_lenZ _ _ Y).
Qed.

Lemma alike_max_end m dv1 dv2 : Forall2 alike_data dv1 dv2 -> max_end m dv1 = max_end m dv2.
Proof.
  intros F. revert m. induction F as [|[o s] [o' s'] l l' [X Y] F IH]; intros m; cbn [max_end]; [reflexivity|].
  cbn [fst snd] in *. subst o'. rewrite (alike_lenZ _ _ Y). apply IH.
Qed.
Lemma alike_implied dv1 dv2 n : Forall2 alike_data dv1 dv2 -> get_implied_data_length dv1 n = get_implied_data_length dv2 n.
Proof.
  intros F. unfold get_implied_data_length. destruct F as [|[o s] [o' s'] l l' [X Y] F]; [reflexivity|].
  cbn [fst snd] in *. subst o'. rewrite (alike_lenZ _ _ Y), (alike_max_end _ F). reflexivity.
Qed.
Lemma alike_nonempty A (R : A -> A -> Prop) a b : Forall2 R a b -> nonempty a = nonempty b.
Proof. destruct 1; reflexivity. Qed.

Lemma alike_sharenums tw1 tw2 : Forall2 alike_vector tw1 tw2 -> get_write_sharenums tw1 = get_write_sharenums tw2.
Proof.
  unfold get_write_sharenums. induction 1 as [|[k1 v1] [k2 v2] l l' (E & _ & D & _) F IH]; cbn [filter]; [reflexivity|].
  cbn [fst snd] in *. subst k2.
  replace (nonempty (tw_data v1)) with (nonempty (tw_data v2)) by (symmetry; exact (alike_nonempty (pairwise_Forall2 D))).
  destruct (nonempty (tw_data v2)); cbn [map fst]; congruence.
Qed.
Lemma alike_new_length tw1 tw2 : Forall2 alike_vector tw1 tw2 -> first_new_length tw1 = first_new_length tw2.
Proof.
  induction 1 as [|[k1 v1] [k2 v2] l l' (E & _ & D & L) F IH]; cbn [first_new_length]; [reflexivity|].
  cbn [fst snd] in *. rewrite L. destruct (tw_new_length v2); [reflexivity|exact IH].
Qed.
Lemma alike_updated cur tw1 tw2 : Forall2 alike_vector tw1 tw2 -> updated_sizes cur tw1 = updated_sizes cur tw2.
Proof.
  unfold updated_sizes. intros F. revert cur.
  induction F as [|[k1 v1] [k2 v2] l l' (E & _ & D & L) F IH]; intros cur; cbn [fold_left]; [reflexivity|].
  cbn [fst snd] in *. subst k2. rewrite L, (alike_implied _ (pairwise_Forall2 D)). apply IH.
Qed.
Lemma alike_required pv cur tw1 tw2 : Forall2 alike_vector tw1 tw2 ->
  log_required_new_passes pv cur tw1 = log_required_new_passes pv cur tw2.
Proof. intros F. unfold log_required_new_passes. now rewrite (alike_updated cur F), (alike_summary F). Qed.

Section Shares.
Variables now1 now2 : Z.
Variables d1 d2 : dict share.
Hypothesis W1 : wf_dir d1.
Hypothesis W2 : wf_dir d2.
Hypothesis H1 : homogeneous d1.
Hypothesis H2 : homogeneous d2.
Hypothesis A : Forall2 (alike_share now1 now2) d1 d2.

Lemma alike_sizes shs : get_share_sizes (Some (map share_entry d1)) shs = get_share_sizes (Some (map share_entry d2)) shs.
Proof.
  rewrite !(share_sizes_dir (fun _ _ _ => true)) by assumption. f_equal. unfold wanted_shares.
  clear W1 W2 H1 H2. pose proof A as A'. clear A. induction A' as [|[n1 s1] [n2 s2] l l' (E & L & _) F IH]; cbn [filter map]; [reflexivity|].
  cbn [fst snd] in *. subst n2. destruct (wanted shs n1); cbn [map fst snd]; [|exact IH].
  f_equal; [|exact IH]. f_equal. unfold data_size. now rewrite L.
Qed.
Lemma alike_keys : dkeys d1 = dkeys d2.
Proof. unfold dkeys. eapply Forall2_map_eq; [|exact A]. intros x y (E & _). exact E. Qed.
Lemma alike_in n s : In (n, s) d1 -> exists s', In (n, s') d2 /\ (active now1 s <-> active now2 s').
Proof.
  clear W1 W2 H1 H2. pose proof A as A'. clear A. induction A' as [|[n1 s1] [n2 s2] l l' (E & _ & Ac) F IH]; cbn [In]; [intros []|].
  cbn [fst snd] in *. subst n2. intros [X|X].
  - injection X as -> ->. exists s2. auto.
  - destruct (IH X) as (s' & I & Y). exists s'. auto.
Qed.
Lemma alike_inactive ks : incl ks (dkeys d1) ->
  inactive_shares (Some (map share_entry d1)) now1 ks = inactive_shares (Some (map share_entry d2)) now2 ks.
Proof.
  induction ks as [|k ks IH]; intros I; cbn [inactive_shares]; [reflexivity|].
  assert (K : In k (dkeys d1)) by (apply I; left; reflexivity). unfold dkeys in K.
  apply in_map_iff in K. destruct K as [[k' s] [K1 K2]]. cbn in K1. subst k'.
  destruct (alike_in _ _ K2) as (s' & K2' & Ac).
  rewrite (active_dir k s now1 (proj1 W1) K2), (active_dir k s' now2 (proj1 W2) K2'). cbn [bind].
  assert (E : activeb now1 s = activeb now2 s').
  { apply eq_true_iff_eq. rewrite !activeb_spec. exact Ac. }
  rewrite E, IH by (intros x X; apply I; right; exact X). reflexivity.
Qed.

Lemma sizes_keys shs sizes : get_share_sizes (Some (map share_entry d1)) shs = Ok sizes -> incl (dkeys (dict_of sizes)) (dkeys d1).
Proof.
  rewrite (share_sizes_dir (fun _ _ _ => true)) by assumption. intros [= <-].
  rewrite dict_of_id by (rewrite keys_map_snd; apply NoDup_filter_keys; apply W1).
  intros k. unfold dkeys. rewrite !in_map_iff. intros ([k' z] & E & I). cbn in E. subst k'.
  apply in_map_iff in I. destruct I as ([n s] & E & I). injection E as -> _.
  unfold wanted_shares in I. apply filter_In in I. exists (k, s). split; [reflexivity|apply I].
Qed.

Lemma alike_writev_price pv si tw1 tw2 : Forall2 alike_vector tw1 tw2 ->
  log_writev_price pv si (Some (map share_entry d1)) tw1 now1 = log_writev_price pv si (Some (map share_entry d2)) tw2 now2.
Proof.
  intros F. unfold log_writev_price, log_get_share_sizes. cbv zeta. rewrite <- (alike_sharenums F), <- alike_sizes.
  destruct (get_share_sizes (Some (map share_entry d1)) _) as [sizes|e] eqn:E; [|reflexivity].
  rewrite <- (alike_inactive (sizes_keys _ E)).
  destruct (inactive_shares _ now1 _) as [l|e]; [|reflexivity]. now rewrite (alike_required pv _ F).
Qed.
End Shares.

(** ** The lines between the first and the last *)
Section Body.
Variable signed : bytes -> bytes -> bytes -> bool.
Variables pv mv : Z.

(** Refused before anything is looked up. *)
Definition early (r : res server_error reply) : Prop := r = Err BadPass \/ exists n, r = Err (NewLengthRejected n).

Lemma check_late si dir v e : snd (log_check_for_lease pv si dir v) = Err e -> ~ early (Err e).
Proof.
  unfold log_check_for_lease, log_get_share_sizes. destruct (get_share_sizes _ _) as [sizes|e'].
  - cbn [snd]. unfold check_pass_quantity. destruct (required_passes _ _) as [n|x]; cbn [lift bind].
    + destruct (_ <? _); [|discriminate]. unfold raise_for. intros [= <-] [X|[m X]]; discriminate.
    + intros [= <-] [X|[m X]]; discriminate.
  - intros [= <-] [X|[m X]]; discriminate.
Qed.
Lemma price_late si dir tw now e : snd (log_writev_price pv si dir tw now) = Err e -> ~ early (Err e).
Proof.
  unfold log_writev_price, log_get_share_sizes. destruct (get_share_sizes _ _) as [sizes|e'].
  - destruct (inactive_shares _ _ _) as [l|x].
    + destruct (log_required_new_passes _ _ _) as [l1 [n|x]]; cbn [snd lift]; [discriminate|].
      intros [= <-] [X|[m X]]; discriminate.
    + intros [= <-] [X|[m X]]; discriminate.
  - intros [= <-] [X|[m X]]; discriminate.
Qed.

Lemma lease_body now room passes si renew cancel sv :
  let '(l, (r, _)) := log_add_lease signed pv now room passes si renew cancel sv in
  (l = [] /\ early r) \/ (~ early r /\ exists v, l = fst (log_check_for_lease pv si (dir_of (sv_storage sv) si) v)).
Proof.
  unfold log_add_lease. destruct (validate_passes signed _ passes) as [v|e] eqn:V.
  2:{ left. split; [reflexivity|]. left. f_equal. unfold validate_passes in V. now destruct (validate_loop_Err _ _ _ _ V). }
  assert (L := @check_late si (dir_of (sv_storage sv) si) v).
  destruct (log_check_for_lease pv si _ v) as [l [x|e]] eqn:C; cbn [snd] in L.
  - destruct (tahoe_add_lease _ _ _ _ _ _) as [[y|e] st]; right.
    + split; [intros [X|[m X]]; discriminate|]. exists v. now rewrite C.
    + split; [intros [X|[m X]]; discriminate|]. exists v. now rewrite C.
  - right. split; [exact (L e eq_refl)|]. exists v. now rewrite C.
Qed.
Lemma lease_lines si dir v v' : fst (log_check_for_lease pv si dir v) = fst (log_check_for_lease pv si dir v').
Proof. unfold log_check_for_lease, log_get_share_sizes. destruct (get_share_sizes _ _); reflexivity. Qed.

Lemma add_leases_late room si renew cancel tw now st e st' :
  add_leases_for_writev room si renew cancel tw now st = (Err e, st') -> ~ early (Err e).
Proof.
  unfold add_leases_for_writev. destruct (add_leases_loop _ _ _ _ _ _) as [r d] eqn:L. intros [= -> <-].
  revert d L. induction (dirs st si) as [|[n s] rest IH]; intros d L; cbn [add_leases_loop] in L; [discriminate|].
  assert (N : forall e' (x : tahoe_error), e' = FromTahoe x -> ~ early (Err e')).
  { intros e' x -> [X|[m X]]; discriminate. }
  destruct (dget n tw) as [v|]; [destruct (is_write v); [destruct (existsb _ _);
    [|destruct (add_or_renew_lease _ _ _ _ _ _) as [s'|x]; [|injection L as <- _; eapply N; reflexivity]]|]|];
  destruct (add_leases_loop room renew cancel tw now rest) as [r' rest']; injection L as -> _; eapply IH; reflexivity.
Qed.

Lemma writev_body now room passes si we renew cancel tw rv sv :
  let '(l, (r, _)) := log_slot_writev signed pv mv now room passes si we renew cancel tw rv sv in
  (l = [] /\ early r) \/ (~ early r /\ l = fst (log_writev_price pv si (dir_of (sv_storage sv) si) tw now)).
Proof.
  unfold log_slot_writev. destruct (first_new_length tw) as [n|]; [left; split; [reflexivity|right; eauto]|].
  destruct (validate_passes signed _ passes) as [v|e] eqn:V.
  2:{ left. split; [reflexivity|]. left. f_equal. unfold validate_passes in V. now destruct (validate_loop_Err _ _ _ _ V). }
  assert (L := @price_late si (dir_of (sv_storage sv) si) tw now).
  destruct (log_writev_price pv si _ tw now) as [l [x|e]]; cbn [fst snd] in *.
  - destruct (x >? lenZ (valid v)); [right; split; [intros [X|[m X]]; discriminate|reflexivity]|].
    destruct (tahoe_writev _ _ _ _ _ _) as [[[good read]|e] st]; [|right; split; [intros [X|[m X]]; discriminate|reflexivity]].
    destruct (add_leases_for_writev _ _ _ _ _ _ _) as [[y|e] st'] eqn:Al.
    + right. split; [intros [X|[m X]]; discriminate|reflexivity].
    + right. split; [exact (add_leases_late _ _ _ _ _ _ _ Al)|reflexivity].
  - right. split; [exact (L e eq_refl)|reflexivity].
Qed.

Lemma end_alike_early r1 r2 : end_alike r1 r2 -> early r1 -> early r2.
Proof.
  destruct r1, r2; cbn; try contradiction; intros E [X|[m X]]; try discriminate.
  - left. congruence.
  - right. exists m. congruence.
Qed.
Lemma end_alike_sym r1 r2 : end_alike r1 r2 -> end_alike r2 r1.
Proof. destruct r1, r2; cbn; auto. Qed.
Lemma end_alike_end r1 r2 : end_alike r1 r2 -> action_end r1 = action_end r2.
Proof. destruct r1, r2; cbn; try contradiction; congruence. Qed.

Lemma numbers_of_dir d : get_all_share_numbers (Some (map share_entry d)) = dkeys d.
Proof. unfold get_all_share_numbers. rewrite paths_of_dir, map_map. reflexivity. Qed.

Theorem same_log now1 now2 room1 room2 passes1 passes2 q1 q2 sv1 sv2 :
  wf_dir (dirs (sv_storage sv1) (index_of q1)) -> homogeneous (dirs (sv_storage sv1) (index_of q1)) ->
  wf_dir (dirs (sv_storage sv2) (index_of q1)) -> homogeneous (dirs (sv_storage sv2) (index_of q1)) ->
  alike q1 q2 ->
  pairwise (alike_share now1 now2) (dirs (sv_storage sv1) (index_of q1)) (dirs (sv_storage sv2) (index_of q1)) ->
  end_alike (fst (serve signed pv mv now1 room1 passes1 q1 sv1)) (fst (serve signed pv mv now2 room2 passes2 q2 sv2)) ->
  fst (log_serve signed pv mv now1 room1 passes1 q1 sv1) = fst (log_serve signed pv mv now2 room2 passes2 q2 sv2).
Proof.
  intros W1 H1 W2 H2 A P. rewrite <- !erase_serve. apply pairwise_Forall2 in P. unfold log_serve.
  destruct A as [si r1 c1 r2 c2 shs sz|si r1 c1 r2 c2|si we1 r1 c1 tw1 rv1 we2 r2 c2 tw2 rv2 A]; cbn [index_of] in *.
  - unfold log_allocate_buckets.
    destruct (remote_allocate_buckets _ _ _ _ passes1 _ _ _ _ _ _) as [x1 y1], (remote_allocate_buckets _ _ _ _ passes2 _ _ _ _ _ _) as [x2 y2].
    cbn [fst snd]. intros E. now rewrite (@end_alike_end _ _ E).
  - assert (B1 := lease_body now1 room1 passes1 si r1 c1 sv1). assert (B2 := lease_body now2 room2 passes2 si r2 c2 sv2).
    destruct (log_add_lease _ _ _ _ passes1 _ _ _ _) as [l1 [x1 y1]], (log_add_lease _ _ _ _ passes2 _ _ _ _) as [l2 [x2 y2]].
    cbn [fst snd]. intros E. rewrite (@end_alike_end _ _ E). cbn [action_start]. do 2 f_equal.
    destruct B1 as [[-> B1]|[B1 [v1 ->]]], B2 as [[-> B2]|[B2 [v2 ->]]].
    + reflexivity.
    + destruct (B2 (@end_alike_early _ _ E B1)).
    + destruct (B1 (@end_alike_early _ _ (@end_alike_sym _ _ E) B2)).
    + rewrite (lease_lines si _ v1 v2). unfold log_check_for_lease, log_get_share_sizes, dir_of.
      rewrite !numbers_of_dir, (alike_keys P), (alike_sizes W1 W2 H1 H2 P).
      destruct (get_share_sizes _ _); reflexivity.
  - apply pairwise_Forall2 in A.
    assert (B1 := writev_body now1 room1 passes1 si we1 r1 c1 tw1 rv1 sv1).
    assert (B2 := writev_body now2 room2 passes2 si we2 r2 c2 tw2 rv2 sv2).
    destruct (log_slot_writev _ _ _ _ _ passes1 _ _ _ _ _ _ _) as [l1 [x1 y1]], (log_slot_writev _ _ _ _ _ passes2 _ _ _ _ _ _ _) as [l2 [x2 y2]].
    cbn [fst snd]. intros E. rewrite (@end_alike_end _ _ E). cbn [action_start]. do 2 f_equal.
    destruct B1 as [[-> B1]|[B1 ->]], B2 as [[-> B2]|[B2 ->]].
    + reflexivity.
    + destruct (B2 (@end_alike_early _ _ E B1)).
    + destruct (B1 (@end_alike_early _ _ (@end_alike_sym _ _ E) B2)).
    + unfold dir_of. now rewrite (alike_writev_price W1 W2 H1 H2 P pv si A).
Qed.

(** ** What is logged is true *)
Lemma middle q l r x : In x ([action_start q] ++ l ++ [action_end r]) ->
  x = action_start q \/ In x l \/ x = action_end r.
Proof. rewrite !in_app_iff. cbn. intuition. Qed.

Theorem lease_sizes_true now room passes si renew cancel sv sizes :
  wf_dir (dirs (sv_storage sv) si) -> homogeneous (dirs (sv_storage sv) si) ->
  In (ShareSizes sizes) (fst (log_serve signed pv mv now room passes (AddLease si renew cancel) sv)) ->
  sizes = map (fun ns => (fst ns, data_size (snd ns))) (dirs (sv_storage sv) si).
Proof.
  intros W H. unfold log_serve. assert (B := lease_body now room passes si renew cancel sv).
  destruct (log_add_lease _ _ _ _ _ _ _ _ _) as [l [r y]]. cbn [fst]. intros I. apply middle in I.
  destruct I as [I|[I|I]]; [discriminate| |destruct r; discriminate].
  destruct B as [[-> _]|[_ [v ->]]]; [destruct I|].
  unfold log_check_for_lease, log_get_share_sizes, dir_of in I. rewrite (share_sizes_dir signed _ W H) in I.
  rewrite numbers_of_dir, wanted_all in I. cbn [fst In] in I. destruct I as [I|[I|[]]]; [discriminate|congruence].
Qed.

Theorem write_sizes_true now room passes si we renew cancel tw rv sv sizes :
  wf_dir (dirs (sv_storage sv) si) -> homogeneous (dirs (sv_storage sv) si) -> dict_wf tw ->
  In (ShareSizes sizes) (fst (log_serve signed pv mv now room passes (Writev si we renew cancel tw rv) sv)) ->
  forall n z, In (n, z) sizes <->
    (exists s, In (n, s) (dirs (sv_storage sv) si) /\ z = data_size s) /\ exists w, In (n, w) tw /\ tw_data w <> [].
Proof.
  intros W H T. unfold log_serve. assert (B := writev_body now room passes si we renew cancel tw rv sv).
  destruct (log_slot_writev _ _ _ _ _ _ _ _ _ _ _ _ _) as [l [r y]]. cbn [fst]. intros I n z. apply middle in I.
  destruct I as [I|[I|I]]; [discriminate| |destruct r; discriminate].
  destruct B as [[-> _]|[_ ->]]; [destruct I|].
  unfold log_writev_price, log_get_share_sizes, dir_of in I. rewrite (share_sizes_dir signed _ W H) in I.
  assert (E : sizes = map (fun ns => (fst ns, data_size (snd ns))) (wanted_shares (Some (get_write_sharenums tw)) (dirs (sv_storage sv) si))).
  { destruct (inactive_shares _ _ _) as [il|x].
    - unfold log_required_new_passes in I. destruct (required_passes _ _) as [a|]; [destruct (required_passes _ _) as [b|]|];
        cbn in I; intuition congruence.
    - cbn in I; intuition congruence. }
  subst sizes. clear I. rewrite in_map_iff. unfold wanted_shares. split.
  - intros ([k s] & E & I). injection E as -> <-. apply filter_In in I. destruct I as [I M]. cbn [fst] in M.
    split; [exists s; auto|]. apply memZ_In in M. apply (write_sharenums_In n T) in M. destruct M as (w & D & N).
    exists w. split; [apply dget_Some_In; exact D|exact N].
  - intros [(s & I & ->) (w & D & N)]. exists (n, s). split; [reflexivity|]. apply filter_In. split; [exact I|].
    cbn [fst wanted]. apply memZ_In. apply (write_sharenums_In n T). exists w. split; [|exact N].
    apply dget_In_wf; assumption.
Qed.

Theorem write_price_true now room passes si we renew cancel tw rv sv cur sm a new b :
  0 < pv -> wf_dir (dirs (sv_storage sv) si) -> homogeneous (dirs (sv_storage sv) si) -> dict_wf tw ->
  In (MutablePassesRequired cur sm a new b)
     (fst (log_serve signed pv mv now room passes (Writev si we renew cancel tw rv) sv)) ->
  exact_price pv (map snd cur) a /\ exact_price pv (map snd new) b /\
  price pv (sv_storage sv) now (Writev si we renew cancel tw rv) (b - a).
Proof.
  intros Hv W H T. unfold log_serve. assert (B := writev_body now room passes si we renew cancel tw rv sv).
  destruct (log_slot_writev _ _ _ _ _ _ _ _ _ _ _ _ _) as [l [r y]]. cbn [fst]. intros I. apply middle in I.
  destruct I as [I|[I|I]]; [discriminate| |destruct r; discriminate].
  destruct B as [[-> _]|[_ ->]]; [destruct I|].
  destruct (@price_exists pv (sv_storage sv) now (Writev si we renew cancel tw rv) Hv W T) as [n Pn].
  assert (E : get_writev_price pv (dir_of (sv_storage sv) si) tw now = Ok n).
  { cbn in Pn. destruct Pn as (f & g & ks & F & G & Nd & I1 & I2 & ->). apply (@writev_price_eq signed); assumption. }
  rewrite <- (@erase_price pv si) in E.
  unfold log_writev_price, log_get_share_sizes in *. destruct (get_share_sizes _ _) as [sizes|x]; [|discriminate].
  destruct (inactive_shares _ _ _) as [il|x]; [|discriminate]. unfold log_required_new_passes in *.
  destruct (required_passes pv _) as [a'|] eqn:Ea; [|discriminate].
  destruct (required_passes pv (dvalues (updated_sizes _ _))) as [b'|] eqn:Eb; [|discriminate].
  cbn in I. destruct I as [I|[I|[I|[]]]]; try discriminate. injection I as <- _ <- <- <-.
  cbn in E. injection E as <-. split; [apply required_passes_exact; assumption|]. split; [apply required_passes_exact; assumption|]. exact Pn.
Qed.

Theorem accepted_write_logged now room passes si we renew cancel tw rv sv x :
  fst (serve signed pv mv now room passes (Writev si we renew cancel tw rv) sv) = Ok x ->
  exists cur a new b, In (MutablePassesRequired cur (summarize tw) a new b)
     (fst (log_serve signed pv mv now room passes (Writev si we renew cancel tw rv) sv)).
Proof.
  rewrite <- erase_serve. unfold log_serve. unfold log_slot_writev. destruct (first_new_length tw); [discriminate|].
  destruct (validate_passes _ _ _) as [v|e]; [|discriminate].
  destruct (log_writev_price _ _ _ _ _) as [l [n|e]] eqn:L; [|discriminate].
  intros _.
  assert (E : exists cur a new b, In (MutablePassesRequired cur (summarize tw) a new b) l).
  { unfold log_writev_price, log_get_share_sizes in L. destruct (get_share_sizes _ _) as [sizes|x']; [|discriminate].
    destruct (inactive_shares _ _ _) as [il|x']; [|discriminate]. unfold log_required_new_passes in *.
    destruct (required_passes pv _) as [a'|] eqn:Ea; [|discriminate].
    destruct (required_passes pv (dvalues (updated_sizes _ _))) as [b'|] eqn:Eb; [|discriminate].
    injection L as <- _. do 4 eexists. right. right. left. reflexivity. }
  destruct E as (cur & a & new & b & E). exists cur, a, new, b.
  destruct (n >? lenZ (valid v)); [cbn; right; apply in_or_app; left; exact E|].
  destruct (tahoe_writev _ _ _ _ _ _) as [[[good read]|e] st]; [|cbn; right; apply in_or_app; left; exact E].
  destruct (add_leases_for_writev _ _ _ _ _ _ _) as [[y|e] st']; cbn; right; apply in_or_app; left; exact E.
Qed.

Lemma pairwise_map A B (R : A -> B -> Prop) (f : B -> A) l : (forall x, R (f x) x) -> pairwise R (map f l) l.
Proof.
  intros H. split; [apply map_length|]. intros i x y X Y. rewrite nth_error_map, Y in X. injection X as <-. apply H.
Qed.
Lemma summarize_describes tw : pairwise describes (summarize tw) tw.
Proof.
  apply pairwise_map. intros [k v]. repeat split; cbn [fst snd sm_test sm_data]; try apply map_length.
  - destruct (@pairwise_map _ _ (fun (x : Z * Z * Z) (y : Z * Z * bytes) => fst x = fst y /\ snd x = Z.of_nat (length (snd y)))
      (fun '(offset, length, specimen) => (offset, length, lenZ specimen)) (tw_test v)) as [_ P]; [intros [[o l] s]; split; reflexivity|].
    eapply P; eassumption.
  - destruct (@pairwise_map _ _ (fun (x : Z * Z * Z) (y : Z * Z * bytes) => fst x = fst y /\ snd x = Z.of_nat (length (snd y)))
      (fun '(offset, length, specimen) => (offset, length, lenZ specimen)) (tw_test v)) as [_ P]; [intros [[o l] s]; split; reflexivity|].
    eapply P; eassumption.
  - destruct (@pairwise_map _ _ (fun (x : Z * Z) (y : Z * bytes) => fst x = fst y /\ snd x = Z.of_nat (length (snd y)))
      (fun '(offset, data) => (offset, lenZ data)) (tw_data v)) as [_ P]; [intros [o s]; split; reflexivity|].
    eapply P; eassumption.
  - destruct (@pairwise_map _ _ (fun (x : Z * Z) (y : Z * bytes) => fst x = fst y /\ snd x = Z.of_nat (length (snd y)))
      (fun '(offset, data) => (offset, lenZ data)) (tw_data v)) as [_ P]; [intros [o s]; split; reflexivity|].
    eapply P; eassumption.
Qed.
Theorem summary_true now room passes si we renew cancel tw rv sv cur sm a new b :
  In (MutablePassesRequired cur sm a new b)
     (fst (log_serve signed pv mv now room passes (Writev si we renew cancel tw rv) sv)) ->
  pairwise describes sm tw.
Proof.
  unfold log_serve. assert (B := writev_body now room passes si we renew cancel tw rv sv).
  destruct (log_slot_writev _ _ _ _ _ _ _ _ _ _ _ _ _) as [l [r y]]. cbn [fst]. intros I. apply middle in I.
  destruct I as [I|[I|I]]; [discriminate| |destruct r; discriminate].
  destruct B as [[-> _]|[_ ->]]; [destruct I|].
  assert (E : sm = summarize tw); [|subst; apply summarize_describes].
  unfold log_writev_price, log_get_share_sizes in I. destruct (get_share_sizes _ _) as [sizes|x]; [|cbn in I; intuition discriminate].
  destruct (inactive_shares _ _ _) as [il|x]; [|cbn in I; intuition discriminate]. unfold log_required_new_passes in *.
  destruct (required_passes pv _) as [a'|]; [destruct (required_passes pv _) as [b'|]|];
    cbn in I; intuition congruence.
Qed.
End Body.
