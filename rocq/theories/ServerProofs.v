(** Lemmas about the server model. *)
From Verif Require Import Prelude PreludeFacts BytesModel BytesProofs PassModel PricingModel PricingSpec PricingProofs
  ContainerModel ContainerProofs TahoeModel ServerModel ServerSpec.
Set Implicit Arguments.

(** ** Passes *)

Lemma from_bytes_split a b : ~ In x20 a -> ~ In x20 b ->
  from_bytes (a ++ x20 :: b) = make_pass a b.
Proof.
  intros A B. unfold from_bytes. rewrite split_on_app by exact A. rewrite split_on_nosep by exact B. reflexivity.
Qed.

Lemma from_bytes_wf s :
  well_formed s -> from_bytes s = Some (Pass (preimage_of s) (signature_of s)).
Proof.
  intros (a & b & -> & La & Lb & A & B). rewrite from_bytes_split by assumption.
  unfold make_pass, base64_bytes, preimage_of, signature_of. rewrite La, Lb. cbn [Nat.eqb andb].
  rewrite firstn_app_exact by exact La.
  change (a ++ x20 :: b) with (a ++ [x20] ++ b). rewrite app_assoc, skipn_app_exact; [reflexivity|].
  rewrite app_length, La. reflexivity.
Qed.

Lemma from_bytes_Some s p : from_bytes s = Some p -> well_formed s.
Proof.
  unfold from_bytes. destruct (split_on x20 s) as [|a [|b [|c l]]] eqn:E; try discriminate.
  unfold make_pass, base64_bytes. destruct (Nat.eqb_spec (length a) 88), (Nat.eqb_spec (length b) 88); try discriminate.
  intros _. exists a, b. repeat split; auto.
  - apply split_on_two. exact E.
  - apply (split_on_parts x20 s). rewrite E. left; reflexivity.
  - apply (split_on_parts x20 s). rewrite E. right; left; reflexivity.
Qed.

Section Server.
Variable signed : bytes -> bytes -> bytes -> bool.
Variable pass_value : Z.
Variables iv mv : Z.
Notation serve := (serve signed pass_value mv).
Notation verifies := (verifies signed).
Notation verified := (verified signed).

Fixpoint failed_from (ok : bytes -> bool) (idx : Z) (passes : list bytes) : list Z :=
  match passes with
  | [] => []
  | s :: rest => if ok s then failed_from ok (idx + 1) rest else idx :: failed_from ok (idx + 1) rest
  end.

Lemma validate_loop_wf q passes : forall idx,
  (forall s, In s passes -> well_formed s) ->
  validate_loop signed (make_message (kind_of q) (index_of q)) idx passes
  = Ok (Validation (verified q passes) (failed_from (verifies q) idx passes)).
Proof.
  induction passes as [|s passes IH]; intros idx W; [reflexivity|].
  cbn [validate_loop]. rewrite from_bytes_wf by (apply W; left; reflexivity).
  rewrite IH by (intros; apply W; right; assumption). cbn [bind].
  unfold verified, is_invalid_pass. cbn [p_preimage p_signature filter map failed_from valid signature_check_failed].
  unfold ServerSpec.verified. cbn [filter].
  fold (verifies q s). destruct (verifies q s); reflexivity.
Qed.

Lemma validate_loop_Ok msg passes : forall idx v,
  validate_loop signed msg idx passes = Ok v -> forall s, In s passes -> well_formed s.
Proof.
  induction passes as [|s passes IH]; intros idx v H s' I; [destruct I|].
  cbn in H. destruct (from_bytes s) as [p|] eqn:F; [|discriminate].
  destruct (validate_loop signed msg (idx + 1) passes) as [v'|] eqn:E; [|discriminate].
  destruct I as [<-|I]; [eapply from_bytes_Some; exact F|eapply IH; eauto].
Qed.

Lemma validate_loop_Err msg passes : forall idx e,
  validate_loop signed msg idx passes = Err e -> e = BadPass /\ exists s, In s passes /\ ~ well_formed s.
Proof.
  induction passes as [|s passes IH]; intros idx e H; [discriminate|].
  cbn in H. destruct (from_bytes s) as [p|] eqn:F.
  - destruct (validate_loop signed msg (idx + 1) passes) as [v'|] eqn:E; [discriminate|].
    injection H as <-. destruct (IH _ _ E) as [-> (x & I & W)]. split; [reflexivity|]. exists x. split; [right; exact I|exact W].
  - injection H as <-. split; [reflexivity|]. exists s. split; [left; reflexivity|].
    intros W. rewrite (from_bytes_wf W) in F. discriminate.
Qed.

(** Either every pass is well formed and the outcome is the specified one, or
    some pass is not and the request fails. *)
Lemma validate_cases q passes :
  ((forall s, In s passes -> well_formed s) /\
   validate_passes signed (make_message (kind_of q) (index_of q)) passes
   = Ok (Validation (verified q passes) (failed_from (verifies q) 0 passes))) \/
  ((exists s, In s passes /\ ~ well_formed s) /\
   validate_passes signed (make_message (kind_of q) (index_of q)) passes = Err BadPass).
Proof.
  unfold validate_passes.
  destruct (validate_loop signed (make_message (kind_of q) (index_of q)) 0 passes) as [v|e] eqn:E.
  - left. pose proof (validate_loop_Ok _ _ _ E) as W. split; [exact W|]. rewrite validate_loop_wf in E by exact W.
    symmetry. exact E.
  - right. destruct (validate_loop_Err _ _ _ E) as [-> X]. split; [exact X|reflexivity].
Qed.

Lemma failed_from_In ok passes : forall idx i, 0 <= idx ->
  (In i (failed_from ok idx passes) <->
   idx <= i /\ exists s, nth_error passes (Z.to_nat (i - idx)) = Some s /\ ok s = false).
Proof.
  induction passes as [|s passes IH]; intros idx i Hi; cbn [failed_from].
  - split; [intros []|]. intros (_ & s & H & _). destruct (Z.to_nat (i - idx)); discriminate.
  - assert (Step : (idx + 1 <= i /\ exists x, nth_error passes (Z.to_nat (i - (idx + 1))) = Some x /\ ok x = false)
            <-> (idx < i /\ exists x, nth_error (s :: passes) (Z.to_nat (i - idx)) = Some x /\ ok x = false)).
    { split; intros (L & x & N & O); (split; [lia|exists x; split; [|exact O]]).
      - replace (Z.to_nat (i - idx)) with (S (Z.to_nat (i - (idx + 1)))) by lia. exact N.
      - replace (Z.to_nat (i - idx)) with (S (Z.to_nat (i - (idx + 1)))) in N by lia. exact N. }
    destruct (ok s) eqn:O; cbn [In]; rewrite IH by lia; rewrite Step.
    + split.
      * intros (L & X). split; [lia|exact X].
      * intros (L & x & N & X). split; [|eauto].
        destruct (Z.eq_dec idx i) as [->|]; [|lia].
        rewrite Z.sub_diag in N. cbn in N. congruence.
    + split.
      * intros [->|(L & X)]; [|split; [lia|exact X]]. split; [lia|]. exists s. rewrite Z.sub_diag. auto.
      * intros (L & X). destruct (Z.eq_dec idx i) as [->|]; [left; reflexivity|right]. split; [lia|exact X].
Qed.

Lemma failed_from_nodup ok passes : forall idx, 0 <= idx -> NoDup (failed_from ok idx passes).
Proof.
  induction passes as [|s passes IH]; intros idx Hi; cbn; [constructor|].
  destruct (ok s); [apply IH; lia|]. constructor; [|apply IH; lia].
  rewrite failed_from_In by lia. lia.
Qed.

Lemma failed_from_spec q passes : failed_positions signed q passes (failed_from (verifies q) 0 passes).
Proof.
  split; [apply failed_from_nodup; lia|]. intros i. rewrite failed_from_In by lia.
  rewrite Z.sub_0_r. reflexivity.
Qed.

(** ** Directories *)

Lemma paths_of_dir d :
  get_all_share_paths (Some (map share_entry d)) = map (fun ns => (fst ns, share_entry ns)) d.
Proof.
  cbn. induction d as [|[n s] d IH]; cbn; [reflexivity|]. rewrite py_int_dec. rewrite IH. reflexivity.
Qed.

Lemma flat_map_length A (f : A -> bytes) k l :
  (forall x, length (f x) = k) -> length (flat_map f l) = (k * length l)%nat.
Proof. intros H. induction l as [|x l IH]; cbn; [lia|]. rewrite app_length, H, IH. lia. Qed.

Lemma immutable_lease_length l : length (immutable_lease l) = 72%nat.
Proof. unfold immutable_lease. rewrite !app_length, !be_length, !pack_s_length. reflexivity. Qed.

Definition stat_of (s : share) : share_stat :=
  ShareStat (data_size s)
    (or_0 (match map l_expiration (s_leases s) with [] => None | x :: l => Some (fold_left Z.max l x) end)).

Lemma MAX_SIZE_small : MAX_SIZE < 2 ^ 64.
Proof. reflexivity. Qed.

Lemma share_file_stat n s : wf_share s ->
  (is_mutable s = true -> get_stat (share_entry (n, s)) = Ok stat_slot /\ stat_slot (share_entry (n, s)) = Ok (stat_of s)) /\
  (is_mutable s = false -> get_stat (share_entry (n, s)) = Ok stat_bucket /\ stat_bucket (share_entry (n, s)) = Ok (stat_of s)).
Proof.
  intros [L W]. destruct s as [c data ls]. unfold is_mutable, share_entry, share_file, stat_of, data_size in *.
  cbn [s_container s_data s_leases fst snd] in *. split; intros M; destruct c as [v|v we]; try discriminate.
  - destruct W as [V Sz]. split; [apply get_stat_mutable; exact V|].
    unfold stat_slot. cbn [e_file]. rewrite mutable_size by (pose proof MAX_SIZE_small; lia). reflexivity.
  - destruct W as [V N]. split.
    + apply get_stat_immutable; [exact V|]. rewrite (flat_map_length _ _ immutable_lease_length).
      destruct ls; [congruence|cbn; lia].
    + unfold stat_bucket. cbn [e_file]. rewrite immutable_size; [reflexivity|exact V|unfold lenZ; lia|].
      rewrite (flat_map_length _ _ immutable_lease_length). unfold lenZ. lia.
Qed.

Lemma is_mutable_spec s : is_mutable s = true <-> mutable s.
Proof.
  unfold is_mutable, mutable. destruct (s_container s) as [v|v we]; split; intros H; try discriminate; eauto.
  destruct H as (? & ? & ?); discriminate.
Qed.

Definition wanted_shares (sharenums : option (list Z)) (d : dict share) : dict share :=
  filter (fun ns => wanted sharenums (fst ns)) d.

Lemma share_stats_dir sharenums d : wf_dir d -> homogeneous d ->
  get_share_stats (Some (map share_entry d)) sharenums
  = Ok (map (fun ns => (fst ns, stat_of (snd ns))) (wanted_shares sharenums d)).
Proof.
  intros [_ W] H. set (st := match d with (_, s) :: _ => if is_mutable s then stat_slot else stat_bucket | [] => stat_slot end).
  assert (G : forall n s, In (n, s) d -> get_stat (share_entry (n, s)) = Ok st /\ st (share_entry (n, s)) = Ok (stat_of s)).
  { intros n s I. destruct (share_file_stat n (W _ _ I)) as [A B]. subst st. destruct d as [|[n0 s0] d]; [destruct I|].
    destruct H as [H|H].
    - assert (E0 : is_mutable s0 = true) by (apply is_mutable_spec; eapply H; left; reflexivity).
      rewrite E0. apply A. apply is_mutable_spec. eapply H. exact I.
    - assert (E : forall n1 s1, In (n1, s1) ((n0, s0) :: d) -> is_mutable s1 = false).
      { intros n1 s1 I1. destruct (is_mutable s1) eqn:X; [|reflexivity].
        apply is_mutable_spec in X. exfalso. eapply H; eauto. }
      rewrite (E n0 s0) by (left; reflexivity). apply B. eapply E. exact I. }
  unfold get_share_stats. rewrite paths_of_dir. clearbody st. clear W H.
  assert (L : share_stats_loop (Some st) (map (fun ns => (fst ns, share_entry ns)) d) sharenums
              = Ok (map (fun ns => (fst ns, stat_of (snd ns))) (wanted_shares sharenums d))).
  { induction d as [|[n s] d IH]; cbn; [reflexivity|].
    assert (IH' := IH (fun n' s' I => G n' s' (or_intror I))).
    destruct (G n s (or_introl eq_refl)) as [_ E].
    destruct (wanted sharenums n); [|exact IH']. rewrite E. cbn. rewrite IH'. reflexivity. }
  destruct d as [|[n s] d]; [reflexivity|]. rewrite <- L. cbn [map share_stats_loop fst].
  destruct (G n s (or_introl eq_refl)) as [-> _]. reflexivity.
Qed.

Lemma share_sizes_dir sharenums d : wf_dir d -> homogeneous d ->
  get_share_sizes (Some (map share_entry d)) sharenums
  = Ok (map (fun ns => (fst ns, data_size (snd ns))) (wanted_shares sharenums d)).
Proof.
  intros W H. unfold get_share_sizes. rewrite share_stats_dir by assumption. cbn. rewrite map_map. reflexivity.
Qed.

Lemma wanted_all d : wanted_shares (Some (dkeys d)) d = d.
Proof.
  unfold wanted_shares. assert (G : forall l, incl (dkeys d) l -> filter (fun ns => wanted (Some l) (fst ns)) d = d).
  { induction d as [|[n s] d IH]; intros l I; cbn; [reflexivity|].
    assert (M : memZ n l = true) by (apply memZ_In, I; left; reflexivity).
    rewrite M. f_equal. apply IH. intros x X. apply I. right. exact X. }
  apply G. intros x X; exact X.
Qed.

Lemma keys_map_snd V W (f : V -> W) (d : dict V) : map fst (map (fun ns => (fst ns, f (snd ns))) d) = dkeys d.
Proof. rewrite map_map. reflexivity. Qed.

Lemma NoDup_filter_keys V (p : Z * V -> bool) (d : dict V) : dict_wf d -> dict_wf (filter p d).
Proof.
  unfold dict_wf, dkeys. induction d as [|x d IH]; cbn; intros N; [constructor|].
  inversion N as [|? ? N1 N2]; subst. destruct (p x); [|auto]. cbn. constructor; [|auto].
  intros I. apply N1. apply in_map_iff in I. destruct I as (y & <- & I). apply filter_In in I.
  apply in_map. apply I.
Qed.

Lemma lease_check_eq d v : wf_dir d -> homogeneous d ->
  check_pass_quantity_for_lease pass_value (Some (map share_entry d)) v
  = (_ <- check_pass_quantity pass_value v (map (fun ns => data_size (snd ns)) d) ;;
     Ok (map (fun ns => (fst ns, data_size (snd ns))) d)).
Proof.
  intros W H. unfold check_pass_quantity_for_lease.
  rewrite share_sizes_dir by assumption. cbn [lift bind].
  unfold get_all_share_numbers. rewrite paths_of_dir, map_map. cbn [fst].
  change (map (fun x => fst x) d) with (dkeys d). rewrite wanted_all.
  rewrite dict_of_id by (rewrite keys_map_snd; apply W). unfold dvalues. rewrite map_map. reflexivity.
Qed.

(** ** The price of a write *)

Definition activeb (now : Z) (s : share) : bool :=
  existsb (fun l => l_expiration l * hz >? now) (s_leases s).

Lemma activeb_spec now s : activeb now s = true <-> active now s.
Proof.
  unfold activeb, active. rewrite existsb_exists. split; intros (l & I & E); exists l; split; auto; lia.
Qed.

Lemma find_entry d n s : dict_wf d -> In (n, s) d ->
  get_share_path (Some (map share_entry d)) n = Ok (share_entry (n, s)).
Proof.
  unfold get_share_path, dict_wf, dkeys. induction d as [|[m t] d IH]; cbn -[dec share_entry]; intros N I; [destruct I|].
  inversion N as [|? ? N1 N2]; subst. unfold share_entry at 1. cbn [e_name fst].
  destruct (bytes_eqb_spec (dec m) (dec n)) as [E|E].
  - apply dec_inj in E. subst m. destruct I as [[= ->]|I]; [reflexivity|].
    exfalso. apply N1. apply in_map_iff. exists (n, s). auto.
  - destruct I as [[= -> ->]|I]; [congruence|]. apply IH; assumption.
Qed.

Lemma active_dir d n s now : dict_wf d -> In (n, s) d ->
  share_has_active_leases (Some (map share_entry d)) n now = Ok (activeb now s).
Proof.
  intros W I. unfold share_has_active_leases. rewrite (find_entry n s W I). cbn. f_equal.
  unfold activeb. induction (s_leases s) as [|l ls IH]; cbn; [reflexivity|]. rewrite IH. reflexivity.
Qed.

Definition find_share (d : dict share) (n : Z) : option share := dget n d.

Definition paid (d : dict share) (now n : Z) : Z :=
  match dget n d with
  | Some s => if activeb now s then data_size s else 0
  | None => 0
  end.

Lemma paid_spec d now n : dict_wf d -> paid_size d now n (paid d now n).
Proof.
  intros W. unfold paid_size, paid. destruct (dget n d) as [s|] eqn:E.
  - destruct (activeb now s) eqn:A.
    + left. exists s. split; [apply dget_Some_In; exact E|]. split; [apply activeb_spec; exact A|reflexivity].
    + right. split; [|reflexivity]. intros s' I. rewrite (dget_In_wf _ _ W I) in E. injection E as ->.
      rewrite <- activeb_spec. congruence.
  - right. split; [|reflexivity]. intros s I. rewrite (dget_In_wf _ _ W I) in E. discriminate.
Qed.

Lemma paid_unique d now n x : dict_wf d -> paid_size d now n x -> x = paid d now n.
Proof.
  intros W H. unfold paid_size, paid in *. destruct H as [(s & I & A & ->)|[N ->]].
  - rewrite (dget_In_wf _ _ W I). apply activeb_spec in A. rewrite A. reflexivity.
  - destruct (dget n d) as [s|] eqn:E; [|reflexivity]. destruct (activeb now s) eqn:A; [|reflexivity].
    exfalso. apply (N s); [apply dget_Some_In; exact E|]. apply activeb_spec. exact A.
Qed.

Lemma paid_nonneg d now n : 0 <= paid d now n.
Proof. unfold paid, data_size. destruct (dget n d) as [s|]; [destruct (activeb now s)|]; lia. Qed.

Lemma inactive_dir d now : dict_wf d -> forall ks, incl ks (dkeys d) ->
  exists l, inactive_shares (Some (map share_entry d)) now ks = Ok l /\
    forall k, In k l <-> In k ks /\ exists s, dget k d = Some s /\ activeb now s = false.
Proof.
  intros W. induction ks as [|k ks IH]; intros I.
  - exists []. split; [reflexivity|]. intros k; split; [intros []|intros [[] _]].
  - destruct IH as (l & E & H); [intros x X; apply I; right; exact X|].
    assert (K : In k (dkeys d)) by (apply I; left; reflexivity). unfold dkeys in K.
    apply in_map_iff in K. destruct K as [[k' s] [K1 K2]]. cbn in K1. subst k'.
    exists (if activeb now s then l else k :: l). cbn. rewrite (active_dir k s now W K2). cbn. rewrite E. cbn.
    split; [reflexivity|]. intros x. assert (G := dget_In_wf _ _ W K2).
    destruct (activeb now s) eqn:A; cbn; rewrite H; split.
    + intros [X Y]; auto.
    + intros [[->|X] (s' & Y & Z)]; [congruence|]. split; eauto.
    + intros [->|[X Y]]; [|auto]. split; eauto.
    + intros [[->|X] Y]; auto.
Qed.

Lemma zeroed_get l : forall d k, dget k (fold_left (fun d k => dset k 0 d) l d)
  = if memZ k l then Some 0 else dget k d.
Proof.
  induction l as [|x l IH]; intros d k; cbn; [reflexivity|]. rewrite IH, dget_dset.
  change (existsb (Z.eqb k) l) with (memZ k l).
  destruct (Z.eqb_spec k x) as [->|N]; cbn; [destruct (memZ x l); reflexivity|reflexivity].
Qed.

Lemma zeroed_wf l : forall d : dict Z, dict_wf d -> dict_wf (fold_left (fun d k => dset k 0 d) l d).
Proof. induction l as [|x l IH]; intros d W; cbn; [exact W|]. apply IH, dset_wf, W. Qed.

Lemma dget_map V W (f : V -> W) (d : dict V) k :
  dget k (map (fun ns => (fst ns, f (snd ns))) d) = option_map f (dget k d).
Proof. induction d as [|[n v] d IH]; cbn; [reflexivity|]. destruct (k =? n); [reflexivity|exact IH]. Qed.

Lemma dget_filter_key V (p : Z -> bool) (d : dict V) k :
  dget k (filter (fun ns => p (fst ns)) d) = if p k then dget k d else None.
Proof.
  induction d as [|[n v] d IH]; cbn; [destruct (p k); reflexivity|].
  destruct (p n) eqn:P; cbn; destruct (Z.eqb_spec k n) as [->|N]; rewrite ?P; auto.
  rewrite IH, P. reflexivity.
Qed.

Lemma write_sharenums_In tw k : dict_wf tw ->
  (In k (get_write_sharenums tw) <-> exists w, dget k tw = Some w /\ tw_data w <> []).
Proof.
  intros W. unfold get_write_sharenums. rewrite in_map_iff. split.
  - intros [[k' w] [E I]]. cbn in E. subst k'. apply filter_In in I. destruct I as [I N].
    exists w. split; [apply dget_In_wf; assumption|]. intros E. rewrite E in N. discriminate.
  - intros (w & E & N). exists (k, w). split; [reflexivity|]. apply filter_In. split; [apply dget_Some_In; exact E|].
    destruct (tw_data w); [congruence|reflexivity].
Qed.

(** A share that is not written does not count in the price. *)
Lemma written_unwritten f g tw k : (forall k, 0 <= f k) -> written f tw g ->
  (forall w, dget k tw = Some w -> tw_data w = []) -> g k = f k.
Proof.
  intros P H N. specialize (H k). destruct (dget k tw) as [w|] eqn:E; [|exact H].
  destruct H as (e & We & ->). rewrite (N w eq_refl) in We.
  destruct We as [[_ ->]|[(o & d & [] & _) _]]. specialize (P k). destruct (tw_new_length w); lia.
Qed.

Lemma size_after_fun b w x y : size_after b w x -> size_after b w y -> x = y.
Proof.
  destruct w as [w|]; cbn; [|congruence]. intros (e & E & ->) (e' & E' & ->).
  rewrite (write_end_unique E E'). reflexivity.
Qed.

Lemma writev_price_eq d tw now f g ks : 0 < pass_value -> wf_dir d -> homogeneous d -> dict_wf tw ->
  (forall k, paid_size d now k (f k)) -> written f tw g ->
  NoDup ks -> incl (dkeys d) ks -> incl (dkeys tw) ks ->
  get_writev_price pass_value (Some (map share_entry d)) tw now
  = Ok (total_price pass_value ks g - total_price pass_value ks f).
Proof.
  intros Hv Wd H Wt F G N I1 I2. assert (W := proj1 Wd).
  assert (Fp : forall k, 0 <= f k) by (intros k; rewrite (paid_unique W (F k)); apply paid_nonneg).
  unfold get_writev_price. rewrite share_sizes_dir by assumption. cbn [lift bind].
  set (ws := get_write_sharenums tw).
  rewrite dict_of_id by (rewrite keys_map_snd; apply NoDup_filter_keys; exact W).
  set (cur := map (fun ns => (fst ns, data_size (snd ns))) (wanted_shares (Some ws) d)).
  assert (Cw : dict_wf cur) by (unfold cur, dict_wf, dkeys; rewrite keys_map_snd; apply NoDup_filter_keys; exact W).
  assert (Cg : forall k, dget k cur = if memZ k ws then option_map data_size (dget k d) else None).
  { intros k. unfold cur. rewrite dget_map. unfold wanted_shares. rewrite (dget_filter_key (wanted (Some ws))).
    cbn. destruct (memZ k ws); reflexivity. }
  assert (Ci : incl (dkeys cur) (dkeys d)).
  { intros k K. apply memZ_In in K. destruct (memZ k (dkeys d)) eqn:M; [apply memZ_In; exact M|].
    apply memZ_not_In, dget_None in M. specialize (Cg k). rewrite M in Cg. cbn in Cg.
    assert (X : dget k cur = None) by (rewrite Cg; destruct (memZ k ws); reflexivity).
    apply dget_None in X. apply memZ_In in K. contradiction. }
  destruct (inactive_dir now W Ci) as (l & E & L). rewrite E. cbn [lift bind].
  set (cur' := fold_left (fun (d : dict Z) k => dset k 0 d) l cur).
  set (f' := fun k => if memZ k ws then f k else 0).
  assert (R : represents cur' f').
  { split; [apply zeroed_wf; exact Cw|]. intros k. unfold dget_or, cur'. rewrite zeroed_get.
    unfold f'. rewrite (paid_unique W (F k)). unfold paid.
    destruct (memZ k l) eqn:M.
    - apply memZ_In, L in M. destruct M as (_ & s & -> & ->). destruct (memZ k ws); reflexivity.
    - rewrite Cg. destruct (memZ k ws) eqn:Mw; [|reflexivity]. destruct (dget k d) as [s|] eqn:D; cbn; [|reflexivity].
      destruct (activeb now s) eqn:A; [reflexivity|]. exfalso. apply memZ_not_In in M. apply M. apply L.
      split; [|eauto]. apply memZ_In. destruct (memZ k (dkeys cur)) eqn:K; [reflexivity|].
      apply memZ_not_In, dget_None in K. rewrite Cg, Mw, D in K. discriminate. }
  assert (Unw : forall k, memZ k ws = false -> forall w, dget k tw = Some w -> tw_data w = []).
  { intros k M w D. apply memZ_not_In in M. destruct (tw_data w) eqn:X; [reflexivity|].
    exfalso. apply M. apply (write_sharenums_In k Wt). exists w. split; [exact D|congruence]. }
  set (g' := fun k => if memZ k ws then g k else 0).
  assert (G' : written f' tw g').
  { intros k. unfold f', g'. destruct (memZ k ws) eqn:M; [apply G|].
    specialize (Unw k M). destruct (dget k tw) as [w|]; cbn; [|reflexivity].
    exists 0. rewrite (Unw w eq_refl). split; [left; auto|]. destruct (tw_new_length w); lia. }
  erewrite (@mutable_price_growth pass_value cur' tw f' g' ks Hv Wt R); [|intros k; unfold f'; destruct (memZ k ws); [apply Fp|lia]|exact G'|exact N| |exact I2].
  2:{ intros k K. apply I1. apply Ci. destruct (memZ k (dkeys cur)) eqn:M; [apply memZ_In; exact M|].
      exfalso. apply memZ_not_In, dget_None in M.
      assert (X : dget k cur' = None); [|apply dget_None in X; contradiction].
      unfold cur'. rewrite zeroed_get. destruct (memZ k l) eqn:Ml; [|exact M].
      apply memZ_In, L in Ml. destruct Ml as [Ml _]. apply dget_None in M. contradiction. }
  cbn. f_equal. rewrite sumZ_map_sub. unfold total_price. rewrite <- !sumZ_map_sub. apply sumZ_map_ext.
  intros k _. unfold f', g'. destruct (memZ k ws) eqn:M; [reflexivity|].
  rewrite (written_unwritten _ Fp G (Unw k M)). rewrite cdiv_0 by exact Hv. lia.
Qed.
End Server.
