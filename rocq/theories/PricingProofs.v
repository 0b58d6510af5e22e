(** Proofs about the pricing model. *)
From Verif Require Import Prelude PreludeFacts PricingModel PricingSpec.
Ltac Zify.zify_post_hook ::= Z.div_mod_to_equations.
Set Implicit Arguments.

Lemma cdiv_least v s : 0 < v -> least_cover v s (cdiv s v).
Proof.
  intros Hv; unfold least_cover, cdiv.
  pose proof (Z.div_mod (- s) v ltac:(lia)) as E.
  pose proof (Z.mod_pos_bound (- s) v Hv) as B.
  set (q := - s / v) in *. clearbody q. set (r := (- s) mod v) in *. clearbody r.
  split; [nia|]. intros m Hm. nia.
Qed.

Lemma least_cover_unique v s n m : least_cover v s n -> least_cover v s m -> n = m.
Proof. intros [A B] [C D]. specialize (B _ C). specialize (D _ A). lia. Qed.

Lemma divmod_cdiv v x : 0 < v -> x / v + (if x mod v >? 0 then 1 else 0) = cdiv x v.
Proof.
  intros Hv. apply (@least_cover_unique v x); [|apply cdiv_least; exact Hv].
  pose proof (Z.div_mod x v ltac:(lia)) as E.
  pose proof (Z.mod_pos_bound x v Hv) as B.
  set (q := x / v) in *. clearbody q. set (r := x mod v) in *. clearbody r.
  unfold least_cover. destruct (Z.gtb_spec r 0); split; try (intros m Hm); nia.
Qed.

Lemma cdiv_mono v a b : 0 < v -> a <= b -> cdiv a v <= cdiv b v.
Proof.
  intros Hv H. destruct (@cdiv_least v a Hv) as [_ L]. apply L.
  destruct (@cdiv_least v b Hv) as [U _]. lia.
Qed.

Lemma cdiv_anti v w a : 0 < v -> v <= w -> 0 <= a -> cdiv a w <= cdiv a v.
Proof.
  intros Hv H Ha. destruct (@cdiv_least w a ltac:(lia)) as [_ L]. apply L.
  destruct (@cdiv_least v a Hv) as [U _].
  assert (0 <= cdiv a v) by nia. nia.
Qed.

Lemma cdiv_nonneg v a : 0 < v -> 0 <= a -> 0 <= cdiv a v.
Proof. intros Hv Ha. destruct (@cdiv_least v a Hv) as [U _]. nia. Qed.

Lemma cdiv_0 v : 0 < v -> cdiv 0 v = 0.
Proof.
  intros; unfold cdiv; cbn [Z.opp]. destruct v; try lia; reflexivity.
Qed.

Lemma cdiv_zero_iff v a : 0 < v -> 0 <= a -> (cdiv a v = 0 <-> a = 0).
Proof.
  intros Hv Ha; split; [intros H|intros ->; apply cdiv_0; exact Hv].
  destruct (@cdiv_least v a Hv) as [U _]. rewrite H in U. lia.
Qed.

Lemma required_passes_loop_pos v acc sizes :
  0 < v -> required_passes_loop v acc sizes = Ok (acc + sumZ (map (fun s => cdiv s v) sizes)).
Proof.
  intros Hv; revert acc; induction sizes as [|x l IH]; intros acc; cbn -[Z.add].
  - f_equal; lia.
  - unfold divmod; destruct (Z.eqb_spec v 0) as [->|_]; [lia|]. cbn -[Z.add].
    rewrite IH. f_equal. rewrite <- (@divmod_cdiv v x Hv).
    destruct (x mod v >? 0); lia.
Qed.

Lemma required_passes_pos v sizes :
  0 < v -> required_passes v sizes = Ok (sumZ (map (fun s => cdiv s v) sizes)).
Proof. intros Hv; unfold required_passes; rewrite required_passes_loop_pos by exact Hv. f_equal; lia. Qed.

Lemma required_passes_zero x sizes : required_passes 0 (x :: sizes) = Err ZeroDivision.
Proof. reflexivity. Qed.

Lemma exact_price_sum v sizes : 0 < v -> exact_price v sizes (sumZ (map (fun s => cdiv s v) sizes)).
Proof.
  intros Hv; induction sizes as [|x l IH]; cbn; constructor; [apply cdiv_least; exact Hv|exact IH].
Qed.

Lemma exact_price_unique v sizes n m : exact_price v sizes n -> exact_price v sizes m -> n = m.
Proof.
  intros H; revert m; induction H as [|s n rest m L _ IH]; intros p Hp; inversion Hp as [|? ? ? ? L' H']; subst; [reflexivity|].
  rewrite (least_cover_unique L L'). rewrite (IH _ H'). reflexivity.
Qed.

Lemma required_passes_exact v sizes n :
  0 < v -> (required_passes v sizes = Ok n <-> exact_price v sizes n).
Proof.
  intros Hv; rewrite required_passes_pos by exact Hv. split.
  - intros [= <-]; apply exact_price_sum; exact Hv.
  - intros H; f_equal; apply (@exact_price_unique v sizes); [apply exact_price_sum; exact Hv|exact H].
Qed.

Lemma price_nonneg v sizes n :
  0 < v -> (forall s, In s sizes -> 0 <= s) -> required_passes v sizes = Ok n -> 0 <= n.
Proof.
  intros Hv H; rewrite required_passes_pos by exact Hv; intros [= <-].
  apply sumZ_nonneg; intros x Hx; apply in_map_iff in Hx; destruct Hx as [s [<- Hs]].
  apply cdiv_nonneg; auto.
Qed.

Lemma price_zero_iff v sizes :
  0 < v -> (forall s, In s sizes -> 0 <= s) ->
  (required_passes v sizes = Ok 0 <-> forall s, In s sizes -> s = 0).
Proof.
  intros Hv H; rewrite required_passes_pos by exact Hv. split.
  - intros [= E]. revert H E; induction sizes as [|x l IH]; cbn; intros H E s Hs; [contradiction|].
    assert (0 <= cdiv x v) by (apply cdiv_nonneg; auto).
    assert (0 <= sumZ (map (fun s => cdiv s v) l)).
    { apply sumZ_nonneg; intros y Hy; apply in_map_iff in Hy; destruct Hy as [z [<- Hz]].
      apply cdiv_nonneg; auto. }
    destruct Hs as [->|Hs].
    + apply (@cdiv_zero_iff v s); auto. lia.
    + apply IH; auto. lia.
  - intros E; f_equal. induction sizes as [|x l IH]; cbn; [reflexivity|].
    rewrite (E x) by (left; reflexivity). rewrite cdiv_0 by exact Hv.
    rewrite IH; auto; cbn in *; auto.
Qed.

Lemma price_perm v a b : Permutation a b -> required_passes v a = required_passes v b.
Proof.
  intros P. destruct (Z.eqb_spec v 0) as [->|N].
  - destruct a as [|x a]; [apply Permutation_nil in P; subst; reflexivity|].
    destruct b as [|y b]; [apply Permutation_sym, Permutation_nil in P; discriminate|].
    reflexivity.
  - assert (G : forall l, required_passes v l
        = Ok (sumZ (map (fun x => x / v + (if x mod v >? 0 then 1 else 0)) l))).
    { assert (G : forall l acc, required_passes_loop v acc l
        = Ok (acc + sumZ (map (fun x => x / v + (if x mod v >? 0 then 1 else 0)) l))).
      { induction l as [|x l IH]; intros acc; cbn -[Z.add Z.div Z.modulo]; [f_equal; lia|].
        unfold divmod; destruct (Z.eqb_spec v 0) as [E|_]; [contradiction|].
        cbn -[Z.add Z.div Z.modulo]. rewrite IH. f_equal.
        generalize (sumZ (map (fun x => x / v + (if x mod v >? 0 then 1 else 0)) l)).
        generalize (x / v). intros q s0. destruct (x mod v >? 0); lia. }
      intros l; unfold required_passes; rewrite G; f_equal; lia. }
    rewrite !G. f_equal. apply sumZ_perm, Permutation_map, P.
Qed.

Lemma price_app v a b n m :
  0 < v -> required_passes v a = Ok n -> required_passes v b = Ok m ->
  required_passes v (a ++ b) = Ok (n + m).
Proof.
  intros Hv; rewrite !required_passes_pos by exact Hv; intros [= <-] [= <-].
  rewrite map_app, sumZ_app; reflexivity.
Qed.

Lemma price_grows v a b n m :
  0 < v -> grows a b -> required_passes v a = Ok n -> required_passes v b = Ok m -> n <= m.
Proof.
  intros Hv G; rewrite !required_passes_pos by exact Hv; intros [= <-] [= <-].
  induction G as [l H|x y la lb L _ IH]; cbn.
  - apply sumZ_nonneg; intros x Hx; apply in_map_iff in Hx; destruct Hx as [s [<- Hs]].
    apply cdiv_nonneg; auto.
  - pose proof (@cdiv_mono v x y Hv L). lia.
Qed.

Lemma price_antitone v w a n m :
  0 < v -> v <= w -> (forall s, In s a -> 0 <= s) ->
  required_passes v a = Ok n -> required_passes w a = Ok m -> m <= n.
Proof.
  intros Hv L H; rewrite !required_passes_pos by lia; intros [= <-] [= <-].
  induction a as [|x a IH]; cbn; [lia|].
  pose proof (@cdiv_anti v w x Hv L). cbn in H.
  assert (0 <= x) by auto. assert (sumZ (map (fun s => cdiv s w) a) <= sumZ (map (fun s => cdiv s v) a)) by auto.
  lia.
Qed.

(** * Mutable writes *)

Lemma max_end_spec m dv :
  (m <= max_end m dv) /\
  (forall o d, In (o, d) dv -> o + lenZ d <= max_end m dv) /\
  (max_end m dv = m \/ exists o d, In (o, d) dv /\ max_end m dv = o + lenZ d).
Proof.
  revert m; induction dv as [|[o d] dv IH]; intros m; cbn.
  - repeat split; [lia|intros ? ? []|left; reflexivity].
  - destruct (IH (Z.max m (o + lenZ d))) as [A [B C]]. repeat split.
    + lia.
    + intros o' d' [E|H]; [injection E as <- <-; lia|auto].
    + destruct C as [C|[o' [d' [C1 C2]]]].
      * destruct (Z.max_spec m (o + lenZ d)) as [[_ E]|[_ E]]; rewrite E in C.
        -- right; exists o, d; rewrite E; auto.
        -- left; rewrite E; exact C.
      * right; exists o', d'; auto.
Qed.

Lemma implied_None_write_end dv : write_end dv (get_implied_data_length dv None).
Proof.
  unfold get_implied_data_length, write_end; destruct dv as [|[o d] dv]; [left; auto|right].
  destruct (max_end_spec (o + lenZ d) dv) as [A [B C]]. split.
  - destruct C as [C|[o' [d' [C1 C2]]]].
    + exists o, d; split; [left; reflexivity|exact C].
    + exists o', d'; split; [right; exact C1|exact C2].
  - intros o' d' [E|H]; [injection E as <- <-; exact A|apply B; exact H].
Qed.

Lemma write_end_unique dv e f : write_end dv e -> write_end dv f -> e = f.
Proof.
  intros [[E1 E2]|[[o [d [I E]]] U]] [[F1 F2]|[[o' [d' [I' E']]] U']]; subst; auto.
  - destruct I'.
  - destruct I.
  - specialize (U _ _ I'). specialize (U' _ _ I). lia.
Qed.

Lemma implied_write_end dv nl e :
  write_end dv e ->
  get_implied_data_length dv nl = match nl with None => e | Some n => Z.min n e end.
Proof.
  intros H. rewrite (write_end_unique H (implied_None_write_end dv)).
  destruct nl; reflexivity.
Qed.

Lemma size_after_fun b w : exists a, size_after b w a.
Proof.
  destruct w as [w|]; cbn; [|exists b; reflexivity].
  eexists; exists (get_implied_data_length (tw_data w) None); split; [apply implied_None_write_end|reflexivity].
Qed.

Definition after (b : Z) (w : option tw_vector) : Z :=
  match w with
  | None => b
  | Some w => Z.max b (get_implied_data_length (tw_data w) (tw_new_length w))
  end.

Lemma size_after_after b w a : size_after b w a <-> a = after b w.
Proof.
  destruct w as [w|]; cbn; [|reflexivity]. split.
  - intros [e [H ->]]. rewrite (@implied_write_end _ (tw_new_length w) _ H). reflexivity.
  - intros ->. exists (get_implied_data_length (tw_data w) None). split; [apply implied_None_write_end|].
    reflexivity.
Qed.

Lemma updated_sizes_wf cur tw : dict_wf cur -> dict_wf (updated_sizes cur tw).
Proof.
  unfold updated_sizes; revert cur; induction tw as [|[k v] tw IH]; intros cur W; cbn; [exact W|].
  apply IH. destruct (_ >? _); [apply dset_wf; exact W|exact W].
Qed.

Lemma updated_sizes_get cur tw k :
  dict_wf tw -> (forall k, 0 <= dget_or 0 k cur) ->
  dget_or 0 k (updated_sizes cur tw) = after (dget_or 0 k cur) (dget k tw).
Proof.
  unfold updated_sizes; revert cur; induction tw as [|[k' v] tw IH]; intros cur W P; cbn; [reflexivity|].
  inversion W as [|? ? Hn W']; subst.
  set (sz := get_implied_data_length (tw_data v) (tw_new_length v)).
  rewrite IH; [|exact W'|].
  - destruct (Z.eqb_spec k k') as [->|N].
    + assert (dget k' tw = None) as -> by (apply dget_None; exact Hn). cbn.
      specialize (P k'). unfold dget_or in *.
      destruct (Z.gtb_spec sz (match dget k' cur with Some v0 => v0 | None => 0 end)).
      * rewrite dget_dset, Z.eqb_refl. fold sz. lia.
      * fold sz. lia.
    + f_equal. unfold dget_or. destruct (_ >? _); [|reflexivity].
      rewrite dget_dset. destruct (Z.eqb_spec k k'); [contradiction|reflexivity].
  - intros k0; specialize (P k0). pose proof (P) as P0.
    destruct (Z.gtb_spec sz (dget_or 0 k' cur)) as [G|G]; [|exact P].
    unfold dget_or in *. rewrite dget_dset. destruct (Z.eqb_spec k0 k') as [->|_]; [lia|exact P].
Qed.

Lemma total_price_dict v ks d f :
  0 < v -> represents d f -> NoDup ks -> incl (dkeys d) ks ->
  sumZ (map (fun s => cdiv s v) (dvalues d)) = total_price v ks f.
Proof.
  intros Hv [W R] N I. unfold total_price.
  rewrite (@sumZ_superset (fun k => cdiv (f k) v) (dkeys d) ks); auto.
  - unfold dvalues, dkeys. rewrite !map_map. apply sumZ_map_ext.
    intros [k s] H; cbn. rewrite <- R. unfold dget_or. rewrite (@dget_In_wf _ _ _ _ W H). reflexivity.
  - intros k _ Hk. rewrite <- R. unfold dget_or.
    assert (dget k d = None) as -> by (apply dget_None; exact Hk). apply cdiv_0; exact Hv.
Qed.

Lemma updated_keys cur tw k : In k (dkeys (updated_sizes cur tw)) -> In k (dkeys cur) \/ In k (dkeys tw).
Proof.
  unfold updated_sizes; revert cur; induction tw as [|[k' v] tw IH]; intros cur; cbn; [auto|].
  intros H; apply IH in H. destruct H as [H|H]; [|auto].
  destruct (_ >? _); [|auto]. apply in_dkeys_dset in H. destruct H as [->|H]; auto.
Qed.

Lemma mutable_price v cur tw f g ks :
  0 < v -> dict_wf tw -> represents cur f -> (forall k, 0 <= f k) -> written f tw g ->
  NoDup ks -> incl (dkeys cur) ks -> incl (dkeys tw) ks ->
  get_required_new_passes_for_mutable_write v cur tw
  = Ok (total_price v ks g - total_price v ks f).
Proof.
  intros Hv Wt [W R] P Wr N I1 I2. unfold get_required_new_passes_for_mutable_write.
  rewrite !required_passes_pos by exact Hv. cbn -[Z.sub]. f_equal. f_equal.
  - apply total_price_dict; auto.
    + split; [apply updated_sizes_wf; exact W|].
      intros k. rewrite updated_sizes_get; auto.
      * rewrite R. symmetry. apply size_after_after, Wr.
      * intros k0; rewrite R; apply P.
    + intros k Hk. apply updated_keys in Hk. destruct Hk; auto.
  - apply total_price_dict; [exact Hv|split; assumption|exact N|exact I1].
Qed.

Lemma mutable_price_growth v cur tw f g ks :
  0 < v -> dict_wf tw -> represents cur f -> (forall k, 0 <= f k) -> written f tw g ->
  NoDup ks -> incl (dkeys cur) ks -> incl (dkeys tw) ks ->
  get_required_new_passes_for_mutable_write v cur tw
  = Ok (sumZ (map (fun k => cdiv (g k) v - cdiv (f k) v) ks)).
Proof.
  intros. rewrite mutable_price with (f := f) (g := g) (ks := ks) by assumption.
  unfold total_price. rewrite sumZ_map_sub. reflexivity.
Qed.

Lemma written_ge f tw g k : written f tw g -> f k <= g k.
Proof.
  intros H. specialize (H k). apply size_after_after in H. rewrite H.
  destruct (dget k tw); cbn; lia.
Qed.

Lemma written_exists f tw : exists g, written f tw g.
Proof. exists (fun k => after (f k) (dget k tw)). intros k; apply size_after_after; reflexivity. Qed.

Lemma represents_exists d : dict_wf d -> exists f, represents d f.
Proof. intros W; exists (fun k => dget_or 0 k d); split; auto. Qed.

Lemma mutable_price_nonneg v cur tw n :
  0 < v -> dict_wf cur -> dict_wf tw -> (forall s, In s (dvalues cur) -> 0 <= s) ->
  get_required_new_passes_for_mutable_write v cur tw = Ok n -> 0 <= n.
Proof.
  intros Hv W Wt P E.
  set (f := fun k => dget_or 0 k cur).
  assert (R : represents cur f) by (split; auto).
  assert (Pf : forall k, 0 <= f k).
  { intros k; unfold f, dget_or. destruct (dget k cur) as [s|] eqn:D; [|lia].
    apply P. apply dget_Some_In in D. change s with (snd (k, s)). apply in_map. exact D. }
  destruct (written_exists f tw) as [g Wr].
  rewrite mutable_price_growth with (f := f) (g := g) (ks := nodup Z.eq_dec (dkeys cur ++ dkeys tw)) in E; auto.
  - injection E as <-. apply sumZ_nonneg. intros x Hx. apply in_map_iff in Hx. destruct Hx as [k [<- _]].
    pose proof (@cdiv_mono v (f k) (g k) Hv (@written_ge _ _ _ k Wr)). lia.
  - apply NoDup_nodup.
  - intros k Hk; apply nodup_In, in_app_iff; auto.
  - intros k Hk; apply nodup_In, in_app_iff; auto.
Qed.

(** * Histories of writes *)

Lemma charged_telescope v f tws h n ks :
  0 < v -> (forall k, 0 <= f k) -> charged (fun cur tw m => get_required_new_passes_for_mutable_write v cur tw = Ok m) f tws h n -> NoDup ks ->
  (forall k, f k <> 0 -> In k ks) -> (forall tw, In tw tws -> incl (dkeys tw) ks) ->
  n = total_price v ks h - total_price v ks f.
Proof.
  intros Hv P C N; revert P; induction C as [f|f cur tw g h tws n m R Wt Wr E C IH]; intros P S I; [lia|].
  rewrite IH.
  - (* the dict may hold zero-sized entries outside ks; extend ks *)
    set (ks' := nodup Z.eq_dec (ks ++ dkeys cur)).
    rewrite mutable_price with (f := f) (g := g) (ks := ks') in E; auto.
    + injection E as <-.
      assert (X : forall x, ~ In x ks -> f x = 0) by
        (intros x Hx; destruct (Z.eq_dec (f x) 0) as [E0|E0]; [exact E0|exfalso; auto]).
      assert (total_price v ks' g = total_price v ks g) as ->.
      { apply sumZ_superset; auto; [apply NoDup_nodup|intros x Hx; apply nodup_In, in_app_iff; auto|].
        intros x _ Hx. specialize (Wr x). apply size_after_after in Wr. rewrite Wr.
        assert (dget x tw = None) as ->.
        { apply dget_None. intros Hk. apply Hx. apply (I tw); [left; reflexivity|exact Hk]. }
        cbn. rewrite X by exact Hx. apply cdiv_0, Hv. }
      assert (total_price v ks' f = total_price v ks f) as ->.
      { apply sumZ_superset; auto; [apply NoDup_nodup|intros x Hx; apply nodup_In, in_app_iff; auto|].
        intros x _ Hx. rewrite X by exact Hx. apply cdiv_0, Hv. }
      lia.
    + apply NoDup_nodup.
    + intros x Hx; apply nodup_In, in_app_iff; auto.
    + intros x Hx; apply nodup_In, in_app_iff; left. apply (I tw); [left; reflexivity|exact Hx].
  - intros k. pose proof (@written_ge _ _ _ k Wr). specialize (P k). lia.
  - intros k Hk. specialize (Wr k). apply size_after_after in Wr. destruct (dget k tw) as [w|] eqn:D.
    + apply (I tw); [left; reflexivity|]. apply dget_Some_In in D.
      change k with (fst (k, w)). apply in_map; exact D.
    + cbn in Wr. apply S. congruence.
  - intros tw' H; apply I; right; exact H.
Qed.

(** * The calculator *)

Lemma div_ceil_pos n d : 0 < d -> div_ceil n d = Ok (cdiv n d).
Proof.
  intros Hd; unfold div_ceil. destruct (Z.eqb_spec d 0); [lia|]. f_equal.
  rewrite <- divmod_cdiv by exact Hd. pose proof (Z.mod_pos_bound n d Hd).
  destruct (Z.eqb_spec (n mod d) 0), (Z.gtb_spec (n mod d) 0); lia.
Qed.

Lemma list_times_price v s n : 0 < v ->
  required_passes v (list_times s n) = Ok (Z.max 0 n * cdiv s v).
Proof.
  intros Hv; rewrite required_passes_pos by exact Hv. f_equal. unfold list_times.
  rewrite map_repeat, sumZ_repeat. f_equal. lia.
Qed.

Lemma required_passes_for_data_pos v needed total size : 0 < v -> 0 < needed ->
  required_passes_for_data v needed total size = Ok (Z.max 0 total * cdiv (cdiv size needed) v).
Proof.
  intros Hv Hn. unfold required_passes_for_data, share_sizes_for_data, share_size_for_data.
  rewrite div_ceil_pos by exact Hn. cbn [bind]. apply list_times_price, Hv.
Qed.

Lemma calculate_sum_pos v needed total sizes acc : 0 < v -> 0 < needed ->
  calculate_sum needed total v acc sizes
  = Ok (acc + sumZ (map (fun s => Z.max 0 total * cdiv (cdiv s needed) v) sizes)).
Proof.
  intros Hv Hn; revert acc; induction sizes as [|s l IH]; intros acc; cbn -[Z.add Z.mul Z.max]; [f_equal; lia|].
  unfold share_size_for_data; rewrite div_ceil_pos by exact Hn. cbn [bind].
  rewrite list_times_price by exact Hv. cbn [bind]. rewrite IH. f_equal. lia.
Qed.

Lemma calculate_pos v needed total sizes : 0 < v -> 0 < needed ->
  calculate needed total v sizes
  = Ok (sumZ (map (fun s => Z.max 0 total * cdiv (cdiv s needed) v) sizes)).
Proof. intros; unfold calculate; rewrite calculate_sum_pos by assumption; f_equal; lia. Qed.

Lemma calculator_matches_upload_cost v needed total sizes : 0 < v -> 0 < needed -> 0 <= total ->
  exists prices,
    calculate needed total v sizes = Ok (sumZ prices) /\
    Forall2 (fun size n =>
        required_passes_for_data v needed total size = Ok n /\
        exists share_size, least_cover needed size share_size /\
          required_passes v (repeat share_size (Z.to_nat total)) = Ok n /\
          exists per_share, least_cover v share_size per_share /\ n = total * per_share)
      sizes prices.
Proof.
  intros Hv Hn Ht. eexists; split; [apply calculate_pos; assumption|].
  induction sizes as [|s l IH]; cbn [map]; constructor; [|exact IH].
  assert (E : Z.max 0 total * cdiv (cdiv s needed) v = total * cdiv (cdiv s needed) v) by (f_equal; lia).
  split; [apply required_passes_for_data_pos; assumption|].
  exists (cdiv s needed). split; [apply cdiv_least; exact Hn|]. split; [apply list_times_price; exact Hv|].
  exists (cdiv (cdiv s needed) v). split; [apply cdiv_least; exact Hv|exact E].
Qed.

Lemma calculate_zero_needed total v size sizes :
  calculate 0 total v (size :: sizes) = Err ZeroDivision.
Proof. reflexivity. Qed.

Lemma price_total_nonneg v sizes : 0 < v -> (forall s, In s sizes -> 0 <= s) ->
  exists n, required_passes v sizes = Ok n /\ 0 <= n /\ (n = 0 <-> forall s, In s sizes -> s = 0).
Proof.
  intros Hv H. pose proof (required_passes_pos sizes Hv) as E. eexists; split; [exact E|].
  split; [exact (price_nonneg sizes Hv H E)|].
  rewrite <- (price_zero_iff sizes Hv H), E. split; [intros ->; reflexivity|intros [= <-]; reflexivity].
Qed.
