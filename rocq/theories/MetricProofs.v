(** Lemmas about the spending metric. *)
From Verif Require Import Prelude PreludeFacts BytesModel PassModel PricingModel PricingSpec PricingProofs ContainerModel ContainerProofs TahoeModel ServerModel
  ServerSpec ServerProofs ServerStateProofs ServerRequestProofs MetricModel MetricSpec.
Set Implicit Arguments.

(** ** The histogram *)

(** The bounds grow. *)
Fixpoint ordered (bs : list bound) : Prop :=
  match bs with
  | [] => True
  | b :: rest => (forall x b', In b' rest -> within x b = true -> within x b' = true) /\ ordered rest
  end.

Lemma count_in_bounds x bs : map fst (count_in x bs) = map fst bs.
Proof. induction bs as [|[b n] bs IH]; cbn; [reflexivity|]. destruct (within x b); cbn; congruence. Qed.

Lemma cumulate_acc bs a k : cumulate (a + k) bs = map (fun bn => (fst bn, snd bn + k)) (cumulate a bs).
Proof.
  revert a. induction bs as [|[b n] bs IH]; intros a; cbn; [reflexivity|]. rewrite <- IH. f_equal; [f_equal; lia|f_equal; lia].
Qed.
Lemma cumulate_bounds a bs : map fst (cumulate a bs) = map fst bs.
Proof. revert a. induction bs as [|[b n] bs IH]; intros a; cbn; [reflexivity|]. now rewrite IH. Qed.

Lemma cumulate_count x bs a : ordered (map fst bs) ->
  cumulate a (count_in x bs) = map (fun bn => (fst bn, snd bn + (if within x (fst bn) then 1 else 0))) (cumulate a bs).
Proof.
  revert a. induction bs as [|[b n] bs IH]; intros a O; cbn in *; [reflexivity|]. destruct O as [O1 O2].
  destruct (within x b) eqn:W; cbn.
  - f_equal; [f_equal; lia|]. rewrite Z.add_assoc, cumulate_acc. apply map_ext_in. intros [b' m] I. cbn.
    rewrite (O1 x b'); [reflexivity| |exact W]. rewrite <- (cumulate_bounds (a + n) bs). apply (in_map fst) in I. exact I.
  - rewrite Z.add_0_r. f_equal. now apply IH.
Qed.

Lemma fold_histogram xs bs : ordered bs -> forall h,
  map fst (h_buckets h) = bs ->
  cumulate 0 (h_buckets (fold_left observe xs h)) =
    map (fun bn => (fst bn, snd bn + upto (fst bn) xs)) (cumulate 0 (h_buckets h)) /\
  h_sum (fold_left observe xs h) = h_sum h + sumZ xs.
Proof.
  intros O. induction xs as [|x xs IH]; intros h E; cbn [fold_left sumZ].
  - split; [|lia]. rewrite <- (map_id (cumulate 0 (h_buckets h))) at 1. apply map_ext. intros [b n]. cbn. f_equal. lia.
  - destruct (IH (observe h x)) as [A B]; [cbn; now rewrite count_in_bounds|]. split; [|rewrite B; cbn; lia]. rewrite A.
    cbn [observe h_buckets]. rewrite cumulate_count by (rewrite E; exact O). rewrite map_map. apply map_ext. intros [b n]. cbn.
    f_equal. unfold upto. cbn [filter]. fold (within x b). destruct (within x b); cbn [length]; lia.
Qed.

Lemma cumulate_zero bs : cumulate 0 (map (fun b => (b, 0)) bs) = map (fun b => (b, 0)) bs.
Proof. induction bs as [|b bs IH]; cbn; [reflexivity|]. now rewrite IH. Qed.

Lemma within_mono x y z : y <= z -> within x (Some y) = true -> within x (Some z) = true.
Proof. cbn. lia. Qed.
Lemma buckets_ordered : ordered spending_buckets.
Proof.
  unfold spending_buckets. cbn [seq map app]. repeat split; cbn [In]; intros x b' I W;
    repeat (destruct I as [<-|I]; [first [reflexivity|revert W; apply within_mono; vm_compute; discriminate]|]); destruct I.
Qed.

Lemma metric_buckets xs : x_buckets (spending_metric xs) = map (fun b => (b, upto b xs)) spending_buckets.
Proof.
  unfold spending_metric, expose. cbn [x_buckets].
  destruct (@fold_histogram xs spending_buckets buckets_ordered (new_histogram spending_buckets)) as [A _].
  { reflexivity. }
  rewrite A. cbn [new_histogram h_buckets]. rewrite cumulate_zero, map_map. reflexivity.
Qed.
Lemma metric_sum xs : x_sum (spending_metric xs) = sumZ xs.
Proof.
  unfold spending_metric, expose. cbn [x_sum].
  destruct (@fold_histogram xs spending_buckets buckets_ordered (new_histogram spending_buckets)) as [_ B].
  { reflexivity. }
  rewrite B. cbn. lia.
Qed.
Lemma metric_count xs : x_count (spending_metric xs) = lenZ xs.
Proof.
  change (x_count (spending_metric xs)) with (last (map snd (x_buckets (spending_metric xs))) 0). rewrite metric_buckets, map_map.
  unfold spending_buckets. rewrite map_app. cbn [map]. rewrite last_last. unfold upto. cbn [within].
  cbn [snd]. unfold lenZ. f_equal. f_equal.
  induction xs as [|x xs IH]; cbn [filter]; [reflexivity|]. now rewrite IH.
Qed.

(** ** The observations *)
Section Observations.
Variable signed : bytes -> bytes -> bytes -> bool.
Variable pv : Z.
Variables iv mv : Z.
Hypothesis Hv : 0 < pv.
Notation serve := (serve signed pv mv).
Notation verified := (verified signed).

Notation observation := (observation signed pv).

Lemma serve_error now room passes q sv e sv' : serve now room passes q sv = (Err e, sv') -> sv_metric sv' = sv_metric sv /\ sv_spent sv' = sv_spent sv.
Proof.
  destruct q as [si renew cancel nums sz|si renew cancel|si we renew cancel tw rv]; cbn.
  - unfold remote_allocate_buckets. destruct (validate_passes _ _ _); [|intros [= _ <-]; auto].
    destruct (check_pass_quantity_for_write _ _ _ _); [|intros [= _ <-]; auto].
    destruct (tahoe_allocate_buckets _ _ _ _ _ _ _ _) as [[[y z]|e0] st]; [|intros [= _ <-]; auto].
    destruct (required_passes _ _); [discriminate|intros [= _ <-]; auto].
  - unfold remote_add_lease. destruct (validate_passes _ _ _); [|intros [= _ <-]; auto].
    destruct (check_pass_quantity_for_lease _ _ _); [|intros [= _ <-]; auto].
    destruct (tahoe_add_lease _ _ _ _ _ _) as [[y|e0] st]; [discriminate|intros [= _ <-]; auto].
  - unfold remote_slot_writev. destruct (first_new_length tw); [intros [= _ <-]; auto|].
    destruct (validate_passes _ _ _); [|intros [= _ <-]; auto].
    destruct (get_writev_price _ _ _ _); [|intros [= _ <-]; auto]. destruct (_ >? _); [intros [= _ <-]; auto|].
    destruct (tahoe_writev _ _ _ _ _ _) as [[[y z]|e0] st]; [|intros [= _ <-]; auto].
    destruct (add_leases_for_writev _ _ _ _ _ _ _) as [[y'|e0] st']; [discriminate|intros [= _ <-]; auto].
Qed.

Lemma write_price_nonneg st now si we renew cancel tw rv n : price pv st now (Writev si we renew cancel tw rv) n -> 0 <= n.
Proof.
  intros (f & g & ks & F & G & N & I1 & I2 & ->). unfold total_price. rewrite <- sumZ_map_sub. apply sumZ_nonneg.
  intros x J. apply in_map_iff in J. destruct J as (y & <- & _).
  pose proof (@cdiv_mono pv (f y) (g y) Hv (@written_ge _ _ _ y G)). lia.
Qed.

Lemma serve_observes now room passes q sv x sv' : wf_dir (dirs (sv_storage sv) (index_of q)) -> proper q ->
  serve now room passes q sv = (Ok x, sv') ->
  exists k ps, sv_metric sv' = sv_metric sv ++ [k] /\ sv_spent sv' = sv_spent sv ++ ps /\
    observation sv now passes q x k /\ 0 <= k <= lenZ ps /\
    match q with Writev _ _ _ _ _ _ => True | _ => k = lenZ ps end.
Proof.
  intros W P S. destruct (serve_effect _ _ _ _ _ _ _ _ S) as [[_ N]|(Wf & E & _)]; [exfalso; eapply N; reflexivity|].
  destruct q as [si renew cancel nums sz|si renew cancel|si we renew cancel tw rv].
  - assert (Sh : exists a b, x = Allocated a b).
    { cbn in S. unfold remote_allocate_buckets in S. destruct (validate_passes _ _ _); [|discriminate].
      destruct (check_pass_quantity_for_write _ _ _ _); [|discriminate].
      destruct (tahoe_allocate_buckets _ _ _ _ _ _ _ _) as [[[y z]|e] st]; [|discriminate].
      destruct (required_passes pv (repeat sz (length z))); [|discriminate]. injection S as <- _. eauto. }
    destruct Sh as (a & b & ->). destruct P as [Pn1 Ps].
    destruct (@allocate_charge signed pv mv now room passes si renew cancel nums sz sv a b sv' Hv Pn1 Ps S)
      as (_ & _ & _ & j & Ej & Rj & Sj & Mj).
    exists j. eexists. split; [exact Mj|]. split; [exact Sj|]. split; [exists a, b; auto|].
    assert (L : lenZ (firstn (Z.to_nat j) (verified (Allocate si renew cancel nums sz) passes)) = j).
    { unfold lenZ. rewrite firstn_length. unfold ServerSpec.verified. rewrite map_length, Nat.min_l by lia. lia. }
    rewrite L. lia.
  - cbn in S. unfold remote_add_lease in S. destruct (validate_cases signed (AddLease si renew cancel) passes) as [[_ V]|[(s & I & N) _]];
      [|exfalso; apply N, Wf, I]. cbn [kind_of index_of] in V. rewrite V in S.
    destruct (check_pass_quantity_for_lease _ _ _); [|discriminate].
    destruct (tahoe_add_lease _ _ _ _ _ _) as [[y|e] st]; [|discriminate]. injection S as <- <-. cbn [valid].
    do 2 eexists. split; [reflexivity|]. split; [reflexivity|]. split; [reflexivity|]. cbn. unfold lenZ. lia.
  - assert (T : no_truncation (Writev si we renew cancel tw rv)) by (inversion E; subst; cbn; apply first_new_length_None; assumption).
    assert (G : kind_of (Writev si we renew cancel tw rv) = KAllocate \/ homogeneous (dirs (sv_storage sv) (index_of (Writev si we renew cancel tw rv)))).
    { right. left. intros n s I. inversion E; subst.
      match goal with C : collect_mutable _ _ = _ |- _ => destruct (collect_mutable_Ok _ _ C _ _ I) as [v Hc] end. exists v, we. exact Hc. }
    destruct (@price_exists pv (sv_storage sv) now (Writev si we renew cancel tw rv) Hv W P) as [n Pn].
    rewrite (@serve_eq signed pv mv now room passes _ sv n Hv W G P T Wf Pn) in S.
    destruct (Z.gtb_spec n (lenZ (verified (Writev si we renew cancel tw rv) passes))) as [L|L]; [discriminate|].
    cbn [effect] in S. destruct (tahoe_writev _ _ _ _ _ _) as [[[y z]|e] st]; [|discriminate].
    destruct (add_leases_for_writev _ _ _ _ _ _ _) as [[y'|e] st']; [|discriminate]. injection S as <- <-.
    exists n. eexists. split; [reflexivity|]. split; [reflexivity|]. split; [exact Pn|]. split; [|exact I].
    pose proof (write_price_nonneg Pn). lia.
Qed.

Lemma run_observes es sv os sv' : (iv = 1 \/ iv = 2) -> (mv = 1 \/ mv = 2) -> wf_storage (sv_storage sv) ->
  Forall proper_event es -> server_run signed pv iv mv sv es = (os, sv') ->
  exists ks ps, sv_metric sv' = sv_metric sv ++ ks /\ sv_spent sv' = sv_spent sv ++ ps /\
    lenZ ks = lenZ (filter accepted os) /\ sumZ ks <= lenZ ps /\ (Forall (fun e => is_mutable_write e = false) es -> sumZ ks = lenZ ps).
Proof.
  intros Hi Hm. revert sv os sv'. induction es as [|e es IH]; intros sv os sv' W P; cbn [server_run].
  - intros [= <- <-]. exists [], []. rewrite !app_nil_r. repeat split; try reflexivity; cbn; lia.
  - destruct (server_step signed pv iv mv sv e) as [o sv1] eqn:S. destruct (server_run signed pv iv mv sv1 es) as [os1 sv2] eqn:R. intros [= <- <-].
    inversion P as [|? ? P1 P2]; subst.
    assert (W1 : wf_storage (sv_storage sv1)) by exact (@step_wf signed pv iv mv sv e o sv1 Hi Hm P1 W S).
    destruct (IH sv1 os1 sv2 W1 P2 R) as (ks & ps & A & B & C & D & F).
    assert (H : exists ks0 ps0, sv_metric sv1 = sv_metric sv ++ ks0 /\ sv_spent sv1 = sv_spent sv ++ ps0 /\
      lenZ ks0 = (if accepted o then 1 else 0) /\ sumZ ks0 <= lenZ ps0 /\ (is_mutable_write e = false -> sumZ ks0 = lenZ ps0)).
    { assert (Z : sv_metric sv1 = sv_metric sv /\ sv_spent sv1 = sv_spent sv /\ accepted o = false ->
        exists ks0 ps0, sv_metric sv1 = sv_metric sv ++ ks0 /\ sv_spent sv1 = sv_spent sv ++ ps0 /\
        lenZ ks0 = (if accepted o then 1 else 0) /\ sumZ ks0 <= lenZ ps0 /\ (is_mutable_write e = false -> sumZ ks0 = lenZ ps0)).
      { intros (-> & -> & ->). exists [], []. rewrite !app_nil_r. repeat split; try reflexivity; cbn; lia. }
      destruct e as [now room passes q|si n c|si n|si n]; cbn in S; try (injection S as <- <-; apply Z; repeat split; fail).
      destruct (serve now room passes q sv) as [r sv3] eqn:E. injection S as <- <-. destruct r as [x|e].
      - destruct (@serve_observes now room passes q sv x sv3 (W (index_of q)) P1 E) as (k & ps0 & A0 & B0 & _ & R0 & Q0).
        exists [k], ps0. split; [exact A0|]. split; [exact B0|]. split; [reflexivity|]. cbn [sumZ]. split; [lia|].
        intros M. destruct q; cbn in M; try discriminate M; cbn in Q0; lia.
      - apply Z. destruct (@serve_error now room passes q sv e sv3 E) as [-> ->]. repeat split. }
    destruct H as (ks0 & ps0 & A0 & B0 & C0 & D0 & F0). exists (ks0 ++ ks), (ps0 ++ ps).
    assert (L : forall T (a b : list T), lenZ (a ++ b) = lenZ a + lenZ b) by (intros; unfold lenZ; rewrite app_length; lia).
    rewrite sumZ_app, !L, !app_assoc, <- A0, <- B0. repeat split; auto.
    + cbn [filter]. destruct (accepted o); unfold lenZ in *; cbn [length]; lia.
    + lia.
    + intros M. inversion M as [|? ? M1 M2]; subst. rewrite (F0 M1), (F M2). reflexivity.
Qed.
End Observations.
