(** Proofs about the record of maintenance runs: C56. *)
From Verif Require Import Prelude PreludeFacts PricingModel PricingSpec PricingProofs StoreModel StoreSpec StoreProofs CborModel ContainerModel LeaseModel LeaseSpec.
Set Implicit Arguments.

Definition not_maint (m : mut) : Prop :=
  match m with InsMaint _ | UpdMaintCount _ _ | UpdMaintFinish _ _ => False | _ => True end.
Fixpoint untouched {A} (p : prog A) : Prop :=
  match p with
  | Ret _ | Raise _ => True
  | Mut _ m k => not_maint m /\ forall n, untouched (k n)
  | Many _ ms k => Forall not_maint ms /\ untouched k
  | Qry k => forall d, untouched (k d)
  end.

Lemma exec_mut_maint m d n d' : not_maint m -> exec_mut m d = Ok (n, d') -> maint d' = maint d.
Proof.
  destruct m; cbn; try contradiction; intros _;
    repeat match goal with |- context [if ?b then _ else _] => destruct b end; intros [= <- <-] || intros [=]; reflexivity.
Qed.
Lemma exec_muts_maint ms : forall d d', Forall not_maint ms -> exec_muts ms d = Ok d' -> maint d' = maint d.
Proof.
  induction ms as [|m ms IH]; intros d d' F; cbn; [now intros [= <-]|]. inversion F; subst.
  destruct (exec_mut m d) as [[n d1]|e] eqn:E; cbn; [|discriminate]. intros H. rewrite (IH d1 d') by assumption.
  now apply exec_mut_maint in E.
Qed.
Lemma run_untouched A (p : prog A) : forall d r d' rec, untouched p -> run p d = (r, d', rec) -> maint d' = maint d.
Proof.
  induction p as [a|e|i m k IH|i ms k IH|k IH]; intros d r d' rec U; cbn.
  - now intros [= _ <- _].
  - now intros [= _ <- _].
  - destruct U as [Um Uk]. destruct (exec_mut m d) as [[n d1]|e] eqn:E; [|now intros [= _ <- _]].
    destruct (run (k n) d1) as [[r2 d2] rec2] eqn:R. intros [= <- <- _]. rewrite (IH _ _ _ _ _ (Uk n) R). now apply exec_mut_maint in E.
  - destruct U as [Um Uk]. destruct (exec_muts ms d) as [d1|e] eqn:E; [|now intros [= _ <- _]].
    destruct (run k d1) as [[r2 d2] rec2] eqn:R. intros [= <- <- _]. rewrite (IH _ _ _ _ Uk R). now apply exec_muts_maint in E.
  - intros R. exact (IH _ _ _ _ _ (U d) R).
Qed.
Lemma untouched_pmap A B (f : A -> B) p : untouched p -> untouched (pmap f p).
Proof. induction p; cbn; intuition. Qed.

Definition maint_op (o : op) : Prop :=
  match o with OMaintStart _ | OMaintObserve _ _ _ | OMaintFinish _ _ => True | _ => False end.

Lemma untouched_op o : ~ maint_op o -> untouched (op_prog o).
Proof.
  intros N. destruct o; try (exfalso; apply N; exact I); cbn [op_prog]; try apply untouched_pmap.
  - unfold add. cbn. intros d. destruct (filter _ _); cbn; repeat split; auto.
    apply Forall_forall. intros m Hm. apply in_map_iff in Hm as (x & <- & _). exact I.
  - unfold insert_unblinded_tokens_for_voucher. cbn [untouched]. split; [exact I|]. intros g. split; [exact I|]. intros n.
    destruct (n =? 0); cbn [untouched]; [exact I|]. intros d. destruct (filter _ _) as [|r rs]; cbn [untouched]; [exact I|].
    split; [|cbn; auto]. apply Forall_forall; intros m Hm; apply in_map_iff in Hm as (x & <- & _); exact I.
  - unfold mark_voucher_double_spent. cbn. split; [exact I|]. intros n. destruct (n =? 0); cbn; auto.
  - unfold get_unblinded_tokens. destruct (_ >? _); cbn; auto. intros d.
    repeat match goal with |- context [if ?b then _ else _] => destruct b end; cbn; auto.
    split; auto. apply Forall_forall; intros m Hm; apply in_map_iff in Hm as (x & <- & _); exact I.
  - unfold discard_unblinded_tokens. cbn. repeat split; auto.
    apply Forall_forall; intros m Hm; apply in_map_iff in Hm as (x & <- & _); exact I.
  - unfold invalidate_unblinded_tokens. cbn. repeat split; auto.
    apply Forall_forall; intros m Hm; apply in_map_iff in Hm as (x & <- & _); exact I.
  - unfold reset_unblinded_tokens. cbn. repeat split; auto.
    apply Forall_forall; intros m Hm; apply in_map_iff in Hm as (x & <- & _); exact I.
  - unfold get. cbn. intros d. destruct (filter _ _) as [|r rs]; cbn; auto. destruct (from_row r); cbn; auto.
  - unfold list_vouchers. cbn. intros d. destruct (map_res _ _); cbn; auto.
  - cbn. auto.
  - cbn. auto.
  - cbn. auto.
  - cbn. auto.
Qed.

Lemma step_other o d r d' : ~ maint_op o -> step d o = (r, d') -> maint d' = maint d.
Proof.
  intros N S. destruct o; try (exfalso; apply N; exact I); cbn [step] in S;
  try (injection S as <- <-; reflexivity);
  unfold with_cursor in S;
  match type of S with context [run ?p d] => destruct (run p d) as [[[a|e] d1] rec] eqn:R end;
  injection S as <- <-; try reflexivity; exact (run_untouched _ _ (untouched_op _ N) R).
Qed.

Definition add_count (n id : Z) (r : maint_row) : maint_row :=
  if m_id r =? id then MR (m_id r) (m_started r) (m_finished r) (m_count r + n) else r.
Definition set_finish (now id : Z) (r : maint_row) : maint_row :=
  if m_id r =? id then MR (m_id r) (m_started r) (Some now) (m_count r) else r.

(** What every call does to the table. *)
Lemma step_rows o d r d' : step d o = (r, d') ->
  match o with
  | OMaintStart now => r = Ok (RNum (next_id (map m_id (maint d)))) /\
      maint d' = maint d ++ [MR (next_id (map m_id (maint d))) now None 0]
  | OMaintObserve pv rowid sizes =>
      match required_passes pv sizes, rowid with
      | Ok n, Some id => r = Ok RUnit /\ maint d' = map (add_count n id) (maint d)
      | _, _ => maint d' = maint d
      end
  | OMaintFinish (Some id) now => r = Ok RUnit /\ maint d' = map (set_finish now id) (maint d)
  | _ => maint d' = maint d
  end.
Proof.
  intros S. destruct o; try (eapply step_other; [|exact S]; cbn; tauto); cbn [step op_prog] in S;
  rewrite with_cursor_pmap in S; unfold with_cursor in S.
  - injection S as <- <-. auto.
  - unfold maint_observe in S. destruct (required_passes pass_value sizes); [destruct rowid|]; injection S as <- <-; auto.
  - unfold maint_finish in S. destruct rowid; injection S as <- <-; auto.
Qed.

(** ** One run *)

Definition price_of (pv : Z) (sizes : list Z) : Z := sumZ (map (fun s => cdiv s pv) sizes).

Lemma NoDup_rows o d r d' : NoDup (map m_id (maint d)) -> step d o = (r, d') -> NoDup (map m_id (maint d')).
Proof.
  intros N S. apply step_rows in S. destruct o; try (now rewrite S).
  - destruct S as [_ ->]. rewrite map_app. apply NoDup_snoc; [exact N|apply next_id_fresh].
  - destruct (required_passes _ _); [destruct rowid; [destruct S as [_ S]|]|]; rewrite S; try exact N.
    apply NoDup_map_same; [|exact N]. intros x. unfold add_count. destruct (_ =? _); reflexivity.
  - destruct rowid; [destruct S as [_ S]|]; rewrite S; try exact N.
    apply NoDup_map_same; [|exact N]. intros x. unfold set_finish. destruct (_ =? _); reflexivity.
Qed.

(** The row of a run that has not finished. *)
Lemma row_run pv id os : forall d rs d' t0 n, 0 < pv ->
  (forall pv' sizes, In (OMaintObserve pv' (Some id) sizes) os -> pv' = pv) ->
  (forall now, ~ In (OMaintFinish (Some id) now) os) ->
  steps d os = (rs, d') -> In (MR id t0 None n) (maint d) ->
  In (MR id t0 None (n + recorded_cost pv id os)) (maint d').
Proof.
  induction os as [|o os IH]; intros d rs d' t0 n Hv P F; cbn [steps recorded_cost].
  - intros [= <- <-]. now rewrite Z.add_0_r.
  - destruct (step d o) as [r d1] eqn:S. destruct (steps d1 os) as [rs1 d2] eqn:R. intros [= <- <-] I.
    assert (P' : forall pv' sizes, In (OMaintObserve pv' (Some id) sizes) os -> pv' = pv) by (intros; eapply P; right; eassumption).
    assert (F' : forall now, ~ In (OMaintFinish (Some id) now) os) by (intros now J; apply (F now); now right).
    assert (G : forall k, In (MR id t0 None (n + k)) (maint d1) -> In (MR id t0 None (n + (k + recorded_cost pv id os))) (maint d2)).
    { intros k J. rewrite Z.add_assoc. exact (IH _ _ _ _ _ Hv P' F' R J). }
    assert (G0 : In (MR id t0 None n) (maint d1) -> In (MR id t0 None (n + recorded_cost pv id os)) (maint d2)).
    { intros J. exact (IH _ _ _ _ _ Hv P' F' R J). }
    apply step_rows in S. destruct o; try (apply G0; now rewrite S).
    + apply G0. destruct S as [_ ->]. apply in_or_app. now left.
    + destruct rowid as [id'|]; [|apply G0; destruct (required_passes _ _); now rewrite S].
      destruct (Z.eqb_spec id' id) as [->|Ne].
      * rewrite (P pass_value sizes (or_introl eq_refl)) in *. rewrite Z.eqb_refl. rewrite required_passes_pos in S by exact Hv.
        destruct S as [_ S]. cbn [andb]. apply G. rewrite S. apply in_map_iff. exists (MR id t0 None n). split; [|exact I].
        unfold add_count. cbn. now rewrite Z.eqb_refl.
      * rewrite andb_false_r. apply G. rewrite Z.add_0_r. destruct (required_passes _ _); [destruct S as [_ S]|]; rewrite S; [|exact I].
        apply in_map_iff. exists (MR id t0 None n). split; [|exact I]. unfold add_count. cbn.
        destruct (Z.eqb_spec id id'); [congruence|reflexivity].
    + destruct rowid as [id'|]; [|apply G0; now rewrite S]. apply G0. destruct S as [_ S]. rewrite S.
      apply in_map_iff. exists (MR id t0 None n). split; [|exact I]. unfold set_finish. cbn.
      destruct (Z.eqb_spec id id') as [->|]; [|reflexivity]. exfalso. apply (F now). now left.
Qed.

Lemma started_row d t0 id d' : step d (OMaintStart t0) = (Ok (RNum id), d') -> In (MR id t0 None 0) (maint d').
Proof. intros S. apply step_rows in S as [[= ->] ->]. apply in_or_app. right. now left. Qed.

(** Every end on record was recorded by some call. *)
Lemma finished_from os : forall d rs d' r f, steps d os = (rs, d') -> In r (maint d') -> m_finished r = Some f ->
  In (OMaintFinish (Some (m_id r)) f) os \/ exists r0, In r0 (maint d) /\ m_id r0 = m_id r /\ m_finished r0 = Some f.
Proof.
  induction os as [|o os IH]; intros d rs d' r f; cbn [steps].
  - intros [= <- <-] I F. right. exists r. auto.
  - destruct (step d o) as [x d1] eqn:S. destruct (steps d1 os) as [rs1 d2] eqn:R. intros [= <- <-] I F.
    destruct (IH _ _ _ _ _ R I F) as [J|(r0 & I0 & E0 & F0)]; [left; now right|].
    apply step_rows in S.
    assert (Same : In r0 (maint d) -> In (OMaintFinish (Some (m_id r)) f) (o :: os) \/
                   exists r1, In r1 (maint d) /\ m_id r1 = m_id r /\ m_finished r1 = Some f) by (intros J; right; exists r0; auto).
    destruct o; try (apply Same; now rewrite <- S).
    + destruct S as [_ S]. rewrite S in I0. apply in_app_or in I0 as [I0|[<-|[]]]; [now apply Same|discriminate].
    + destruct (required_passes _ _); [destruct rowid; [destruct S as [_ S]|]|]; rewrite S in I0; try (now apply Same).
      apply in_map_iff in I0 as (r1 & <- & I1). right. exists r1. unfold add_count in *. destruct (m_id r1 =? _); auto.
    + destruct rowid as [id|]; [destruct S as [_ S]|]; rewrite S in I0; try (now apply Same).
      apply in_map_iff in I0 as (r1 & <- & I1). unfold set_finish in *. destruct (Z.eqb_spec (m_id r1) id) as [E|Ne].
      * cbn in *. left. left. congruence.
      * right. exists r1. auto.
Qed.

Lemma steps_app os1 os2 : forall d, steps d (os1 ++ os2) =
  let '(r1, d1) := steps d os1 in let '(r2, d2) := steps d1 os2 in (r1 ++ r2, d2).
Proof.
  induction os1 as [|o os1 IH]; intros d; cbn [steps app].
  - destruct (steps d os2). reflexivity.
  - destruct (step d o) as [r d0]. rewrite IH. destruct (steps d0 os1) as [r1 d1]. destruct (steps d1 os2) as [r2 d2]. reflexivity.
Qed.

Lemma NoDup_rows_steps os : forall d rs d', NoDup (map m_id (maint d)) -> steps d os = (rs, d') -> NoDup (map m_id (maint d')).
Proof.
  induction os as [|o os IH]; intros d rs d' N; cbn [steps]; [now intros [= _ <-]|].
  destruct (step d o) as [r d1] eqn:S. destruct (steps d1 os) as [rs1 d2] eqn:R. intros [= _ <-].
  eapply IH; [|exact R]. eapply NoDup_rows; eauto.
Qed.

(** The latest of the finished ones. *)
Lemma latest_spec l x : In x l -> (forall y, In y l -> y = x \/ snd y < snd x) -> latest l = Some x.
Proof.
  induction l as [|a l IH]; [intros []|]. intros I H. cbn.
  destruct (latest l) as [y|] eqn:L.
  - assert (Iy : In y l).
    { clear -L. revert y L. induction l as [|a l IH]; cbn; [discriminate|]. intros y. destruct (latest l) as [z|].
      - destruct (_ >? _); intros [= <-]; [right; now apply IH|now left].
      - intros [= <-]. now left. }
    destruct I as [<-|I].
    + destruct (H y (or_intror Iy)) as [->|Lt].
      * destruct (Z.gtb_spec (snd a) (snd a)); [lia|reflexivity].
      * destruct (Z.gtb_spec (snd y) (snd a)); [lia|reflexivity].
    + assert (Some y = Some x) as [= ->] by (apply IH; [exact I|intros z Hz; apply H; now right]).
      destruct (H a (or_introl eq_refl)) as [->|Lt].
      * destruct (_ >? _); reflexivity.
      * destruct (Z.gtb_spec (snd x) (snd a)); [reflexivity|lia].
  - destruct I as [<-|I]; [reflexivity|]. destruct l as [|b l]; [destruct I|]. cbn in L. destruct (latest l); [destruct (_ >? _)|]; discriminate.
Qed.

Lemma NoDup_map_inj A B (f : A -> B) l x y : NoDup (map f l) -> In x l -> In y l -> f x = f y -> x = y.
Proof.
  induction l as [|a l IH]; [intros _ []|]. cbn. intros N Ix Iy E. inversion N as [|? ? Na Nl]; subst.
  destruct Ix as [<-|Ix], Iy as [<-|Iy]; [reflexivity| | |now apply IH].
  - exfalso. apply Na. rewrite E. now apply in_map.
  - exfalso. apply Na. rewrite <- E. now apply in_map.
Qed.

Lemma report pre t0 mid id t1 rs d rs' d' pv :
  0 < pv -> (forall pv' sizes, In (OMaintObserve pv' (Some id) sizes) mid -> pv' = pv) ->
  (forall now, ~ In (OMaintFinish (Some id) now) mid) ->
  steps empty_db pre = (rs, d) ->
  steps d (OMaintStart t0 :: mid ++ [OMaintFinish (Some id) t1]) = (Ok (RNum id) :: rs', d') ->
  In (MR id t0 (Some t1) (recorded_cost pv id mid)) (maint d') /\
  ((forall i t, In (OMaintFinish (Some i) t) (pre ++ mid) -> t < t1) ->
   step d' OLatest = (Ok (RActivity (Some (t0, recorded_cost pv id mid, t1))), d')).
Proof.
  intros Hv P F S0 S. pose proof S as Sall. cbn [steps] in S. destruct (step d (OMaintStart t0)) as [r d1] eqn:S1.
  rewrite steps_app in S. destruct (steps d1 mid) as [r2 d2] eqn:S2. cbn [steps] in S.
  destruct (step d2 (OMaintFinish (Some id) t1)) as [r3 d3] eqn:S3. injection S as -> <- <-.
  pose proof (started_row S1) as I1. pose proof (@row_run _ _ _ _ _ _ _ _ Hv P F S2 I1) as I2. rewrite Z.add_0_l in I2.
  pose proof (step_rows _ _ S3) as [_ E3].
  assert (I3 : In (MR id t0 (Some t1) (recorded_cost pv id mid)) (maint d3)).
  { rewrite E3. apply in_map_iff. eexists. split; [|exact I2]. unfold set_finish. cbn. now rewrite Z.eqb_refl. }
  split; [exact I3|]. intros L. cbn [step op_prog]. rewrite with_cursor_pmap. unfold with_cursor, get_latest_lease_maintenance_activity.
  cbn [run]. rewrite (@latest_spec _ (t0, recorded_cost pv id mid, t1)); [reflexivity| |].
  - apply in_flat_map. eexists. split; [exact I3|]. now left.
  - intros y Hy. apply in_flat_map in Hy as (r & Ir & Hy). destruct (m_finished r) as [f|] eqn:Ef; [|destruct Hy].
    destruct Hy as [<-|[]]. cbn [snd]. destruct (Z.eq_dec (m_id r) id) as [E|Ne].
    + left. assert (N : NoDup (map m_id (maint d3))).
      { assert (Z0 : steps empty_db (pre ++ OMaintStart t0 :: mid ++ [OMaintFinish (Some id) t1]) = (rs ++ Ok (RNum id) :: r2 ++ [r3], d3))
          by (rewrite steps_app, S0, Sall; reflexivity).
        eapply NoDup_rows_steps; [|exact Z0]. constructor. }
      rewrite (NoDup_map_inj m_id _ _ _ N Ir I3 E) in *. cbn in *. congruence.
    + right. assert (Z0 : steps empty_db (pre ++ OMaintStart t0 :: mid ++ [OMaintFinish (Some id) t1]) = (rs ++ Ok (RNum id) :: r2 ++ [r3], d3))
          by (rewrite steps_app, S0, Sall; reflexivity).
      destruct (finished_from _ _ _ Z0 Ir Ef) as [J|(r0 & [] & _)].
      apply in_app_or in J as [J|J]; [eapply L; apply in_or_app; left; exact J|].
      destruct J as [J|J]; [discriminate|]. apply in_app_or in J as [J|[J|[]]]; [eapply L; apply in_or_app; right; exact J|].
      injection J as J _. congruence.
Qed.

Lemma recorded_for_cost pv id os : (forall pv' sizes, In (OMaintObserve pv' (Some id) sizes) os -> pv' = pv) ->
  recorded_cost pv id os = sumZ (map (fun s => cdiv s pv) (concat (recorded_for id os))).
Proof.
  induction os as [|o os IH]; intros P; [reflexivity|].
  specialize (IH (fun pv' sizes I => P pv' sizes (or_intror I))). unfold recorded_for in *. cbn [flat_map].
  destruct o; cbn [recorded_cost app]; try exact IH. destruct rowid as [i|]; [|exact IH]. rewrite IH.
  destruct (Z.eqb_spec i id) as [->|]; [|rewrite andb_false_r; reflexivity].
  rewrite (P _ _ (or_introl eq_refl)), Z.eqb_refl. cbn [andb app concat]. now rewrite map_app, sumZ_app.
Qed.

Lemma concat_filter_nonempty (l : list (list Z)) : concat (filter nonempty l) = concat l.
Proof. induction l as [|[|x a] l IH]; cbn; [reflexivity|exact IH|now rewrite IH]. Qed.

Lemma sizes_on_all x : (let '(_, _, names, answer) := x in length names = length answer) -> concat (sizes_on x) = all_sizes x.
Proof.
  destruct x as [[[now server] names] answer]. unfold sizes_on, all_sizes. cbn [snd]. rewrite concat_filter_nonempty.
  revert answer. induction names as [|n names IH]; intros [|a answer]; cbn; try discriminate; intros E; [reflexivity|].
  f_equal. apply IH. now injection E.
Qed.

Lemma sizes_on_flat l : Forall (fun x => let '(_, _, names, answer) := x in length names = length answer) l ->
  concat (flat_map sizes_on l) = flat_map all_sizes l.
Proof.
  induction 1 as [|x l H _ IH]; [reflexivity|]. cbn [flat_map]. now rewrite concat_app, (sizes_on_all _ H), IH.
Qed.
