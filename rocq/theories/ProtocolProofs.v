(** Lemmas about method schemas. *)
From Verif Require Import Prelude PreludeFacts BytesModel BytesProofs PricingModel ProtocolModel ProtocolSpec.
Set Implicit Arguments.

Section Dict.
Variable A : Type.
Implicit Types (d : ndict A) (k : bytes).
Lemma nset_app pre d k a : ~ In k (map fst pre) -> nset k a (pre ++ d) = pre ++ nset k a d.
Proof.
  induction pre as [|[k' a'] pre IH]; cbn; intros N; [reflexivity|]. destruct (bytes_eqb_spec k k') as [->|_]; [tauto|].
  rewrite IH by tauto. reflexivity.
Qed.
Lemma nset_new d k a : ~ In k (map fst d) -> nset k a d = d ++ [(k, a)].
Proof. intros N. rewrite <- (app_nil_r d) at 1. rewrite nset_app by exact N. reflexivity. Qed.
Lemma nset_keys d k a n : In n (map fst (nset k a d)) <-> n = k \/ In n (map fst d).
Proof.
  induction d as [|[k' a'] d IH]; cbn; [intuition|]. destruct (bytes_eqb_spec k k') as [->|_]; cbn; [intuition|]. rewrite IH. intuition.
Qed.
Lemma nget_app pre d k : nget k (pre ++ d) = match nget k pre with Some a => Some a | None => nget k d end.
Proof. induction pre as [|[k' a'] pre IH]; cbn; [reflexivity|]. destruct (bytes_eqb k k'); auto. Qed.
Lemma nget_None d k : nget k d = None <-> ~ In k (map fst d).
Proof.
  induction d as [|[k' a'] d IH]; cbn; [tauto|]. destruct (bytes_eqb_spec k k') as [->|N]; [intuition discriminate|]. rewrite IH. intuition.
Qed.
Lemma nget_In d k a : nget k d = Some a -> In (k, a) d.
Proof. induction d as [|[k' a'] d IH]; cbn; [discriminate|]. destruct (bytes_eqb_spec k k') as [->|N]; [intros [= ->]; auto|auto]. Qed.
Lemma nget_nset d k a n : nget n (nset k a d) = if bytes_eqb n k then Some a else nget n d.
Proof.
  induction d as [|[k' a'] d IH]; cbn.
  - reflexivity.
  - destruct (bytes_eqb_spec k k') as [->|N]; cbn.
    + destruct (bytes_eqb n k'); reflexivity.
    + rewrite IH. destruct (bytes_eqb_spec n k') as [->|]; [|reflexivity]. destruct (bytes_eqb_spec k' k); [congruence|reflexivity].
Qed.
Lemma given_true (d : ndict A) n : given d n = true <-> In n (map fst d).
Proof.
  unfold given. destruct (nget n d) eqn:E.
  - split; [intros _|reflexivity]. apply nget_In in E. apply (in_map fst) in E. exact E.
  - split; [discriminate|]. intros I. apply nget_None in E. contradiction.
Qed.
End Dict.

Section Args.
Variable V : Type.
Implicit Types (s : schema V) (pre all : ndict V).

Lemma positional_app ns : forall args pre all, apart ns (map fst pre) ->
  positional ns args (pre ++ all) = option_map (app pre) (positional ns args all).
Proof.
  induction ns as [|n ns IH]; intros [|a args] pre all Ap; cbn; try reflexivity.
  rewrite nset_app by (apply Ap; left; reflexivity). apply IH. intros x I. apply Ap. right. exact I.
Qed.
Lemma positional_new ns vs : forall all rest args, length vs = length ns -> NoDup ns -> apart ns (map fst all) ->
  positional (ns ++ rest) (vs ++ args) all = positional rest args (all ++ combine ns vs).
Proof.
  revert vs. induction ns as [|n ns IH]; intros [|v vs] all rest args L N Ap; try discriminate L; cbn; [now rewrite app_nil_r|].
  inversion N; subst. rewrite nset_new by (apply Ap; left; reflexivity). rewrite IH; [|cbn in L; congruence|assumption|].
  - now rewrite <- app_assoc.
  - intros x I. rewrite map_app, in_app_iff. cbn. intros [J|[<-|[]]]; [|contradiction]. apply (Ap x); [right; exact I|exact J].
Qed.
Lemma positional_keys ns : forall args all all', positional ns args all = Some all' ->
  forall n, In n (map fst all') -> In n ns \/ In n (map fst all).
Proof.
  induction ns as [|m ns IH]; intros [|a args] all all' E n I; cbn in E; try (injection E as <-; auto); try discriminate.
  destruct (IH _ _ _ E n I) as [J|J]; [left; right; exact J|]. apply nset_keys in J. cbn. intuition.
Qed.

Lemma keywords_app kw : forall pre all, apart (map fst kw) (map fst pre) ->
  keywords kw (pre ++ all) = option_map (app pre) (keywords kw all).
Proof.
  induction kw as [|[n a] kw IH]; intros pre all Ap; cbn; [reflexivity|].
  assert (N : ~ In n (map fst pre)) by (apply Ap; left; reflexivity).
  rewrite nget_app. apply nget_None in N as N'. rewrite N'. destruct (nget n all); [reflexivity|].
  rewrite nset_app by exact N. apply IH. intros x I. apply Ap. right. exact I.
Qed.
Lemma keywords_keys kw : forall all all', keywords kw all = Some all' ->
  forall n, In n (map fst all') -> In n (map fst kw) \/ In n (map fst all).
Proof.
  induction kw as [|[m a] kw IH]; intros all all' E n I; cbn in E; [injection E as <-; auto|].
  destruct (nget m all); [discriminate|]. destruct (IH _ _ E n I) as [J|J]; [left; right; exact J|]. apply nset_keys in J. cbn. intuition.
Qed.

Lemma added_get (new : ndict (constraint V)) : forall d n, ~ In n (map fst new) ->
  nget n (fold_left (fun d kc => nset (fst kc) (snd kc) d) new d) = nget n d.
Proof.
  induction new as [|[m c] new IH]; intros d n N; cbn in *; [reflexivity|]. rewrite IH by tauto. rewrite nget_nset.
  destruct (bytes_eqb_spec n m); [subst; tauto|reflexivity].
Qed.
Lemma added_eq (new : ndict (constraint V)) : forall d, NoDup (map fst new) -> apart (map fst new) (map fst d) ->
  fold_left (fun d kc => nset (fst kc) (snd kc) d) new d = d ++ new.
Proof.
  induction new as [|[m c] new IH]; intros d N Ap; cbn in *; [now rewrite app_nil_r|]. inversion N; subst.
  rewrite nset_new by (apply Ap; left; reflexivity). rewrite IH; [now rewrite <- app_assoc|assumption|].
  intros x I. rewrite map_app, in_app_iff. cbn. intros [J|[<-|[]]]; [|contradiction]. apply (Ap x); [right; exact I|exact J].
Qed.
Lemma nget_self (new : ndict (constraint V)) n c : NoDup (map fst new) -> In (n, c) new -> nget n new = Some c.
Proof.
  induction new as [|[m c'] new IH]; cbn; [intros _ []|]. intros N. inversion N; subst. intros [[= -> ->]|I].
  - now rewrite bytes_eqb_refl.
  - destruct (bytes_eqb_spec n m) as [->|_]; [|apply IH; assumption]. apply (in_map fst) in I. contradiction.
Qed.

Definition accepts_all (new : ndict (constraint V)) (vs : list V) : bool :=
  forallb (fun cv => c_accepts (snd (fst cv)) (snd cv)) (combine new vs).

Lemma forallb_ext A (f g : A -> bool) l : (forall x, In x l -> f x = g x) -> forallb f l = forallb g l.
Proof. induction l as [|x l IH]; cbn; intros H; [reflexivity|]. rewrite H, IH; auto. Qed.

Lemma add_arguments_check s new vs args kw :
  schema_ok s -> NoDup (map fst new) -> apart (map fst new) (argumentNames s) ->
  apart (map fst new) (map fst (argConstraints s)) -> apart (map fst new) (map fst kw) -> length vs = length new ->
  check_all_args (add_arguments s new) (vs ++ args) kw =
  if accepts_all new vs then option_map (app (combine (map fst new) vs)) (check_all_args s args kw) else None.
Proof.
  intros [Nd Rq] Nn An Ac Ak L. unfold check_all_args at 1. unfold add_arguments at 1. cbn [argumentNames].
  rewrite positional_new; [|now rewrite map_length|exact Nn|intros ? ? []]. cbn [app].
  set (pre := combine (map fst new) vs).
  assert (Kp : map fst pre = map fst new).
  { unfold pre. clear -L. revert vs L. induction new as [|x new IH]; intros [|v vs] L; try discriminate L; cbn; [reflexivity|].
    f_equal. apply IH. cbn in L. congruence. }
  rewrite <- (app_nil_r pre) at 1. rewrite positional_app by (rewrite Kp; intros x I J; exact (An _ J I)).
  unfold check_all_args. destruct (positional (argumentNames s) args []) as [all1|] eqn:E1; cbn [option_map];
    [|destruct (accepts_all new vs); reflexivity].
  rewrite keywords_app by (rewrite Kp; intros x I J; exact (Ak _ J I)).
  destruct (keywords kw all1) as [all|] eqn:E2; cbn [option_map]; [|destruct (accepts_all new vs); reflexivity].
  assert (Apart : forall n, In n (map fst all) -> ~ In n (map fst new)).
  { intros n I J. destruct (keywords_keys _ _ E2 n I) as [K|K]; [exact (Ak _ J K)|].
    destruct (positional_keys _ _ _ E1 n K) as [M|[]]. exact (An _ J M). }
  unfold add_arguments. cbn [required make_schema]. rewrite added_eq by assumption.
  assert (Q1 : forallb (acceptable (Schema (map fst new ++ argumentNames s) (argConstraints s ++ new) (required (make_schema (argConstraints s ++ new))) None)) pre
             = accepts_all new vs).
  { assert (G : forall n c, In (n, c) new -> nget n (argConstraints s ++ new) = Some c).
    { intros n c I. rewrite nget_app. assert (N : ~ In n (map fst (argConstraints s))) by (apply Ac; apply (in_map fst) in I; exact I).
      apply nget_None in N. rewrite N. now apply nget_self. }
    unfold pre, accepts_all. clear -G L. revert G. generalize (argConstraints s ++ new). intros d G. revert vs L.
    induction new as [|[n c] new IH]; intros [|v vs] L; try discriminate L; [reflexivity|]. cbn [map combine forallb fst snd].
    unfold acceptable at 1. cbn [fst snd argConstraints]. rewrite (G n c (or_introl eq_refl)). f_equal.
    cbn in IH. apply IH; [intros m c' I; apply G; right; exact I|cbn in L; congruence]. }
  assert (Q2 : forallb (acceptable (Schema (map fst new ++ argumentNames s) (argConstraints s ++ new) (required (make_schema (argConstraints s ++ new))) None)) all
             = forallb (acceptable s) all).
  { apply forallb_ext. intros [n v] I. unfold acceptable. cbn [fst snd argConstraints]. rewrite nget_app.
    assert (N : ~ In n (map fst new)) by (apply Apart; apply (in_map fst) in I; exact I). apply nget_None in N. rewrite N.
    destruct (nget n (argConstraints s)); reflexivity. }
  assert (Q3 : forallb (given (pre ++ all)) (map fst (filter (fun kc => negb (c_optional (snd kc))) (argConstraints s ++ new)))
             = forallb (given all) (required s)).
  { apply eq_true_iff_eq. rewrite !forallb_forall. split.
    - intros H n I. apply Rq in I as (c & I & O). specialize (H n). rewrite given_true, map_app, in_app_iff, Kp in H.
      rewrite given_true. destruct H as [H|H]; [|exfalso|exact H].
      + apply in_map_iff. exists (n, c). split; [reflexivity|]. apply filter_In. split; [apply in_or_app; left; exact I|]. cbn. now rewrite O.
      + apply (in_map fst) in I. exact (Ac _ H I).
    - intros H n I. apply in_map_iff in I as ([m c] & <- & I). apply filter_In in I as [I O]. cbn in *.
      rewrite given_true, map_app, in_app_iff, Kp. apply in_app_or in I as [I|I].
      + right. apply given_true. apply H. apply Rq. exists c. split; [exact I|]. now destruct (c_optional c).
      + left. apply (in_map fst) in I. exact I. }
  cbn [make_schema responseConstraint argConstraints required] in *. rewrite forallb_app, Q1, Q2, Q3.
  destruct (accepts_all new vs); cbn [andb]; [|reflexivity]. destruct (_ && _); reflexivity.
Qed.
End Args.

Section Passes.
Variable V : Type.
Variable as_list : V -> option (list V).
Variable as_bytes : V -> option bytes.

Lemma pass_list_ok v l ps : as_list v = Some l -> Forall2 (fun x b => as_bytes x = Some b) l ps ->
  (pass_list_constraint as_list as_bytes v = true <-> fits ps).
Proof.
  intros E F. unfold pass_list_constraint, fits. rewrite E, andb_true_iff, forallb_forall.
  assert (L : length l = length ps) by (clear -F; induction F; cbn; congruence).
  change MAXIMUM_PASSES_PER_CALL with 1048576. unfold lenZ. rewrite L, Z.leb_le.
  assert (Q : (forall x, In x l -> pass_constraint as_bytes x = true) <-> (forall p, In p ps -> length p = 177%nat)).
  { clear -F. induction F as [|x b l ps H F IH]; [split; intros _ ? []|].
    assert (X : pass_constraint as_bytes x = true <-> length b = 177%nat).
    { unfold pass_constraint, PASS_LENGTH, lenZ. rewrite H, andb_true_iff, !Z.leb_le. lia. }
    cbn [In]. split.
    - intros A p [<-|I]; [apply X, A; auto|]. apply IH; [|exact I]. intros y J. apply A. auto.
    - intros A p [<-|I]; [apply X, A; auto|]. apply IH; [|exact I]. intros y J. apply A. auto. }
  rewrite Q. tauto.
Qed.

Lemma pass_list_inv v : pass_list_constraint as_list as_bytes v = true ->
  exists l ps, as_list v = Some l /\ Forall2 (fun x b => as_bytes x = Some b) l ps /\ fits ps.
Proof.
  intros H. destruct (as_list v) as [l|] eqn:E; [|unfold pass_list_constraint in H; rewrite E in H; discriminate].
  assert (P : exists ps, Forall2 (fun x b => as_bytes x = Some b) l ps).
  { unfold pass_list_constraint in H. rewrite E in H. apply andb_true_iff in H as [_ H]. clear E. induction l as [|x l IH].
    - exists []. constructor.
    - cbn in H. apply andb_true_iff in H as [H1 H2]. destruct (IH H2) as [ps F]. unfold pass_constraint in H1.
      destruct (as_bytes x) as [b|] eqn:Eb; [|discriminate]. exists (b :: ps). constructor; assumption. }
  destruct P as [ps F]. exists l, ps. split; [reflexivity|]. split; [exact F|]. now apply (pass_list_ok E F).
Qed.

Lemma without_passes (s : schema V) args kw all : check_all_args (add_passes as_list as_bytes s) args kw = Some all ->
  exists v, nget PASSES all = Some v /\ pass_list_constraint as_list as_bytes v = true.
Proof.
  unfold check_all_args. destruct (positional _ _ _) as [all1|]; [|discriminate]. destruct (keywords kw all1) as [a|]; [|discriminate].
  destruct (forallb (acceptable _) a && _) eqn:B; [|discriminate]. intros [= ->]. apply andb_true_iff in B as [B1 B2].
  set (d := nset PASSES (Constraint false (pass_list_constraint as_list as_bytes)) (argConstraints s)) in *.
  assert (G : nget PASSES d = Some (Constraint false (pass_list_constraint as_list as_bytes))) by (unfold d; now rewrite nget_nset, bytes_eqb_refl).
  rewrite forallb_forall in B1, B2. specialize (B2 PASSES). unfold given in B2. destruct (nget PASSES all) as [v|] eqn:E.
  - exists v. split; [reflexivity|]. apply nget_In in E. specialize (B1 _ E). unfold acceptable in B1. cbn [fst snd add_passes add_arguments argConstraints make_schema fold_left] in B1.
    fold d in B1. rewrite G in B1. exact B1.
  - discriminate B2. cbn [add_passes add_arguments required make_schema fold_left fst snd]. fold d. apply in_map_iff.
    exists (PASSES, Constraint false (pass_list_constraint as_list as_bytes)). split; [reflexivity|]. apply filter_In. split; [now apply nget_In|reflexivity].
Qed.
End Passes.
