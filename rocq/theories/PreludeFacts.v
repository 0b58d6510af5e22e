(** Lemmas about [Prelude]. *)
From Verif Require Import Prelude.
Set Implicit Arguments.

Lemma memZ_In k l : memZ k l = true <-> In k l.
Proof.
  unfold memZ; rewrite existsb_exists; split.
  - intros [x [Hx E]]; apply Z.eqb_eq in E; subst; exact Hx.
  - intros H; exists k; split; [exact H|apply Z.eqb_refl].
Qed.

Lemma memZ_not_In k l : memZ k l = false <-> ~ In k l.
Proof.
  rewrite <- memZ_In; destruct (memZ k l); split; intros; congruence.
Qed.

Lemma dget_None V k (d : dict V) : dget k d = None <-> ~ In k (dkeys d).
Proof.
  induction d as [|[k' v] d IH]; cbn.
  - split; [intros _ []|reflexivity].
  - destruct (Z.eqb_spec k k') as [->|N].
    + split; [discriminate|intros H; exfalso; apply H; left; reflexivity].
    + rewrite IH; split; intros H; [intros [E|E]; [congruence|auto]|auto].
Qed.

Lemma dget_Some_In V k v (d : dict V) : dget k d = Some v -> In (k, v) d.
Proof.
  induction d as [|[k' v'] d IH]; cbn; [discriminate|].
  destruct (Z.eqb_spec k k') as [->|N]; [intros [= ->]; left; reflexivity|auto].
Qed.

Lemma dget_In_wf V k v (d : dict V) : dict_wf d -> In (k, v) d -> dget k d = Some v.
Proof.
  unfold dict_wf; induction d as [|[k' v'] d IH]; cbn; intros W H; [contradiction|].
  inversion W as [|? ? Hn W']; subst.
  destruct H as [E|H].
  - injection E as -> ->; rewrite Z.eqb_refl; reflexivity.
  - destruct (Z.eqb_spec k k') as [->|N]; [|auto].
    exfalso; apply Hn. change k' with (fst (k', v)); apply in_map; exact H.
Qed.

Lemma dkeys_dset V k v (d : dict V) :
  dkeys (dset k v d) = if memZ k (dkeys d) then dkeys d else dkeys d ++ [k].
Proof.
  induction d as [|[k' v'] d IH]; cbn; [reflexivity|].
  destruct (Z.eqb_spec k k') as [->|N]; cbn; [reflexivity|].
  fold (dkeys (dset k v d)); rewrite IH.
  unfold memZ, dkeys; destruct (existsb (Z.eqb k) (map fst d)); reflexivity.
Qed.

Lemma in_dkeys_dset V k v (d : dict V) x :
  In x (dkeys (dset k v d)) <-> x = k \/ In x (dkeys d).
Proof.
  rewrite dkeys_dset; destruct (memZ k (dkeys d)) eqn:E.
  - apply memZ_In in E; split; [auto|intros [->|H]; auto].
  - rewrite in_app_iff; cbn; intuition congruence.
Qed.

Lemma dset_wf V k v (d : dict V) : dict_wf d -> dict_wf (dset k v d).
Proof.
  unfold dict_wf; intros W; rewrite dkeys_dset; destruct (memZ k (dkeys d)) eqn:E; [exact W|].
  apply memZ_not_In in E.
  apply NoDup_rev in W. rewrite <- (rev_involutive (dkeys d ++ [k])).
  apply NoDup_rev. rewrite rev_app_distr; cbn. constructor; [|exact W].
  rewrite <- in_rev; exact E.
Qed.

Lemma dget_dset V k v (d : dict V) x :
  dget x (dset k v d) = if x =? k then Some v else dget x d.
Proof.
  induction d as [|[k' v'] d IH]; cbn; [reflexivity|].
  destruct (Z.eqb_spec k k') as [->|N]; cbn.
  - destruct (Z.eqb_spec x k'); reflexivity.
  - destruct (Z.eqb_spec x k') as [->|M].
    + destruct (Z.eqb_spec k' k); [congruence|reflexivity].
    + exact IH.
Qed.

Lemma dict_of_wf V (l : list (Z * V)) : dict_wf (dict_of l).
Proof.
  unfold dict_of. assert (H : dict_wf (@nil (Z * V))) by constructor.
  revert H; generalize (@nil (Z * V)); induction l as [|[k v] l IH]; intros d W; cbn; [exact W|].
  apply IH, dset_wf, W.
Qed.

Lemma dict_of_app_get V (l : list (Z * V)) d x :
  NoDup (map fst l) ->
  dget x (fold_left (fun d kv => dset (fst kv) (snd kv) d) l d)
  = match dget x l with Some v => Some v | None => dget x d end.
Proof.
  revert d; induction l as [|[k v] l IH]; intros d W; cbn; [reflexivity|].
  inversion W as [|? ? Hn W']; subst.
  rewrite IH by exact W'. rewrite dget_dset.
  destruct (Z.eqb_spec x k) as [->|N]; [|reflexivity].
  assert (dget k l = None) as -> by (apply dget_None; exact Hn). reflexivity.
Qed.

Lemma dget_dict_of V (l : list (Z * V)) x :
  NoDup (map fst l) -> dget x (dict_of l) = dget x l.
Proof.
  intros W; unfold dict_of; rewrite dict_of_app_get by exact W.
  cbn; destruct (dget x l); reflexivity.
Qed.

Lemma dset_app_fresh V k v (d : dict V) : ~ In k (dkeys d) -> dset k v d = d ++ [(k, v)].
Proof.
  induction d as [|[k' v'] d IH]; cbn; intros H; [reflexivity|].
  destruct (Z.eqb_spec k k') as [->|N]; [exfalso; auto|]. rewrite IH; auto.
Qed.

Lemma dict_of_id V (l : list (Z * V)) : NoDup (map fst l) -> dict_of l = l.
Proof.
  intros W; unfold dict_of. change l with ([] ++ l) at 2.
  assert (G : NoDup (map fst ([] ++ l))) by exact W. revert G; generalize (@nil (Z * V)).
  clear W; induction l as [|[k v] l IH]; intros d W; cbn; [rewrite app_nil_r; reflexivity|].
  rewrite dset_app_fresh.
  - rewrite IH; rewrite <- app_assoc; [reflexivity|exact W].
  - intros H. rewrite map_app in W; cbn in W. apply NoDup_remove_2 in W.
    apply W, in_app_iff; left; exact H.
Qed.

Lemma sumZ_app a b : sumZ (a ++ b) = sumZ a + sumZ b.
Proof. induction a as [|x a IH]; cbn; lia. Qed.

Lemma sumZ_perm a b : Permutation a b -> sumZ a = sumZ b.
Proof. induction 1; cbn; lia. Qed.

Lemma sumZ_repeat x n : sumZ (repeat x n) = Z.of_nat n * x.
Proof. induction n as [|n IH]; cbn [repeat sumZ]; lia. Qed.

Lemma sumZ_nonneg l : (forall x, In x l -> 0 <= x) -> 0 <= sumZ l.
Proof.
  induction l as [|x l IH]; cbn; intros H; [lia|].
  assert (0 <= x) by auto. assert (0 <= sumZ l) by auto. lia.
Qed.

Lemma sumZ_map_sub A (f g : A -> Z) l :
  sumZ (map (fun x => f x - g x) l) = sumZ (map f l) - sumZ (map g l).
Proof. induction l as [|x l IH]; cbn; lia. Qed.

Lemma sumZ_map_ext A (f g : A -> Z) l :
  (forall x, In x l -> f x = g x) -> sumZ (map f l) = sumZ (map g l).
Proof.
  induction l as [|x l IH]; cbn; intros H; [reflexivity|].
  rewrite H by auto. rewrite IH by auto. reflexivity.
Qed.

(** Summing over a superset adds nothing when the extra items weigh 0. *)
Lemma sumZ_superset (f : Z -> Z) (a b : list Z) :
  NoDup a -> NoDup b -> incl a b -> (forall x, In x b -> ~ In x a -> f x = 0) ->
  sumZ (map f b) = sumZ (map f a).
Proof.
  revert b; induction a as [|x a IH]; intros b Na Nb I Z0.
  - cbn. rewrite sumZ_map_ext with (g := fun _ => 0); [|intros y Hy; apply Z0; auto].
    clear; induction b; cbn; lia.
  - inversion Na as [|? ? Hx Na']; subst.
    destruct (in_split x b) as [b1 [b2 ->]]; [apply I; left; reflexivity|].
    assert (Nx : ~ In x (b1 ++ b2)) by (apply NoDup_remove_2; exact Nb).
    assert (sumZ (map f (b1 ++ x :: b2)) = f x + sumZ (map f (b1 ++ b2))) as ->.
    { rewrite !map_app, !sumZ_app; cbn; lia. }
    cbn. rewrite IH; auto.
    + apply NoDup_remove_1 in Nb; exact Nb.
    + intros y Hy. assert (In y (b1 ++ x :: b2)) as H by (apply I; right; exact Hy).
      apply in_app_iff in H; apply in_app_iff; cbn in H.
      destruct H as [H|[E|H]]; auto; subst; contradiction.
    + intros y Hy Hn. apply Z0.
      * apply in_app_iff in Hy; apply in_app_iff; cbn; tauto.
      * intros [E|H]; [subst; contradiction|contradiction].
Qed.

Lemma map_repeat A B (f : A -> B) x n : map f (repeat x n) = repeat (f x) n.
Proof. induction n as [|n IH]; cbn; [reflexivity|rewrite IH; reflexivity]. Qed.
