(** Lemmas about the plugin's stores. *)
From Verif Require Import Prelude PluginModel PluginSpec.

Lemma held_iff p i : held p i = true <-> in_use p i.
Proof.
  unfold held, in_use. rewrite orb_true_iff, existsb_exists. split.
  - intros [H|(x & I & H)]; [left|right].
    + destruct (p_maintenance p); [|discriminate]. apply Nat.eqb_eq in H. congruence.
    + apply Nat.eqb_eq in H. now subst.
  - intros [H|I]; [left|right].
    + rewrite H. apply Nat.eqb_refl.
    + exists i. split; [exact I|apply Nat.eqb_refl].
Qed.

Lemma remove_one_In i j l : In j (remove_one i l) -> In j l.
Proof. induction l as [|x l IH]; cbn; [trivial|]. destruct (Nat.eqb i x); cbn; intuition. Qed.

(** Whoever uses a store uses the cached one; services belong to opened stores, one each; there
    is a service for every store in use if replication is set up. *)
Definition sound (p : plugin) : Prop :=
  (forall i, in_use p i -> p_cached p = Some i) /\
  (forall i, p_cached p = Some i -> (i < p_opened p)%nat) /\
  NoDup (p_services p) /\ (forall i, In i (p_services p) -> (i < p_opened p)%nat) /\
  (p_setup p = false -> p_services p = []) /\
  (p_setup p = true -> forall i, in_use p i -> In i (p_services p)).

Lemma sound_new setup : sound (new_plugin setup).
Proof.
  unfold sound, in_use. cbn. split; [intros i [H|[]]; discriminate H|]. split; [discriminate|]. split; [apply NoDup_nil|].
  split; [intros i []|]. split; [reflexivity|]. intros _ i [H|[]]. discriminate H.
Qed.

Lemma sound_get p i p' : get_store p = (i, p') -> sound p ->
  sound p' /\ p_cached p' = Some i /\ (i < p_opened p')%nat /\ (p_setup p' = true -> In i (p_services p')) /\ p_setup p' = p_setup p /\
  p_maintenance p' = p_maintenance p /\ p_users p' = p_users p.
Proof.
  intros E S0. pose proof S0 as (H1 & H2 & H3 & H4 & H5 & H6). unfold get_store in E. destruct (known p) as [j|] eqn:K.
  - injection E as <- <-. unfold known in K. destruct (p_cached p) as [c|] eqn:C; [|discriminate].
    destruct (held p c) eqn:Hd; [|discriminate]. injection K as ->. apply held_iff in Hd.
    split; [exact S0|]. split; [reflexivity|]. split; [apply H2; auto|]. auto.
  - assert (Nu : forall j, ~ in_use p j).
    { intros j U. unfold known in K. rewrite (H1 j U) in K. apply held_iff in U. rewrite U in K. discriminate. }
    assert (Fresh : ~ In (p_opened p) (p_services p)) by (intros I; apply H4 in I; lia).
    destruct (p_setup p) eqn:Su; injection E as <- <-.
    + split.
      { repeat split; cbn; auto.
        - intros j U. destruct (Nu j U).
        - intros j [= <-]. lia.
        - apply NoDup_rev in H3. rewrite <- (rev_involutive (p_services p ++ _)). apply NoDup_rev. rewrite rev_app_distr. cbn.
          constructor; [rewrite <- in_rev; exact Fresh|exact H3].
        - intros j I. apply in_app_or in I as [I|[<-|[]]]; [apply H4 in I|]; lia.
        - congruence.
        - intros _ j U. destruct (Nu j U). }
      cbn. split; [reflexivity|]. split; [lia|]. split; [intros _; apply in_or_app; right; left; reflexivity|]. auto.
    + split.
      { repeat split; cbn; auto.
        - intros j U. destruct (Nu j U).
        - intros j [= <-]. lia.
        - intros j I. apply H4 in I. lia. }
      cbn. split; [reflexivity|]. split; [lia|]. split; [congruence|]. auto.
Qed.

Lemma sound_use i p : sound p -> p_cached p = Some i -> (p_setup p = true -> In i (p_services p)) -> sound (use (i, p)).
Proof.
  intros (H1 & H2 & H3 & H4 & H5 & H6) C S. unfold use. repeat split; cbn; auto.
  - intros j [U|I]; [apply H1; left; exact U|]. apply in_app_or in I as [I|[<-|[]]]; [apply H1; right; exact I|exact C].
  - intros Su j [U|I]; [apply H6; [exact Su|left; exact U]|]. apply in_app_or in I as [I|[<-|[]]]; [apply H6; [exact Su|right; exact I]|auto].
Qed.
Lemma sound_maintain i p : sound p -> p_cached p = Some i -> (p_setup p = true -> In i (p_services p)) -> sound (maintain (i, p)).
Proof.
  intros (H1 & H2 & H3 & H4 & H5 & H6) C S. unfold maintain. repeat split; cbn; auto.
  - intros j [[= <-]|I]; [exact C|]. apply H1. right. exact I.
  - intros Su j [[= <-]|I]; [auto|]. apply H6; [exact Su|right; exact I].
Qed.

Lemma sound_step p e : sound p -> sound (step p e).
Proof.
  intros H. assert (G : exists i p', get_store p = (i, p')) by (destruct (get_store p); eauto). destruct G as (i & p' & G).
  destruct (sound_get p i p' G H) as (S & C & L & Sv & _). destruct e as [| |enabled ok|j|j]; cbn [step]; rewrite ?G; try now apply sound_use.
  - destruct enabled; [|exact S]. destruct (p_maintenance p); [exact S|]. destruct ok; [|exact S]. now apply sound_maintain.
  - destruct H as (H1 & H2 & H3 & H4 & H5 & H6). repeat split; cbn; auto.
    + intros k [U|I]; apply H1; [left; exact U|right; eapply remove_one_In; exact I].
    + intros Su k [U|I]; apply H6; auto; [left; exact U|right; eapply remove_one_In; exact I].
  - destruct (existsb (Nat.eqb j) (p_users p)) eqn:U; [|exact H]. destruct (p_setup p) eqn:Su; [exact H|]. cbn [andb negb].
    assert (Uj : in_use p j).
    { right. apply existsb_exists in U as (x & I & E). apply Nat.eqb_eq in E. now subst. }
    destruct H as (H1 & H2 & H3 & H4 & H5 & H6). unfold add_replication_service. repeat split; cbn; auto.
    + rewrite (H5 Su). repeat constructor. intros [].
    + intros k I. rewrite (H5 Su) in I. destruct I as [<-|[]]. auto.
    + discriminate.
    + intros _ k V. apply in_or_app. right. left. pose proof (H1 _ Uj) as E1. assert (p_cached p = Some k) by (apply H1, V). congruence.
Qed.
Lemma sound_run es : forall p, sound p -> sound (run p es).
Proof. induction es as [|e es IH]; intros p H; [exact H|]. apply IH, sound_step, H. Qed.

Lemma get_opened p : sound p -> (p_opened p = 0%nat \/ exists i, in_use p i) -> (p_opened p <= 1)%nat ->
  (p_opened (snd (get_store p)) <= 1)%nat.
Proof.
  intros (H1 & _) [Z|[i U]] L; unfold get_store.
  - destruct (known p); cbn [snd]; [exact L|]. rewrite Z. destruct (p_setup p); cbn; lia.
  - unfold known. rewrite (H1 i U). apply held_iff in U. rewrite U. exact L.
Qed.
Lemma opened_step p e : sound p -> (p_opened p = 0%nat \/ exists i, in_use p i) -> (p_opened p <= 1)%nat -> (p_opened (step p e) <= 1)%nat.
Proof.
  intros S U L. pose proof (get_opened p S U L) as G. destruct (get_store p) as [i p'] eqn:E. cbn [snd] in G.
  destruct e as [| |enabled ok|j|j]; cbn [step]; rewrite ?E; try exact G; try exact L.
  - destruct enabled; [|exact G]. destruct (p_maintenance p); [exact G|]. destruct ok; exact G.
  - destruct (_ && _); exact L.
Qed.
Lemma opened_run es : forall p, sound p -> (p_opened p <= 1)%nat -> always_used p es -> (p_opened (run p es) <= 1)%nat.
Proof.
  induction es as [|e es IH]; intros p S L [U A]; [exact L|]. apply IH; [now apply sound_step|now apply opened_step|exact A].
Qed.
Lemma maintained_step p e i : p_maintenance p = Some i -> p_maintenance (step p e) = Some i.
Proof.
  intros M. assert (G : p_maintenance (snd (get_store p)) = Some i).
  { unfold get_store. destruct (known p); [exact M|]. destruct (p_setup p); exact M. }
  destruct (get_store p) as [j p'] eqn:E. cbn [snd] in G. destruct e as [| |enabled ok|k|k]; cbn [step]; rewrite ?E; try exact G; try exact M.
  - rewrite M. destruct enabled; exact G.
  - destruct (_ && _); exact M.
Qed.
Lemma maintained_run es : forall p i, p_maintenance p = Some i -> p_maintenance (run p es) = Some i.
Proof. induction es as [|e es IH]; intros p i M; [exact M|]. apply IH, maintained_step, M. Qed.
Lemma maintained_used es : forall p i, p_maintenance p = Some i -> always_used p es.
Proof.
  induction es as [|e es IH]; intros p i M; (split; [right; exists i; left; exact M|]); [exact I|].
  apply (IH _ i), maintained_step, M.
Qed.
