(** Proofs for C117. *)
From Verif Require Import Prelude PreludeFacts PricingModel StoreModel StoreSpec StoreProofs ReplicaModel ReplicaSpec ReplicaStore RegainSpec.
From Coq Require Import Sorting.Permutation.
Set Implicit Arguments.

Lemma sim_restart a b : wsim a b -> restart a = restart b.
Proof.
  intros ((E1 & E2 & E3 & E4 & E5 & E6) & _). unfold restart.
  now rewrite E1, E2, E3, E4, E5, E6.
Qed.

Lemma sim_stored a b s t : wsim a b -> stored a s t <-> stored b s t.
Proof.
  intros ((E1 & E2 & E3 & E4 & E5 & E6) & _). unfold stored. rewrite E3, E5. tauto.
Qed.

(** The tables are well-formed along the history of a wallet. *)
Lemma fair_ops text_size stream_size s es : Forall fair_event es ->
  forall o, In o (store_ops text_size stream_size s es) -> fair o.
Proof.
  revert s. induction es as [|e es IH]; intros s F o; [intros []|].
  apply Forall_cons_iff in F as [F1 F2]. cbn [store_ops]. rewrite in_app_iff. intros [H|H]; [|exact (IH _ F2 o H)].
  destruct e as [p|p| | | | |p|x|x]; cbn in F1.
  - destruct p; destruct (n_up (fst s)); cbn in H; try contradiction H; destruct H as [<-|[]]; try exact F1; exact I.
  - destruct p; try contradiction H; match type of H with In _ (if ?c then _ else _) => destruct c end; cbn in H; try contradiction H; destruct H as [<-|[]]; try exact F1; exact I.
  - destruct (n_up (fst s)); cbn in H; [contradiction H|]. destruct H as [<-|[]]. exact I.
  - contradiction H.
  - contradiction H.
  - contradiction H.
  - contradiction H.
  - contradiction H.
  - contradiction H.
Qed.

Lemma was_wf text_size stream_size es b : Forall fair_event es -> wallet_was text_size stream_size es b -> wf b.
Proof.
  intros F (es1 & es2 & -> & <-). apply Forall_app in F as [F _]. rewrite wrun_store.
  apply wf_steps; [apply wf_empty|]. now apply fair_ops.
Qed.

Lemma available_restart d : available d = filter (fun t => negb (memZ t (in_use d))) (available (restart d)).
Proof.
  unfold available. cbn [unblinded groups in_use restart].
  generalize (unblinded d). intros us. induction us as [|u us IH]; [reflexivity|].
  cbn [flat_map]. rewrite filter_app, <- IH. f_equal. clear.
  generalize (groups d). intros gs. induction gs as [|g gs IH]; [reflexivity|].
  cbn [flat_map]. rewrite filter_app, <- IH. f_equal. clear. cbn [memZ existsb].
  destruct (u_group u =? g_id g); [|reflexivity]. destruct (g_spendable g); [|reflexivity]. cbn.
  destruct (memZ (u_token u) (in_use d)); reflexivity.
Qed.

Lemma wf_restart d : wf d -> wf (restart d).
Proof. intros W. exact (@wf_step d ORestart W I). Qed.

Lemma sim_available a b : wf b -> wsim a b -> NoDup (available a).
Proof.
  intros W S. rewrite available_restart, (sim_restart S). apply NoDup_filter, available_NoDup, wf_restart, W.
Qed.

Lemma regain_gives a b ts : wf b -> wsim a b -> NoDup ts -> (forall t, In t ts -> idle b t) ->
  lenZ ts <= SQLITE3_INTEGER_MAX -> gives a (lenZ ts).
Proof.
  intros W S N H L scan P. rewrite step_extract_eq.
  destruct (Z.gtb_spec (lenZ ts) SQLITE3_INTEGER_MAX); [lia|]. cbv zeta.
  pose proof (sim_available W S) as NA.
  assert (NS : NoDup (scan (available a))) by (eapply Permutation_NoDup; [apply Permutation_sym, P|exact NA]).
  assert (Hn : lenZ ts <= lenZ (available a)).
  { unfold lenZ. apply Nat2Z.inj_le, NoDup_incl_length; [exact N|]. intros t Ht. apply in_available.
    destruct (H t Ht) as [H1 H2]. split; [now apply (sim_stored _ _ S)|]. intros X. apply H2. destruct S as (_ & S & _). now apply S. }
  assert (P0 : 0 <= lenZ ts) by (unfold lenZ; lia).
  assert (Hl : lenZ (limit (lenZ ts) (scan (available a))) = lenZ ts).
  { rewrite lenZ_limit by exact P0. unfold lenZ in *. rewrite (Permutation_length (P (available a))). lia. }
  rewrite Hl, Z.ltb_irrefl.
  assert (E : exec_muts (map InsInUse (limit (lenZ ts) (scan (available a)))) a =
              Ok (set_in_use (in_use a ++ limit (lenZ ts) (scan (available a))) a)).
  { apply ins_in_use_Ok. unfold limit. destruct (Z.ltb_spec (lenZ ts) 0); [lia|].
    split; [now apply NoDup_firstn|]. split; [|reflexivity].
    intros t Ht. apply in_firstn, (Permutation_in _ (P (available a))), in_available in Ht. tauto. }
  rewrite E. eexists. split; [reflexivity|exact Hl].
Qed.

Lemma regain_only a b : wf b -> wsim a b -> gives_only_tokens_of b a.
Proof.
  intros W S scan n toks P E. rewrite step_extract_eq in E.
  destruct (n >? SQLITE3_INTEGER_MAX); [discriminate|]. cbv zeta in E.
  destruct (lenZ (limit n (scan (available a))) <? n); [discriminate|].
  destruct (exec_muts _ a) as [d|e]; [|discriminate]. cbn in E. injection E as <-.
  assert (NS : NoDup (scan (available a))) by (eapply Permutation_NoDup; [apply Permutation_sym, P|exact (sim_available W S)]).
  split.
  - unfold limit. destruct (n <? 0); [exact NS|now apply NoDup_firstn].
  - intros t Ht. apply (sim_stored _ _ S). assert (X : In t (scan (available a))).
    { unfold limit in Ht. destruct (n <? 0); [exact Ht|now apply in_firstn in Ht]. }
    apply (Permutation_in _ (P (available a))), in_available in X. tauto.
Qed.
