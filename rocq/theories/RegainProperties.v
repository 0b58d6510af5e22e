(** Spending from a recovered wallet: C117. *)
From Verif Require Import Prelude PricingModel StoreModel StoreSpec ReplicaModel ReplicaSpec ReplicaStore RegainSpec RegainProofs.
From Coq Require Import Sorting.Permutation.

(** At any time of a calm history, unless old streams are being removed at the
    moment: a recovery gives a wallet [a], and there was a time when the original
    was [b], such that [a] gives all tokens which were not set aside for a call in
    [b], gives only tokens of [b], and is, once the process has been restarted,
    in no way different from the original restarted at that time.  What is
    missing from the full claim: tokens that were set aside (see
    [C117_recovered_tokens_refuted]), and the histories C39 leaves out. *)
Theorem C117_recovered_tokens_partial :
  forall text_size stream_size es n r s,
  Forall fair_event es ->
  wall_along text_size stream_size wcalm empty_wallet es ->
  wrun text_size stream_size empty_wallet es = (n, r) ->
  ~ pruning (n_work n) -> r_snapshot r = Some s ->
  exists a b, recover sexec r = Ok a /\ wallet_was text_size stream_size es b /\
    (forall ts, NoDup ts -> (forall t, In t ts -> idle b t) -> lenZ ts <= SQLITE3_INTEGER_MAX -> gives a (lenZ ts)) /\
    gives_only_tokens_of b a /\
    indistinguishable (restart a) (restart b) /\
    exists a', replay sexec (n_log n) a = Ok a' /\ indistinguishable (restart a') (restart (n_db n)).
Proof.
  intros ts ss es n r s F HA E NP Hs.
  assert (NP' : ~ pruning (n_work (fst (wrun ts ss empty_wallet es)))) by now rewrite E.
  destruct (@wallet_recovers_sim ts ss es HA NP' n r s E Hs) as (a & b & H1 & H2 & H3 & a' & H4 & H5).
  pose proof (was_wf F H2) as W. exists a, b. split; [exact H1|]. split; [exact H2|].
  split; [intros l Hl Hi Hm; exact (regain_gives W H3 Hl Hi Hm)|].
  split; [exact (regain_only W H3)|]. split; [intros os; now rewrite (sim_restart H3)|].
  exists a'. split; [exact H4|]. intros os. now rewrite (sim_restart H5).
Qed.
Print Assumptions C117_recovered_tokens_partial.

(** Two tokens are received, one is set aside for a call, and a further voucher
    is added, which uploads everything. *)
Definition setting_aside : list wevent :=
  [WCall (OAdd 1 4 0 [11; 12] 1000); WCall (OInsert 1 7 [31; 32] true true 1001); WSetUp; WDone false; WDone false; WDone false;
   WCall (OExtract (fun l => l) 1); WCall (OAdd 2 4 0 [21] 1002); WDone false; WDone false].
Definition s10 (m : mut) : Z := 10.
Definition s100 (l : list (change mut)) : Z := 100 * lenZ l.
Notation w := (wrun s10 s100 empty_wallet).

Ltac calm_tac :=
  vm_compute; repeat match goal with |- _ /\ _ => split end;
  first [exact I | reflexivity | intros; left; reflexivity | intros; right; reflexivity | now intros [] | intros [X _]; discriminate X | now intros [_ []] | intros; discriminate ].

Lemma setting_aside_fair : Forall fair_event setting_aside.
Proof. repeat (apply Forall_cons; [try exact I; intros l; apply Permutation_refl|]). constructor. Qed.
Lemma setting_aside_calm : wall_along s10 s100 wcalm empty_wallet setting_aside.
Proof. calm_tac. Qed.

Example C117_example :
  Forall fair_event setting_aside /\ wall_along s10 s100 wcalm empty_wallet setting_aside /\
  ~ pruning (n_work (fst (w setting_aside))) /\ (exists s, r_snapshot (snd (w setting_aside)) = Some s) /\
  idle (n_db (fst (w setting_aside))) 32.
Proof.
  split; [exact setting_aside_fair|]. split; [exact setting_aside_calm|].
  split; [vm_compute; tauto|]. split; [vm_compute; eexists; reflexivity|].
  split; [|vm_compute; intuition discriminate]. vm_compute. exists 1, 1, 7. intuition.
Qed.

Lemma setting_aside_facts : exists n r a,
  w setting_aside = (n, r) /\ n_work n = Idle /\ n_log n = [] /\ recover sexec r = Ok a /\
  available a = [32] /\ available (restart (n_db n)) = [31; 32] /\ wsim a (n_db n).
Proof.
  vm_compute. eexists _, _, _. split; [reflexivity|]. split; [reflexivity|]. split; [reflexivity|].
  split; [reflexivity|]. split; [reflexivity|]. split; [reflexivity|]. repeat split. intros x Hx. exact Hx.
Qed.

(** The full claim, that every token of the wallet can be spent after the
    recovery, fails.  Here everything has been uploaded; the original wallet has
    two tokens, and if it is restarted it gives both.  The recovered wallet gives
    one only: that the other had been set aside was recorded and is carried out
    again, and nobody will ever hand that token back. *)
Theorem C117_recovered_tokens_refuted :
  exists es n r a,
  Forall fair_event es /\ wall_along s10 s100 wcalm empty_wallet es /\ w es = (n, r) /\
  n_work n = Idle /\ n_log n = [] /\ recover sexec r = Ok a /\
  gives (restart (n_db n)) 2 /\ gives (restart a) 2 /\ ~ gives a 2 /\
  fst (StoreModel.step a OCount) = Ok (RNum 1).
Proof.
  destruct setting_aside_facts as (n & r & a & E & Wk & Lg & R & Av & Bv & Si).
  assert (W : StoreProofs.wf (n_db n)).
  { apply (@was_wf s10 s100 setting_aside (n_db n) setting_aside_fair). exists setting_aside, [].
    split; [symmetry; apply app_nil_r|]. rewrite E. reflexivity. }
  assert (G : gives (restart (n_db n)) 2).
  { change 2 with (lenZ [31; 32]). apply (@regain_gives (restart (n_db n)) (restart (n_db n))).
    - now apply wf_restart.
    - split; [repeat split|]. split; [intros x Hx; exact Hx|split; reflexivity].
    - repeat constructor; cbn; intuition discriminate.
    - intros t Ht. rewrite <- Bv in Ht. now apply StoreProofs.in_available in Ht.
    - vm_compute. discriminate. }
  exists setting_aside, n, r, a. split; [exact setting_aside_fair|]. split; [exact setting_aside_calm|].
  split; [exact E|]. split; [exact Wk|]. split; [exact Lg|].
  split; [exact R|]. split; [exact G|]. split; [rewrite (sim_restart Si); exact G|].
  split.
  - intros X. destruct (X (fun l => l) (fun l => Permutation_refl l)) as (toks & E' & _).
    rewrite StoreProofs.step_extract_eq, Av in E'. cbn in E'. discriminate.
  - rewrite StoreProofs.step_count, Av. reflexivity.
Qed.
Print Assumptions C117_recovered_tokens_refuted.
