(** Proofs for SpendProperties. *)
From Verif Require Import Prelude PreludeFacts PricingModel StoreModel StoreSpec StoreProofs PricingSpec PricingProofs
  SpendModel SpendSpec.
Set Implicit Arguments.

(** ** No token both stored and invalid *)
Definition clean (d : db) : Prop :=
  forall t, In t (map u_token (unblinded d)) -> ~ In t (map fst (invalid d)).

Lemma stored_in d b t : stored d b t -> In t (map u_token (unblinded d)).
Proof. intros (g & v & pk & H & _). apply in_map_iff. exists (UR t g). auto. Qed.

Lemma in_stored d t : wf d -> In t (map u_token (unblinded d)) -> exists b, stored d b t.
Proof.
  intros W H. apply in_map_iff in H. destruct H as ([t' g] & E & H). cbn in E. subst t'.
  pose proof (wf_group_known W _ H) as K. cbn in K. apply in_map_iff in K.
  destruct K as ([g' v pk b] & E & K). cbn in E. subst g'. exists b, g, v, pk. auto.
Qed.

(** What one store call can do to the tables the loop cares about. *)
Lemma add_effect v e c ts now d : wf d ->
  unblinded (snd (step d (OAdd v e c ts now))) = unblinded d /\
  groups (snd (step d (OAdd v e c ts now))) = groups d /\
  in_use (snd (step d (OAdd v e c ts now))) = in_use d /\
  invalid (snd (step d (OAdd v e c ts now))) = invalid d.
Proof.
  intros W. rewrite step_add_eq by exact W.
  destruct (filter _ (tokens d)); [|cbn; auto]. cbv zeta.
  set (d1 := if memZ v _ then d else _).
  assert (E1 : unblinded d1 = unblinded d /\ groups d1 = groups d /\ in_use d1 = in_use d /\ invalid d1 = invalid d)
    by (unfold d1; destruct (memZ _ _); cbn; auto).
  destruct (exec_muts (map (InsToken v c) ts) d1) as [d2|x] eqn:E; cbn [snd]; [|auto].
  apply ins_token_Ok in E.
  - destruct E as (_ & _ & ->). cbn. exact E1.
  - unfold d1. destruct (memZ_spec v (map v_number (vouchers d))) as [I|N]; [exact I|].
    cbn. rewrite map_app. apply in_or_app. right. left. reflexivity.
Qed.

Lemma insert_effect v pk ts c s now d : wf d ->
  let d' := snd (step d (OInsert v pk ts c s now)) in
  (d' = d) \/
  (exists id, unblinded d' = unblinded d ++ map (fun t => UR t id) ts /\
   groups d' = groups d ++ [GR id v pk s] /\ in_use d' = in_use d /\ invalid d' = invalid d).
Proof.
  intros W. cbv zeta. rewrite step_insert_eq by exact W.
  destruct (filter _ (vouchers d)) as [|r rs]; [left; reflexivity|].
  cbv zeta. set (id := next_id _).
  match goal with |- context [exec_muts ?m ?x] => destruct (exec_muts m x) as [d2|e] eqn:E end;
    cbn [snd]; [|left; reflexivity].
  apply ins_unblinded_Ok in E. destruct E as (_ & _ & ->). right. exists id. cbn. auto.
Qed.

Definition quiet (o : op) : Prop :=
  match o with
  | ODouble _ _ | OGet _ | OList | OCount | OCountRandom | OLatest
  | OMaintStart _ | OMaintObserve _ _ _ | OMaintFinish _ _ => True
  | _ => False
  end.
Lemma quiet_effect d o : wf d -> quiet o ->
  unblinded (snd (step d o)) = unblinded d /\ groups (snd (step d o)) = groups d /\
  in_use (snd (step d o)) = in_use d /\ invalid (snd (step d o)) = invalid d.
Proof.
  intros W Q. destruct o; try contradiction;
    try (rewrite step_query by exact I; auto; fail).
  - rewrite step_double_eq. cbv zeta. destruct (filter _ _); cbn; auto.
  - destruct (@step_maint (OMaintStart now) d (wf_maint W) I) as (m & -> & _). cbn. auto.
  - destruct (@step_maint (OMaintObserve pass_value rowid sizes) d (wf_maint W) I) as (m & -> & _). cbn. auto.
  - destruct (@step_maint (OMaintFinish rowid now) d (wf_maint W) I) as (m & -> & _). cbn. auto.
Qed.

Lemma polite_step d mine o : wf d -> clean d -> polite mine d o ->
  let d' := snd (step d o) in
  wf d' /\ clean d' /\
  (forall t, In t mine -> In t (in_use d) -> In t (in_use d')) /\
  (forall t, In t (map fst (invalid d)) -> In t (map fst (invalid d'))).
Proof.
  intros W C [F Pl]. cbv zeta. split; [now apply wf_step|].
  assert (Q : forall d', unblinded d' = unblinded d -> in_use d' = in_use d -> invalid d' = invalid d ->
    clean d' /\ (forall t, In t mine -> In t (in_use d) -> In t (in_use d')) /\
    (forall t, In t (map fst (invalid d)) -> In t (map fst (invalid d')))).
  { intros d' E1 E2 E3. unfold clean. rewrite E1, E2, E3. auto. }
  destruct o;
    try (match goal with |- context [step d ?o] =>
           pose proof (@quiet_effect d o W I) as (E1 & _ & E2 & E3); apply Q; auto end; fail).
  - match goal with |- context [step d (OAdd ?v ?e ?c ?ts ?now)] =>
      pose proof (@add_effect v e c ts now d W) as (E1 & _ & E2 & E3); apply Q; auto end.
  - match goal with |- context [step d (OInsert ?v ?pk ?ts ?c ?s ?now)] =>
      pose proof (@insert_effect v pk ts c s now d W) as H; cbv zeta in H;
      set (d' := snd (step d (OInsert v pk ts c s now))) in * end.
    destruct H as [->|(id & E1 & _ & E2 & E3)]; [apply Q; auto|].
    unfold clean. rewrite E1, E2, E3, map_app, map_u_token_UR. repeat split; auto.
    intros t Ht. apply in_app_or in Ht. destruct Ht as [Ht|Ht]; [now apply C|now apply Pl].
  - cbn in F. rewrite step_extract_eq.
    destruct (_ >? _); [apply Q; auto|]. cbv zeta. destruct (_ <? _); [apply Q; auto|].
    destruct (exec_muts _ d) as [d'|] eqn:E; cbn [snd]; [|apply Q; auto].
    apply ins_in_use_Ok in E. destruct E as (_ & _ & ->). unfold clean; cbn. repeat split; auto.
    intros t _ Ht. apply in_or_app; auto.
  - rewrite step_discard_eq by apply W. unfold clean. cbn. repeat split; auto.
    + intros t Ht. apply in_ub_minus_tok in Ht. apply C; tauto.
    + intros t Hm Hu. apply in_minus. split; [exact Hu|]. intros H. now apply (Pl t).
  - rewrite step_invalidate_eq. destruct (exec_muts _ d) as [d'|] eqn:E; cbn [snd]; [|apply Q; auto].
    apply ins_invalid_Ok in E. destruct E as (N & D & ->). unfold clean. cbn. repeat split; auto.
    + intros t Ht. apply in_ub_minus_tok in Ht. tauto.
    + intros t Hm Hu. apply in_minus. split; [exact Hu|]. rewrite map_app, in_app_iff, map_map, map_id.
      intros [H|H]; [|now apply (Pl t)].
      apply (C t); [|exact H]. apply stored_in with true. now apply W.
    + intros t Ht. rewrite map_app, in_app_iff. auto.
  - rewrite step_reset_eq by apply W. unfold clean. cbn. repeat split; auto.
    intros t Hm Hu. apply in_minus. split; [exact Hu|]. intros H. now apply (Pl t).
  - contradiction.
Qed.

Lemma polite_steps mine os : forall d, wf d -> clean d -> polite_run mine d os ->
  let d' := snd (steps d os) in
  wf d' /\ clean d' /\
  (forall t, In t mine -> In t (in_use d) -> In t (in_use d')) /\
  (forall t, In t (map fst (invalid d)) -> In t (map fst (invalid d'))).
Proof.
  induction os as [|o os IH]; intros d W C Pl; [cbn; auto|].
  destruct Pl as [Pl Pls]. pose proof (polite_step W C Pl) as H. cbv zeta in *. cbn [steps].
  destruct (step d o) as [r d1]. cbn [snd] in *. destruct H as (W1 & C1 & U1 & I1).
  specialize (IH d1 W1 C1 Pls). destruct (steps d1 os) as [rs d2]. cbn [snd] in *.
  destruct IH as (W2 & C2 & U2 & I2). split; [exact W2|]. split; [exact C2|]. split; auto.
Qed.

Lemma fresh_clean d : fresh_reachable d -> wf d /\ clean d.
Proof.
  intros (os & rs & F & Fr & E).
  assert (G : forall os d banned, wf d -> clean d -> (forall t, In t (map fst (invalid d)) -> In t banned) ->
    (forall o, In o os -> fair o) -> fresh_history banned os -> wf (snd (steps d os)) /\ clean (snd (steps d os))).
  { clear. induction os as [|o os IH]; intros d banned W C B F Fr; [cbn; auto|].
    cbn [steps]. assert (Fo : fair o) by (apply F; left; reflexivity).
    pose proof (@wf_step d o W Fo) as W1.
    assert (K : exists banned', fresh_history banned' os /\ clean (snd (step d o)) /\
              (forall t, In t (map fst (invalid (snd (step d o)))) -> In t banned')).
    { destruct o; cbn [fresh_history] in Fr;
      try (match goal with |- context [step d ?o] =>
           pose proof (@quiet_effect d o W I) as (E1 & _ & E2 & E3); exists banned; unfold clean; rewrite E1, E3;
           repeat split; auto end; fail);
      try (match goal with |- context [step d ?o] =>
           assert (Pl : polite [] d o) by (split; [exact Fo|cbn; auto]);
           pose proof (polite_step W C Pl) as Hp; cbv zeta in Hp; destruct Hp as (_ & C1 & _ & _) end).
      - exists banned. split; [exact Fr|]. split; [exact C1|].
        match goal with |- context [step d (OAdd ?v ?e ?c ?ts ?now)] =>
          pose proof (@add_effect v e c ts now d W) as (E1 & _ & E2 & E3); rewrite E3; auto end.
      - destruct Fr as [Fi Fr]. exists banned. split; [exact Fr|].
        match goal with |- context [step d ?o] =>
           assert (Pl : polite [] d o) by (split; [exact Fo|]; intros t Ht Hi; apply (Fi t Ht); auto);
           pose proof (polite_step W C Pl) as Hp; cbv zeta in Hp; destruct Hp as (_ & C1 & _ & _) end.
        split; [exact C1|].
        match goal with |- context [step d (OInsert ?v ?pk ?ts ?c ?s ?now)] =>
          pose proof (@insert_effect v pk ts c s now d W) as H; cbv zeta in H end.
        destruct H as [->|(id & _ & _ & _ & ->)]; auto.
      - exists banned. split; [exact Fr|]. split; [exact C1|]. rewrite step_extract_eq.
        destruct (_ >? _); [auto|]. cbv zeta. destruct (_ <? _); [auto|].
        destruct (exec_muts _ d) as [d'|] eqn:E; cbn [snd]; [|auto].
        apply ins_in_use_Ok in E. destruct E as (_ & _ & ->). auto.
      - exists banned. split; [exact Fr|]. split; [exact C1|]. rewrite step_discard_eq by apply W. auto.
      - exists (toks ++ banned). split; [exact Fr|]. split; [exact C1|].
        rewrite step_invalidate_eq. destruct (exec_muts _ d) as [d'|] eqn:E; cbn [snd].
        + apply ins_invalid_Ok in E. destruct E as (_ & _ & ->). cbn. intros t.
          rewrite map_app, in_app_iff, map_map, map_id. intros [H|H]; apply in_or_app; auto.
        + intros t Ht. apply in_or_app; auto.
      - exists banned. split; [exact Fr|]. split; [exact C1|]. rewrite step_reset_eq by apply W. auto.
      - exists banned. cbn. split; [exact Fr|]. split; [exact C|]. auto. }
    destruct K as (banned' & Fr' & C1 & B1).
    destruct (step d o) as [r d1]. cbn [snd] in *.
    specialize (IH d1 banned' W1 C1 B1 (fun o' H => F o' (or_intror H)) Fr').
    destruct (steps d1 os). exact IH. }
  pose proof (G os empty_db [] wf_empty) as H. rewrite E in H. cbn [snd] in H. apply H; auto.
  all: cbn; intros ? [].
Qed.

(** ** The store calls of the loop *)

Lemma step_tt (A : Type) (p : prog A) d r d' : with_cursor (pmap (fun _ => RUnit) p) d = (r, d') ->
  match r with
  | Ok _ => exists a, with_cursor p d = (Ok a, d')
  | Err e => with_cursor p d = (Err e, d')
  end.
Proof.
  rewrite with_cursor_pmap. destruct (with_cursor p d) as [[a|e] d1]; intros [= <- <-]; eauto.
Qed.

Section Loop.
Variables P R : Type.
Implicit Types (g : group P).

Definition after_release (d : db) (ts : list Z) : db := set_in_use (minus (in_use d) ts) d.
Definition after_spend (d : db) (ts : list Z) : db :=
  set_in_use (minus (in_use d) ts) (set_unblinded (ub_minus (unblinded d) ts) d).
Definition after_invalid (d : db) (ts : list Z) : db :=
  set_in_use (minus (in_use d) (map fst (invalid d) ++ ts))
    (set_unblinded (ub_minus (unblinded d) (map fst (invalid d) ++ ts))
       (set_invalid (invalid d ++ map (fun t => (t, signature_check_failed)) ts) d)).

Lemma reset_eq g d : wf d -> reset g d = (Ok tt, after_release d (map fst g)).
Proof.
  intros W. pose proof (@step_reset_eq (map fst g) d (wf_to_reset W)) as H. cbn [step op_prog] in H.
  apply step_tt in H. destruct H as ([] & H). exact H.
Qed.
Lemma mark_spent_eq g d : wf d -> mark_spent g d = (Ok tt, after_spend d (map fst g)).
Proof.
  intros W. pose proof (@step_discard_eq (map fst g) d (wf_to_discard W)) as H. cbn [step op_prog] in H.
  apply step_tt in H. destruct H as ([] & H). exact H.
Qed.
Lemma mark_invalid_eq g d : wf d -> clean d -> NoDup (map fst g) ->
  (forall t, In t (map fst g) -> In t (in_use d)) ->
  mark_invalid g d = (Ok tt, after_invalid d (map fst g)).
Proof.
  intros W C N U. pose proof (@step_invalidate_eq signature_check_failed (map fst g) d) as H.
  assert (E : exec_muts (map (fun t => InsInvalid t signature_check_failed) (map fst g)) d =
    Ok (set_invalid (invalid d ++ map (fun t => (t, signature_check_failed)) (map fst g)) d)).
  { apply ins_invalid_Ok. split; [exact N|]. split; [|reflexivity].
    intros t Ht. apply C. apply stored_in with true. apply W. auto. }
  rewrite E in H. cbv zeta in H. cbn [step op_prog] in H.
  apply step_tt in H. destruct H as ([] & H). unfold mark_invalid, unblinded_tokens. rewrite H. f_equal.
  unfold after_invalid. cbn [invalid set_invalid in_use unblinded].
  rewrite map_app, map_map, map_id. reflexivity.
Qed.

Lemma map_res_length E A B (f : A -> res E B) l l' : map_res f l = Ok l' -> length l' = length l.
Proof.
  revert l'. induction l as [|a l IH]; intros l'; cbn [map_res].
  - intros [= <-]. reflexivity.
  - destruct (f a); cbn [bind]; [|discriminate]. destruct (map_res f l); cbn [bind]; [|discriminate].
    intros [= <-]. cbn. f_equal. now apply IH.
Qed.

Variable to_pass : Z -> Z -> res exn P.

Lemma tokens_to_passes_ok message toks : convertible to_pass message ->
  exists ps, tokens_to_passes to_pass message toks = Ok ps /\ map fst (combine toks ps) = toks /\
    Forall (fun tp => to_pass message (fst tp) = Ok (snd tp)) (combine toks ps).
Proof.
  intros Cv. unfold tokens_to_passes. induction toks as [|t toks (ps & E & F & B)]; cbn [map_res].
  - exists []. repeat split. constructor.
  - destruct (Cv t) as (p & Ep). rewrite Ep. cbn [bind]. rewrite E. cbn [bind].
    exists (p :: ps). cbn. split; [reflexivity|]. rewrite F. split; [reflexivity|]. constructor; auto.
Qed.

Lemma get_step sc message n d : 
  get to_pass sc message n d =
  match step d (OExtract sc n) with
  | (Ok (RTokens toks), d1) =>
      match tokens_to_passes to_pass message toks with
      | Err e => (Err e, d1)
      | Ok passes => (Ok (combine toks passes), d1)
      end
  | (Ok _, d1) => (Err OtherError, d1)
  | (Err e, d1) => (Err e, d1)
  end.
Proof.
  cbn [step op_prog]. rewrite with_cursor_pmap. unfold get.
  destruct (with_cursor (get_unblinded_tokens sc n) d) as [[toks|e] d1]; reflexivity.
Qed.

Lemma get_cases sc message n d : wf d -> (forall l, Permutation (sc l) l) ->
  convertible to_pass message ->
  (get to_pass sc message n d = (Err NotEnoughTokens, d)) \/
  (exists g, get to_pass sc message n d = (Ok g, set_in_use (in_use d ++ map fst g) d) /\
    NoDup (map fst g) /\ (forall t, In t (map fst g) -> In t (available d)) /\ (0 <= n -> lenZ g = n) /\
    Forall (fun tp => to_pass message (fst tp) = Ok (snd tp)) g).
Proof.
  intros W Sc Cv. rewrite get_step.
  destruct (Z_le_gt_dec n SQLITE3_INTEGER_MAX) as [L1|G1]; [|left; rewrite extract_failure; auto].
  destruct (Z_le_gt_dec n (lenZ (available d))) as [L2|G2]; [|left; rewrite extract_failure; auto].
  right. destruct (@extract_success sc n d W Sc L1 L2) as (toks & E & N & A & Len & _). rewrite E.
  destruct (tokens_to_passes_ok toks Cv) as (ps & Ep & F & B). rewrite Ep.
  exists (combine toks ps). rewrite F. repeat split; auto.
  intros Hn. rewrite <- (Len Hn). unfold lenZ. rewrite <- F at 2. now rewrite map_length.
Qed.

(** ** Splitting *)
Lemma split_from_spec sel g : forall k rej okay, split_from k sel g = (rej, okay) ->
  (forall t p, In (t, p) rej <-> exists i, nth_error g i = Some (t, p) /\ sel (k + Z.of_nat i) = true) /\
  (forall t p, In (t, p) okay <-> exists i, nth_error g i = Some (t, p) /\ sel (k + Z.of_nat i) = false) /\
  Permutation g (rej ++ okay).
Proof.
  induction g as [|[t0 p0] g IH]; intros k rej okay; cbn [split_from].
  - intros [= <- <-]. repeat split; try constructor; try contradiction;
      intros (i & H & _); destruct i; discriminate.
  - destruct (split_from (k + 1) sel g) as [s u] eqn:E. specialize (IH _ _ _ E).
    destruct IH as (Hs & Hu & Pm).
    assert (Sh : forall (b : bool) t p, (exists i, nth_error ((t0, p0) :: g) i = Some (t, p) /\ sel (k + Z.of_nat i) = b) <->
       ((t0, p0) = (t, p) /\ sel k = b) \/ (exists i, nth_error g i = Some (t, p) /\ sel (k + 1 + Z.of_nat i) = b)).
    { intros b t p. split.
      - intros ([|i] & H1 & H2); cbn in H1.
        + left. rewrite Z.add_0_r in H2. split; congruence.
        + right. exists i. split; [exact H1|]. rewrite <- H2. f_equal. lia.
      - intros [[H1 H2]|(i & H1 & H2)].
        + exists O. cbn. rewrite Z.add_0_r. split; congruence.
        + exists (S i). cbn [nth_error]. split; [exact H1|]. rewrite <- H2. f_equal. lia. }
    destruct (sel k) eqn:Ek; intros [= <- <-].
    + split; [|split].
      * intros t p. rewrite Sh. cbn [In]. rewrite Hs. intuition congruence.
      * intros t p. rewrite Sh, Hu. intuition congruence.
      * cbn. now constructor.
    + split; [|split].
      * intros t p. rewrite Sh, Hs. intuition congruence.
      * intros t p. rewrite Sh. cbn [In]. rewrite Hu. intuition congruence.
      * apply Permutation_cons_app. exact Pm.
Qed.

Lemma in_map_fst g t : In t (map fst g) <-> exists p, In (t, p) g.
Proof.
  rewrite in_map_iff. split.
  - intros ([t' p] & E & H). cbn in E. subst. now exists p.
  - intros (p & H). now exists (t, p).
Qed.

Variable server : list (attempt P R) -> group P -> db -> list op * response R.
Variable scan : nat -> list Z -> list Z.
Variables message num_passes : Z.
Variable on_success : R -> group P -> db -> res exn unit * db.
(** The tokens [on_success] spends. *)
Variable spends : R -> group P -> list Z.

Hypothesis Hpolite : polite_server server.
Hypothesis Hscan : fair_scan scan.
Hypothesis Hconv : convertible to_pass message.
Hypothesis Hspends : forall x g t, In t (spends x g) -> In t (map fst g).
Definition success_ok : Prop := forall x g d, wf d -> NoDup (map fst g) ->
  (exists d2, on_success x g d = (Ok tt, d2) /\
     d2 = set_in_use (minus (in_use d) (map fst g)) (set_unblinded (ub_minus (unblinded d) (spends x g)) d)) \/
  (exists e, on_success x g d = (Err e, d)).
Hypothesis Hsuccess : success_ok.

Notation loop := (attempts to_pass server scan message num_passes on_success).

(** The state of the loop between attempts. *)
Record held_ok (g : group P) (d : db) : Prop := {
  h_wf : wf d; h_clean : clean d;
  h_nodup : NoDup (map fst g);
  h_use : forall t, In t (map fst g) -> In t (in_use d) }.

Lemma clean_ext d d' : (forall t, In t (map u_token (unblinded d')) -> In t (map u_token (unblinded d))) ->
  invalid d' = invalid d -> clean d -> clean d'.
Proof. intros I E C t Ht. rewrite E. apply C, I, Ht. Qed.

Lemma release_facts g d : held_ok g d ->
  let d' := after_release d (map fst g) in
  wf d' /\ clean d' /\ invalid d' = invalid d /\
  (forall t, In t (map fst g) -> is_available d' t).
Proof.
  intros [W C N U]. cbv zeta. unfold after_release. split; [now apply wf_release|]. split; [exact C|].
  split; [reflexivity|]. intros t Ht. pose proof (wf_in_use_stored W _ (U _ Ht)) as S.
  split; [exact S|]. split; [cbn; rewrite in_minus; tauto|]. cbn. apply C. now apply stored_in with true.
Qed.

Lemma not_in_use_of_absent d t : wf d -> ~ In t (map u_token (unblinded d)) -> ~ In t (in_use d).
Proof. intros W H U. apply H. apply stored_in with true. now apply W. Qed.

Lemma success_facts g d (S : list Z) : held_ok g d -> (forall t, In t S -> In t (map fst g)) ->
  let d' := set_in_use (minus (in_use d) (map fst g)) (set_unblinded (ub_minus (unblinded d) S) d) in
  wf d' /\ clean d' /\ invalid d' = invalid d /\
  (forall t, In t (map fst g) -> (In t S -> is_spent d' t) /\ (~ In t S -> is_available d' t)) /\
  (forall t, In t (map fst g) -> ~ In t (in_use d')).
Proof.
  intros [W C N U] Sub. cbv zeta.
  set (d1 := set_in_use (minus (in_use d) S) (set_unblinded (ub_minus (unblinded d) S) d)).
  assert (W1 : wf d1) by now apply wf_remove.
  assert (Eq : set_in_use (minus (in_use d) (map fst g)) (set_unblinded (ub_minus (unblinded d) S) d)
           = set_in_use (minus (in_use d1) (map fst g)) d1).
  { unfold d1. cbn [in_use set_in_use]. unfold set_in_use; cbn. f_equal.
    unfold minus. clear - Sub. induction (in_use d) as [|t l IH]; cbn [filter]; [reflexivity|].
    destruct (memZ_spec t S) as [I|I]; cbn [negb].
    - assert (M : memZ t (map fst g) = true) by (apply memZ_true; auto). rewrite M. cbn [negb]. exact IH.
    - cbn [filter]. destruct (memZ t (map fst g)); cbn [negb]; [exact IH|]. now f_equal. }
  split; [rewrite Eq; now apply wf_release|]. split; [|split; [reflexivity|split]].
  - apply clean_ext with (d := d); [|reflexivity|exact C]. cbn. intros t Ht. apply in_ub_minus_tok in Ht. tauto.
  - intros t Ht. pose proof (wf_in_use_stored W _ (U _ Ht)) as St. pose proof (stored_in St) as Si. split; intros HS.
    + split; cbn; [rewrite in_ub_minus_tok; tauto|]. now apply C.
    + split; [|split].
      * apply stored_minus. auto.
      * cbn. rewrite in_minus. tauto.
      * cbn. now apply C.
  - intros t Ht. cbn. rewrite in_minus. tauto.
Qed.

Lemma in_after_invalid d ts t : In t (map fst (invalid (after_invalid d ts))) <-> In t (map fst (invalid d)) \/ In t ts.
Proof. cbn. rewrite map_app, map_map, map_id, in_app_iff. tauto. Qed.

Lemma stored_after_invalid d ts b t :
  stored (after_invalid d ts) b t <-> stored d b t /\ ~ In t (map fst (invalid d) ++ ts).
Proof.
  exact (stored_minus (set_invalid (invalid d ++ map (fun t => (t, signature_check_failed)) ts) d)
           b t (map fst (invalid d) ++ ts) (minus (in_use d) (map fst (invalid d) ++ ts))).
Qed.

Lemma invalid_facts g rej okay d : held_ok g d -> Permutation g (rej ++ okay) ->
  let d' := after_invalid d (map fst rej) in
  held_ok okay d' /\ (forall t, In t (map fst rej) -> is_invalid d' t) /\
  (forall t, In t (map fst (invalid d')) <-> In t (map fst (invalid d)) \/ In t (map fst rej)).
Proof.
  intros [W C N U] Pm. cbv zeta.
  pose proof (Permutation_map fst Pm) as Pf. rewrite map_app in Pf.
  assert (N2 : NoDup (map fst rej ++ map fst okay)) by (eapply Permutation_NoDup; eauto).
  assert (Ug : forall t, In t (map fst rej) \/ In t (map fst okay) -> In t (in_use d)).
  { intros t Ht. apply U. eapply Permutation_in; [apply Permutation_sym; exact Pf|]. apply in_or_app. tauto. }
  assert (Disj : forall t, In t (map fst rej) -> ~ In t (map fst okay)).
  { clear - N2. induction (map fst rej) as [|x l IH]; cbn in *; [tauto|]. inversion N2; subst.
    intros t [<-|Ht]; [intros H; apply H1; apply in_or_app; auto|apply IH; auto]. }
  assert (Cu : forall t, In t (in_use d) -> ~ In t (map fst (invalid d))).
  { intros t Ht. apply C. apply stored_in with true. now apply W. }
  split; [|split].
  - split.
    + unfold after_invalid.
      assert (W' : wf (set_invalid (invalid d ++ map (fun t => (t, signature_check_failed)) (map fst rej)) d)).
      { apply wf_set_invalid; [|exact W]. rewrite map_app, map_map. cbn. rewrite map_id.
        apply NoDup_app_intro; [apply W| |].
        - clear - N2. induction (map fst rej); cbn in *; [constructor|]. inversion N2; subst. constructor; auto.
          intros H. apply H1. apply in_or_app; auto.
        - intros t Hi Hr. apply (Cu t); auto. }
      exact (@wf_remove (map fst (invalid d) ++ map fst rej) _ W').
    + intros t Ht. rewrite in_after_invalid. cbn in Ht. apply in_ub_minus_tok in Ht.
      rewrite in_app_iff in Ht. tauto.
    + clear - N2. induction (map fst rej); cbn in *; [exact N2|]. inversion N2; subst. auto.
    + intros t Ht. cbn. apply in_minus. split; [auto|]. rewrite in_app_iff. intros [H|H].
      * apply (Cu t); auto.
      * now apply (Disj t).
  - intros t Ht. split; [rewrite in_after_invalid; auto|]. cbn. rewrite in_ub_minus_tok, in_app_iff. tauto.
  - intros t. apply in_after_invalid.
Qed.

Lemma extend_facts okay more d : held_ok okay d -> NoDup (map fst more) ->
  (forall t, In t (map fst more) -> In t (available d)) ->
  held_ok (okay ++ more) (set_in_use (in_use d ++ map fst more) d).
Proof.
  intros [W C N U] Nm A.
  assert (A' : forall t, In t (map fst more) -> stored d true t /\ ~ In t (in_use d))
    by (intros t Ht; apply in_available; auto).
  split.
  - apply wf_set_in_use; [| |exact W].
    + apply NoDup_app_intro; [apply W|exact Nm|]. intros t Hu Hm. now apply (A' t).
    + intros t Ht. apply in_app_or in Ht. destruct Ht as [Ht|Ht]; [now apply W|now apply A'].
  - exact C.
  - rewrite map_app. apply NoDup_app_intro; auto. intros t Ho Hm. apply (A' t); auto.
  - cbn. intros t. rewrite map_app, !in_app_iff. intros [H|H]; auto.
Qed.

Definition good_attempt (a : attempt P R) : Prop :=
  (0 <= num_passes -> lenZ (fst a) = num_passes) /\ NoDup (map fst (fst a)) /\
  Forall (fun tp => to_pass message (fst tp) = Ok (snd tp)) (fst a).

Definition spent_by (r : res failure R) (tr : list (attempt P R)) (t : Z) : Prop :=
  exists x g, r = Ok x /\ accepted tr x g /\ In t (spends x g).

Lemma invalidate_cases g failed d : held_ok g d ->
  (failed = [] /\ invalidate_rejected_passes g failed d = (Ok None, d)) \/
  (failed <> [] /\ exists rej okay,
     invalidate_rejected_passes g failed d = (Ok (Some okay), after_invalid d (map fst rej)) /\
     split (fun i => memZ i failed) g = (rej, okay)).
Proof.
  intros H. unfold invalidate_rejected_passes.
  destruct failed as [|f failed]; [left; auto|]. right. split; [discriminate|].
  change (lenZ (f :: failed) =? 0) with (Z.of_nat (S (length failed)) =? 0).
  destruct (Z.eqb_spec (Z.of_nat (S (length failed))) 0); [lia|].
  destruct (split _ g) as [rej okay] eqn:E. exists rej, okay. split; [|reflexivity].
  unfold split in E. destruct (@split_from_spec _ _ _ _ _ E) as (_ & _ & Pm).
  destruct H as [W C N U].
  pose proof (Permutation_map fst Pm) as Pf. rewrite map_app in Pf.
  rewrite mark_invalid_eq; auto.
  - assert (N2 : NoDup (map fst rej ++ map fst okay)) by (eapply Permutation_NoDup; eauto).
    clear - N2. induction (map fst rej); cbn in *; [constructor|]. inversion N2; subst. constructor; auto.
    intros H. apply H1. apply in_or_app; auto.
  - intros t Ht. apply U. eapply Permutation_in; [apply Permutation_sym; exact Pf|]. apply in_or_app. auto.
Qed.

Lemma rejected_cons (a : attempt P R) tr t : rejected (a :: tr) t <-> rejected [a] t \/ rejected tr t.
Proof.
  unfold rejected. split.
  - intros (g & v & q & f & i & p & [H|H] & R1 & R2).
    + left. exists g, v, q, f, i, p. cbn. auto.
    + right. exists g, v, q, f, i, p. auto.
  - intros [(g & v & q & f & i & p & [H|[]] & R1 & R2)|(g & v & q & f & i & p & H & R1 & R2)];
      exists g, v, q, f, i, p; cbn; auto.
Qed.
Lemma rejected_one g v q f t :
  rejected [(g, @Refuse R v q f)] t <-> exists i p, nth_error g i = Some (t, p) /\ In (Z.of_nat i) f.
Proof.
  unfold rejected. split.
  - intros (g' & v' & q' & f' & i & p & [H|[]] & R1 & R2). injection H as <- <- <- <-. eauto.
  - intros (i & p & R1 & R2). exists g, v, q, f, i, p. cbn. auto.
Qed.
Lemma not_rejected_accept g (x : R) t : ~ rejected [(g, Accept x)] t.
Proof. intros (? & ? & ? & ? & ? & ? & [H|[]] & _). discriminate. Qed.
Lemma not_rejected_fail g e t : ~ rejected [(g, @Fail R e)] t.
Proof. intros (? & ? & ? & ? & ? & ? & [H|[]] & _). discriminate. Qed.
Lemma not_rejected_nil t : ~ rejected (@nil (attempt P R)) t.
Proof. intros (? & ? & ? & ? & ? & ? & [] & _). Qed.
Lemma taken_cons a (tr : list (attempt P R)) t : taken (a :: tr) t <-> In t (map fst (fst a)) \/ taken tr t.
Proof.
  unfold taken. rewrite in_map_fst. destruct a as [g0 r0]. cbn [fst]. split.
  - intros (g & r & p & [H|H] & T); [injection H as <- <-; eauto|right; eauto].
  - intros [(p & H)|(g & r & p & H & T)]; [exists g0, r0, p; cbn; auto|exists g, r, p; cbn; auto].
Qed.
Lemma not_taken_nil t : ~ taken (@nil (attempt P R)) t.
Proof. intros (? & ? & ? & [] & _). Qed.

Lemma accepted_cons a b (tr : list (attempt P R)) x g : accepted (a :: b :: tr) x g <-> accepted (b :: tr) x g.
Proof.
  unfold accepted. split.
  - intros (past & E). destruct past as [|c past]; cbn in E; [discriminate|]. injection E as _ E. now exists past.
  - intros (past & E). exists (a :: past). cbn. now rewrite E.
Qed.

(** The whole story of a run from between two attempts. *)
Definition outcome (new : list (attempt P R)) (r : res failure R) (d d' : db) : Prop :=
  new <> [] /\ Forall good_attempt new /\
  wf d' /\ clean d' /\
  (forall t, In t (map fst (invalid d)) -> In t (map fst (invalid d'))) /\
  (forall t, taken new t ->
     ~ In t (in_use d') /\
     (rejected new t -> is_invalid d' t) /\
     (spent_by r new t -> ~ rejected new t /\ is_spent d' t) /\
     (~ rejected new t -> ~ spent_by r new t -> is_available d' t)) /\
  ((exists x, r = Ok x) -> exists x g, r = Ok x /\ accepted new x g) /\
  (forall x g past, new = past ++ [(g, Accept x)] -> forall t, In t (map fst g) -> ~ rejected new t).

Lemma single_give_up f g d d1 resp r d' tr past :
  held_ok g d1 -> (0 <= num_passes -> lenZ g = num_passes) -> Forall (fun tp => to_pass message (fst tp) = Ok (snd tp)) g ->
  (forall t, In t (map fst (invalid d)) -> In t (map fst (invalid d1))) ->
  (forall t, ~ rejected [(g, resp)] t) ->
  give_up (R := R) f g d1 (past ++ [(g, resp)]) = Some (r, d', tr) ->
  exists new, tr = past ++ new /\ outcome new r d d'.
Proof.
  intros H L B I Nr E. unfold give_up in E. rewrite reset_eq in E by apply H.
  injection E as <- <- <-. exists [(g, resp)]. split; [reflexivity|].
  destruct (release_facts H) as (W' & C' & I' & A'). unfold outcome.
  split; [discriminate|]. split; [repeat constructor; auto; apply H|].
  split; [exact W'|]. split; [exact C'|]. split; [intros t Ht; rewrite I'; auto|].
  split; [|split].
  - intros t Ht. apply taken_cons in Ht. destruct Ht as [Ht|Ht]; [|now apply not_taken_nil in Ht].
    cbn [fst] in Ht. specialize (A' t Ht). split; [apply A'|]. split; [intros Rj; now apply Nr in Rj|].
    split; [|auto]. intros (x & g0 & E & _). discriminate.
  - intros (x & E). discriminate.
  - intros x g0 past0 E t Ht. apply Nr.
Qed.

Lemma loop_story fuel : forall past g d r d' tr,
  held_ok g d -> (0 <= num_passes -> lenZ g = num_passes) -> Forall (fun tp => to_pass message (fst tp) = Ok (snd tp)) g ->
  loop fuel past g d = Some (r, d', tr) ->
  exists new, tr = past ++ new /\ outcome new r d d' /\ hd_error (map fst new) = Some g.
Proof.
  assert (Hd : forall (new past : list (attempt P R)) g resp tr (Q : list (attempt P R) -> Prop), tr = past ++ [(g, resp)] ->
    (exists new, tr = past ++ new /\ Q new) -> exists new, tr = past ++ new /\ Q new /\ hd_error (map fst new) = Some g).
  { intros _ past g resp tr Q -> (new & E & HQ). exists new. split; [exact E|]. split; [exact HQ|].
    apply app_inv_head in E. subst. reflexivity. }
  induction fuel as [|fuel IH]; intros past g d r d' tr H L B; cbn [attempts]; [discriminate|].
  pose proof (Hpolite past g d) as Pl. destruct (server past g d) as [others resp]. cbn [fst] in Pl.
  destruct H as [W C N U].
  pose proof (@polite_steps (map fst g) others d W C Pl) as Ps. cbv zeta in Ps.
  set (d1 := snd (steps d others)) in *. destruct Ps as (W1 & C1 & U1 & I1).
  assert (H1 : held_ok g d1) by (split; auto).
  destruct resp as [x|v q failed|e].
  - (* Accept *)
    destruct (@Hsuccess x g d1 W1 N) as [(d2 & E & D2)|(e & E)]; rewrite E.
    + intros [= <- <- <-]. exists [(g, Accept x)]. split; [reflexivity|]. split; [|reflexivity].
      destruct (@success_facts g d1 (spends x g) H1 (Hspends x g)) as (W2 & C2 & I2 & F2 & U2).
      rewrite <- D2 in *. unfold outcome.
      split; [discriminate|]. split; [repeat constructor; auto|].
      split; [exact W2|]. split; [exact C2|]. split; [intros t Ht; rewrite I2; auto|].
      split; [|split].
      * intros t Ht. apply taken_cons in Ht. destruct Ht as [Ht|Ht]; [|now apply not_taken_nil in Ht].
        cbn [fst] in Ht. split; [now apply U2|]. split; [intros Rj; now apply not_rejected_accept in Rj|].
        split.
        -- intros (x' & g' & E1 & (p' & E2) & S). split; [apply not_rejected_accept|].
           apply F2; [exact Ht|]. injection E1 as <-.
           assert (E3 : [] ++ [(g, Accept x)] = p' ++ [(g', Accept x)]) by exact E2.
           apply app_inj_tail in E3. destruct E3 as [_ E3]. injection E3 as <-. exact S.
        -- intros _ NS. apply F2; [exact Ht|]. intros S. apply NS. exists x, g. split; [reflexivity|].
           split; [now exists []|exact S].
      * intros _. exists x, g. split; [reflexivity|]. now exists [].
      * intros x' g' past' E' t _. apply not_rejected_accept.
    + intros Ev. apply (Hd [] past g (Accept x) tr (fun new => outcome new r d d')).
      * unfold give_up in Ev. destruct (reset g d1) as [[]]; injection Ev; congruence.
      * eapply single_give_up; eauto. intros t. apply not_rejected_accept.
  - (* Refuse *)
    destruct (@invalidate_cases g failed d1 H1) as [[-> E]|(Ne & rej & okay & E & Sp)]; rewrite E.
    + intros Ev. apply (Hd [] past g (Refuse v q []) tr (fun new => outcome new r d d')).
      * unfold give_up in Ev. destruct (reset g d1) as [[]]; injection Ev; congruence.
      * eapply single_give_up; eauto. intros t Rj. apply rejected_one in Rj.
        destruct Rj as (? & ? & _ & []).
    + unfold split in Sp. destruct (@split_from_spec _ _ _ _ _ Sp) as (Srej & Sok & Pm).
      destruct (@invalid_facts g rej okay d1 H1 Pm) as (H2 & Inv2 & I2).
      set (d2 := after_invalid d1 (map fst rej)) in *.
      assert (Lo : 0 <= num_passes -> 0 <= num_passes - lenZ okay).
      { intros X0. specialize (L X0). apply Permutation_length in Pm. rewrite app_length in Pm. unfold lenZ in *. lia. }
      assert (Bo : Forall (fun tp => to_pass message (fst tp) = Ok (snd tp)) okay).
      { rewrite Forall_forall in *. intros tp Htp. apply B. eapply Permutation_in; [apply Permutation_sym; exact Pm|].
        apply in_or_app. auto. }
      assert (Rj1 : forall t, rejected [(g, @Refuse R v q failed)] t <-> In t (map fst rej)).
      { intros t. rewrite rejected_one, in_map_fst. split.
        - intros (i & p & X & Y). exists p. apply Srej. exists i. split; [exact X|]. now apply memZ_true.
        - intros (p & X). apply Srej in X. destruct X as (i & X & Y). exists i, p. split; [exact X|].
          now apply memZ_true in Y. }
      assert (Gin : forall t, In t (map fst g) <-> In t (map fst rej) \/ In t (map fst okay)).
      { intros t. pose proof (Permutation_map fst Pm) as Pf. rewrite map_app in Pf. rewrite <- in_app_iff. split; intros X.
        - eapply Permutation_in; eauto.
        - eapply Permutation_in; [apply Permutation_sym|]; eauto. }
      assert (Dj : forall t, In t (map fst rej) -> ~ In t (map fst okay)).
      { intros t Hr Ho. apply (Inv2 t Hr). apply stored_in with true.
        apply (wf_in_use_stored (h_wf H2)). now apply (h_use H2). }
      unfold expand.
      destruct (@get_cases (scan (length (past ++ [(g, Refuse v q failed)]))) message
                  (num_passes - lenZ okay) d2 (h_wf H2) (Hscan _) Hconv)
        as [Eg|(more & Eg & Nm & Am & Lm & Bm)]; rewrite Eg.
      * (* out of tokens *)
        intros Ev. unfold give_up in Ev. rewrite reset_eq in Ev by apply H2.
        injection Ev as <- <- <-. exists [(g, Refuse v q failed)]. split; [reflexivity|]. split; [|reflexivity].
        destruct (release_facts H2) as (W' & C' & I' & A'). unfold outcome.
        split; [discriminate|]. split; [repeat constructor; auto|].
        split; [exact W'|]. split; [exact C'|].
        split; [intros t Ht; rewrite I'; apply I2; auto|]. split; [|split].
        -- intros t Ht. apply taken_cons in Ht. destruct Ht as [Ht|Ht]; [|now apply not_taken_nil in Ht].
           cbn [fst] in Ht. rewrite Rj1. split; [|split; [|split]].
           ++ apply Gin in Ht. destruct Ht as [Ht|Ht].
              ** apply not_in_use_of_absent; [exact W'|]. now apply (Inv2 t Ht).
              ** now apply A'.
           ++ intros X. exact (Inv2 t X).
           ++ intros (x & g0 & E0 & _). discriminate.
           ++ intros X _. apply A'. apply Gin in Ht. tauto.
        -- intros (x & E0). discriminate.
        -- intros x g0 past0 E0 t Ht. exfalso.
           assert (E3 : [] ++ [(g, Refuse v q failed)] = past0 ++ [(g0, Accept x)]) by exact E0.
           apply app_inj_tail in E3. destruct E3 as [_ E3]. discriminate.
      * intros Ev.
        assert (H3 : held_ok (okay ++ more) (set_in_use (in_use d2 ++ map fst more) d2))
          by now apply extend_facts.
        set (d3 := set_in_use (in_use d2 ++ map fst more) d2) in *.
        assert (L3 : 0 <= num_passes -> lenZ (okay ++ more) = num_passes)
          by (intros X0; specialize (L X0); specialize (Lo X0); specialize (Lm Lo); unfold lenZ in *; rewrite app_length; lia).
        assert (B3 : Forall (fun tp => to_pass message (fst tp) = Ok (snd tp)) (okay ++ more))
          by (apply Forall_app; auto).
        destruct (IH _ _ _ _ _ _ H3 L3 B3 Ev) as (new & Etr & O & Hh).
        exists ((g, Refuse v q failed) :: new). split; [rewrite Etr, <- app_assoc; reflexivity|].
        split; [|reflexivity].
        destruct O as (Nn & Gd & W' & C' & Ip & Ft & Ac & Ar). unfold outcome.
        split; [discriminate|]. split; [constructor; [repeat split; auto|exact Gd]|].
        split; [exact W'|]. split; [exact C'|].
        split; [intros t Ht; apply Ip; change (invalid d3) with (invalid d2); apply I2; auto|].
        destruct new as [|b new]; [congruence|].
        assert (Rinv : forall t, In t (map fst rej) -> is_invalid d' t).
        { intros t Ht. assert (X : In t (map fst (invalid d'))).
          { apply Ip. change (invalid d3) with (invalid d2). apply I2. auto. }
          split; [exact X|]. intros Y. now apply (C' t). }
        assert (Sb : forall t, spent_by r ((g, Refuse v q failed) :: b :: new) t <-> spent_by r (b :: new) t).
        { intros t. unfold spent_by. split; intros (x & g0 & E0 & A0 & S0); exists x, g0;
            (split; [exact E0|split; [|exact S0]]).
          - eapply accepted_cons, A0.
          - eapply accepted_cons, A0. }
        assert (St : forall t, spent_by r (b :: new) t -> taken (b :: new) t).
        { intros t (x & g0 & E0 & (p0 & A0) & S0). apply Hspends in S0. apply in_map_fst in S0.
          destruct S0 as (p & S0). exists g0, (Accept x), p. rewrite A0. split; [|exact S0].
          apply in_or_app. right. left. reflexivity. }
        split; [|split].
        -- intros t Ht. rewrite rejected_cons, Rj1, Sb. split; [|split; [|split]].
           ++ destruct (in_dec Z.eq_dec t (map fst rej)) as [Hr|Hr].
              { apply not_in_use_of_absent; [exact W'|]. now apply Rinv. }
              refine (proj1 (Ft t _)). apply taken_cons in Ht. destruct Ht as [Ht|Ht]; [|exact Ht].
              cbn [fst] in Ht. apply Gin in Ht. destruct Ht as [Ht|Ht]; [contradiction|].
              apply taken_cons. left. cbn in Hh. injection Hh as ->. rewrite map_app. apply in_or_app. auto.
           ++ intros [Hr|Hr]; [now apply Rinv|].
              apply Ft; [|exact Hr]. destruct Hr as (g0 & v0 & q0 & f0 & i & p & X & Y & _).
              exists g0, (Refuse v0 q0 f0), p. split; [exact X|]. eapply nth_error_In; eauto.
           ++ intros S0. pose proof (St t S0) as Tn. destruct (Ft t Tn) as (_ & _ & F3 & _).
              destruct (F3 S0) as [Nr Sp0]. split; [|exact Sp0]. intros [Hr|Hr]; [|contradiction].
              apply Rinv in Hr. destruct Hr, Sp0. contradiction.
           ++ intros Nr Ns. apply Ft; [|tauto|exact Ns].
              apply taken_cons in Ht. destruct Ht as [Ht|Ht]; [|exact Ht].
              cbn [fst] in Ht. apply Gin in Ht. destruct Ht as [Ht|Ht]; [tauto|].
              apply taken_cons. left. cbn in Hh. injection Hh as ->. rewrite map_app. apply in_or_app. auto.
        -- intros X. destruct (Ac X) as (x & g0 & X1 & X2). exists x, g0. split; [exact X1|].
           now apply accepted_cons.
        -- intros x g0 past0 E0 t Ht. rewrite rejected_cons, Rj1.
           destruct past0 as [|c past0]; cbn in E0; [discriminate|]. injection E0 as _ E0.
           pose proof (Ar _ _ _ E0 t Ht) as Nr. intros [Hr|Hr]; [|contradiction].
           assert (Tn : taken (b :: new) t).
           { apply in_map_fst in Ht. destruct Ht as (p & Ht). exists g0, (Accept x), p. rewrite E0. split; [|exact Ht].
             apply in_or_app. right. left. reflexivity. }
           apply Rinv in Hr. destruct (Ft t Tn) as (_ & _ & F3 & F4).
           destruct Hr as [Hr1 Hr2].
           assert (Hns : ~ spent_by r (b :: new) t).
           { intros S0. destruct (F3 S0) as [_ [_ X]]. contradiction. }
           destruct (F4 Nr Hns) as (_ & _ & X). contradiction.
  - (* Fail *)
    intros Ev. apply (Hd [] past g (Fail e) tr (fun new => outcome new r d d')).
    + unfold give_up in Ev. destruct (reset g d1) as [[]]; injection Ev; congruence.
    + eapply single_give_up; eauto. intros t. apply not_rejected_fail.
Qed.

(** ** What the server was asked, and in which order *)

Definition asked (past new : list (attempt P R)) (r : res failure R) : Prop :=
  (forall pre a post, new = pre ++ a :: post -> exists d0, snd (server (past ++ pre) (fst a) d0) = snd a) /\
  (forall pre a post, new = pre ++ a :: post -> post <> [] -> exists v q f, snd a = Refuse v q f) /\
  (forall pre g x, new = pre ++ [(g, Accept x)] ->
     (forall x g d, wf d -> NoDup (map fst g) -> exists d2, on_success x g d = (Ok tt, d2)) -> r = Ok x).

Lemma asked_one past g resp r d :
  snd (server past g d) = resp ->
  (forall x, resp = Accept x ->
     (forall x g d, wf d -> NoDup (map fst g) -> exists d2, on_success x g d = (Ok tt, d2)) -> r = Ok x) ->
  asked past [(g, resp)] r.
Proof.
  intros E H. unfold asked. repeat apply conj.
  - intros [|b pre] a post Eq; cbn in Eq; [|destruct pre; discriminate]. injection Eq as <- <-. rewrite app_nil_r. eauto.
  - intros [|b pre] a post Eq N; cbn in Eq; [|destruct pre; discriminate]. injection Eq as <- <-. exfalso. apply N. reflexivity.
  - intros [|b pre] g0 x Eq; cbn in Eq; [|destruct pre; discriminate]. injection Eq as <- Er. apply H. exact Er.
Qed.

Lemma loop_asked fuel : forall past g d r d' tr,
  held_ok g d -> (0 <= num_passes -> lenZ g = num_passes) -> Forall (fun tp => to_pass message (fst tp) = Ok (snd tp)) g ->
  loop fuel past g d = Some (r, d', tr) ->
  exists new, tr = past ++ new /\ asked past new r.
Proof.
  assert (Gu : forall f g d tr r d' tr', give_up (R := R) f g d tr = Some (r, d', tr') -> tr' = tr /\ exists f', r = Err f').
  { intros f g d tr r d' tr'. unfold give_up. destruct (reset g d) as [[] ?]; intros [= <- <- <-]; eauto. }
  induction fuel as [|fuel IH]; intros past g d r d' tr H L B; cbn [attempts]; [discriminate|].
  pose proof (Hpolite past g d) as Pl. destruct (server past g d) as [others resp] eqn:Es. cbn [fst] in Pl.
  assert (Es' : snd (server past g d) = resp) by (rewrite Es; reflexivity).
  destruct H as [W C N U].
  pose proof (@polite_steps (map fst g) others d W C Pl) as Ps. cbv zeta in Ps.
  set (d1 := snd (steps d others)) in *. destruct Ps as (W1 & C1 & U1 & I1).
  assert (H1 : held_ok g d1) by (split; auto).
  assert (Last : forall r0, (exists f', r0 = Err f') -> (forall x, resp <> Accept x) -> asked past [(g, resp)] r0).
  { intros r0 _ Nx. apply (@asked_one past g resp r0 d Es'). intros x E. exfalso. eapply Nx, E. }
  destruct resp as [x|v q failed|e].
  - destruct (on_success x g d1) as [[[]|e] d2] eqn:Eo.
    + intros [= <- <- <-]. exists [(g, Accept x)]. split; [reflexivity|].
      apply (@asked_one past g (Accept x) _ d Es'). intros x0 [= ->] _. reflexivity.
    + intros Ev. apply Gu in Ev. destruct Ev as [-> _]. exists [(g, Accept x)]. split; [reflexivity|].
      apply (@asked_one past g (Accept x) _ d Es'). intros x0 _ Hok. destruct (Hok x g d1 W1 N) as (d3 & E3). rewrite Eo in E3. discriminate E3.
  - destruct (@invalidate_cases g failed d1 H1) as [[-> E]|(Ne & rej & okay & E & Sp)]; rewrite E.
    + intros Ev. apply Gu in Ev. destruct Ev as [-> X]. eexists. split; [reflexivity|]. apply Last; [exact X|discriminate].
    + unfold split in Sp. destruct (@split_from_spec _ _ _ _ _ Sp) as (Srej & Sok & Pm).
      destruct (@invalid_facts g rej okay d1 H1 Pm) as (H2 & Inv2 & I2).
      set (d2 := after_invalid d1 (map fst rej)) in *.
      assert (Lo : 0 <= num_passes -> 0 <= num_passes - lenZ okay).
      { intros X0. specialize (L X0). apply Permutation_length in Pm. rewrite app_length in Pm. unfold lenZ in *. lia. }
      assert (Bo : Forall (fun tp => to_pass message (fst tp) = Ok (snd tp)) okay).
      { rewrite Forall_forall in *. intros tp Htp. apply B. eapply Permutation_in; [apply Permutation_sym; exact Pm|].
        apply in_or_app. auto. }
      unfold expand.
      destruct (@get_cases (scan (length (past ++ [(g, Refuse v q failed)]))) message
                  (num_passes - lenZ okay) d2 (h_wf H2) (Hscan _) Hconv)
        as [Eg|(more & Eg & Nm & Am & Lm & Bm)]; rewrite Eg.
      * intros Ev. apply Gu in Ev. destruct Ev as [-> X]. eexists. split; [reflexivity|]. apply Last; [exact X|discriminate].
      * intros Ev.
        assert (H3 : held_ok (okay ++ more) (set_in_use (in_use d2 ++ map fst more) d2))
          by now apply extend_facts.
        assert (L3 : 0 <= num_passes -> lenZ (okay ++ more) = num_passes)
          by (intros X0; specialize (L X0); specialize (Lo X0); specialize (Lm Lo); unfold lenZ in *; rewrite app_length; lia).
        assert (B3 : Forall (fun tp => to_pass message (fst tp) = Ok (snd tp)) (okay ++ more))
          by (apply Forall_app; auto).
        destruct (IH _ _ _ _ _ _ H3 L3 B3 Ev) as (new & Etr & A1 & A2 & A3).
        exists ((g, Refuse v q failed) :: new). split; [rewrite Etr, <- app_assoc; reflexivity|].
        unfold asked. repeat apply conj.
        -- intros [|b pre] a post Eq; cbn in Eq; injection Eq as E1 E2.
           ++ subst a. rewrite app_nil_r. exists d. exact Es'.
           ++ subst b. destruct (A1 _ _ _ E2) as [d0 E0]. exists d0. rewrite <- app_assoc in E0. exact E0.
        -- intros [|b pre] a post Eq Np; cbn in Eq; injection Eq as E1 E2.
           ++ subst a. cbn. eauto.
           ++ eapply A2; eauto.
        -- intros [|b pre] g0 x Eq Hok; cbn in Eq; [discriminate|]. injection Eq as E1 E2. eapply A3; eauto.
  - intros Ev. apply Gu in Ev. destruct Ev as [-> X]. eexists. split; [reflexivity|]. apply Last; [exact X|discriminate].
Qed.

(** ** From the beginning of the call *)
Notation call := (call_with_passes_with_manual_spend to_pass server scan message num_passes on_success).

Lemma call_story fuel d r d' tr : fresh_reachable d ->
  call fuel d = Some (r, d', tr) ->
  (tr = [] /\ r = Err (Raised NotEnoughTokens) /\ d' = d) \/ outcome tr r d d'.
Proof.
  intros Fd. destruct (fresh_clean Fd) as [W C]. unfold call_with_passes_with_manual_spend.
  destruct (@get_cases (scan 0) message num_passes d W (Hscan _) Hconv)
    as [->|(g & -> & N & A & L & B)].
  - intros [= <- <- <-]. auto.
  - intros E. right.
    assert (H0 : held_ok (@nil (Z * P)) d) by (split; auto; [constructor|intros ? []]).
    pose proof (extend_facts g H0 N A) as H. cbn [app] in H.
    destruct (loop_story _ _ H L B E) as (new & -> & O & _). cbn [app].
    unfold outcome in *. exact O.
Qed.

Lemma call_asked fuel d r d' tr : fresh_reachable d ->
  call fuel d = Some (r, d', tr) -> asked [] tr r.
Proof.
  intros Fd. destruct (fresh_clean Fd) as [W C]. unfold call_with_passes_with_manual_spend.
  destruct (@get_cases (scan 0) message num_passes d W (Hscan _) Hconv)
    as [->|(g & -> & N & A & L & B)].
  - intros [= <- <- <-]. unfold asked. repeat apply conj.
    + intros [|b pre] a post Eq; discriminate.
    + intros [|b pre] a post Eq; discriminate.
    + intros [|b pre] g x Eq; discriminate.
  - intros E.
    assert (H0 : held_ok (@nil (Z * P)) d) by (split; auto; [constructor|intros ? []]).
    pose proof (extend_facts g H0 N A) as H. cbn [app] in H.
    destruct (loop_asked _ _ H L B E) as (new & -> & O). exact O.
Qed.

Lemma outcome_taken new r d d' t : outcome new r d d' -> taken new t ->
  ~ In t (in_use d') /\
  ((rejected new t /\ is_invalid d' t) \/ (spent_by r new t /\ is_spent d' t) \/
   (~ rejected new t /\ ~ spent_by r new t /\ is_available d' t)).
Proof.
  intros (_ & _ & _ & _ & _ & F & Ac & _) T. destruct (F t T) as (U & Fr & Fs & Fa). split; [exact U|].
  destruct (in_dec Z.eq_dec t (map fst (invalid d'))) as [I|I].
  - left. assert (Ns : ~ spent_by r new t) by (intros S; destruct (Fs S) as [_ [_ X]]; contradiction).
    assert (Nn : ~ ~ rejected new t) by (intros Nr; destruct (Fa Nr Ns) as (_ & _ & X); contradiction).
    (* rejection is decidable *)
    assert (D : rejected new t \/ ~ rejected new t).
    { clear. induction new as [|[g resp] new IH]; [right; apply not_rejected_nil|].
      destruct IH as [IH|IH]; [left; apply rejected_cons; auto|].
      destruct resp as [x|v q f|e].
      - right. rewrite rejected_cons. intros [X|X]; [now apply not_rejected_accept in X|auto].
      - assert (D1 : forall g k, (exists i p, nth_error g i = Some (t, p) /\ In (k + Z.of_nat i) f) \/
                     ~ (exists i (p : P), nth_error g i = Some (t, p) /\ In (k + Z.of_nat i) f)).
        { clear. induction g as [|[t0 p0] g IH]; intros k.
          - right. intros (i & p & X & _). destruct i; discriminate.
          - destruct (IH (k + 1)) as [(i & p & X & Y)|Nx].
            + left. exists (S i), p. split; [exact X|]. replace (k + Z.of_nat (S i)) with (k + 1 + Z.of_nat i) by lia. exact Y.
            + destruct (Z.eq_dec t0 t) as [->|Nt]; [destruct (in_dec Z.eq_dec k f) as [Y|Y]|].
              * left. exists O, p0. rewrite Z.add_0_r. auto.
              * right. intros ([|i] & p & X & Z0); cbn in X.
                -- rewrite Z.add_0_r in Z0. contradiction.
                -- apply Nx. exists i, p. split; [exact X|]. replace (k + 1 + Z.of_nat i) with (k + Z.of_nat (S i)) by lia. exact Z0.
              * right. intros ([|i] & p & X & Z0); cbn in X; [congruence|].
                apply Nx. exists i, p. split; [exact X|]. replace (k + 1 + Z.of_nat i) with (k + Z.of_nat (S i)) by lia. exact Z0. }
        destruct (D1 g 0) as [X|X].
        + left. apply rejected_cons. left. apply rejected_one. exact X.
        + right. rewrite rejected_cons, rejected_one. tauto.
      - right. rewrite rejected_cons. intros [X|X]; [now apply not_rejected_fail in X|auto]. }
    destruct D as [D|D]; [|contradiction]. split; [exact D|auto].
  - right. assert (Nr : ~ rejected new t) by (intros X; apply Fr in X; destruct X; contradiction).
    destruct (in_dec Z.eq_dec t (map u_token (unblinded d'))) as [S|S].
    + right. assert (Ns : ~ spent_by r new t) by (intros X; destruct (Fs X) as [_ [X1 _]]; contradiction). auto.
    + left. assert (Nn : ~ ~ spent_by r new t).
      { intros Ns. destruct (Fa Nr Ns) as (X & _ & _). apply S. now apply stored_in with true. }
      assert (D : spent_by r new t \/ ~ spent_by r new t).
      { destruct r as [x|e]; [|right; intros (? & ? & E & _); discriminate].
        destruct (Ac (ex_intro _ x eq_refl)) as (x0 & g0 & E0 & (p0 & A0)). injection E0 as <-.
        destruct (in_dec Z.eq_dec t (spends x g0)) as [I0|I0].
        - left. exists x, g0. split; [reflexivity|]. split; [now exists p0|exact I0].
        - right. intros (x' & g' & E & (p' & A') & S'). injection E as <-. rewrite A0 in A'.
          apply app_inj_tail in A'. destruct A' as [_ A']. injection A' as <-. contradiction. }
      destruct D as [D|D]; [|contradiction]. split; [exact D|apply (Fs D)].
Qed.

(** ** Nothing else is touched *)
Definition untouched (t : Z) (d d' : db) : Prop := same_about t d d'.
Definition rest_same (d d' : db) : Prop :=
  vouchers d' = vouchers d /\ tokens d' = tokens d /\ groups d' = groups d /\ maint d' = maint d.

Lemma untouched_trans t d1 d2 d3 : untouched t d1 d2 -> untouched t d2 d3 -> untouched t d1 d3.
Proof.
  intros (A & B & C) (A' & B' & C'). split; [|split].
  - intros b. rewrite A', A. tauto.
  - tauto.
  - tauto.
Qed.
Lemma rest_same_trans d1 d2 d3 : rest_same d1 d2 -> rest_same d2 d3 -> rest_same d1 d3.
Proof. unfold rest_same. intuition congruence. Qed.
Lemma rest_same_refl d : rest_same d d.
Proof. unfold rest_same. auto. Qed.
Lemma untouched_refl t d : untouched t d d.
Proof. unfold untouched, same_about. tauto. Qed.

Lemma untouched_release t d ts : ~ In t ts -> untouched t d (after_release d ts).
Proof. intros N. unfold untouched, same_about, after_release, stored; cbn. rewrite in_minus. tauto. Qed.

Lemma untouched_success t d A B : ~ In t A -> ~ In t B ->
  untouched t d (set_in_use (minus (in_use d) A) (set_unblinded (ub_minus (unblinded d) B) d)).
Proof.
  intros NA NB. split; [|split].
  - intros b. rewrite stored_minus. tauto.
  - cbn. rewrite in_minus. tauto.
  - cbn. tauto.
Qed.

Lemma untouched_invalid t d ts : wf d -> clean d -> ~ In t ts -> untouched t d (after_invalid d ts).
Proof.
  intros W C N.
  assert (K : forall x, In x (map u_token (unblinded d)) -> ~ In x (map fst (invalid d))) by exact C.
  split; [|split].
  - intros b. rewrite stored_after_invalid, in_app_iff. split; [tauto|]. intros S. split; [exact S|].
    intros [X|X]; [|auto]. apply (K t); [now apply stored_in with b|exact X].
  - cbn. rewrite in_minus, in_app_iff. split; [tauto|]. intros S. split; [exact S|].
    intros [X|X]; [|auto]. apply (K t); [|exact X]. apply stored_in with true. now apply W.
  - cbn. rewrite map_app, map_map, map_id, in_app_iff. tauto.
Qed.

Lemma untouched_extend t d ts : ~ In t ts -> untouched t d (set_in_use (in_use d ++ ts) d).
Proof. intros N. unfold untouched, same_about, stored; cbn. rewrite in_app_iff. tauto. Qed.

Lemma give_up_rest f g d tr r d' tr' t : wf d -> ~ In t (map fst g) ->
  give_up (R := R) f g d tr = Some (r, d', tr') -> untouched t d d' /\ rest_same d d'.
Proof.
  intros W N E. unfold give_up in E. rewrite reset_eq in E by exact W. injection E as _ <- _.
  split; [now apply untouched_release|]. unfold rest_same; auto.
Qed.
Lemma give_up_trace f g d tr r d' tr' :
  give_up (R := R) f g d tr = Some (r, d', tr') -> tr' = tr.
Proof. unfold give_up. destruct (reset g d) as [[]]; congruence. Qed.

Lemma loop_others fuel : lone_server server -> forall past g d r d' tr,
  held_ok g d -> (0 <= num_passes -> lenZ g = num_passes) ->
  loop fuel past g d = Some (r, d', tr) ->
  exists new, tr = past ++ new /\ rest_same d d' /\
    (forall t, In t (map fst g) -> taken new t) /\
    (forall t, ~ taken new t -> untouched t d d') /\
    (forall t, taken new t -> In t (map fst g) \/ In t (available d)).
Proof.
  intros Lone. induction fuel as [|fuel IH]; intros past g d r d' tr H L; cbn [attempts]; [discriminate|].
  pose proof (Lone past g d) as Lo. destruct (server past g d) as [others resp]. cbn [fst] in Lo. subst others.
  cbn [steps snd]. destruct H as [W C N U]. assert (H : held_ok g d) by (split; auto).
  assert (One : forall (resp0 : response R) t, taken [(g, resp0)] t <-> In t (map fst g)).
  { intros resp0 t. rewrite taken_cons. cbn [fst]. split; [|auto]. intros [X|X]; [exact X|now apply not_taken_nil in X]. }
  assert (Give : forall f resp0, give_up f g d (past ++ [(g, resp0)]) = Some (r, d', tr) ->
    exists new, tr = past ++ new /\ rest_same d d' /\
    (forall t, In t (map fst g) -> taken new t) /\
    (forall t, ~ taken new t -> untouched t d d') /\
    (forall t, taken new t -> In t (map fst g) \/ In t (available d))).
  { intros f resp0 E. pose proof (@give_up_trace _ _ _ _ _ _ _ E) as ->. exists [(g, resp0)]. split; [reflexivity|].
    assert (Rs : rest_same d d').
    { unfold give_up in E. rewrite reset_eq in E by exact W. injection E as _ <-. unfold rest_same; auto. }
    split; [exact Rs|]. split; [intros t; rewrite One; auto|]. split.
    - intros t Nt. rewrite One in Nt. eapply give_up_rest; eauto.
    - intros t. rewrite One. auto. }
  destruct resp as [x|v q failed|e]; [| |apply Give].
  - destruct (@Hsuccess x g d W N) as [(d2 & E & D2)|(e & E)]; rewrite E; [|apply Give].
    intros [= <- <- <-]. exists [(g, Accept x)]. split; [reflexivity|].
    split; [rewrite D2; unfold rest_same; auto|]. split; [intros t; rewrite One; auto|]. split.
    + intros t Nt. rewrite One in Nt. rewrite D2. apply untouched_success; [exact Nt|].
      intros S. apply Nt. eapply Hspends; eauto.
    + intros t. rewrite One. auto.
  - destruct (@invalidate_cases g failed d H) as [[-> E]|(Ne & rej & okay & E & Sp)]; rewrite E; [apply Give|].
    unfold split in Sp. destruct (@split_from_spec _ _ _ _ _ Sp) as (Srej & Sok & Pm).
    destruct (@invalid_facts g rej okay d H Pm) as (H2 & Inv2 & I2).
    set (d2 := after_invalid d (map fst rej)) in *.
    assert (Gin : forall t, In t (map fst g) <-> In t (map fst rej) \/ In t (map fst okay)).
    { intros t. pose proof (Permutation_map fst Pm) as Pf. rewrite map_app in Pf. rewrite <- in_app_iff. split; intros X.
      - eapply Permutation_in; eauto.
      - eapply Permutation_in; [apply Permutation_sym|]; eauto. }
    assert (Un2 : forall t, ~ In t (map fst g) -> untouched t d d2).
    { intros t Nt. apply untouched_invalid; auto. rewrite Gin in Nt. tauto. }
    assert (Rs2 : rest_same d d2) by (unfold rest_same; auto).
    assert (Lo : 0 <= num_passes -> 0 <= num_passes - lenZ okay).
    { intros X0. specialize (L X0). apply Permutation_length in Pm. rewrite app_length in Pm. unfold lenZ in *. lia. }
    unfold expand.
    destruct (@get_cases (scan (length (past ++ [(g, Refuse v q failed)]))) message
                (num_passes - lenZ okay) d2 (h_wf H2) (Hscan _) Hconv)
      as [Eg|(more & Eg & Nm & Am & Lm & Bm)]; rewrite Eg.
    + intros Ev. pose proof (@give_up_trace _ _ _ _ _ _ _ Ev) as ->.
      exists [(g, Refuse v q failed)]. split; [reflexivity|].
      unfold give_up in Ev. rewrite reset_eq in Ev by apply H2. injection Ev as _ <-.
      split; [unfold rest_same; auto|]. split; [intros t; rewrite One; auto|]. split.
      * intros t Nt. rewrite One in Nt. eapply untouched_trans; [now apply Un2|].
        apply untouched_release. rewrite Gin in Nt. tauto.
      * intros t. rewrite One. auto.
    + intros Ev.
      assert (H3 : held_ok (okay ++ more) (set_in_use (in_use d2 ++ map fst more) d2)) by now apply extend_facts.
      set (d3 := set_in_use (in_use d2 ++ map fst more) d2) in *.
      assert (L3 : 0 <= num_passes -> lenZ (okay ++ more) = num_passes)
        by (intros X0; specialize (L X0); specialize (Lo X0); specialize (Lm Lo); unfold lenZ in *; rewrite app_length; lia).
      destruct (IH _ _ _ _ _ _ H3 L3 Ev) as (new & Etr & Rs & Tk & Un & Av).
      exists ((g, Refuse v q failed) :: new). split; [rewrite Etr, <- app_assoc; reflexivity|].
      assert (Aback : forall t, In t (available d2) -> ~ In t (map fst g) /\ In t (available d)).
      { intros t Ht. apply in_available in Ht. destruct Ht as [S Nu].
        assert (Ng : ~ In t (map fst g)).
        { rewrite Gin. intros [X|X].
          - apply (Inv2 t X). now apply stored_in with true.
          - apply Nu. now apply (h_use H2). }
        split; [exact Ng|]. destruct (Un2 t Ng) as (X & Y & _). apply in_available. rewrite <- X, <- Y. auto. }
      split; [eapply rest_same_trans; [exact Rs2|]; exact Rs|].
      split; [intros t Ht; apply taken_cons; auto|]. split.
      * intros t Nt. rewrite taken_cons in Nt. cbn [fst] in Nt.
        eapply untouched_trans; [apply Un2; tauto|].
        eapply untouched_trans; [apply (@untouched_extend t d2 (map fst more))|apply Un; tauto].
        intros X. apply Nt. right. apply Tk. rewrite map_app. apply in_or_app; auto.
      * intros t Tt. apply taken_cons in Tt. cbn [fst] in Tt. destruct Tt as [Tt|Tt]; [auto|].
        apply Av in Tt. rewrite map_app, in_app_iff in Tt. destruct Tt as [[X|X]|X].
        -- left. apply Gin. auto.
        -- right. now apply Aback, Am.
        -- right. apply Aback. apply in_available in X. apply in_available.
           unfold stored in *. cbn in X. rewrite in_app_iff in X. tauto.
Qed.

Lemma call_others fuel d r d' tr : lone_server server -> fresh_reachable d ->
  call fuel d = Some (r, d', tr) ->
  rest_same d d' /\ (forall t, ~ taken tr t -> untouched t d d') /\
  (forall t, taken tr t -> stored d true t /\ ~ In t (in_use d)) /\
  (forall t, In t (in_use d') <-> In t (in_use d)).
Proof.
  intros Lone Fd E. pose proof (call_story fuel Fd E) as St.
  destruct (fresh_clean Fd) as [W C]. unfold call_with_passes_with_manual_spend in E.
  destruct (@get_cases (scan 0) message num_passes d W (Hscan _) Hconv)
    as [Eg|(g & Eg & N & A & L & B)]; rewrite Eg in E.
  - injection E as <- <- <-. split; [apply rest_same_refl|]. split; [intros; apply untouched_refl|].
    split; [intros t T; now apply not_taken_nil in T|tauto].
  - assert (H0 : held_ok (@nil (Z * P)) d) by (split; auto; [constructor|intros ? []]).
    pose proof (extend_facts g H0 N A) as H. cbn [app] in H.
    destruct (loop_others _ Lone _ H L E) as (new & -> & Rs & Tk & Un & Av). cbn [app] in *.
    assert (Un' : forall t, ~ taken new t -> untouched t d d').
    { intros t Nt. eapply untouched_trans; [apply (@untouched_extend t d (map fst g))|now apply Un]. auto. }
    assert (Av' : forall t, taken new t -> stored d true t /\ ~ In t (in_use d)).
    { intros t T. apply in_available. apply Av in T. destruct T as [X|X]; [auto|].
      apply in_available in X. apply in_available.
      unfold stored in *. cbn in X. rewrite in_app_iff in X. tauto. }
    split; [exact Rs|]. split; [exact Un'|]. split; [exact Av'|].
    intros t. assert (D : taken new t \/ ~ taken new t).
    { clear. induction new as [|[g resp] new IH]; [right; apply not_taken_nil|].
      rewrite taken_cons. cbn [fst]. destruct (in_dec Z.eq_dec t (map fst g)); tauto. }
    destruct D as [D|D]; [|apply (Un' t D)].
    destruct St as [(-> & _)|O]; [now apply not_taken_nil in D|].
    pose proof (proj1 (outcome_taken O D)). destruct (Av' t D). tauto.
Qed.

(** ** Termination *)
Lemma honest_split g failed rej okay :
  (exists i, In i failed /\ 0 <= i < Z.of_nat (length g)) ->
  split (fun i => memZ i failed) g = (rej, okay) -> (1 <= length rej)%nat.
Proof.
  intros (i & Hi & B) Sp. unfold split in Sp. destruct (@split_from_spec _ _ _ _ _ Sp) as (Srej & _ & _).
  destruct (nth_error g (Z.to_nat i)) as [[t p]|] eqn:E.
  - assert (X : In (t, p) rej).
    { apply Srej. exists (Z.to_nat i). split; [exact E|]. apply memZ_true. rewrite Z2Nat.id by lia. exact Hi. }
    destruct rej; [contradiction|]. cbn. lia.
  - apply nth_error_None in E. lia.
Qed.

Lemma give_up_some f g d tr : wf d -> exists r d', give_up (R := R) f g d tr = Some (r, d', tr).
Proof. intros W. unfold give_up. rewrite reset_eq by exact W. eauto. Qed.

Lemma loop_ends : honest_indices server -> forall (measure : db -> nat),
  (forall past g d, held_ok g d -> (measure (snd (steps d (fst (server past g d)))) <= measure d)%nat) ->
  (forall g rej okay (more : list (Z * P)) d, held_ok g d -> Permutation g (rej ++ okay) -> (1 <= length rej)%nat ->
     let d2 := after_invalid d (map fst rej) in
     length more = length rej -> NoDup (map fst more) ->
     (forall t, In t (map fst more) -> In t (available d2)) ->
     (measure (set_in_use (in_use d2 ++ map fst more) d2) < measure d)%nat) ->
  forall fuel past g d, held_ok g d -> lenZ g = num_passes -> (measure d < fuel)%nat ->
  exists r d' new, loop fuel past g d = Some (r, d', past ++ new) /\ (length new <= S (measure d))%nat.
Proof.
  intros Hon measure M1 M2. induction fuel as [|fuel IH]; intros past g d H L Lt; cbn [attempts]; [lia|].
  pose proof (Hpolite past g d) as Pl. specialize (M1 past g d H).
  pose proof (Hon past g d) as Ho. destruct (server past g d) as [others resp]. cbn [fst snd] in *.
  destruct H as [W C N U].
  pose proof (@polite_steps (map fst g) others d W C Pl) as Ps. cbv zeta in Ps.
  set (d1 := snd (steps d others)) in *. destruct Ps as (W1 & C1 & U1 & I1).
  assert (H1 : held_ok g d1) by (split; auto).
  assert (Give : forall f g0 d0 resp0, wf d0 -> exists r d' new,
     give_up (R := R) f g0 d0 (past ++ [(g, resp0)]) = Some (r, d', past ++ new) /\ (length new <= S (measure d))%nat).
  { intros f g0 d0 resp0 W0. destruct (@give_up_some f g0 d0 (past ++ [(g, resp0)]) W0) as (r & d' & E).
    exists r, d', [(g, resp0)]. split; [exact E|]. cbn. lia. }
  destruct resp as [x|v q failed|e]; [| |now apply Give].
  - destruct (@Hsuccess x g d1 W1 N) as [(d2 & E & D2)|(e & E)]; rewrite E; [|now apply Give].
    exists (Ok x), d2, [(g, Accept x)]. split; [reflexivity|]. cbn. lia.
  - destruct (@invalidate_cases g failed d1 H1) as [[-> E]|(Ne & rej & okay & E & Sp)]; rewrite E; [now apply Give|].
    pose proof (@honest_split g failed rej okay (Ho v q failed eq_refl Ne) Sp) as Lr.
    unfold split in Sp. destruct (@split_from_spec _ _ _ _ _ Sp) as (Srej & Sok & Pm).
    destruct (@invalid_facts g rej okay d1 H1 Pm) as (H2 & Inv2 & I2).
    assert (Lo : num_passes - lenZ okay = Z.of_nat (length rej)).
    { apply Permutation_length in Pm. rewrite app_length in Pm. unfold lenZ in *. lia. }
    unfold expand.
    destruct (@get_cases (scan (length (past ++ [(g, Refuse v q failed)]))) message
                (num_passes - lenZ okay) (after_invalid d1 (map fst rej)) (h_wf H2) (Hscan _) Hconv)
      as [Eg|(more & Eg & Nm & Am & Lm & Bm)]; rewrite Eg; [apply Give; apply H2|].
    assert (Lmr : length more = length rej) by (unfold lenZ in *; lia).
    pose proof (M2 g rej okay more d1 H1 Pm Lr Lmr Nm Am) as Dec. cbv zeta in Dec.
    assert (H3 := extend_facts more H2 Nm Am).
    assert (L3 : lenZ (okay ++ more) = num_passes) by (unfold lenZ in *; rewrite app_length; lia).
    destruct (IH (past ++ [(g, Refuse v q failed)]) (okay ++ more) _ H3 L3) as (r & d' & new & E3 & Ln); [lia|].
    exists r, d', ((g, Refuse v q failed) :: new). rewrite E3, <- app_assoc. split; [reflexivity|]. cbn. lia.
Qed.

Lemma held_nil d : wf d -> clean d -> held_ok (@nil (Z * P)) d.
Proof. intros W C. split; auto; [constructor|intros ? []]. Qed.

Lemma call_ends_lone d : honest_indices server -> lone_server server -> fresh_reachable d -> 0 <= num_passes ->
  forall n, available_count d n -> forall fuel, (n < fuel)%nat ->
  exists r d' tr, call fuel d = Some (r, d', tr) /\ (length tr <= S (n - Z.to_nat num_passes))%nat.
Proof.
  intros Hon Lone Fd Hn n (toks & Nt & Ht & <-) fuel Lt. destruct (fresh_clean Fd) as [W C].
  assert (La : length toks = length (available d)).
  { apply Nat.le_antisymm; apply NoDup_incl_length; auto using available_NoDup;
      intros t; rewrite in_available, Ht; auto. }
  unfold call_with_passes_with_manual_spend.
  destruct (@get_cases (scan 0) message num_passes d W (Hscan _) Hconv)
    as [->|(g & -> & N & A & L & B)].
  - do 3 eexists. split; [reflexivity|]. cbn. lia.
  - pose proof (extend_facts g (held_nil W C) N A) as H. cbn [app] in H.
    set (d1 := set_in_use (in_use d ++ map fst g) d) in *.
    assert (M0 : (length (available d1) + length g <= length (available d))%nat).
    { rewrite <- (map_length fst g), <- app_length. apply NoDup_incl_length.
      - apply NoDup_app_intro; [apply available_NoDup, H|exact N|].
        intros t X Y. apply in_available in X. destruct X as [_ X]. apply X. cbn. apply in_or_app; auto.
      - intros t X. apply in_app_or in X. destruct X as [X|X]; [|auto].
        apply in_available in X. apply in_available. unfold stored in *. cbn in X. rewrite in_app_iff in X. tauto. }
    destruct (@loop_ends Hon (fun d => length (available d))) with (fuel := fuel) (past := @nil (attempt P R)) (g := g) (d := d1)
      as (r & d' & new & E & Ln); auto.
    + intros past0 g0 d0 _. rewrite (Lone past0 g0 d0). cbn. lia.
    + clear. intros g rej okay more d H Pm Lr d2 Lm Nm Am.
      destruct (@invalid_facts g rej okay d H Pm) as (H2 & Inv2 & I2). fold d2 in H2, Inv2, I2.
      pose proof (extend_facts more H2 Nm Am) as H3.
      assert (X : (length (available (set_in_use (in_use d2 ++ map fst more) d2)) + length more <= length (available d))%nat).
      { rewrite <- (map_length fst more), <- app_length. apply NoDup_incl_length.
        - apply NoDup_app_intro; [apply available_NoDup, H3|exact Nm|].
          intros t X Y. apply in_available in X. destruct X as [_ X]. apply X. cbn. apply in_or_app; auto.
        - assert (Y : forall t, In t (available d2) -> In t (available d)).
          { intros t Ht. apply in_available in Ht. destruct Ht as [S Nu]. apply in_available.
            apply stored_after_invalid in S. destruct S as [S Nr].
            split; [exact S|]. intros Iu. apply Nu. cbn. apply in_minus. auto. }
          intros t X. apply in_app_or in X. destruct X as [X|X]; [|auto].
          apply Y. apply in_available in X. apply in_available. unfold stored in *. cbn in X. rewrite in_app_iff in X. tauto. }
      lia.
    + lia.
    + exists r, d', new. split; [exact E|]. unfold lenZ in L. lia.
Qed.

(** With other tasks at work which receive no new tokens. *)
Definition receives (o : op) : Prop := match o with OInsert _ _ _ _ _ _ => True | _ => False end.

Lemma filter_length_le A (f : A -> bool) l : (length (filter f l) <= length l)%nat.
Proof. induction l as [|a l IH]; cbn; [lia|]. destruct (f a); cbn; lia. Qed.

Lemma no_receive_step mine d o : wf d -> polite mine d o -> ~ receives o ->
  (length (unblinded (snd (step d o))) <= length (unblinded d))%nat.
Proof.
  intros W [F Pl] Nr. destruct o;
    try (match goal with |- context [step d ?o] =>
           pose proof (@quiet_effect d o W I) as (E1 & _ & E2 & E3); rewrite E1; lia end; fail).
  - match goal with |- context [step d (OAdd ?v ?e ?c ?ts ?now)] =>
      pose proof (@add_effect v e c ts now d W) as (E1 & _ & E2 & E3); rewrite E1; lia end.
  - exfalso. apply Nr. exact I.
  - rewrite step_extract_eq. destruct (_ >? _); [cbn; lia|]. cbv zeta. destruct (_ <? _); [cbn; lia|].
    destruct (exec_muts _ d) as [d'|] eqn:E; cbn [snd]; [|lia].
    apply ins_in_use_Ok in E. destruct E as (_ & _ & ->). cbn. lia.
  - rewrite step_discard_eq by apply W. cbn. apply filter_length_le.
  - rewrite step_invalidate_eq. destruct (exec_muts _ d) as [d'|] eqn:E; cbn [snd]; [|lia].
    apply ins_invalid_Ok in E. destruct E as (_ & _ & ->). cbn. apply filter_length_le.
  - rewrite step_reset_eq by apply W. cbn. lia.
  - contradiction.
Qed.

Lemma no_receive_steps mine os : forall d, wf d -> clean d -> polite_run mine d os ->
  (forall o, In o os -> ~ receives o) ->
  (length (unblinded (snd (steps d os))) <= length (unblinded d))%nat.
Proof.
  induction os as [|o os IH]; intros d W C Pl Nr; [cbn; lia|]. destruct Pl as [Pl Pls].
  pose proof (polite_step W C Pl) as (W1 & C1 & _).
  pose proof (no_receive_step W Pl (Nr o (or_introl eq_refl))) as L1. cbn [steps].
  destruct (step d o) as [r d1]. cbn [snd] in *.
  specialize (IH d1 W1 C1 Pls (fun o' H => Nr o' (or_intror H))).
  destruct (steps d1 os) as [rs d2]. cbn [snd] in *. lia.
Qed.

Lemma call_ends_shared d : honest_indices server ->
  (forall past g d o, In o (fst (server past g d)) -> ~ receives o) ->
  fresh_reachable d -> 0 <= num_passes ->
  forall fuel, (length (unblinded d) < fuel)%nat ->
  exists r d' tr, call fuel d = Some (r, d', tr) /\ (length tr <= S (length (unblinded d)))%nat.
Proof.
  intros Hon Nr Fd Hn fuel Lt. destruct (fresh_clean Fd) as [W C].
  unfold call_with_passes_with_manual_spend.
  destruct (@get_cases (scan 0) message num_passes d W (Hscan _) Hconv)
    as [->|(g & -> & N & A & L & B)].
  - do 3 eexists. split; [reflexivity|]. cbn. lia.
  - pose proof (extend_facts g (held_nil W C) N A) as H. cbn [app] in H.
    set (d1 := set_in_use (in_use d ++ map fst g) d) in *.
    destruct (@loop_ends Hon (fun d => length (unblinded d))) with (fuel := fuel) (past := @nil (attempt P R)) (g := g) (d := d1)
      as (r & d' & new & E & Ln); auto.
    + intros past0 g0 d0 [W0 C0 _ _]. eapply no_receive_steps; eauto.
    + clear. intros g rej okay more d [W C N U] Pm Lr d2 Lm Nm Am. cbn [set_in_use unblinded].
      unfold d2, after_invalid. cbn [set_in_use set_unblinded unblinded].
      destruct rej as [|[t p] rej]; [cbn in Lr; lia|].
      assert (Hu : In t (map u_token (unblinded d))).
      { apply stored_in with true. apply W. apply U. eapply Permutation_in.
        - apply Permutation_map, Permutation_sym, Pm.
        - cbn. auto. }
      apply in_map_iff in Hu. destruct Hu as (u & Eu & Hu).
      assert (Hb : In (u_token u) (map fst (invalid d) ++ map fst ((t, p) :: rej)))
        by (apply in_or_app; right; left; auto).
      revert Hu Hb. generalize (map fst (invalid d) ++ map fst ((t, p) :: rej)). clear. intros bad Hu Hb.
      unfold ub_minus. induction (unblinded d) as [|a l IH]; [contradiction|]. cbn [filter length].
      destruct Hu as [->|Hu].
      * assert (M : memZ (u_token u) bad = true) by now apply memZ_true. rewrite M. cbn [negb].
        pose proof (filter_length_le (fun r => negb (memZ (u_token r) bad)) l). lia.
      * specialize (IH Hu). destruct (negb (memZ (u_token a) bad)); cbn [length]; lia.
    + exists r, d', new. split; [exact E|]. exact Ln.
Qed.
End Loop.

(** ** The two ways of paying *)
Lemma spend_all_ok P R : @success_ok P R (fun x g d => spend_all x g d) (fun _ g => map fst g).
Proof.
  intros x g d W N. left. unfold spend_all. rewrite mark_spent_eq by exact W. eexists; split; reflexivity.
Qed.

Lemma split_prefix_from P (g : group P) : forall k n, 0 <= k ->
  split_from k (fun i => (0 <=? i) && (i <? n)) g = (firstn (Z.to_nat (n - k)) g, skipn (Z.to_nat (n - k)) g).
Proof.
  induction g as [|t g IH]; intros k n Hk; cbn [split_from].
  - now rewrite firstn_nil, skipn_nil.
  - rewrite IH by lia. destruct (Z.leb_spec 0 k); [|lia]. cbn [andb].
    destruct (Z.ltb_spec k n) as [Lt|Ge].
    + replace (Z.to_nat (n - k)) with (S (Z.to_nat (n - (k + 1)))) by lia. reflexivity.
    + replace (Z.to_nat (n - k)) with O by lia. replace (Z.to_nat (n - (k + 1))) with O by lia. reflexivity.
Qed.

(** The tokens an allocation spends. *)
Definition allocation_spends {P} (pass_value size : Z) (x : list Z * dict Z) (g : group P) : list Z :=
  match required_passes pass_value (repeat size (length (snd x))) with
  | Ok k => map fst (firstn (Z.to_nat k) g)
  | Err _ => []
  end.

Lemma minus_app l a b : minus (minus l a) b = minus l (a ++ b).
Proof.
  unfold minus. induction l as [|t l IH]; cbn [filter]; [reflexivity|].
  destruct (memZ t a) eqn:Ea; cbn [negb].
  - assert (M : memZ t (a ++ b) = true) by (apply memZ_true, in_or_app; left; now apply memZ_true). now rewrite M.
  - cbn [filter]. assert (M : memZ t (a ++ b) = memZ t b).
    { apply memZ_false in Ea. destruct (memZ_spec t b) as [X|X].
      - apply memZ_true, in_or_app; auto.
      - apply memZ_false. intros Y. apply in_app_or in Y. tauto. }
    rewrite M. destruct (negb (memZ t b)); [f_equal|]; exact IH.
Qed.

Lemma allocation_ok P pv size :
  @success_ok P (list Z * dict Z) (fun x g d => spend_for_allocate_buckets pv size x g d) (allocation_spends pv size).
Proof.
  intros x g d W N. unfold spend_for_allocate_buckets, allocation_spends.
  destruct (required_passes pv (repeat size (length (snd x)))) as [k|e]; [|right; eauto].
  left. unfold split. rewrite split_prefix_from by lia. rewrite Z.sub_0_r.
  rewrite mark_spent_eq by exact W.
  assert (W1 : wf (after_spend d (map fst (firstn (Z.to_nat k) g)))) by (apply wf_remove; exact W).
  rewrite reset_eq by exact W1. eexists; split; [reflexivity|].
  unfold after_release, after_spend. cbn [in_use set_in_use].
  rewrite minus_app, <- map_app, firstn_skipn. reflexivity.
Qed.

Lemma allocation_sub P pv size x (g : group P) t :
  In t (allocation_spends pv size x g) -> In t (map fst g).
Proof.
  unfold allocation_spends. destruct (required_passes _ _); [|intros []].
  rewrite !in_map_iff. intros (y & E & H). exists y. split; [exact E|]. now apply in_firstn in H.
Qed.

(** ** Statements about the client's calls *)
Section Client.
Variables P R : Type.
Variable to_pass : Z -> Z -> res exn P.

Lemma outcome_accounted (spends : R -> group P -> list Z) message num tr r d d' t :
  outcome to_pass message num spends tr r d d' -> taken tr t -> accounted d' t.
Proof.
  intros O T. destruct (outcome_taken O T) as (U & H). split; [exact U|].
  unfold is_spent, is_invalid, is_available in *.
  destruct H as [(_ & I & S)|[(_ & S & I)|(_ & _ & S & Nu & I)]].
  - right. left. split; [tauto|]. split; [tauto|]. intros (_ & _ & X). contradiction.
  - left. split; [tauto|]. split; [tauto|]. intros (X & _). apply S. now apply stored_in with true.
  - right. right. pose proof (stored_in S). tauto.
Qed.

Lemma outcome_spent (spends : R -> group P -> list Z) message num tr r d d' :
  outcome to_pass message num spends tr r d d' ->
  match r with
  | Ok x => exists g, accepted tr x g /\ forall t, taken tr t -> (is_spent d' t <-> In t (spends x g))
  | Err _ => forall t, taken tr t -> ~ is_spent d' t
  end.
Proof.
  intros O. assert (Ac : (exists x, r = Ok x) -> exists x g, r = Ok x /\ accepted tr x g) by apply O.
  assert (K : forall t, taken tr t -> (is_spent d' t <-> spent_by spends r tr t)).
  { intros t T. destruct (outcome_taken O T) as (_ & H). unfold is_spent, is_invalid, is_available in *.
    destruct O as (_ & _ & _ & _ & _ & F & _). destruct (F t T) as (_ & _ & Fs & _).
    split; [|intros S; apply (Fs S)]. intros S.
    destruct H as [(_ & I & _)|[(X & _)|(_ & _ & X & _)]]; [tauto|exact X|].
    exfalso. apply (proj1 S). now apply stored_in with true. }
  destruct r as [x|e].
  - destruct (Ac (ex_intro _ x eq_refl)) as (x0 & g & E & A). injection E as <-. exists g. split; [exact A|].
    intros t T. rewrite (K t T). split.
    + intros (x' & g' & E & (p' & A') & S). injection E as <-. destruct A as (p & A). rewrite A in A'.
      apply app_inj_tail in A'. destruct A' as [_ A']. injection A' as <-. exact S.
    + intros S. exists x, g. auto.
  - intros t T. rewrite (K t T). intros (x & g & E & _). discriminate.
Qed.

Lemma outcome_rejected (spends : R -> group P -> list Z) message num tr r d d' :
  outcome to_pass message num spends tr r d d' ->
  forall t, taken tr t -> (is_invalid d' t <-> rejected tr t).
Proof.
  intros O t T. destruct (outcome_taken O T) as (_ & H).
  destruct O as (_ & _ & _ & _ & _ & F & _). destruct (F t T) as (_ & Fr & _).
  split; [|exact Fr]. intros I. unfold is_spent, is_invalid, is_available in *.
  destruct H as [(X & _)|[(_ & _ & X)|(_ & _ & _ & _ & X)]]; [exact X|tauto|tauto].
Qed.
End Client.

Section Generic.
Variables P R : Type.
Variable to_pass : Z -> Z -> res exn P.
Variable server : list (attempt P R) -> group P -> db -> list op * response R.
Variable scan : nat -> list Z -> list Z.
Variables message num_passes : Z.
Hypothesis Hpolite : polite_server server.
Hypothesis Hscan : fair_scan scan.
Hypothesis Hconv : convertible to_pass message.

Lemma spend_call_story fuel d r d' tr : fresh_reachable d ->
  call_with_passes to_pass server scan message num_passes fuel d = Some (r, d', tr) ->
  (tr = [] /\ r = Err (Raised NotEnoughTokens) /\ d' = d) \/
  outcome to_pass message num_passes (fun _ g => map fst g) tr r d d'.
Proof.
  intros F E. unfold call_with_passes in E.
  eapply (@call_story P R to_pass server scan message num_passes (@spend_all P R) (fun _ g => map fst g)); eauto.
  apply spend_all_ok.
Qed.
End Generic.

Lemma required_repeat_nonneg pv size n k : 0 < pv -> 0 <= size ->
  required_passes pv (repeat size n) = Ok k -> 0 <= k.
Proof.
  intros Hp Hs E. pose proof (@required_passes_pos pv (repeat size n) Hp) as E'. rewrite E' in E.
  injection E as <-. clear E'. induction n as [|n IH]; cbn; [lia|]. pose proof (@cdiv_nonneg pv size Hp Hs). lia.
Qed.

Lemma allocate_call_story P (to_pass : Z -> Z -> res exn P) server scan message pv size sharenums fuel d r d' tr :
  polite_server server -> fair_scan scan -> convertible to_pass message -> 0 < pv -> 0 <= size ->
  fresh_reachable d ->
  client_allocate_buckets to_pass server scan message pv size sharenums fuel d = Some (r, d', tr) ->
  exists num, required_passes pv (repeat size (length sharenums)) = Ok num /\
  ((tr = [] /\ r = Err (Raised NotEnoughTokens) /\ d' = d) \/
   outcome to_pass message num (allocation_spends pv size) tr r d d').
Proof.
  intros Hp Hs Hc Hv Hz F E. unfold client_allocate_buckets in E.
  pose proof (@required_passes_pos pv (repeat size (length sharenums)) Hv) as E0.
  rewrite E0 in *. eexists. split; [reflexivity|].
  eapply (@call_story P _ to_pass server scan message _ (spend_for_allocate_buckets pv size) (allocation_spends pv size)); eauto.
  - intros x g t. apply allocation_sub.
  - apply allocation_ok.
Qed.

(** A call whose answer is an error leaves the wallet exactly as it was. *)
Lemma minus_all l ts : (forall t, In t ts -> ~ In t l) -> minus (l ++ ts) ts = l.
Proof.
  intros H. unfold minus. rewrite filter_app.
  assert (A : filter (fun t => negb (memZ t ts)) ts = []).
  { assert (G : forall l', incl l' ts -> filter (fun t => negb (memZ t ts)) l' = []).
    { induction l' as [|t l' IH]; intros Hi; [reflexivity|]. cbn [filter].
      replace (memZ t ts) with true by (symmetry; apply memZ_In, Hi; now left). cbn. apply IH. intros x Hx. apply Hi. now right. }
    apply G, incl_refl. }
  rewrite A, app_nil_r. induction l as [|t l IH]; [reflexivity|]. cbn [filter].
  replace (memZ t ts) with false.
  - cbn. f_equal. apply IH. intros x Hx Hl. apply (H x Hx). now right.
  - symmetry. apply memZ_not_In. intros Hx. apply (H t Hx). now left.
Qed.

Lemma failing_call P R (to_pass : Z -> Z -> res exn P) server scan message num_passes on_success e fuel d :
  (forall g d0, server [] g d0 = ([], Fail (R := R) e)) -> fair_scan scan -> convertible to_pass message -> wf d ->
  let c := call_with_passes_with_manual_spend to_pass server scan message num_passes on_success (S fuel) d in
  c = Some (Err (Raised NotEnoughTokens), d, []) \/ exists g, c = Some (Err (Remote e), d, [(g, Fail e)]).
Proof.
  intros Sv Fs Cv W c. unfold c, call_with_passes_with_manual_spend.
  destruct (@get_cases P to_pass (scan 0%nat) message num_passes d W (Fs 0%nat) Cv) as [->|(g & E & N & A & _)]; [now left|].
  right. exists g. rewrite E. cbn [attempts]. rewrite Sv. cbn [steps snd app]. unfold give_up.
  assert (W' : wf (set_in_use (in_use d ++ map fst g) d)).
  { apply wf_set_in_use; [|intros t Ht|exact W].
    - apply NoDup_app_intro; [apply W|exact N|]. intros t H1 H2. apply A, in_available in H2. tauto.
    - apply in_app_iff in Ht as [Ht|Ht]; [now apply W|]. apply A, in_available in Ht. tauto. }
  rewrite reset_eq by exact W'. f_equal. f_equal. f_equal. unfold after_release. cbn [in_use set_in_use].
  rewrite minus_all; [destruct d; reflexivity|]. intros t Ht. apply A, in_available in Ht. tauto.
Qed.
