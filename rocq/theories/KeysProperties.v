(** C143 The keys that are allowed when a token arrives decide for good whether it may be
    spent. *)
From Verif Require Import Prelude StoreModel StoreSpec StoreProofs StoreProperties ControllerModel ControllerSpec ControllerProofs ControllerRunProofs ControllerProperties LossModel LossProofs PurseSpec PurseProperties WorthProofs KeysSpec.
From Coq Require Import Permutation.
Set Implicit Arguments.

(** ** One call to the wallet *)
Lemma insert_stored d v pk toks cm s' now s t : wf d -> stored (snd (StoreModel.step d (OInsert v pk toks cm s' now))) s t ->
  stored d s t \/ (In t toks /\ s = s').
Proof.
  intros W. rewrite step_insert_eq by exact W. destruct (filter _ (vouchers d)) as [|r rs]; [auto|]. cbv zeta.
  destruct (exec_muts _ _) as [d2|x] eqn:E2; [|auto]. cbn [snd]. apply ins_unblinded_Ok in E2. destruct E2 as (_ & _ & ->).
  unfold stored. cbn [unblinded StoreModel.groups set_tokens set_unblinded set_vouchers set_groups].
  intros (g & v' & pk' & Hu & Hg). apply in_app_or in Hu, Hg. destruct Hu as [Hu|Hu].
  - left. destruct Hg as [Hg|[Hg|[]]]; [now exists g, v', pk'|]. injection Hg as Hid. exfalso.
    pose proof (wf_group_known W _ Hu) as Hk. cbn in Hk. rewrite <- Hid in Hk. exact (next_id_fresh _ Hk).
  - right. apply in_map_iff in Hu. destruct Hu as (t' & Et & Ht). injection Et as -> <-. split; [exact Ht|].
    destruct Hg as [Hg|[Hg|[]]]; [|congruence]. exfalso. apply (in_map g_id) in Hg. cbn in Hg. exact (next_id_fresh _ Hg).
Qed.
Lemma insert_keeps d v pk toks cm s' now s t : wf d -> stored d s t -> stored (snd (StoreModel.step d (OInsert v pk toks cm s' now))) s t.
Proof.
  intros W H. rewrite step_insert_eq by exact W. destruct (filter _ (vouchers d)) as [|r rs]; [auto|]. cbv zeta.
  destruct (exec_muts _ _) as [d2|x] eqn:E2; [|auto]. cbn [snd]. apply ins_unblinded_Ok in E2. destruct E2 as (_ & _ & ->).
  destruct H as (g & v' & pk' & Hu & Hg). exists g, v', pk'. cbn [unblinded StoreModel.groups set_tokens set_unblinded set_vouchers set_groups].
  split; apply in_or_app; left; assumption.
Qed.
Lemma add_same d v e k ts now : wf d -> unblinded (snd (StoreModel.step d (OAdd v e k ts now))) = unblinded d /\
  StoreModel.groups (snd (StoreModel.step d (OAdd v e k ts now))) = StoreModel.groups d.
Proof.
  intros W. rewrite step_add_eq by exact W. destruct (filter _ (tokens d)); [|auto]. cbv zeta.
  destruct (exec_muts _ _) as [d2|x] eqn:E2; [|auto]. cbn [snd].
  destruct (memZ_spec v (map v_number (vouchers d))) as [Hv|Hv];
    (apply ins_token_Ok in E2; [destruct E2 as (_ & _ & ->); auto|]).
  - exact Hv.
  - cbn. rewrite map_app. apply in_or_app; right; left; reflexivity.
Qed.
Lemma double_same d v now : unblinded (snd (StoreModel.step d (ODouble v now))) = unblinded d /\
  StoreModel.groups (snd (StoreModel.step d (ODouble v now))) = StoreModel.groups d.
Proof. rewrite step_double_eq. cbv zeta. destruct (filter _ (vouchers d)); auto. Qed.

(** What a call puts in the wallet. *)
Definition puts (o : op) (t : Z) (s : bool) : Prop := exists v pk toks cm now, o = OInsert v pk toks cm s now /\ In t toks.
(** What a call takes out, given the tokens known to be invalid. *)
Definition takes (d : db) (o : op) (t : Z) : Prop :=
  (exists ts, o = ODiscard ts /\ In t ts) \/ (exists reason ts, o = OInvalidate reason ts /\ In t (map fst (invalid d) ++ ts)).
Lemma call_from d o t s : wf d -> fair o -> stored (snd (StoreModel.step d o)) s t -> stored d s t \/ puts o t s.
Proof.
  intros W F H. assert (X : wallet_call o -> stored d s t \/ puts o t s).
  { intros Wc. left. apply (proj1 (@wallet_stored d o t s W Wc)) in H. apply H. }
  destruct o; try (apply X; exact F).
  - left. destruct (@add_same d voucher expected counter new_tokens now W) as [U G]. now apply (@stored_same d _ s t U G) in H.
  - apply insert_stored in H; [|exact W]. destruct H as [H|[H ->]]; [now left|]. right. exists voucher, pk, toks, completed, now. auto.
  - left. destruct (@double_same d voucher now) as [U G]. now apply (@stored_same d _ s t U G) in H.
  - left. exact H.
Qed.
Lemma call_keeps d o t s : wf d -> fair o -> stored d s t -> ~ takes d o t -> stored (snd (StoreModel.step d o)) s t.
Proof.
  intros W F H N. assert (X : wallet_call o -> stored (snd (StoreModel.step d o)) s t).
  { intros Wc. apply (proj1 (@wallet_stored d o t s W Wc)). split; [exact H|]. destruct o; auto.
    - intros J. apply N. left. eauto.
    - intros _ J. apply N. right. eauto. }
  destruct o; try (apply X; exact F).
  - destruct (@add_same d voucher expected counter new_tokens now W) as [U G]. now apply (@stored_same d _ s t U G).
  - now apply insert_keeps.
  - destruct (@double_same d voucher now) as [U G]. now apply (@stored_same d _ s t U G).
  - exact H.
Qed.
Lemma call_invalid d o t : wf d -> fair o -> In t (map fst (invalid (snd (StoreModel.step d o)))) ->
  In t (map fst (invalid d)) \/ exists reason ts, o = OInvalidate reason ts /\ In t ts.
Proof.
  intros W F H. assert (X : wallet_call o -> In t (map fst (invalid d)) \/ exists reason ts, o = OInvalidate reason ts /\ In t ts).
  { intros Wc. rewrite (proj2 (@wallet_stored d o t true W Wc)) in H. apply in_app_or in H as [H|H]; [now left|]. right.
    destruct o; try contradiction. destruct (succeeds _ _); [eauto|contradiction]. }
  destruct o; try (apply X; exact F).
  - left. now rewrite own_invalid in H by (exact W || exact I).
  - left. now rewrite own_invalid in H by (exact W || exact I).
  - left. now rewrite own_invalid in H by (exact W || exact I).
  - left. exact H.
Qed.

(** ** Several calls *)
Lemma calls_from os t s : forall d, wf d -> (forall o, In o os -> fair o) -> stored (snd (steps d os)) s t ->
  stored d s t \/ exists o, In o os /\ puts o t s.
Proof.
  induction os as [|o os IH]; intros d W F H; [now left|]. cbn [steps] in H.
  pose proof (@wf_step d o W (F o (or_introl eq_refl))) as W1. pose proof (@call_from d o t s W (F o (or_introl eq_refl))) as C.
  destruct (StoreModel.step d o) as [r d1]. cbn [snd] in *. specialize (IH d1 W1 (fun o' J => F o' (or_intror J))).
  destruct (steps d1 os) as [rs d2]. cbn [snd] in *. destruct (IH H) as [J|(o' & J & P)]; [|right; exists o'; split; [now right|exact P]].
  destruct (C J) as [K|K]; [now left|]. right. exists o. split; [now left|exact K].
Qed.
Lemma calls_keep os t s : forall d, wf d -> (forall o, In o os -> fair o) -> stored d s t -> ~ In t (map fst (invalid d)) ->
  (forall o ts, In o os -> o = ODiscard ts \/ (exists reason, o = OInvalidate reason ts) -> ~ In t ts) ->
  stored (snd (steps d os)) s t /\ ~ In t (map fst (invalid (snd (steps d os)))).
Proof.
  induction os as [|o os IH]; intros d W F H V N; [auto|]. cbn [steps].
  pose proof (@wf_step d o W (F o (or_introl eq_refl))) as W1.
  assert (H1 : stored (snd (StoreModel.step d o)) s t).
  { apply call_keeps; [exact W|apply F; now left|exact H|]. intros [(ts & E & J)|(reason & ts & E & J)].
    - exact (N o ts (or_introl eq_refl) (or_introl E) J).
    - apply in_app_or in J as [J|J]; [now apply V|]. exact (N o ts (or_introl eq_refl) (or_intror (ex_intro _ reason E)) J). }
  assert (V1 : ~ In t (map fst (invalid (snd (StoreModel.step d o))))).
  { intros J. apply call_invalid in J; [|exact W|apply F; now left]. destruct J as [J|(reason & ts & E & J)]; [now apply V|].
    exact (N o ts (or_introl eq_refl) (or_intror (ex_intro _ reason E)) J). }
  destruct (StoreModel.step d o) as [r d1]. cbn [snd] in *.
  specialize (IH d1 W1 (fun o' J => F o' (or_intror J)) H1 V1 (fun o' ts J => N o' ts (or_intror J))). destruct (steps d1 os) as [rs d2]. exact IH.
Qed.
Lemma calls_invalid os t : forall d, wf d -> (forall o, In o os -> fair o) -> ~ In t (map fst (invalid d)) ->
  (forall reason ts, In (OInvalidate reason ts) os -> ~ In t ts) -> ~ In t (map fst (invalid (snd (steps d os)))).
Proof.
  induction os as [|o os IH]; intros d W F V N; [auto|]. cbn [steps].
  pose proof (@wf_step d o W (F o (or_introl eq_refl))) as W1.
  assert (V1 : ~ In t (map fst (invalid (snd (StoreModel.step d o))))).
  { intros J. apply call_invalid in J; [|exact W|apply F; now left]. destruct J as [J|(reason & ts & -> & J)]; [now apply V|].
    exact (N reason ts (or_introl eq_refl) J). }
  destruct (StoreModel.step d o) as [r d1]. cbn [snd] in *.
  specialize (IH d1 W1 (fun o' J => F o' (or_intror J)) V1 (fun re ts J => N re ts (or_intror J))). destruct (steps d1 os) as [rs d2]. exact IH.
Qed.
Lemma calls_wf os : forall d, wf d -> (forall o, In o os -> fair o) -> wf (snd (steps d os)).
Proof.
  induction os as [|o os IH]; intros d W F; [exact W|]. cbn [steps]. pose proof (@wf_step d o W (F o (or_introl eq_refl))) as W1.
  destruct (StoreModel.step d o) as [r d1]. cbn [snd] in *. specialize (IH d1 W1 (fun o' J => F o' (or_intror J))). now destruct (steps d1 os).
Qed.

(** ** A life *)
Section Life.
Variable groups : Z.
Notation live := (living groups).

Lemma answer_brings c te f toks pk : answer_of c te = Some (f, ASuccess toks pk) -> brings c te toks pk.
Proof.
  destruct te as [[e now] gen]. unfold answer_of. cbn [fst]. intros E.
  destruct e as [v' n|i a| | |o|i a|n|n]; try discriminate E; destruct (nth_error (c_flights c) i) as [f'|] eqn:Nf; try discriminate E;
    injection E as -> ->; exists i, f, now, gen; auto.
Qed.
Lemma living_app a : forall b c, live c (a ++ b) = live (live c a) b.
Proof. induction a as [|[k te] a IH]; intros b c; [reflexivity|]. cbn [app living]. apply IH. Qed.
Lemma event_wf c n allowed te : wf (c_db c) -> proper te -> wf (c_db (snd (controller_step groups n allowed c te))).
Proof. intros W P. rewrite <- event_ops_db. apply calls_wf; [exact W|]. exact (event_fair groups n allowed c te P). Qed.
Lemma living_wf h : forall c, wf (c_db c) -> proper_life h -> wf (c_db (live c h)).
Proof.
  induction h as [|[[n allowed] te] h IH]; intros c W P; [exact W|]. inversion P; subst. cbn [living fst snd]. apply IH; [now apply event_wf|assumption].
Qed.
Lemma new_wf : wf (c_db new_node).
Proof. exact wf_empty. Qed.
Lemma event_from c n allowed te t s : wf (c_db c) -> proper te -> stored (c_db (snd (controller_step groups n allowed c te))) s t ->
  stored (c_db c) s t \/ exists toks pk, brings c te toks pk /\ In t toks /\ (s = true <-> In pk allowed).
Proof.
  intros W P H. rewrite <- event_ops_db in H. apply calls_from in H; [|exact W|exact (event_fair groups n allowed c te P)].
  destruct H as [H|(o & J & v & pk & toks & cm & now & -> & Ht)]; [now left|]. right.
  destruct (inserted groups n allowed c te _ _ _ _ _ _ P J) as (f & A & ->). exists toks, pk. split; [exact (answer_brings _ _ A)|]. split; [exact Ht|]. apply memZ_true.
Qed.
Lemma living_from h t s : forall c, wf (c_db c) -> proper_life h -> stored (c_db (live c h)) s t ->
  stored (c_db c) s t \/ exists pk allowed, received groups c h t pk allowed /\ (s = true <-> In pk allowed).
Proof.
  induction h as [|[[n allowed] te] h IH]; intros c W P H; [now left|]. inversion P as [|? ? P1 P2]; subst. cbn [living fst snd] in H, P1.
  destruct (IH _ (@event_wf c n allowed te W P1) P2 H) as [J|(pk & al & (h1 & n' & te' & h2 & toks & -> & B & Ht) & K)].
  - destruct (@event_from c n allowed te t s W P1 J) as [J'|(toks & pk & B & Ht & K)]; [now left|]. right. exists pk, allowed. split; [|exact K].
    exists [], n, te, h, toks. auto.
  - right. exists pk, al. split; [|exact K]. exists (((n, allowed), te) :: h1), n', te', h2, toks. auto.
Qed.

(** A token in the wallet may be spent exactly if it was signed with a key that was
    allowed when it was received. *)
Theorem C143_the_keys_of_the_day : forall h t s, proper_life h -> stored (c_db (live new_node h)) s t ->
  exists pk allowed, received groups new_node h t pk allowed /\ (s = true <-> In pk allowed).
Proof.
  intros h t s P H. destruct (@living_from h t s new_node new_wf P H) as [(g & v & pk & [] & _)|X]. exact X.
Qed.

Lemma wallet_ops k c te o ts : In o (event_ops groups (fst k) (snd k) c te) -> 
  o = ODiscard ts \/ (exists reason, o = OInvalidate reason ts) -> fst (fst te) = EWallet o.
Proof.
  intros H E. destruct te as [[e now] gen]. unfold event_ops in H. cbn [fst] in *.
  assert (B : forall l : list op, In o l -> Forall own l -> False).
  { intros l J F. rewrite Forall_forall in F. specialize (F o J). destruct E as [->|(r & ->)]; exact F. }
  assert (R : o <> ORestart) by (destruct E as [->|(r & ->)]; discriminate).
  apply in_app_or in H as [H|H]; [destruct e; cbn in H; try contradiction; destruct H as [<-|[]]; contradiction|].
  apply in_app_or in H as [H|H]; [|destruct e; cbn in H; try contradiction; destruct H as [<-|[]]; contradiction].
  destruct e as [v' n|i a| | |w|i a|n|n];
    try (exfalso; refine (B _ H (calls_own groups (fst k) (snd k) c (_, now, gen) _)); cbn; discriminate).
  cbn in H. destruct H as [->|[]]. reflexivity.
Qed.
Lemma not_taken_event k te h t c : ~ taken ((k, te) :: h) t -> forall o ts, In o (event_ops groups (fst k) (snd k) c te) ->
  o = ODiscard ts \/ (exists reason, o = OInvalidate reason ts) -> ~ In t ts.
Proof.
  intros N o ts J E Ht. apply N. pose proof (@wallet_ops k c te o ts J E) as X. destruct te as [[e now] gen]. cbn [fst] in X. subst e.
  exists k, now, gen. destruct E as [->|(reason & ->)]; [left; exists ts|right; exists reason, ts]; split; try exact Ht; now left.
Qed.
Lemma taken_later e h t : taken h t -> taken (e :: h) t.
Proof. intros (k & now & gen & [(ts & Ht & J)|(r & ts & Ht & J)]); exists k, now, gen; [left; exists ts|right; exists r, ts]; split; try exact Ht; now right. Qed.
Lemma living_keeps h t s : forall c, wf (c_db c) -> proper_life h -> ~ taken h t -> ~ In t (map fst (invalid (c_db c))) ->
  stored (c_db c) s t -> stored (c_db (live c h)) s t.
Proof.
  induction h as [|[k te] h IH]; intros c W P N V H; [exact H|]. inversion P as [|? ? P1 P2]; subst. cbn [living snd] in *.
  destruct (@calls_keep (event_ops groups (fst k) (snd k) c te) t s (c_db c) W (event_fair groups (fst k) (snd k) c te P1) H V (@not_taken_event k te h t c N)) as [H1 V1].
  rewrite event_ops_db in H1, V1. apply IH; auto; [now apply event_wf|]. intros X. apply N, taken_later, X.
Qed.
Lemma living_valid h t : forall c, wf (c_db c) -> proper_life h -> ~ taken h t -> ~ In t (map fst (invalid (c_db c))) ->
  ~ In t (map fst (invalid (c_db (live c h)))).
Proof.
  induction h as [|[k te] h IH]; intros c W P N V; [exact V|]. inversion P as [|? ? P1 P2]; subst. cbn [living snd] in *.
  pose proof (@calls_invalid (event_ops groups (fst k) (snd k) c te) t (c_db c) W (event_fair groups (fst k) (snd k) c te P1) V
    (fun re ts J => @not_taken_event k te h t c N _ ts J (or_intror (ex_intro _ re eq_refl)))) as V1.
  rewrite event_ops_db in V1. apply IH; auto; [now apply event_wf|]. intros X. apply N, taken_later, X.
Qed.

(** It stays in the wallet, to be spent or not, however the settings change, until a
    server has taken or refused it. *)
Theorem C143_settings_leave_tokens_alone : forall h1 h2 t s, proper_life (h1 ++ h2) -> ~ taken (h1 ++ h2) t ->
  stored (c_db (live new_node h1)) s t -> stored (c_db (live new_node (h1 ++ h2))) s t.
Proof.
  intros h1 h2 t s P N H. apply Forall_app in P as [P1 P2]. rewrite living_app. apply living_keeps; auto.
  - apply living_wf; [apply new_wf|exact P1].
  - intros (k & now & gen & X). apply N. exists k, now, gen. destruct X as [(ts & Ht & J)|(r & ts & Ht & J)]; [left; exists ts|right; exists r, ts]; (split; [exact Ht|]); apply in_or_app; now right.
  - apply living_valid; [apply new_wf|exact P1| |intros []].
    intros (k & now & gen & X). apply N. exists k, now, gen. destruct X as [(ts & Ht & J)|(r & ts & Ht & J)]; [left; exists ts|right; exists r, ts]; (split; [exact Ht|]); apply in_or_app; now left.
Qed.

(** A token set aside is not handed out and not counted, even after its key was allowed,
    unless the issuer gives it again. *)
Theorem C143_set_aside_for_good : forall h1 h2 t, proper_life (h1 ++ h2) -> stored (c_db (live new_node h1)) false t ->
  (forall pk allowed, ~ received groups (live new_node h1) h2 t pk allowed) ->
  (forall scan n toks d, (forall l, Permutation (scan l) l) ->
     StoreModel.step (c_db (live new_node (h1 ++ h2))) (OExtract scan n) = (Ok (RTokens toks), d) -> ~ In t toks) /\
  exists counted, NoDup counted /\ ~ In t counted /\
    (forall u, In u counted <-> stored (c_db (live new_node (h1 ++ h2))) true u /\ ~ In u (in_use (c_db (live new_node (h1 ++ h2))))) /\
    fst (StoreModel.step (c_db (live new_node (h1 ++ h2))) OCount) = Ok (RNum (Z.of_nat (length counted))).
Proof.
  intros h1 h2 t P H N. apply Forall_app in P as [P1 P2]. pose proof (@living_wf h1 new_node new_wf P1) as W1. rewrite living_app.
  pose proof (@living_wf h2 _ W1 P2) as W2. set (c2 := live (live new_node h1) h2) in *.
  assert (Q : ~ stored (c_db c2) true t).
  { intros X. destruct (@living_from h2 t true _ W1 P2 X) as [Y|(pk & al & R & _)]; [|exact (N _ _ R)].
    pose proof (@stored_unique _ _ _ _ W1 H Y). discriminate. }
  split.
  - intros scan n toks d F E J. destruct (@extract_stored _ _ _ _ _ t W2 F E J) as [X _]. exact (Q X).
  - exists (available (c_db c2)). split; [now apply available_NoDup|]. split; [|split; [intros u; apply in_available|reflexivity]].
    intros J. apply in_available in J as [J _]. exact (Q J).
Qed.
End Life.
Print Assumptions C143_the_keys_of_the_day.
Print Assumptions C143_settings_leave_tokens_alone.
Print Assumptions C143_set_aside_for_good.

(** A node allows no key, redeems a voucher, is started again with key 55 allowed,
    redeems another one, and is started a third time without any key. *)
Definition ky_tokens (base : Z) (_ _ n : Z) : list Z := map (fun i => base + Z.of_nat i) (seq 0 (Z.to_nat n)).
Lemma ky_enough base : enough (ky_tokens base).
Proof. intros v c n H. unfold ky_tokens. rewrite map_length, seq_length. now apply Z2Nat.id. Qed.
Definition ky_first : list (settings * timed) :=
  [((2, []), (EStart, 1, ky_tokens 100)); ((2, []), (ESubmit 7 (Some 2), 2, ky_tokens 200)); ((2, []), (EAnswer 0 (ASuccess [11; 12] 55), 3, ky_tokens 300))].
Definition ky_second : list (settings * timed) :=
  [((2, [55]), (EStart, 4, ky_tokens 400)); ((2, [55]), (ESubmit 8 (Some 2), 5, ky_tokens 500)); ((2, [55]), (EAnswer 0 (ASuccess [13; 14] 55), 6, ky_tokens 600))].
Definition ky_third : list (settings * timed) := [((2, []), (EStart, 7, ky_tokens 700))].
Lemma ky_proper : proper_life (ky_first ++ ky_second ++ ky_third).
Proof. unfold proper_life, ky_first, ky_second, ky_third. repeat constructor; apply ky_enough. Qed.
Example C143_example :
  let d := c_db (living 1 new_node (ky_first ++ ky_second ++ ky_third)) in
  stored d false 11 /\ stored d false 12 /\ stored d true 13 /\ stored d true 14 /\
  fst (StoreModel.step d OCount) = Ok (RNum 2) /\ fst (StoreModel.step d (OExtract (fun l => l) 2)) = Ok (RTokens [13; 14]).
Proof.
  cbv zeta. assert (S : forall b t g v, In (UR t g) (unblinded (c_db (living 1 new_node (ky_first ++ ky_second ++ ky_third)))) ->
    In (GR g v 55 b) (StoreModel.groups (c_db (living 1 new_node (ky_first ++ ky_second ++ ky_third)))) -> stored (c_db (living 1 new_node (ky_first ++ ky_second ++ ky_third))) b t)
    by (intros b t g v A B; exists g, v, 55; auto).
  repeat split; try (vm_compute; reflexivity).
  1, 2: apply (S _ _ 1 7); vm_compute; auto.
  1, 2: apply (S _ _ 2 8); vm_compute; auto.
Qed.
Example C143_example_received : received 1 new_node (ky_first ++ ky_second ++ ky_third) 13 55 [55] /\
  received 1 new_node (ky_first ++ ky_second ++ ky_third) 11 55 [] /\
  stored (c_db (living 1 new_node ky_first)) false 11 /\
  (forall pk allowed, ~ received 1 (living 1 new_node ky_first) (ky_second ++ ky_third) 11 pk allowed) /\
  ~ taken (ky_first ++ ky_second ++ ky_third) 13.
Proof.
  split; [|split; [|split; [|split]]].
  - exists (ky_first ++ firstn 2 ky_second), 2, (EAnswer 0 (ASuccess [13; 14] 55), 6, ky_tokens 600), ky_third, [13; 14].
    split; [reflexivity|]. split; [|cbn; auto]. eexists 0%nat, _, 6, _. split; [vm_compute; reflexivity|]. left. reflexivity.
  - exists (firstn 2 ky_first), 2, (EAnswer 0 (ASuccess [11; 12] 55), 3, ky_tokens 300), (ky_second ++ ky_third), [11; 12].
    split; [reflexivity|]. split; [|cbn; auto]. eexists 0%nat, _, 3, _. split; [vm_compute; reflexivity|]. left. reflexivity.
  - exists 1, 7, 55. split; vm_compute; auto.
  - intros pk allowed (h1 & n & te & h2 & toks & E & (i & f & now & gen & _ & B) & Ht).
    assert (J : In (n, allowed, te) (ky_second ++ ky_third)) by (rewrite E; apply in_or_app; right; now left).
    unfold ky_second, ky_third in J. cbn [app In] in J.
    destruct J as [J|[J|[J|[J|[]]]]]; injection J as _ _ <-; destruct B as [B|B]; try discriminate B.
    injection B as _ <- _ _ _. cbn in Ht. intuition discriminate.
  - intros (k & now & gen & [(ts & Ht & J)|(r & ts & Ht & J)]); unfold ky_first, ky_second, ky_third in J; cbn [app In] in J; intuition discriminate.
Qed.
