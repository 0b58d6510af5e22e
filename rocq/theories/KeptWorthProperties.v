(** C144 for a node that goes on with the wallet of a lost one. *)
From Verif Require Import Prelude StoreModel StoreSpec StoreProofs ReplicaModel ReplicaSpec ReplicaStore ReplicaProperties RestSpec RestProperties RetrySpec
  ControllerModel ControllerSpec ControllerProofs ControllerRunProofs ControllerProperties LossModel LossSpec LossProofs LossProperties
  PurseSpec PurseProperties WorthProofs WorthProperties OutliveProperties KeysSpec KeysProperties KeptKeysProperties WorthKeptSpec WorthKeptProperties.
Set Implicit Arguments.

(** A history with the same settings throughout. *)
Definition with_settings (k : settings) (es : list timed) : list (settings * timed) := map (pair k) es.
Lemma living_fixed groups n allowed es : forall c, living groups c (with_settings (n, allowed) es) = snd (controller_run groups n allowed c es).
Proof.
  induction es as [|te es IH]; intros c; [reflexivity|]. cbn [with_settings map living controller_run fst snd] in *. rewrite IH.
  destruct (controller_step groups n allowed c te) as [o c1]. cbn [snd]. now destruct (controller_run groups n allowed c1 es).
Qed.
Lemma fixed_proper k es : Forall proper es -> proper_life (with_settings k es).
Proof. intros F. unfold proper_life, with_settings. rewrite Forall_map. exact F. Qed.
Lemma submitted_app groups a b v n : submitted groups a v n -> submitted groups (a ++ b) v n.
Proof.
  intros (h1 & dflt & allowed & asked & now & gen & h2 & -> & N & E). exists h1, dflt, allowed, asked, now, gen, (h2 ++ b).
  split; [now rewrite <- app_assoc|auto].
Qed.
Lemma submitted_cut groups k es eb v n : cut es eb -> submitted groups (with_settings k eb) v n -> submitted groups (with_settings k es) v n.
Proof.
  unfold with_settings. intros (es1 & es2 & -> & [->|(te & te' & rest & -> & Sh & ->)]) S; rewrite map_app; apply submitted_app; [exact S|].
  rewrite map_app in S. destruct S as (h1 & dflt & allowed & asked & now & gen & h2 & E & N & En). cbn [map] in E.
  destruct h2 as [|y h2' _] using rev_ind.
  - apply app_inj_tail in E as [_ E]. apply (f_equal snd) in E; cbn [snd] in E. exfalso. destruct te as [[e n0] g0].
    destruct e; cbn in Sh; try contradiction; first [rewrite Sh in E | destruct Sh as [? Sh]; rewrite Sh in E]; discriminate E.
  - rewrite app_comm_cons, app_assoc in E. apply app_inj_tail in E as [E _]. exists h1, dflt, allowed, asked, now, gen, h2'. auto.
Qed.
Lemma restart_both groups n allowed c c' te : restart (c_db c) = restart (c_db c') -> starts (fst (fst te)) ->
  controller_step groups n allowed c te = controller_step groups n allowed c' te.
Proof.
  intros E S. pose proof (@restart_runs groups n allowed c c' [te] E S ltac:(discriminate)) as R. cbn [controller_run] in R.
  destruct (controller_step groups n allowed c te), (controller_step groups n allowed c' te). rewrite !app_nil_r in R. exact R.
Qed.

Lemma answers_cut groups k es eb v P : cut es eb -> all_answers groups (with_settings k es) v P -> all_answers groups (with_settings k eb) v P.
Proof.
  unfold with_settings. intros (es1 & es2 & -> & [->|(te & te' & rest & -> & Sh & ->)]) H h1 k0 i a now gen h2 f E N Ev; rewrite map_app in H.
  - apply (H h1 k0 i a now gen (h2 ++ map (pair k) es2) f); [|exact N|exact Ev]. destruct E as [E|E]; rewrite E; [left|right]; now rewrite <- app_assoc.
  - rewrite map_app in E. cbn [map] in E, H. destruct h2 as [|y h2' _] using rev_ind.
    + assert (E' : te = (EAnswer i a, now, gen) /\ h1 = map (pair k) es1).
      { destruct te as [[e n0] g0]. destruct E as [E|E]; apply app_inj_tail in E as [-> E]; apply (f_equal snd) in E; cbn [snd] in E; rewrite E in Sh;
          destruct e; cbn in Sh; try contradiction; first [discriminate Sh | match type of Sh with ex _ => destruct Sh as [m Sh]; discriminate Sh end | idtac]. injection Sh as <- <- <- <-. auto. }
      destruct E' as [-> ->]. apply (H (map (pair k) es1) k i a now gen (map (pair k) rest) f); auto.
    + apply (H h1 k0 i a now gen (h2' ++ (k, te) :: map (pair k) rest) f); [|exact N|exact Ev].
      destruct E as [E|E]; rewrite app_comm_cons, app_assoc in E; apply app_inj_tail in E as [E _]; rewrite E; [left|right]; now rewrite <- app_assoc.
Qed.
Lemma answers_join groups hb h c v P : begun h -> restart (c_db c) = restart (c_db (living groups new_node hb)) ->
  all_answers groups hb v P -> all_answers_from groups c h v P -> all_answers groups (hb ++ h) v P.
Proof.
  intros (k & te & rest & -> & St) R H1 H2 h1 k0 i a now gen h2 f E N Ev.
  assert (No : forall z h2' e, e = EAnswer i a \/ e = EKillAfterAnswer i a -> (k, te) :: rest = z ++ (k0, (e, now, gen)) :: h2' -> exists z', z = (k, te) :: z').
  { intros [|y z] h2' e He Ez; cbn [app] in Ez; injection Ez; intros; subst; [|eauto]. destruct He as [-> | ->]; contradiction. }
  assert (X : exists e, (e = EAnswer i a \/ e = EKillAfterAnswer i a) /\ hb ++ (k, te) :: rest = h1 ++ (k0, (e, now, gen)) :: h2)
    by (destruct E as [E|E]; [exists (EAnswer i a)|exists (EKillAfterAnswer i a)]; split; [now left|exact E|now right|exact E]).
  clear E. destruct X as (e & He & E). destruct (prefix_app _ _ _ _ E) as [(z & ->)|(z & -> & Ez)].
  - rewrite <- app_assoc in E. apply app_inv_head in E. destruct z as [|y z].
    + cbn [app] in E. destruct (No [] h2 e He E) as [? X]. discriminate X.
    + cbn [app] in E. injection E as -> _. apply (H1 h1 k0 i a now gen z f); [|exact N|exact Ev]. destruct He as [-> | ->]; auto.
  - destruct (No z h2 e He Ez) as [z' ->]. apply (H2 ((k, te) :: z') k0 i a now gen h2 f); [destruct He as [-> | ->]; auto| |exact Ev].
    rewrite living_app in N. cbn [living] in *. now rewrite (@restart_both groups (fst k) (snd k) c _ te R St).
Qed.

Section Lost.
Variable text_size : mut -> Z.
Variable stream_size : list (change mut) -> Z.
Hypothesis fit : sizes_fit text_size stream_size.

(** Let a node be lost while replication is at rest, and another one go on with its
    wallet and any settings.  Each recovered voucher is for the number of tokens it was
    submitted for to the lost node, stays so, and is asked for in parts of that number. *)
Theorem C144_on_a_recovered_node :
  forall groups dflt allowed es ws n r, node_life text_size stream_size groups dflt allowed es ws ->
  wall_along text_size stream_size wharmless empty_wallet ws ->
  wrun text_size stream_size empty_wallet ws = (n, r) -> n_work n = Idle ->
  exists a, recover sexec r = Ok a /\
  forall h x, proper_life h -> begun h -> In x (vouchers a) ->
    submitted groups (with_settings (dflt, allowed) es) (v_number x) (v_expected x) /\
    (exists y, row (living groups (recovered_node a) h) y /\ v_number y = v_number x /\ v_expected y = v_expected x) /\
    (forall k toks, In (Requested (v_number x) k toks) (done groups (recovered_node a) h) ->
       0 <= k < groups /\ Z.of_nat (length toks) = v_expected x / groups + (if k <? v_expected x mod groups then 1 else 0)).
Proof.
  intros groups dflt allowed es ws n r L H E Wk. destruct (lost_and_recovered fit L H E Wk) as (a & eb & Rc & C & Pb & Ra & _). exists a. split; [exact Rc|].
  intros h x P (k & te & rest & -> & St) Hx. set (hb := with_settings (dflt, allowed) eb).
  assert (Pl : proper_life (hb ++ (k, te) :: rest)) by (apply Forall_app; split; [now apply fixed_proper|exact P]).
  assert (Ra' : restart (c_db (recovered_node a)) = restart (c_db (living groups new_node hb))) by (unfold hb; rewrite living_fixed; exact (eq_sym Ra)).
  assert (Hb : row (living groups new_node hb) x).
  { unfold row. apply (f_equal vouchers) in Ra'. cbn in Ra'. rewrite <- Ra'. exact Hx. }
  pose proof (@restart_both groups (fst k) (snd k) _ _ te Ra' St) as Eq.
  assert (El : living groups (recovered_node a) ((k, te) :: rest) = living groups new_node (hb ++ (k, te) :: rest))
    by (rewrite living_app; cbn [living]; now rewrite Eq).
  assert (Ed : done groups new_node (hb ++ (k, te) :: rest) = done groups new_node hb ++ done groups (recovered_node a) ((k, te) :: rest))
    by (rewrite done_app; cbn [done]; now rewrite Eq).
  destruct (@C144_the_number_stays groups hb ((k, te) :: rest) x Pl Hb) as (y & Hy & Ny & Ey).
  split; [|split].
  - apply (@submitted_cut groups (dflt, allowed) es eb _ _ C). apply C144_the_number_of_the_day; [now apply fixed_proper|exact Hb].
  - exists y. rewrite El. auto.
  - intros i toks Q. rewrite <- Ey. apply (@C144_requests_are_for_that_number groups (hb ++ (k, te) :: rest) y i toks Pl Hy).
    rewrite Ny, Ed. apply in_or_app. now right.
Qed.
(** Once such a voucher is redeemed, by either node or by both, it has given exactly that
    number of tokens, if it is paid for and the issuer answers both nodes in full. *)
Theorem C144_redeemed_on_a_recovered_node :
  forall groups dflt allowed es ws n r, node_life text_size stream_size groups dflt allowed es ws ->
  wall_along text_size stream_size wharmless empty_wallet ws ->
  wrun text_size stream_size empty_wallet ws = (n, r) -> n_work n = Idle ->
  exists a, recover sexec r = Ok a /\
  forall h y, proper_life h -> begun h -> row (living groups (recovered_node a) h) y -> v_state y = SRedeemed ->
    (forall P, P = not_unpaid \/ P = in_full ->
       all_answers groups (with_settings (dflt, allowed) es) (v_number y) P /\
       all_answers_from groups (recovered_node a) h (v_number y) P) ->
    coalesce0 (v_token_count y) + v_sequestered y = v_expected y.
Proof.
  intros groups dflt allowed es ws n r L H E Wk. destruct (lost_and_recovered fit L H E Wk) as (a & eb & Rc & C & Pb & Ra & _). exists a. split; [exact Rc|].
  intros h y P B Hy Sy A. set (hb := with_settings (dflt, allowed) eb).
  assert (Pl : proper_life (hb ++ h)) by (apply Forall_app; split; [now apply fixed_proper|exact P]).
  assert (Ra' : restart (c_db (recovered_node a)) = restart (c_db (living groups new_node hb))) by (unfold hb; rewrite living_fixed; exact (eq_sym Ra)).
  assert (El : living groups (recovered_node a) h = living groups new_node (hb ++ h)).
  { destruct B as (k & te & rest & -> & St). rewrite living_app. cbn [living]. now rewrite (@restart_both groups (fst k) (snd k) _ _ te Ra' St). }
  rewrite El in Hy. assert (J : forall Q, Q = not_unpaid \/ Q = in_full -> all_answers groups (hb ++ h) (v_number y) Q).
  { intros Q HQ. destruct (A Q HQ) as [A1 A2]. apply (@answers_join groups hb h (recovered_node a)); auto. now apply (@answers_cut groups _ es eb _ _ C). }
  apply (@C144_redeemed_for_that_number groups (hb ++ h) y Pl Hy Sy); [apply J; now left|apply J; now right].
Qed.
End Lost.
Print Assumptions C144_on_a_recovered_node.
Print Assumptions C144_redeemed_on_a_recovered_node.

(** The node of C143's example, lost after a voucher was submitted for two tokens; the
    recovered node takes vouchers to be for nine, and asks for the same two tokens. *)
Definition kw_h : list (settings * timed) := [((9, []), (EStart, 2000, ky_tokens 600)); ((9, []), (ESubmit 8 None, 2001, ky_tokens 700))].
Example C144_example_recovered : proper_life kw_h /\ begun kw_h /\
  In (VR 8 1002 2 SPending None None 0 0) (vouchers kk_backup) /\
  done 1 (recovered_node kk_backup) kw_h = [Requested 8 0 [500; 501]].
Proof.
  split; [repeat constructor; apply ky_enough|]. split; [eexists _, _, _; split; [reflexivity|exact I]|].
  split; vm_compute; auto.
Qed.
(** The issuer answers the recovered node with two tokens, and that is all. *)
Definition kw_redeems : list (settings * timed) := kw_h ++ [((9, []), (EAnswer 0 (ASuccess [13; 14] 55), 2002, ky_tokens 800))].
Example C144_example_redeemed : proper_life kw_redeems /\ begun kw_redeems /\
  row (living 1 (recovered_node kk_backup) kw_redeems) (VR 8 1002 2 SRedeemed (Some 2002) (Some 0) 2 1) /\
  (forall P, P = not_unpaid \/ P = in_full ->
     all_answers 1 (with_settings (5, [55]) kk_es) 8 P /\ all_answers_from 1 (recovered_node kk_backup) kw_redeems 8 P).
Proof.
  split; [repeat constructor; apply ky_enough|]. split; [eexists _, _, _; split; [reflexivity|exact I]|].
  split; [vm_compute; auto|]. intros P HP. split; intros h1 k i a now gen h2 f E N Ev.
  - exfalso. unfold with_settings, kk_es, wy_es, kk_te in E. cbn [app map] in E.
    destruct E as [E|E]; destruct h1 as [|e1 [|e2 [|e3 [|e4 [|e5 h1]]]]]; cbn [app] in E; try discriminate E.
    injection E; intros; subst. vm_compute in N. injection N as <-. discriminate Ev.
  - unfold kw_redeems, kw_h in E. cbn [app] in E.
    destruct E as [E|E]; destruct h1 as [|e1 [|e2 [|e3 [|e4 h1]]]]; cbn [app] in E; try discriminate E.
    injection E; intros; subst. vm_compute in N. injection N as <-. destruct HP as [-> | ->]; [discriminate|reflexivity].
Qed.
