(** Lemmas for C124. *)
From Verif Require Import Prelude PreludeFacts BytesModel BytesProofs PassModel PricingModel PricingSpec PricingProofs
  ContainerModel ContainerProofs TahoeModel ServerModel ServerSpec ServerProofs ServerStateProofs ServerRequestProofs
  StoreModel StoreSpec StoreProofs SpendModel SpendSpec SpendProofs ClientModel ClientProofs EnoughSpec EnoughProofs
  ServerProperties LeaseModel LeaseSpec LeaseProofs LeaseStoreProofs LeaseServer LeaseServerProofs BoughtSpec BoughtProofs UpkeepModel UpkeepSpec.
Set Implicit Arguments.

(** ** What a call does to the wallet, as calls of the store *)

Definition goes (d d' : db) : Prop :=
  exists os, (forall o, In o os -> fair o /\ ~ receives o) /\ snd (steps d os) = d'.
Lemma goes_refl d : goes d d.
Proof. exists []. split; [intros o []|reflexivity]. Qed.
Lemma steps_snd_app os : forall d os', snd (steps d (os ++ os')) = snd (steps (snd (steps d os)) os').
Proof.
  induction os as [|o os IH]; intros d os'; cbn [app steps]; [reflexivity|].
  destruct (step d o) as [r d1]. specialize (IH d1 os'). destruct (steps d1 (os ++ os')) as [a b].
  destruct (steps d1 os) as [a' b']. cbn [snd] in *. exact IH.
Qed.
Lemma goes_trans a b c : goes a b -> goes b c -> goes a c.
Proof.
  intros (os & A & <-) (os' & B & <-). exists (os ++ os'). split; [|apply steps_snd_app].
  intros o I. apply in_app_or in I as [I|I]; auto.
Qed.
Lemma goes_step d o : fair o -> ~ receives o -> goes d (snd (step d o)).
Proof.
  intros F N. exists [o]. split; [intros o' [<-|[]]; auto|]. cbn. destruct (step d o). reflexivity.
Qed.
Lemma fresh_more os' : (forall o, In o os' -> fair o /\ ~ receives o) ->
  forall os banned, fresh_history banned os -> fresh_history banned (os ++ os').
Proof.
  intros H os. induction os as [|o os IH]; intros banned F.
  - cbn [app]. clear F. revert banned. induction os' as [|o' os' IH]; intros banned; [exact I|].
    pose proof (proj2 (H o' (or_introl eq_refl))) as Nr.
    assert (Fr : forall b, fresh_history b os') by (apply IH; intros o I; apply H; right; exact I).
    destruct o'; try (apply Fr). exfalso. apply Nr. exact I.
  - cbn [app]. destruct o; cbn [fresh_history] in F |- *; try (apply IH, F). destruct F as [F1 F2]. split; [exact F1|apply IH, F2].
Qed.
Lemma goes_fresh d d' : fresh_reachable d -> goes d d' -> fresh_reachable d'.
Proof.
  intros (os & rs & Fo & Fh & E) (os' & F' & <-). exists (os ++ os').
  assert (D : snd (steps empty_db (os ++ os')) = snd (steps d os')) by (rewrite steps_snd_app, E; reflexivity).
  destruct (steps empty_db (os ++ os')) as [rs2 d2]. exists rs2. cbn [snd] in D. subst d2. split; [|split; [|reflexivity]].
  - intros o I. apply in_app_or in I as [I|I]; [auto|apply F', I].
  - apply fresh_more; assumption.
Qed.

Section Goes.
Variables P R : Type.
Lemma goes_unit (A : Type) o (p : prog A) d (f : A -> out) : fair o -> ~ receives o -> op_prog o = pmap f p -> o <> ORestart ->
  goes d (snd (with_cursor p d)).
Proof.
  intros F N E Nr. assert (X : snd (step d o) = snd (with_cursor p d)).
  { transitivity (snd (with_cursor (op_prog o) d)); [destruct o; try reflexivity; contradiction|].
    rewrite E, with_cursor_pmap. destruct (with_cursor p d) as [[a|e] d1]; reflexivity. }
  rewrite <- X. apply goes_step; assumption.
Qed.
Lemma goes_reset (g : group P) d : goes d (snd (reset g d)).
Proof. apply (@goes_unit _ (OReset (unblinded_tokens g)) _ d (fun _ => RUnit)); cbn; auto; discriminate. Qed.
Lemma goes_mark_spent (g : group P) d : goes d (snd (mark_spent g d)).
Proof. apply (@goes_unit _ (ODiscard (unblinded_tokens g)) _ d (fun _ => RUnit)); cbn; auto; discriminate. Qed.
Lemma goes_mark_invalid (g : group P) d : goes d (snd (mark_invalid g d)).
Proof. apply (@goes_unit _ (OInvalidate signature_check_failed (unblinded_tokens g)) _ d (fun _ => RUnit)); cbn; auto; discriminate. Qed.

Variable to_pass : Z -> Z -> res exn P.
Variable server : list (attempt P R) -> group P -> db -> list op * response R.
Variable scan : nat -> list Z -> list Z.
Variables message num : Z.
Hypothesis Hlone : lone_server server.
Hypothesis Hscan : fair_scan scan.

Lemma goes_get n m d : goes d (snd (get to_pass (scan n) message m d)).
Proof.
  unfold get. pose proof (@goes_unit _ (OExtract (scan n) m) (get_unblinded_tokens (scan n) m) d RTokens) as G.
  assert (G' : goes d (snd (with_cursor (get_unblinded_tokens (scan n) m) d))).
  { apply G; cbn; auto; discriminate. }
  destruct (with_cursor (get_unblinded_tokens (scan n) m) d) as [[toks|e] d1]; cbn [snd] in *; [|exact G'].
  destruct (tokens_to_passes to_pass message toks); exact G'.
Qed.

Lemma goes_give_up f (g : group P) d tr r d' tr' : give_up (R := R) f g d tr = Some (r, d', tr') -> goes d d'.
Proof.
  unfold give_up. pose proof (goes_reset g d) as G. destruct (reset g d) as [[u|e] d1]; cbn [snd] in G; intros [= <- <- <-]; exact G.
Qed.

Lemma goes_attempts on_success : (forall x g d, goes d (snd (on_success x g d))) -> forall fuel past g d r d' tr,
  attempts to_pass server scan message num on_success fuel past g d = Some (r, d', tr) -> goes d d'.
Proof.
  intros Hon. induction fuel as [|fuel IH]; intros past g d r d' tr; cbn [attempts]; [discriminate|].
  pose proof (Hlone past g d) as L. destruct (server past g d) as [others resp]. cbn [fst] in L. subst others. cbn [steps snd].
  destruct resp as [x|v q failed|e]; [| |apply goes_give_up].
  - pose proof (Hon x g d) as G. destruct (on_success x g d) as [[u|e] d2]; cbn [snd] in G.
    + intros [= <- <- <-]. exact G.
    + intros E. apply goes_give_up in E. exact (goes_trans G E).
  - unfold invalidate_rejected_passes. destruct (lenZ failed =? 0); [apply goes_give_up|].
    destruct (split _ g) as [rej okay]. pose proof (goes_mark_invalid rej d) as G.
    destruct (mark_invalid rej d) as [[u|e] d2]; cbn [snd] in G; [|intros E; apply goes_give_up in E; exact (goes_trans G E)].
    unfold expand. pose proof (goes_get (length (past ++ [(g, Refuse v q failed)])) (num - lenZ okay) d2) as G2.
    destruct (get to_pass _ message _ d2) as [[more|e] d3]; cbn [snd] in G2; intros E.
    + apply IH in E. exact (goes_trans G (goes_trans G2 E)).
    + apply goes_give_up in E. exact (goes_trans G (goes_trans G2 E)).
Qed.
Lemma goes_manual on_success : (forall x g d, goes d (snd (on_success x g d))) -> forall fuel d r d' tr,
  call_with_passes_with_manual_spend to_pass server scan message num on_success fuel d = Some (r, d', tr) -> goes d d'.
Proof.
  intros Hon fuel d r d' tr. unfold call_with_passes_with_manual_spend. pose proof (goes_get 0 num d) as G.
  destruct (get to_pass (scan 0) message num d) as [[g|e] d1]; cbn [snd] in G; [|intros [= <- <- <-]; exact G].
  intros E. apply (goes_attempts _ Hon) in E. exact (goes_trans G E).
Qed.
Lemma goes_call fuel d r d' tr : call_with_passes to_pass server scan message num fuel d = Some (r, d', tr) -> goes d d'.
Proof. apply goes_manual. intros x g d0. apply goes_mark_spent. Qed.
End Goes.

(** ** What a renewal does to a server *)

Definition shape (sv : ServerModel.server) (si : bytes) : list (Z * bytes) :=
  map (fun ns => (fst ns, s_data (snd ns))) (dirs (sv_storage sv) si).
Definition sizes_in (sh : list (Z * bytes)) : list Z := map (fun nb => Z.of_nat (length (snd nb))) sh.

Lemma add_or_renew_data space owner renew cancel e s s' : add_or_renew_lease space owner renew cancel e s = Ok s' -> s_data s' = s_data s.
Proof.
  unfold add_or_renew_lease. destruct (TahoeModel.renew_lease renew e (s_leases s)) as [[ls|t]|]; cbn [bind].
  - intros [= <-]. reflexivity.
  - discriminate.
  - destruct (negb space); [discriminate|]. cbv zeta. destruct (_ && _); [|discriminate]. intros [= <-]. reflexivity.
Qed.
Lemma add_lease_loop_shape room renew cancel e d : forall r d', add_lease_loop room renew cancel e d = (r, d') ->
  map (fun ns => (fst ns, s_data (snd ns))) d' = map (fun ns => (fst ns, s_data (snd ns))) d.
Proof.
  induction d as [|[m s] d IH]; intros r d'; cbn [add_lease_loop]; [intros [= <- <-]; reflexivity|].
  destruct (add_or_renew_lease (room m) 1 renew cancel e s) as [s2|t] eqn:A; [|intros [= <- <-]; reflexivity].
  destruct (add_lease_loop room renew cancel e d) as [r2 d2] eqn:L. intros [= <- <-]. cbn [map fst snd].
  rewrite (add_or_renew_data _ _ _ _ _ _ A). f_equal. exact (IH _ _ eq_refl).
Qed.
Lemma renew_lease_packable renew e ls : packable (Z.quot e hz) = true -> forall r, TahoeModel.renew_lease renew e ls = Some r -> exists ls', r = Ok ls'.
Proof.
  intros Pk. induction ls as [|l ls IH]; intros r; cbn [TahoeModel.renew_lease]; [discriminate|].
  destruct (bytes_eqb (l_renew l) renew).
  - intros [= <-]. destruct (_ >? _); [|eauto]. cbv zeta. rewrite Pk. eauto.
  - destruct (TahoeModel.renew_lease renew e ls) as [r2|]; cbn [option_map]; [|discriminate]. intros [= <-].
    destruct (IH _ eq_refl) as (ls' & ->). cbn. eauto.
Qed.
Lemma add_lease_loop_ok room renew cancel e d : packable (Z.quot e hz) = true -> (forall n, room n = true) ->
  (forall n s, In (n, s) d -> Z.of_nat (length (s_leases s)) + 1 < 2 ^ 32) ->
  exists d', add_lease_loop room renew cancel e d = (Ok tt, d').
Proof.
  intros Pk Ro. induction d as [|[m s] d IH]; intros F; cbn [add_lease_loop]; [eauto|].
  assert (A : exists s', add_or_renew_lease (room m) 1 renew cancel e s = Ok s').
  { unfold add_or_renew_lease. destruct (TahoeModel.renew_lease renew e (s_leases s)) as [r|] eqn:E.
    - destruct (renew_lease_packable _ _ _ Pk E) as (ls & ->). cbn. eauto.
    - rewrite Ro. cbn [negb]. cbv zeta. rewrite Pk. assert (P2 : packable (lenZ (s_leases s) + 1) = true).
      { unfold packable, lenZ. specialize (F m s (or_introl eq_refl)). lia. }
      rewrite P2. cbn. eauto. }
  destruct A as (s' & ->). destruct (IH (fun n s0 J => F n s0 (or_intror J))) as (d' & ->). eauto.
Qed.

Lemma add_or_renew_fits space owner renew cancel e s s' more : packable (Z.quot e hz) = true ->
  add_or_renew_lease space owner renew cancel e s = Ok s' -> fits (more + 1) s -> fits more s'.
Proof.
  intros Pk A [L X]. split.
  - revert A. unfold add_or_renew_lease. destruct (TahoeModel.renew_lease renew e (s_leases s)) as [r|] eqn:E.
    + pose proof (renew_lease_spec _ _ _ E) as H. destruct r as [ls'|x]; cbn [bind]; [|discriminate]. intros [= <-]. cbn [s_leases].
      destruct H as (_ & H & _). lia.
    + destruct (negb space); [discriminate|]. cbv zeta. destruct (_ && _); [|discriminate]. intros [= <-]. cbn [s_leases]. rewrite app_length. cbn. lia.
  - intros l I. destruct (add_or_renew_new _ _ _ _ _ _ _ A I) as [J|[_ ->]]; [exact (X l J)|]. unfold packable in Pk. lia.
Qed.
Lemma fits_less a b s : b <= a -> fits a s -> fits b s.
Proof. intros Le [A B]. split; [lia|exact B]. Qed.
Lemma add_lease_loop_fits room renew cancel e more d : packable (Z.quot e hz) = true -> forall r d', add_lease_loop room renew cancel e d = (r, d') ->
  (forall n s, In (n, s) d -> fits (more + 1) s) -> forall n s, In (n, s) d' -> fits more s.
Proof.
  intros Pk. induction d as [|[m s] d IH]; intros r d'; cbn [add_lease_loop]; [intros [= <- <-] _ n s []|].
  destruct (add_or_renew_lease (room m) 1 renew cancel e s) as [s2|t] eqn:A.
  - destruct (add_lease_loop room renew cancel e d) as [r2 d2] eqn:L. intros [= <- <-] F n x [[= <- <-]|J].
    + eapply add_or_renew_fits; [exact Pk|exact A|]. apply (F m s). now left.
    + refine (IH _ _ eq_refl _ n x J). intros n' s' J'. apply (F n' s'). now right.
  - intros [= <- <-] F n x J. eapply fits_less; [|exact (F n x J)]. lia.
Qed.

Section Lease.
Variable signed : bytes -> bytes -> bytes -> bool.
Variables pv iv mv : Z.
Variable preimage : Z -> bytes.
Variable sign : bytes -> Z -> bytes.
Variable scan : nat -> list Z -> list Z.
Variable mut : bytes -> bool.
Hypothesis Hs : sound_passes preimage sign.
Hypothesis Hscan : fair_scan scan.
Hypothesis Hv : 0 < pv.
Notation reach := (reachable_server signed pv iv mv mut).
Notation serve := (serve signed pv mv).

Lemma lease_storage now room passes si renew cancel sv r sv' : serve now room passes (AddLease si renew cancel) sv = (r, sv') ->
  sv_storage sv' = sv_storage sv \/
  exists r1 d', add_lease_loop room renew cancel (now + RENEWAL_SECONDS * hz) (dirs (sv_storage sv) si) = (r1, d') /\
    sv_storage sv' = set_dir si d' (sv_storage sv).
Proof.
  cbn. unfold remote_add_lease.
  destruct (validate_passes _ _ _); [|intros [= <- <-]; left; reflexivity].
  destruct (check_pass_quantity_for_lease _ _ _); [|intros [= <- <-]; left; reflexivity].
  unfold tahoe_add_lease. destruct (add_lease_loop _ _ _ _ _) as [r1 d'] eqn:L. intros S. right. exists r1, d'.
  split; [reflexivity|]. destruct r1; injection S as <- <-; reflexivity.
Qed.

Record lease_step (si : bytes) (sv sv' : ServerModel.server) : Prop := {
  ls_reach : reach sv -> reach sv';
  ls_shape : forall si', shape sv' si' = shape sv si';
  ls_other : forall si', si' <> si -> dirs (sv_storage sv') si' = dirs (sv_storage sv) si'
}.
Lemma lease_step_refl si sv : lease_step si sv sv.
Proof. split; auto. Qed.
Lemma lease_step_trans si a b c : lease_step si a b -> lease_step si b c -> lease_step si a c.
Proof.
  intros [A1 A2 A3] [B1 B2 B3]. split; [auto|intros; rewrite B2; apply A2|intros; rewrite B3 by assumption; apply A3; assumption].
Qed.
Lemma serve_lease_step now room passes si renew cancel sv r sv' :
  serve now room passes (AddLease si renew cancel) sv = (r, sv') -> lease_step si sv sv'.
Proof.
  intros S. split.
  - intros Re. refine (@LeaseServerProofs.reachable_step signed pv iv mv mut sv (ERequest now room passes (AddLease si renew cancel)) (Some r) sv' Re _ _ _); try exact I.
    cbn [server_step]. now rewrite S.
  - intros si'. unfold shape. destruct (@lease_storage _ _ _ _ _ _ _ _ _ S) as [->|(r1 & d' & L & ->)]; [reflexivity|].
    destruct (bytes_eqb_spec si' si) as [->|N]; [|now rewrite set_dir_other by congruence].
    rewrite set_dir_same. exact (@add_lease_loop_shape _ _ _ _ _ _ _ L).
  - intros si' N. destruct (@lease_storage _ _ _ _ _ _ _ _ _ S) as [->|(r1 & d' & L & ->)]; [reflexivity|].
    now rewrite set_dir_other by congruence.
Qed.
Lemma serve_lease_fits now room passes si renew cancel sv r sv' more : packable (month_after now) = true ->
  serve now room passes (AddLease si renew cancel) sv = (r, sv') ->
  (forall n s, In (n, s) (dirs (sv_storage sv) si) -> fits (more + 1) s) -> forall n s, In (n, s) (dirs (sv_storage sv') si) -> fits more s.
Proof.
  intros Pk S F n s. destruct (@lease_storage _ _ _ _ _ _ _ _ _ S) as [->|(r1 & d' & L & ->)].
  - intros J. eapply fits_less; [|exact (F n s J)]. lia.
  - rewrite set_dir_same. exact (@add_lease_loop_fits _ _ _ _ _ _ Pk _ _ L F n s).
Qed.
Lemma state_after_step R now room si renew cancel (tr : list (attempt pass R)) : forall sv,
  lease_step si sv (state_after signed pv mv now room (AddLease si renew cancel) sv tr).
Proof.
  unfold state_after. induction tr as [|a tr IH]; intros sv; cbn [fold_left]; [apply lease_step_refl|].
  destruct (serve now room (encode_passes (fst a)) (AddLease si renew cancel) sv) as [r sv1] eqn:S. cbn [snd].
  eapply lease_step_trans; [exact (@serve_lease_step _ _ _ _ _ _ _ _ _ S)|apply IH].
Qed.

(** ** A renewal, paid for by the wallet *)

Section Call.
Variable now : Z.
Variable room : Z -> bool.
Variables si renew cancel : bytes.
Variable sv : ServerModel.server.
Variable n : Z.
Notation q := (AddLease si renew cancel).
Notation lk := (link signed pv mv now room q (fun r => r) sv).
Notation to_pass := (fun _ : Z => ristretto_pass preimage sign (make_message KLease si)).
Notation lease_call := (linked_add_lease signed pv mv preimage sign now room scan si renew cancel sv).
Hypothesis Hr : reach sv.
Hypothesis Hp : exact_price pv (map (fun ns => data_size (snd ns)) (dirs (sv_storage sv) si)) n.

Lemma lease_wf : wf_dir (dirs (sv_storage sv) si).
Proof. apply (@reachable_wf _ _ _ _ _ _ Hr). Qed.
Lemma lease_hom : homogeneous (dirs (sv_storage sv) si).
Proof. eapply reachable_homogeneous. exact Hr. Qed.
Lemma lease_price_nonneg : 0 <= n.
Proof.
  eapply sumZ_le_nonneg; [exact Hv| |exact Hp]. intros x J. apply in_map_iff in J. destruct J as (y & <- & _). unfold data_size. lia.
Qed.
Lemma lease_call_eq fuel d : lease_call fuel d = call_with_passes to_pass lk scan 0 n fuel d.
Proof.
  unfold linked_add_lease. pose proof (@share_sizes_eq sv si lease_wf lease_hom) as Es. rewrite Es.
  rewrite (@client_price_lease pv sv si _ now renew cancel n Hv lease_wf lease_hom Es Hp). reflexivity.
Qed.

(** Every call comes to an end. *)
Lemma lease_call_ends d : fresh_reachable d -> exists r d' tr, lease_call (S (length (available d))) d = Some (r, d', tr).
Proof.
  intros F. rewrite lease_call_eq. destruct (fresh_clean F) as [W C]. unfold call_with_passes.
  destruct (@call_ends_lone _ _ to_pass lk scan 0 n (@spend_all pass reply) (fun _ g => map fst g) (@link_polite _ _ _ _ _ _ _ _ _) Hscan
              (conv_ok Hs q) (fun x g t H => H) (@spend_all_ok _ _) d) with (n := length (available d)) (fuel := S (length (available d)))
    as (r & d' & tr & E & _).
  - apply (@link_honest signed pv mv now room reply q (fun r => r) sv (fun _ _ d => (Ok tt, d)) (fun _ _ => [])).
    + intros x g t [].
    + eauto.
  - apply link_lone.
  - exact F.
  - apply lease_price_nonneg.
  - exists (available d). split; [apply available_NoDup, W|]. split; [intros t; apply in_available|reflexivity].
  - lia.
  - eauto.
Qed.

(** What any call does to the wallet: no more tokens are spent than the price. *)
Lemma lease_call_any fuel d r d' tr : fresh_reachable d -> lease_call fuel d = Some (r, d', tr) ->
  goes d d' /\ maint d' = maint d /\ (forall t, In t (in_use d') <-> In t (in_use d)) /\
  (forall t, In t (map fst (invalid d)) -> In t (map fst (invalid d'))) /\
  exists ts, Z.of_nat (length ts) <= n /\ forall t, In t (map u_token (unblinded d)) -> is_spent d' t -> In t ts.
Proof.
  intros F E. rewrite lease_call_eq in E. destruct (fresh_clean F) as [W C].
  split; [refine (@goes_call _ _ to_pass lk scan 0 n (@link_lone _ _ _ _ _ _ _ _ _) Hscan _ _ _ _ _ E)|].
  pose proof E as E0. unfold call_with_passes in E0.
  destruct (@call_others _ _ to_pass lk scan 0 n (@spend_all pass reply) (fun _ g => map fst g)
           (@link_polite _ _ _ _ _ _ _ _ _) Hscan (conv_ok Hs q) (fun x g t H => H) (@spend_all_ok _ _) fuel d r d' tr
           (@link_lone _ _ _ _ _ _ _ _ _) F E0) as (Rs & Un & Tk & Iu).
  split; [apply Rs|]. split; [exact Iu|].
  assert (D : forall t, taken tr t \/ ~ taken tr t).
  { clear. intros t. induction tr as [|[g resp] new IH]; [right; apply not_taken_nil|].
    rewrite taken_cons. cbn [fst]. destruct (in_dec Z.eq_dec t (map fst g)); tauto. }
  split.
  - intros t I. destruct (D t) as [T|T]; [|apply (Un t T), I]. exfalso. destruct (Tk t T) as [S _].
    apply stored_in in S. exact (C t S I).
  - assert (Nt : forall t, In t (map u_token (unblinded d)) -> is_spent d' t -> taken tr t).
    { intros t I [S _]. destruct (D t) as [T|T]; [exact T|]. exfalso. apply S. destruct (@in_stored d t W I) as [b B].
      apply stored_in with b. apply (Un t T). exact B. }
    destruct (@spend_call_story _ _ to_pass lk scan 0 n (@link_polite _ _ _ _ _ _ _ _ _) Hscan (conv_ok Hs q) fuel d r d' tr F E)
      as [(-> & _ & ->)|O].
    + exists []. split; [pose proof lease_price_nonneg; cbn; lia|]. intros t I S. apply (Nt t I) in S. exact (@not_taken_nil _ _ _ S).
    + pose proof (outcome_spent O) as Os. destruct r as [x|e].
      * destruct Os as (g & (past & A) & Sp). exists (map fst g). split.
        -- destruct O as (_ & Gd & _). rewrite Forall_forall in Gd. destruct (Gd (g, Accept x)) as (L & _).
           { rewrite A. apply in_or_app. right. now left. }
           cbn [fst] in L. specialize (L lease_price_nonneg). unfold lenZ in L. rewrite map_length. lia.
        -- intros t I S. apply Sp; [exact (Nt t I S)|exact S].
      * exists []. split; [pose proof lease_price_nonneg; cbn; lia|]. intros t I S. exfalso. exact (Os t (Nt t I S) S).
Qed.

(** With enough good tokens and room the renewal is made. *)
Lemma lease_call_served d k : fresh_reachable d -> fine_tokens signed preimage sign d k -> n <= k -> n <= SQLITE3_INTEGER_MAX ->
  packable (month_after now) = true -> (forall m, room m = true) ->
  (forall m s, In (m, s) (dirs (sv_storage sv) si) -> Z.of_nat (length (s_leases s)) + 1 < 2 ^ 32) ->
  exists d' tr passes, lease_call (S (length (available d))) d = Some (Ok LeaseAdded, d', tr) /\
    serve now room passes q sv = (Ok LeaseAdded, state_after signed pv mv now room q sv tr) /\
    fine_tokens signed preimage sign d' (k - n).
Proof.
  intros F (toks & Nt & Lt & Ht) Lk Mx Pk Ro Fi. destruct (fresh_clean F) as [W C].
  assert (G : good_tokens signed preimage sign q d k).
  { exists toks. split; [exact Nt|]. split; [exact Lt|]. intros t I. destruct (Ht t I) as (A & B & D). split; [exact A|]. split; [exact B|]. apply D. }
  assert (Av : available_count d (length (available d))).
  { exists (available d). split; [apply available_NoDup, W|]. split; [intros t; apply in_available|reflexivity]. }
  destruct (@add_lease_served signed pv mv preimage sign now room scan Hs Hscan Hv si renew cancel sv n k d (length (available d))
              (S (length (available d))) lease_wf lease_hom F Hp Mx G Lk Av (Nat.lt_succ_diag_r _)) as (r & d' & tr & x & E & _ & Gv & Er).
  assert (Ok_ : forall passes, n <= lenZ (verified signed q passes) -> (forall s, In s passes -> well_formed s) ->
            fst (serve now room passes q sv) = Ok LeaseAdded).
  { intros passes Ln Wp. rewrite (serve_eq signed mv now room passes q sv n Hv lease_wf (or_intror lease_hom) I I Wp Hp).
    destruct (Z.gtb_spec n (lenZ (verified signed q passes))) as [X|X]; [lia|]. cbn [effect].
    unfold tahoe_add_lease. rewrite month_after_eq in Pk.
    destruct (@add_lease_loop_ok room renew cancel (now + RENEWAL_SECONDS * hz) _ Pk Ro Fi) as (dd & ->). reflexivity. }
  assert (Ex : x = Ok LeaseAdded).
  { destruct Gv as (passes & Wp & Ln & <-). apply Ok_; [|exact Wp]. unfold verified, lenZ. rewrite map_length. exact Ln. }
  subst x. cbn [as_client] in Er. subst r. exists d', tr.
  pose proof E as E1. rewrite lease_call_eq in E1. pose proof E1 as E0. unfold call_with_passes in E0.
  destruct (@spend_call_story _ _ to_pass lk scan 0 n (@link_polite _ _ _ _ _ _ _ _ _) Hscan (conv_ok Hs q) _ d _ d' tr F E1) as [(_ & X & _)|O];
    [discriminate X|].
  pose proof (@call_asked _ _ to_pass lk scan 0 n (@spend_all pass reply) (fun _ g => map fst g) (@link_polite _ _ _ _ _ _ _ _ _) Hscan (conv_ok Hs q)
             (fun x g t H => H) _ d _ d' tr F E0) as As.
  pose proof (answers_past As) as Past.
  destruct (outcome_spent O) as (g & (past & A) & Sp).
  exists (encode_passes g). split; [exact E|]. split.
  - assert (Sa : state_after signed pv mv now room q sv tr = snd (serve now room (encode_passes g) q sv)).
    { rewrite A. unfold state_after. rewrite fold_left_app. cbn [fold_left fst].
      pose proof (Past past [(g, Accept LeaseAdded)] A ltac:(discriminate)) as Pp. unfold state_after in Pp. rewrite Pp. reflexivity. }
    rewrite Sa.
    destruct As as (As1 & _). destruct (As1 past (g, Accept LeaseAdded) [] A) as [d0 X].
    unfold link in X. cbn [app fst snd] in X. rewrite (Past past [(g, Accept LeaseAdded)] A ltac:(discriminate)) in X. unfold answer in X.
    destruct (serve now room (encode_passes g) q sv) as [[y|e] sv1]; cbn [fst] in X.
    + injection X as ->. reflexivity.
    + destruct e; discriminate X.
  - destruct (@call_others _ _ to_pass lk scan 0 n (@spend_all pass reply) (fun _ g => map fst g)
           (@link_polite _ _ _ _ _ _ _ _ _) Hscan (conv_ok Hs q) (fun x g t H => H) (@spend_all_ok _ _) _ d _ d' tr
           (@link_lone _ _ _ _ _ _ _ _ _) F E0) as (_ & Un & _ & Iu).
    assert (D : forall t, taken tr t \/ ~ taken tr t).
    { clear. intros t. induction tr as [|[g0 resp] new IH]; [right; apply not_taken_nil|].
      rewrite taken_cons. cbn [fst]. destruct (in_dec Z.eq_dec t (map fst g0)); tauto. }
    assert (Lg : Z.of_nat (length (map fst g)) = n).
    { pose proof (proj1 (proj2 O)) as Gd. rewrite Forall_forall in Gd. destruct (Gd (g, Accept LeaseAdded)) as (L & _).
      { rewrite A. apply in_or_app. right. now left. }
      cbn [fst] in L. specialize (L lease_price_nonneg). unfold lenZ in L. rewrite map_length. lia. }
    set (left := filter (fun t => negb (memZ t (map fst g))) toks).
    assert (Ll : (length toks <= length left + length (map fst g))%nat).
    { rewrite <- app_length. apply NoDup_incl_length; [exact Nt|]. intros t I. apply in_or_app.
      destruct (memZ t (map fst g)) eqn:M; [right; now apply memZ_In|left]. apply filter_In. split; [exact I|]. now rewrite M. }
    exists (firstn (Z.to_nat (k - n)) left). split; [|split].
    + apply NoDup_firstn. unfold left. apply NoDup_filter, Nt.
    + rewrite firstn_length. lia.
    + intros t I. apply firstn_In in I. unfold left in I. apply filter_In in I as [I M]. apply negb_true_iff in M.
      assert (Ng : ~ In t (map fst g)) by (apply memZ_not_In; exact M).
      destruct (Ht t I) as (St & Nu & Fn). split; [|split; [rewrite Iu; exact Nu|exact Fn]].
      destruct (D t) as [T|T]; [|apply (Un t T), St].
      pose proof (outcome_accounted O T) as (_ & [(S1 & _)|[(_ & Iv & _)|(_ & _ & S3)]]).
      * exfalso. apply Ng. apply Sp; assumption.
      * exfalso. apply (outcome_rejected O T) in Iv. destruct Iv as (g0 & v & q0 & f & i & p & J & Ni & Jf).
        apply in_split in J as (pre & post & Etr). destruct As as (As1 & _). destruct (As1 _ _ _ Etr) as [d0 X].
        unfold link in X. cbn [app fst snd] in X. rewrite (Past pre ((g0, Refuse v q0 f) :: post) Etr ltac:(discriminate)) in X.
        unfold answer in X.
        destruct (serve now room (encode_passes g0) q sv) as [[y|e] sv1] eqn:Es; cbn [fst] in X; [discriminate X|].
        destruct e as [v' k' f'| | | | |]; try discriminate X. injection X as -> -> ->.
        apply refusal_indices in Es. rewrite Es in Jf.
        apply (@failed_from_In signed (verifies signed q) (encode_passes g0) 0 (Z.of_nat i) (Z.le_refl 0)) in Jf.
        destruct Jf as (_ & s & N1 & N2). rewrite Z.sub_0_r, Nat2Z.id in N1.
        pose proof (proj1 (proj2 O)) as Gd. rewrite Forall_forall in Gd. destruct (Gd (g0, Refuse v q0 f)) as (_ & _ & Mk).
        { rewrite Etr. apply in_or_app. right. now left. }
        cbn [fst] in Mk. rewrite (encode_group Hs q Mk), nth_error_map, nth_error_map, Ni in N1. cbn [option_map fst] in N1.
        injection N1 as <-. pose proof (@verifies_token signed preimage sign room Hs q t) as Vt. cbn [kind_of index_of] in Vt. rewrite Vt in N2. clear Vt. unfold bad in N2. rewrite negb_involutive in N2.
        rewrite Fn in N2. discriminate N2.
      * apply S3.
Qed.
End Call.
End Lease.

(** ** Prices and times *)

Notation cost pv sizes := (sumZ (map (fun s => cdiv s pv) sizes)).
Lemma exact_cost pv sizes n : 0 < pv -> exact_price pv sizes n -> n = cost pv sizes.
Proof. intros Hv H. exact (exact_price_unique H (exact_price_sum sizes Hv)). Qed.
Lemma cost_app pv a b : cost pv (a ++ b) = cost pv a + cost pv b.
Proof. rewrite map_app. induction (map (fun s => cdiv s pv) a) as [|x l IH]; cbn; [lia|]. rewrite IH. lia. Qed.
Lemma cost_nonneg pv sizes : 0 < pv -> (forall x, In x sizes -> 0 <= x) -> 0 <= cost pv sizes.
Proof. intros Hv H. eapply sumZ_le_nonneg; [exact Hv|exact H|apply exact_price_sum, Hv]. Qed.
Lemma data_sizes_nonneg (d : dict share) : forall x, In x (map (fun ns => data_size (snd ns)) d) -> 0 <= x.
Proof. intros x J. apply in_map_iff in J. destruct J as (y & <- & _). unfold data_size. lia. Qed.
Lemma sizes_at_nonneg sv sis : forall x, In x (sizes_at sv sis) -> 0 <= x.
Proof. intros x J. apply in_flat_map in J as (si & _ & J). eapply data_sizes_nonneg, J. Qed.

Lemma month_lasts t l : 0 <= t -> month_after t <= l_expiration l -> t * 1000000 / hz + nearly_a_month <= l_expiration l * 1000000.
Proof.
  unfold month_after, nearly_a_month. intros Ht H.
  assert (Hh : 0 < hz) by reflexivity.
  rewrite Z.quot_div_nonneg in H by lia. rewrite Z.div_add in H by lia.
  assert (E : t * 1000000 / hz <= (t / hz + 1) * 1000000).
  { apply Z.div_le_upper_bound; [exact Hh|]. pose proof (Z.mod_pos_bound t hz Hh). pose proof (Z.div_mod t hz ltac:(lia)). nia. }
  nia.
Qed.
Lemma month_mono a b : 0 <= a <= b -> month_after a <= month_after b.
Proof. unfold month_after. intros H. assert (Hh : 0 < hz) by reflexivity. apply Z.quot_le_mono; lia. Qed.
Lemma month_packable t h : 0 <= t <= h -> month_after h < 2 ^ 32 -> packable (month_after t) = true.
Proof.
  intros H L. pose proof (month_mono H). assert (0 <= month_after t).
  { unfold month_after. assert (Hh : 0 < hz) by reflexivity. apply Z.quot_pos; lia. }
  unfold packable. lia.
Qed.

(** The longest lease decides. *)
Lemma stat_lease s : lease_expiration (stat_of s) = 0 \/ exists l, In l (s_leases s) /\ l_expiration l = lease_expiration (stat_of s).
Proof.
  unfold stat_of. cbn [lease_expiration]. destruct (s_leases s) as [|l ls]; cbn [map or_0]; [left; reflexivity|right].
  destruct (fold_max_spec (map l_expiration ls) (l_expiration l)) as (_ & _ & [C|C]).
  - exists l. split; [now left|]. symmetry. exact C.
  - apply in_map_iff in C as (l' & E & I). exists l'. split; [now right|exact E].
Qed.

(** ** A whole run *)

Section Run.
Variable signed : bytes -> bytes -> bytes -> bool.
Variables pv iv mv : Z.
Variable preimage : Z -> bytes.
Variable sign : bytes -> Z -> bytes.
Variable room : Z -> Z -> bool.
Variable scan : nat -> list Z -> list Z.
Variable later : Z -> Z.
Variable mut : bytes -> bool.
Variables frh brh fch bch : bytes -> bytes -> bytes.
Variable seed : Z -> bytes.
Variables rs cs : bytes.
Variable remaining : Z.
Hypothesis Hs : sound_passes preimage sign.
Hypothesis Hscan : fair_scan scan.
Hypothesis Hv : 0 < pv.
Notation reach := (reachable_server signed pv iv mv mut).
Notation up_stat := (up_stat_shares later).
Notation up_add := (up_add_lease signed pv mv preimage sign room scan later).
Notation loop := (renew_loop up_add (up_observe pv) frh brh fch bch seed remaining rs cs).
Notation on_server := (renew_leases_on_server up_stat up_add (up_observe pv) frh brh fch bch seed remaining rs cs).
Notation on_servers := (renew_on_servers up_stat up_add (up_observe pv) w_clock frh brh fch bch seed remaining rs cs).
Notation renews servers := (renew_leases up_stat up_add up_start (up_observe pv) up_finish w_clock (fun _ : world => servers) frh brh fch bch seed remaining rs cs).
Notation dir w id si := (dirs (sv_storage (w_servers w id)) si).
Notation stats_at sv si := (map (fun ns => (fst ns, stat_of (snd ns))) (dirs (sv_storage sv) si)).

Definition fine w k := fine_tokens signed preimage sign (w_db w) k.
Lemma quiet_fine d o k : StoreProofs.wf d -> quiet o -> fine_tokens signed preimage sign d k -> fine_tokens signed preimage sign (snd (step d o)) k.
Proof.
  intros W Q (toks & N & L & H). destruct (@quiet_effect d o W Q) as (E1 & E2 & E3 & E4). exists toks. split; [exact N|]. split; [exact L|].
  intros t I. destruct (H t I) as (A & B & C). unfold stored. rewrite E1, E2, E3. auto.
Qed.
Lemma quiet_fresh d o : fair o -> quiet o -> fresh_reachable d -> fresh_reachable (snd (step d o)).
Proof. intros F Q Fr. refine (goes_fresh Fr (@goes_step d o F _)). destruct o; try contradiction; exact (fun X => X). Qed.

(** What a piece of the run leaves behind if nothing is missing. *)
Record good (ids : list Z) (w : world) (k : Z) (horizon : Z) : Prop := {
  g_reach : forall i, In i ids -> reach (w_servers w i);
  g_fresh : fresh_reachable (w_db w);
  g_fine : fine w k;
  g_time : 0 <= w_time w <= horizon
}.

Section Good.
Variable ids : list Z.
Variable horizon : Z.
Hypothesis Hroom : forall id n, room id n = true.
Hypothesis Hlater : forall t, t <= later t.
Hypothesis Hhorizon : forall t, t <= horizon -> later t <= horizon.
Hypothesis Hend : month_after horizon < 2 ^ 32.
Hypothesis Hrem : 0 <= remaining.

Definition fits_at more w id si := forall n s, In (n, s) (dir w id si) -> fits more s.

Lemma observe_good sizes w k : good ids w k horizon ->
  exists w1, up_observe pv sizes w = (Ok tt, w1) /\ good ids w1 k horizon /\ w_servers w1 = w_servers w /\ w_time w1 = w_time w.
Proof.
  intros [R F Fi T]. unfold up_observe. destruct (step (w_db w) (OMaintObserve pv (w_run w) sizes)) as [r d] eqn:S.
  destruct (fresh_clean F) as [W _].
  assert (Sd : d = snd (step (w_db w) (OMaintObserve pv (w_run w) sizes))) by (rewrite S; reflexivity).
  assert (Er : exists x, r = Ok x).
  { cbn [step op_prog] in S. rewrite with_cursor_pmap in S. unfold with_cursor, maint_observe in S.
    rewrite required_passes_pos in S by exact Hv. destruct (w_run w); cbn in S; injection S as <- <-; eauto. }
  destruct Er as [x ->]. eexists. split; [reflexivity|]. split; [|auto]. split; cbn [w_servers w_db w_time]; try assumption.
  - rewrite Sd. apply quiet_fresh; [exact I|exact I|exact F].
  - unfold fine. cbn [w_db]. rewrite Sd. apply quiet_fine; [exact W|exact I|exact Fi].
Qed.

Lemma add_good id si renew cancel w k : good ids w k horizon -> In id ids -> fits_at 1 w id si ->
  cost pv (map (fun ns => data_size (snd ns)) (dir w id si)) <= k ->
  cost pv (map (fun ns => data_size (snd ns)) (dir w id si)) <= SQLITE3_INTEGER_MAX ->
  exists w1, up_add id si renew cancel w = (Ok tt, w1) /\
    good ids w1 (k - cost pv (map (fun ns => data_size (snd ns)) (dir w id si))) horizon /\
    w_time w <= w_time w1 /\ (forall i, i <> id -> w_servers w1 i = w_servers w i) /\
    (forall si', si' <> si -> dir w1 id si' = dir w id si') /\
    (forall more, fits_at (more + 1) w id si -> fits_at more w1 id si) /\
    forall n s, In (n, s) (dir w id si) -> exists s', In (n, s') (dir w1 id si) /\ lasts (w_clock w + nearly_a_month) s'.
Proof.
  intros [R F Fi T] Ii Ft Lk Mx. pose proof (R id Ii) as Re.
  pose proof (exact_price_sum (map (fun ns => data_size (snd ns)) (dir w id si)) Hv) as Pr.
  set (n0 := cost pv (map (fun ns => data_size (snd ns)) (dir w id si))) in *.
  destruct (@lease_call_served signed pv iv mv preimage sign scan mut Hs Hscan Hv (w_time w) (room id) si renew cancel (w_servers w id) n0 Re Pr
              (w_db w) k F Fi Lk Mx (month_packable T Hend) (Hroom id)) as (d' & tr & passes & E & Sv & Fi').
  { intros m s I. exact (proj1 (Ft m s I)). }
  unfold up_add_lease. rewrite E. eexists. split; [reflexivity|].
  pose proof (@serve_lease_step signed pv iv mv mut _ _ _ _ _ _ _ _ _ Sv) as Ls.
  destruct (@lease_call_any signed pv iv mv preimage sign scan mut Hs Hscan Hv (w_time w) (room id) si renew cancel (w_servers w id) n0 Re Pr
              _ (w_db w) _ d' tr F E) as (Go & _).
  assert (Put : forall sv, put_server id sv (w_servers w) id = sv) by (intros sv; unfold put_server; now rewrite Z.eqb_refl).
  split; [|split; [apply Hlater|split; [|split; [|split]]]].
  - split; cbn [w_servers w_db w_time].
    + intros i J. unfold put_server. destruct (Z.eqb_spec i id) as [->|N]; [|apply R, J]. apply (ls_reach Ls), Re.
    + exact (goes_fresh F Go).
    + exact Fi'.
    + split; [pose proof (Hlater (w_time w)); lia|apply Hhorizon; lia].
  - intros i N. cbn [w_servers]. unfold put_server. destruct (Z.eqb_spec i id); [contradiction|reflexivity].
  - intros si' N. cbn [w_servers]. rewrite Put. exact (ls_other Ls N).
  - intros more Fm. unfold fits_at. cbn [w_servers]. rewrite Put.
    eapply serve_lease_fits; [exact mut|exact (month_packable T Hend)|exact Sv|exact Fm].
  - intros n s I. cbn [w_servers]. rewrite Put.
    assert (St : server_step signed pv iv mv (w_servers w id) (ERequest (w_time w) (room id) passes (AddLease si renew cancel))
                 = (Some (Ok LeaseAdded), state_after signed pv mv (w_time w) (room id) (AddLease si renew cancel) (w_servers w id) tr))
      by (cbn [server_step]; now rewrite Sv).
    assert (Pe : proper_event (ERequest (w_time w) (room id) passes (AddLease si renew cancel))) by exact Logic.I.
    destruct (step_keeps s Re Pe ltac:(discriminate) St I) as (s' & I' & _).
    exists s'. split; [exact I'|].
    destruct (add_lease_grants _ _ _ _ _ _ _ _ _ _ _ _ Sv I') as (l & Il & _ & Ex).
    exists l. split; [exact Il|]. apply month_lasts; [lia|exact Ex].
Qed.

Lemma lasts_earlier a b s : a <= b -> lasts b s -> lasts a s.
Proof. intros L (l & I & E). exists l. split; [exact I|lia]. Qed.

Lemma loop_good id now l : In id ids -> 0 < now -> forall w k, good ids w k horizon -> now <= w_clock w -> NoDup (map fst l) ->
  (forall si d, In (si, d) l -> d = stats_at (w_servers w id) si /\ fits_at 1 w id si) ->
  cost pv (sizes_at (w_servers w id) (map fst l)) <= k -> cost pv (sizes_at (w_servers w id) (map fst l)) <= SQLITE3_INTEGER_MAX ->
  exists w1 t, loop id now l w = (Ok tt, w1, t) /\ good ids w1 (k - cost pv (sizes_at (w_servers w id) (map fst l))) horizon /\
    w_time w <= w_time w1 /\ (forall i, i <> id -> w_servers w1 i = w_servers w i) /\
    (forall si, ~ In si (map fst l) -> dir w1 id si = dir w id si) /\
    (forall more si, In si (map fst l) -> fits_at (more + 1) w id si -> fits_at more w1 id si) /\
    forall si, In si (map fst l) -> forall n s, In (n, s) (dir w id si) ->
      exists s', In (n, s') (dir w1 id si) /\ lasts (now + Z.min remaining nearly_a_month) s'.
Proof.
  intros Ii Hn. induction l as [|[si d] l IH]; intros w k G Lc N Hl Lk Mx; cbn [map fst] in *.
  - exists w, []. cbn. rewrite Z.sub_0_r. split; [reflexivity|]. split; [exact G|]. split; [lia|]. split; [reflexivity|]. split; [reflexivity|].
    split; intros more; intros; contradiction.
  - inversion N as [|? ? Nsi N']; subst.
    destruct (Hl si d (or_introl eq_refl)) as [Ed Ft].
    assert (Sz : sizes_at (w_servers w id) (si :: map fst l) = map (fun ns => data_size (snd ns)) (dir w id si) ++ sizes_at (w_servers w id) (map fst l)) by reflexivity.
    rewrite Sz, cost_app in Lk, Mx |- *.
    set (p1 := cost pv (map (fun ns => data_size (snd ns)) (dir w id si))) in *.
    assert (P1 : 0 <= p1) by (apply cost_nonneg; [exact Hv|apply data_sizes_nonneg]).
    assert (P2 : 0 <= cost pv (sizes_at (w_servers w id) (map fst l))) by (apply cost_nonneg; [exact Hv|apply sizes_at_nonneg]).
    (* the rest of the loop, from a world like this *)
    assert (Rest : forall w1 k1 (same : forall si', si' <> si -> dir w1 id si' = dir w id si'), good ids w1 k1 horizon -> w_time w <= w_time w1 ->
        (forall i, i <> id -> w_servers w1 i = w_servers w i) -> k - p1 <= k1 ->
        (forall more, fits_at (more + 1) w id si -> fits_at more w1 id si) ->
        (forall n s, In (n, s) (dir w id si) -> exists s', In (n, s') (dir w1 id si) /\ lasts (now + Z.min remaining nearly_a_month) s') ->
        exists w2 t, loop id now l w1 = (Ok tt, w2, t) /\ good ids w2 (k1 - cost pv (sizes_at (w_servers w id) (map fst l))) horizon /\
          w_time w <= w_time w2 /\ (forall i, i <> id -> w_servers w2 i = w_servers w i) /\
          (forall si', ~ (si = si' \/ In si' (map fst l)) -> dir w2 id si' = dir w id si') /\
          (forall more si', si = si' \/ In si' (map fst l) -> fits_at (more + 1) w id si' -> fits_at more w2 id si') /\
          forall si', si = si' \/ In si' (map fst l) -> forall n s, In (n, s) (dir w id si') ->
            exists s', In (n, s') (dir w2 id si') /\ lasts (now + Z.min remaining nearly_a_month) s').
    { intros w1 k1 Same G1 T1 O1 K1 F1 L1.
      assert (Sa : sizes_at (w_servers w1 id) (map fst l) = sizes_at (w_servers w id) (map fst l)).
      { unfold sizes_at. clear - Same Nsi. induction (map fst l) as [|x m IHm]; cbn [flat_map]; [reflexivity|].
        rewrite Same by (intros ->; apply Nsi; now left). rewrite IHm by (intros J; apply Nsi; now right). reflexivity. }
      destruct (IH w1 k1 G1) as (w2 & t & E & G2 & T2 & O2 & D2 & F2 & L2).
      - unfold w_clock in *. etransitivity; [exact Lc|]. apply Z.div_le_mono; [reflexivity|lia].
      - exact N'.
      - intros si' d' J. assert (Ne : si' <> si) by (intros ->; apply Nsi; apply in_map_iff; exists (si, d'); auto).
        destruct (Hl si' d' (or_intror J)) as [A B]. split; [rewrite Same by exact Ne; exact A|]. intros n s X. rewrite Same in X by exact Ne. exact (B n s X).
      - rewrite Sa. lia.
      - rewrite Sa. lia.
      - exists w2, t. split; [exact E|]. rewrite Sa in G2. split; [exact G2|]. split; [lia|]. split; [intros i Ni; rewrite O2 by exact Ni; apply O1, Ni|]. split; [|split].
        + intros si' Nn. rewrite D2 by tauto. apply Same. intros ->. tauto.
        + intros more si' [<-|J] X.
          * unfold fits_at. rewrite (D2 si Nsi). exact (F1 more X).
          * apply (F2 more si' J). unfold fits_at. rewrite Same; [exact X|]. intros ->. contradiction.
        + intros si' [<-|J] n s X.
          * rewrite (D2 si Nsi). exact (L1 n s X).
          * apply (L2 si' J n s). rewrite Same; [exact X|]. intros ->. contradiction. }
    cbn [renew_loop]. destruct (dvalues d) as [|x more] eqn:D.
    + assert (Nil : dir w id si = []).
      { subst d. unfold dvalues in D. destruct (dir w id si); [reflexivity|discriminate]. }
      assert (P0 : p1 = 0) by (unfold p1; rewrite Nil; reflexivity).
      destruct (Rest w k (fun _ _ => eq_refl) G ltac:(lia) (fun _ _ => eq_refl) ltac:(lia)) as (w2 & t & E & G2 & T2 & O2 & D2 & F2 & L2).
      { intros more X n s J. eapply fits_less; [|exact (X n s J)]. lia. }
      { intros n s X. rewrite Nil in X. destruct X. }
      exists w2, t. split; [exact E|]. split; [replace (k - (p1 + cost pv (sizes_at (w_servers w id) (map fst l)))) with (k - cost pv (sizes_at (w_servers w id) (map fst l))) by lia; exact G2|].
      split; [exact T2|]. split; [exact O2|]. split; [exact D2|]. split; [exact F2|exact L2].
    + destruct (@observe_good (map size (x :: more)) w k G) as (w0 & Eo & G0 & Sv0 & T0).
      unfold mbind at 1. unfold call at 1. rewrite Eo.
      assert (Al : forall y, In y (x :: more) -> exists n s, In (n, s) (dir w id si) /\ y = stat_of s).
      { intros y J. rewrite <- D in J. unfold dvalues in J. apply in_map_iff in J as ([n y'] & E & J). cbn in E. subst y'. rewrite Ed in J.
        apply in_map_iff in J as ([n' s] & E & J). cbn in E. injection E as <- <-. eauto. }
      assert (Nr : needs_lease_renew remaining (soonest_expiration x more) now = Ok (is_due remaining now d)).
      { destruct (needs_lease_renew remaining (soonest_expiration x more) now) as [b|e] eqn:Nd; [now rewrite <- (needs_is_due _ _ d D Nd)|exfalso].
        destruct (soonest_spec more x) as [Is _]. destruct (Al _ Is) as (n & s & J & Es). rewrite Es in Nd.
        assert (Be : 0 <= lease_expiration (stat_of s) < 2 ^ 32).
        { destruct (stat_lease s) as [->|(l0 & Il & <-)]; [lia|]. exact (proj2 (Ft n s J) l0 Il). }
        unfold needs_lease_renew, utcfromtimestamp in Nd.
        assert (X : (-62135596800 <=? lease_expiration (stat_of s)) && (lease_expiration (stat_of s) <=? 253402300799) = true) by lia.
        rewrite X in Nd. discriminate. }
      rewrite Nr. destruct (is_due remaining now d) eqn:Du.
      * set (renew := brh (frh rs si) (seed id)). set (cancel := bch (fch cs si) (seed id)).
        assert (Dr : dir w0 id si = dir w id si) by (rewrite Sv0; reflexivity).
        destruct (@add_good id si renew cancel w0 k G0 Ii) as (w1 & Ea & G1 & T1 & O1 & D1 & F1 & L1).
        { unfold fits_at. rewrite Dr. exact Ft. }
        { rewrite Dr. fold p1. lia. }
        { rewrite Dr. fold p1. lia. }
        rewrite Dr in G1, L1. fold p1 in G1.
        destruct (Rest w1 (k - p1)) as (w2 & t & E & G2 & T2 & O2 & D2 & F2 & L2).
        { intros si' Ne. rewrite (D1 si' Ne), Sv0. reflexivity. }
        { exact G1. }
        { lia. }
        { intros i Ni. rewrite (O1 i Ni), Sv0. reflexivity. }
        { lia. }
        { intros more0 X. apply F1. unfold fits_at. rewrite Dr. exact X. }
        { intros n s X. destruct (L1 n s X) as (s' & X' & La). exists s'. split; [exact X'|]. eapply lasts_earlier; [|exact La].
          unfold w_clock in Lc |- *. rewrite T0. lia. }
        unfold mbind, renew_lease, call. fold renew. fold cancel. rewrite Ea. rewrite E. eexists. eexists. split; [reflexivity|].
        replace (k - (p1 + cost pv (sizes_at (w_servers w id) (map fst l)))) with (k - p1 - cost pv (sizes_at (w_servers w id) (map fst l))) by lia.
        split; [exact G2|]. split; [exact T2|]. split; [exact O2|]. split; [exact D2|]. split; [exact F2|exact L2].
      * destruct (Rest w0 k) as (w2 & t & E & G2 & T2 & O2 & D2 & F2 & L2).
        { intros si' Ne. rewrite Sv0. reflexivity. }
        { exact G0. }
        { lia. }
        { intros i Ni. rewrite Sv0. reflexivity. }
        { lia. }
        { intros more0 X n s J. rewrite Sv0 in J. eapply fits_less; [|exact (X n s J)]. lia. }
        { intros n s X. exists s. split; [rewrite Sv0; exact X|].
          assert (Nd : (lease_expiration (stat_of s) * 1000000 - now <? remaining) = false).
          { destruct (lease_expiration (stat_of s) * 1000000 - now <? remaining) eqn:Y; [|reflexivity]. rewrite <- Du. symmetry.
            apply existsb_exists. exists (n, stat_of s). split; [|exact Y]. rewrite Ed. apply in_map_iff. exists (n, s). auto. }
          apply Z.ltb_ge in Nd. destruct (stat_lease s) as [Z0|(l0 & Il & El)]; [rewrite Z0 in Nd; lia|].
          exists l0. split; [exact Il|]. rewrite El. lia. }
        rewrite E. eexists. eexists. split; [reflexivity|].
        split; [|split; [exact T2|split; [exact O2|split; [exact D2|split; [exact F2|exact L2]]]]].
        destruct G2 as [GA GB GC GD]. split; auto. destruct GC as (toks & Nt & Lt & Ht).
        exists (firstn (Z.to_nat (k - (p1 + cost pv (sizes_at (w_servers w id) (map fst l))))) toks). split; [apply NoDup_firstn, Nt|].
        split; [rewrite firstn_length; lia|]. intros y Y. apply Ht. eapply firstn_In, Y.
Qed.

Lemma stats_eq sv sis : reach sv -> map_res (remote_stat_shares sv) sis = Ok (map (fun si => stats_at sv si) sis).
Proof.
  intros R. induction sis as [|si sis IH]; cbn; [reflexivity|]. rewrite stat_shares_eq; [cbn; now rewrite IH| |].
  - split; apply (@reachable_wf _ _ _ _ _ _ R si).
  - exact (@reachable_homogeneous _ _ _ _ _ _ si R).
Qed.
Lemma combine_map_self A B (f : A -> B) l : combine l (map f l) = map (fun x => (x, f x)) l.
Proof. induction l as [|a l IH]; cbn; [reflexivity|]. now rewrite IH. Qed.

Lemma server_good id now sis w k : In id ids -> 0 < now -> good ids w k horizon -> now <= w_clock w -> NoDup sis ->
  (forall si, In si sis -> fits_at 1 w id si) ->
  cost pv (sizes_at (w_servers w id) sis) <= k -> cost pv (sizes_at (w_servers w id) sis) <= SQLITE3_INTEGER_MAX ->
  exists w1 t, on_server (map Some sis) id now w = (Ok tt, w1, t) /\ good ids w1 (k - cost pv (sizes_at (w_servers w id) sis)) horizon /\
    w_time w <= w_time w1 /\ (forall i, i <> id -> w_servers w1 i = w_servers w i) /\
    (forall more si, In si sis -> fits_at (more + 1) w id si -> fits_at more w1 id si) /\
    forall si, In si sis -> forall n s, In (n, s) (dir w id si) ->
      exists s', In (n, s') (dir w1 id si) /\ lasts (now + Z.min remaining nearly_a_month) s'.
Proof.
  intros Ii Hn G Lc N Ft Lk Mx. unfold renew_leases_on_server. rewrite all_indexes_Some. unfold mbind, call, up_stat_shares at 1.
  rewrite stats_eq by (apply (g_reach G), Ii). rewrite combine_map_self.
  set (w0 := World (w_servers w) (w_db w) (later (w_time w)) (w_run w)).
  set (l := map (fun si => (si, stats_at (w_servers w id) si)) sis).
  assert (Fl : map fst l = sis) by (unfold l; rewrite map_map; apply map_id).
  assert (G0 : good ids w0 k horizon).
  { destruct G as [A B C D]. split; auto. cbn [w0 w_time]. pose proof (Hlater (w_time w)). split; [lia|apply Hhorizon; lia]. }
  destruct (@loop_good id now l Ii Hn w0 k G0) as (w1 & t & E & G1 & T1 & O1 & D1 & F1 & L1).
  - unfold w_clock in *. cbn [w0 w_time]. etransitivity; [exact Lc|]. apply Z.div_le_mono; [reflexivity|]. pose proof (Hlater (w_time w)). lia.
  - rewrite Fl. exact N.
  - intros si d J. unfold l in J. apply in_map_iff in J as (si' & X & J). injection X as <- <-. split; [reflexivity|]. exact (Ft si' J).
  - rewrite Fl. exact Lk.
  - rewrite Fl. exact Mx.
  - rewrite Fl in *. rewrite E. eexists. eexists. split; [reflexivity|]. split; [exact G1|]. split; [cbn [w0 w_time] in T1; pose proof (Hlater (w_time w)); lia|]. split; [exact O1|]. split; [exact F1|exact L1].
Qed.

Lemma sizes_everywhere_cons id l sis w : sizes_everywhere (id :: l) sis w = sizes_at (w_servers w id) sis ++ sizes_everywhere l sis w.
Proof. reflexivity. Qed.
Lemma sizes_everywhere_nonneg l sis w : forall x, In x (sizes_everywhere l sis w) -> 0 <= x.
Proof. intros x J. apply in_flat_map in J as (id & _ & J). eapply sizes_at_nonneg, J. Qed.

Lemma servers_good base sis l : 0 < base -> NoDup sis -> NoDup l -> (forall i, In i l -> In i ids) -> forall w k, good ids w k horizon -> base <= w_clock w ->
  (forall id si, In id l -> In si sis -> fits_at 1 w id si) ->
  cost pv (sizes_everywhere l sis w) <= k -> cost pv (sizes_everywhere l sis w) <= SQLITE3_INTEGER_MAX ->
  exists w1 t, on_servers (map Some sis) l w = (Ok tt, w1, t) /\ good ids w1 (k - cost pv (sizes_everywhere l sis w)) horizon /\
    w_time w <= w_time w1 /\ (forall i, ~ In i l -> w_servers w1 i = w_servers w i) /\
    (forall more id si, In id l -> In si sis -> fits_at (more + 1) w id si -> fits_at more w1 id si) /\
    forall id si, In id l -> In si sis -> forall n s, In (n, s) (dir w id si) ->
      exists s', In (n, s') (dir w1 id si) /\ lasts (base + Z.min remaining nearly_a_month) s'.
Proof.
  intros Hb Ns. induction l as [|id l IH]; intros Nl Sub w k G Lc Ft Lk Mx.
  - exists w, []. cbn. rewrite Z.sub_0_r. split; [reflexivity|]. split; [exact G|]. split; [lia|]. split; [reflexivity|]. split; intros; contradiction.
  - inversion Nl as [|? ? Ni Nl']; subst. rewrite sizes_everywhere_cons, cost_app in *.
    assert (P1 : 0 <= cost pv (sizes_at (w_servers w id) sis)) by (apply cost_nonneg; [exact Hv|apply sizes_at_nonneg]).
    assert (P2 : 0 <= cost pv (sizes_everywhere l sis w)) by (apply cost_nonneg; [exact Hv|apply sizes_everywhere_nonneg]).
    destruct (@server_good id (w_clock w) sis w k (Sub id (or_introl eq_refl)) ltac:(lia) G ltac:(lia) Ns (fun si => Ft id si (or_introl eq_refl)) ltac:(lia) ltac:(lia))
      as (w1 & t1 & E1 & G1 & T1 & O1 & F1 & L1).
    assert (Sv : forall i, In i l -> w_servers w1 i = w_servers w i) by (intros i J; apply O1; intros ->; contradiction).
    assert (Se : sizes_everywhere l sis w1 = sizes_everywhere l sis w).
    { unfold sizes_everywhere. clear - Sv. induction l as [|i l IH]; cbn [flat_map]; [reflexivity|]. rewrite Sv by now left. rewrite IH; [reflexivity|].
      intros j J. apply Sv. now right. }
    destruct (IH Nl' (fun i J => Sub i (or_intror J)) w1 _ G1) as (w2 & t2 & E2 & G2 & T2 & O2 & F2 & L2).
    + etransitivity; [exact Lc|]. unfold w_clock. apply Z.div_le_mono; [reflexivity|lia].
    + intros i si J K n s X. rewrite Sv in X by exact J. exact (Ft i si (or_intror J) K n s X).
    + rewrite Se. lia.
    + rewrite Se. lia.
    + exists w2, (t1 ++ t2). cbn [renew_on_servers]. unfold mbind. rewrite E1, E2. split; [reflexivity|]. rewrite Se in G2.
      split; [now rewrite Z.sub_add_distr|]. split; [lia|]. split; [|split].
      * intros i J. rewrite O2 by (intros K; apply J; now right). apply O1. intros ->. apply J. now left.
      * intros more i si [<-|J] K X.
        { unfold fits_at. rewrite O2 by exact Ni. exact (F1 more si K X). }
        { apply (F2 more i si J K). unfold fits_at. rewrite Sv by exact J. exact X. }
      * intros i si [<-|J] K n s X.
        { rewrite O2 by exact Ni. destruct (L1 si K n s X) as (s' & X' & La). exists s'. split; [exact X'|]. eapply lasts_earlier; [|exact La]. lia. }
        { apply (L2 i si J K n s). rewrite Sv by exact J. exact X. }
Qed.

Lemma run_good servers sis w k : 0 < w_clock w -> NoDup sis -> NoDup servers -> (forall i, In i servers -> In i ids) -> good ids w k horizon ->
  (forall id si, In id servers -> In si sis -> fits_at 1 w id si) ->
  cost pv (sizes_everywhere servers sis w) <= k -> cost pv (sizes_everywhere servers sis w) <= SQLITE3_INTEGER_MAX ->
  exists w1 t, renews servers (Ok (map Some sis)) w = (Ok tt, w1, t) /\ good ids w1 (k - cost pv (sizes_everywhere servers sis w)) horizon /\
    w_time w <= w_time w1 /\ (forall more id si, In id servers -> In si sis -> fits_at (more + 1) w id si -> fits_at more w1 id si) /\
    forall id si, In id servers -> In si sis -> forall n s, In (n, s) (dir w id si) ->
      exists s', In (n, s') (dir w1 id si) /\ lasts (w_clock w + Z.min remaining nearly_a_month) s'.
Proof.
  intros Hb Ns Nl Sub G Ft Lk Mx. unfold renew_leases. unfold mbind at 1. unfold call at 1. unfold up_start.
  destruct (step (w_db w) (OMaintStart (w_clock w))) as [r0 d0] eqn:S0. pose proof (step_rows _ _ S0) as [-> _].
  assert (Sd : d0 = snd (step (w_db w) (OMaintStart (w_clock w)))) by (rewrite S0; reflexivity).
  set (w0 := World (w_servers w) d0 (w_time w) (Some (next_id (map m_id (maint (w_db w)))))).
  assert (G0 : good ids w0 k horizon).
  { destruct G as [A B C D]. destruct (fresh_clean B) as [W _]. split; auto; unfold fine; cbn [w0 w_db]; rewrite Sd.
    - apply quiet_fresh; [exact I|exact I|exact B].
    - apply quiet_fine; [exact W|exact I|exact C]. }
  destruct (@servers_good (w_clock w) sis servers Hb Ns Nl Sub w0 k G0 ltac:(unfold w_clock; cbn; lia) Ft Lk Mx) as (w1 & t1 & E1 & G1 & T1 & _ & F1 & L1).
  unfold mbind at 1. rewrite E1. unfold call, up_finish.
  destruct (step (w_db w1) (OMaintFinish (w_run w1) (w_clock w1))) as [r2 d2] eqn:S2.
  assert (Sd2 : d2 = snd (step (w_db w1) (OMaintFinish (w_run w1) (w_clock w1)))) by (rewrite S2; reflexivity).
  assert (Er : exists x, r2 = Ok x).
  { cbn [step op_prog] in S2. rewrite with_cursor_pmap in S2. unfold with_cursor, maint_finish in S2.
    destruct (w_run w1); cbn in S2; injection S2 as <- <-; eauto. }
  destruct Er as [x ->]. eexists. eexists. split; [reflexivity|]. split; [|split; [exact T1|split; [exact F1|exact L1]]].
  destruct G1 as [A B C D]. destruct (fresh_clean B) as [W _]. split; auto; unfold fine; cbn [w_db]; rewrite Sd2.
  - apply quiet_fresh; [exact I|exact I|exact B].
  - apply quiet_fine; [exact W|exact I|exact C].
Qed.
End Good.

(** ** Whatever happens *)

Section Any.
Variable ids : list Z.
Variable d0 : db.
Variable sv0 : Z -> ServerModel.server.
Variables run t0 : Z.

Record inv (w : world) (c : Z) : Prop := {
  i_reach : forall i, In i ids -> reach (w_servers w i);
  i_shape : forall i si, shape (w_servers w i) si = shape (sv0 i) si;
  i_fresh : fresh_reachable (w_db w);
  i_run : w_run w = Some run;
  i_row : In (MR run t0 None c) (maint (w_db w));
  i_spent : exists ts, Z.of_nat (length ts) <= c /\ forall t, stored d0 true t -> is_spent (w_db w) t -> In t ts
}.
(** There is room in the count for spending this much. *)
Definition slack (w : world) (c n : Z) :=
  exists ts, Z.of_nat (length ts) + n <= c /\ forall t, stored d0 true t -> is_spent (w_db w) t -> In t ts.

Lemma shape_sizes sv si : map (fun ns => data_size (snd ns)) (dirs (sv_storage sv) si) = sizes_in (shape sv si).
Proof. unfold sizes_in, shape. rewrite map_map. reflexivity. Qed.

Lemma observe_any sizes w c : inv w c -> exists w1, up_observe pv sizes w = (Ok tt, w1) /\ w_servers w1 = w_servers w /\
  ((forall x, In x sizes -> 0 <= x) -> inv w1 (c + cost pv sizes) /\ slack w1 (c + cost pv sizes) (cost pv sizes)).
Proof.
  intros [R S F Ru Ro (ts & Lt & Ht)]. unfold up_observe. rewrite Ru.
  destruct (step (w_db w) (OMaintObserve pv (Some run) sizes)) as [r d] eqn:St.
  destruct (fresh_clean F) as [W _].
  assert (Sd : d = snd (step (w_db w) (OMaintObserve pv (Some run) sizes))) by (rewrite St; reflexivity).
  pose proof (step_rows _ _ St) as X. cbn beta iota in X. rewrite required_passes_pos in X by exact Hv. destruct X as [-> M].
  destruct (@quiet_effect (w_db w) (OMaintObserve pv (Some run) sizes) W I) as (Q1 & _ & _ & Q4). rewrite <- Sd in Q1, Q4.
  eexists. split; [reflexivity|]. split; [reflexivity|]. intros Nn. pose proof (cost_nonneg sizes Hv Nn) as P0.
  assert (Sp : forall t, is_spent d t -> is_spent (w_db w) t) by (intros t [A B]; split; congruence).
  split; [split|]; cbn [w_servers w_db w_run].
  - exact R.
  - exact S.
  - rewrite Sd. apply quiet_fresh; [exact I|exact I|exact F].
  - reflexivity.
  - rewrite M. apply in_map_iff. exists (MR run t0 None c). split; [|exact Ro]. unfold add_count. cbn. now rewrite Z.eqb_refl.
  - exists ts. split; [lia|]. intros t A B. apply Ht; auto.
  - exists ts. split; [lia|]. cbn [w_db]. intros t A B. apply Ht; auto.
Qed.

Lemma add_any id si renew cancel w c : In id ids -> inv w c -> slack w c (cost pv (sizes_in (shape (sv0 id) si))) ->
  exists r w1, up_add id si renew cancel w = (r, w1) /\ inv w1 c.
Proof.
  intros Ii [R S F Ru Ro Sp] (ts & Lt & Ht). pose proof (R id Ii) as Re.
  pose proof (exact_price_sum (map (fun ns => data_size (snd ns)) (dir w id si)) Hv) as Pr.
  rewrite <- S, <- shape_sizes in Lt. set (n0 := cost pv (map (fun ns => data_size (snd ns)) (dir w id si))) in *.
  unfold up_add_lease.
  destruct (linked_add_lease signed pv mv preimage sign (w_time w) (room id) scan si renew cancel (w_servers w id) (Datatypes.S (length (available (w_db w)))) (w_db w))
    as [[[r d] tr]|] eqn:E; [|eexists; eexists; split; [reflexivity|]; split; auto].
  eexists. eexists. split; [reflexivity|].
  destruct (@lease_call_any signed pv iv mv preimage sign scan mut Hs Hscan Hv (w_time w) (room id) si renew cancel (w_servers w id) n0 Re Pr
              _ (w_db w) _ d tr F E) as (Go & Mt & _ & Iv & ts' & Lt' & Ht').
  assert (Ls : lease_step signed pv iv mv mut si (w_servers w id) (state_after signed pv mv (w_time w) (room id) (AddLease si renew cancel) (w_servers w id) tr)) by apply state_after_step.
  split; cbn [w_servers w_db w_run].
  - intros i J. unfold put_server. destruct (Z.eqb_spec i id) as [->|N]; [|apply R, J]. apply (ls_reach Ls), Re.
  - intros i si'. unfold put_server. destruct (Z.eqb_spec i id) as [->|N]; [|apply S]. rewrite (ls_shape Ls). apply S.
  - exact (goes_fresh F Go).
  - exact Ru.
  - rewrite Mt. exact Ro.
  - exists (ts ++ ts'). split; [rewrite app_length; lia|]. intros t St Sn. apply in_or_app.
    destruct (in_dec Z.eq_dec t (map u_token (unblinded (w_db w)))) as [J|J]; [right; now apply Ht'|left].
    apply Ht; [exact St|]. split; [exact J|]. intros K. destruct Sn as [_ Sn]. apply Sn, Iv, K.
Qed.

Lemma loop_any id now l : In id ids -> (forall si d, In (si, d) l -> map size (dvalues d) = sizes_in (shape (sv0 id) si)) ->
  forall w c, inv w c -> exists r w1 t c1, loop id now l w = (r, w1, t) /\ inv w1 c1 /\
    (r = Ok tt -> c1 = c + cost pv (sizes_at (sv0 id) (map fst l))).
Proof.
  intros Ii. induction l as [|[si d] l IH]; intros Hl w c Iw.
  - exists (Ok tt), w, [], c. split; [reflexivity|]. split; [exact Iw|]. intros _. cbn. lia.
  - pose proof (Hl si d (or_introl eq_refl)) as Ed. specialize (IH (fun si' d' J => Hl si' d' (or_intror J))).
    assert (Sz : cost pv (sizes_at (sv0 id) (map fst ((si, d) :: l))) = cost pv (sizes_in (shape (sv0 id) si)) + cost pv (sizes_at (sv0 id) (map fst l))).
    { cbn [map fst]. rewrite <- shape_sizes. rewrite <- cost_app. reflexivity. }
    rewrite Sz. cbn [renew_loop]. destruct (dvalues d) as [|x more] eqn:D.
    + destruct (IH w c Iw) as (r & w1 & t & c1 & E & I1 & C1). exists r, w1, t, c1. split; [exact E|]. split; [exact I1|]. rewrite <- Ed. exact C1.
    + destruct (@observe_any (map size (x :: more)) w c Iw) as (w0 & Eo & _ & K).
      assert (Nn : forall y, In y (map size (x :: more)) -> 0 <= y).
      { rewrite Ed. unfold sizes_in, shape. rewrite map_map. intros y J. apply in_map_iff in J as (z & <- & _). cbn [snd]; lia. }
      destruct (K Nn) as [I0 Sl]. rewrite Ed in I0, Sl.
      unfold mbind at 1. unfold call at 1. rewrite Eo.
      destruct (needs_lease_renew remaining (soonest_expiration x more) now) as [[|]|e].
      * set (renew := brh (frh rs si) (seed id)). set (cancel := bch (fch cs si) (seed id)).
        destruct (@add_any id si renew cancel w0 _ Ii I0 Sl) as (ra & wa & Ea & Ia).
        unfold mbind, renew_lease, call. fold renew. fold cancel. rewrite Ea. destruct ra as [a|e].
        { destruct (IH wa _ Ia) as (r & w1 & t & c1 & E & I1 & C1). rewrite E. eexists. eexists. eexists. exists c1. split; [reflexivity|].
          split; [exact I1|]. intros X. rewrite (C1 X). lia. }
        { eexists. eexists. eexists. eexists. split; [reflexivity|]. split; [exact Ia|]. discriminate. }
      * destruct (IH w0 _ I0) as (r & w1 & t & c1 & E & I1 & C1). rewrite E. eexists. eexists. eexists. exists c1. split; [reflexivity|].
        split; [exact I1|]. intros X. rewrite (C1 X). lia.
      * eexists. eexists. eexists. eexists. split; [reflexivity|]. split; [exact I0|]. discriminate.
Qed.

Lemma stats_sizes sv si : map size (dvalues (stats_at sv si)) = sizes_in (shape sv si).
Proof. unfold dvalues, sizes_in, shape. rewrite !map_map. reflexivity. Qed.
Lemma later_inv w c t : inv w c -> inv (World (w_servers w) (w_db w) t (w_run w)) c.
Proof. intros [A B C D E F]. split; auto. Qed.

Lemma server_any id now osis w c : In id ids -> inv w c ->
  exists r w1 t c1, on_server osis id now w = (r, w1, t) /\ inv w1 c1 /\
    (r = Ok tt -> forall sis, osis = map Some sis -> c1 = c + cost pv (sizes_at (sv0 id) sis)).
Proof.
  intros Ii Iw. unfold renew_leases_on_server. destruct (all_indexes osis) as [sis|e] eqn:A.
  - unfold mbind, call, up_stat_shares at 1. rewrite stats_eq by (apply (i_reach Iw), Ii). rewrite combine_map_self.
    set (l := map (fun si => (si, stats_at (w_servers w id) si)) sis).
    assert (Fl : map fst l = sis) by (unfold l; rewrite map_map; apply map_id).
    destruct (@loop_any id now l Ii) with (w := World (w_servers w) (w_db w) (later (w_time w)) (w_run w)) (c := c) as (r & w1 & t & c1 & E & I1 & C1).
    + intros si d J. unfold l in J. apply in_map_iff in J as (si' & X & _). injection X as <- <-. rewrite stats_sizes. now rewrite (i_shape Iw).
    + now apply later_inv.
    + assert (C2 : r = Ok tt -> c1 = c + cost pv (sizes_at (sv0 id) sis)) by (intros X; rewrite <- Fl at 1; exact (C1 X)). clearbody l. rewrite E. eexists. eexists. eexists. exists c1. split; [reflexivity|]. split; [exact I1|]. intros X sis' ->.
      rewrite all_indexes_Some in A. injection A as ->. exact (C2 X).
  - exists (Err e), w, [], c. split; [reflexivity|]. split; [exact Iw|]. discriminate.
Qed.

Lemma servers_any osis l : (forall i, In i l -> In i ids) -> forall w c, inv w c ->
  exists r w1 t c1, on_servers osis l w = (r, w1, t) /\ inv w1 c1 /\
    (r = Ok tt -> forall sis, osis = map Some sis -> c1 = c + cost pv (flat_map (fun id => sizes_at (sv0 id) sis) l)).
Proof.
  induction l as [|id l IH]; intros Sub w c Iw.
  - exists (Ok tt), w, [], c. split; [reflexivity|]. split; [exact Iw|]. intros _ sis _. cbn. lia.
  - cbn [renew_on_servers]. unfold mbind.
    destruct (@server_any id (w_clock w) osis w c (Sub id (or_introl eq_refl)) Iw) as (r1 & w1 & t1 & c1 & E1 & I1 & C1). rewrite E1.
    destruct r1 as [[]|e].
    + destruct (IH (fun i J => Sub i (or_intror J)) w1 c1 I1) as (r2 & w2 & t2 & c2 & E2 & I2 & C2). rewrite E2.
      eexists. eexists. eexists. exists c2. split; [reflexivity|]. split; [exact I2|]. intros X sis Y. rewrite (C2 X sis Y), (C1 eq_refl sis Y).
      cbn [flat_map]. rewrite cost_app. lia.
    + eexists. eexists. eexists. exists c1. split; [reflexivity|]. split; [exact I1|]. discriminate.
Qed.
End Any.

Lemma shape_refl w : forall i si, shape (w_servers w i) si = shape (w_servers w i) si.
Proof. reflexivity. Qed.

Lemma run_any servers visited w r w' t : (forall i, In i servers -> reach (w_servers w i)) -> fresh_reachable (w_db w) ->
  renews servers visited w = (r, w', t) ->
  exists m, new_row (w_db w) (w_db w') m /\ (forall ts, spent_between (w_db w) (w_db w') ts -> Z.of_nat (length ts) <= m_count m) /\
    (forall i, In i servers -> reach (w_servers w' i)) /\ (forall i si, shape (w_servers w' i) si = shape (w_servers w i) si) /\
    fresh_reachable (w_db w') /\
    (r = Ok tt -> m_finished m <> None /\ forall sis, visited = Ok (map Some sis) -> m_count m = cost pv (sizes_everywhere servers sis w)).
Proof.
  intros R F H. unfold renew_leases, mbind at 1, call at 1, up_start in H.
  destruct (step (w_db w) (OMaintStart (w_clock w))) as [r0 d0] eqn:S0.
  assert (Sd : d0 = snd (step (w_db w) (OMaintStart (w_clock w)))) by (rewrite S0; reflexivity).
  pose proof (step_rows _ _ S0) as [-> M0]. set (run := next_id (map m_id (maint (w_db w)))) in *.
  destruct (fresh_clean F) as [W C].
  destruct (@quiet_effect (w_db w) (OMaintStart (w_clock w)) W I) as (Q1 & _ & _ & Q4). rewrite <- Sd in Q1, Q4.
  assert (Fr : ~ In run (map m_id (maint (w_db w)))) by apply next_id_fresh.
  set (w0 := World (w_servers w) d0 (w_time w) (Some run)) in *.
  assert (I0 : inv servers (w_db w) (w_servers w) run (w_clock w) w0 0).
  { split; cbn [w0 w_servers w_db w_run]; auto.
    - rewrite Sd. apply quiet_fresh; [exact I|exact I|exact F].
    - rewrite M0. apply in_or_app. right. now left.
    - exists []. split; [cbn; lia|]. intros x (g & v & pk & J & _) [Sp _]. exfalso. apply Sp. rewrite Q1. apply in_map_iff. exists (UR x g). auto. }
  assert (Cover : forall w1 c ts', inv servers (w_db w) (w_servers w) run (w_clock w) w1 c -> spent_between (w_db w) (w_db w1) ts' -> Z.of_nat (length ts') <= c).
  { intros w1 c ts' [_ _ _ _ _ (ts & Lt & Ht)] [Nd X]. assert (L : (length ts' <= length ts)%nat).
    { apply NoDup_incl_length; [exact Nd|]. intros x J. destruct (X x J) as [A B]. now apply Ht. }
    lia. }
  assert (New : forall w1 c, inv servers (w_db w) (w_servers w) run (w_clock w) w1 c -> new_row (w_db w) (w_db w1) (MR run (w_clock w) None c)).
  { intros w1 c Iw. split; [exact (i_row Iw)|exact Fr]. }
  destruct visited as [osis|e].
  - unfold mbind in H.
    destruct (@servers_any servers (w_db w) (w_servers w) run (w_clock w) osis servers (fun i J => J) w0 0 I0) as (r1 & w1 & t1 & c1 & E1 & I1 & C1).
    rewrite E1 in H. destruct r1 as [[]|e].
    + unfold call, up_finish in H. rewrite (i_run I1) in H.
      destruct (step (w_db w1) (OMaintFinish (Some run) (w_clock w1))) as [r2 d2] eqn:S2.
      assert (Sd2 : d2 = snd (step (w_db w1) (OMaintFinish (Some run) (w_clock w1)))) by (rewrite S2; reflexivity).
      pose proof (step_rows _ _ S2) as [-> M2].
      destruct (fresh_clean (i_fresh I1)) as [W1 _].
      destruct (@quiet_effect (w_db w1) (OMaintFinish (Some run) (w_clock w1)) W1 I) as (Q5 & _ & _ & Q8). rewrite <- Sd2 in Q5, Q8.
      injection H as <- <- <-. exists (MR run (w_clock w) (Some (w_clock w1)) c1). cbn [w_db w_servers].
      split; [split; [|exact Fr]|].
      { rewrite M2. apply in_map_iff. exists (MR run (w_clock w) None c1). split; [|exact (i_row I1)]. unfold set_finish. cbn. now rewrite Z.eqb_refl. }
      split; [intros ts [Nd X]; cbn [m_count]; apply (Cover w1 c1 ts I1); split; [exact Nd|]; intros x J; destruct (X x J) as [A [B1 B2]]; split; [exact A|]; split; congruence|].
      split; [exact (i_reach I1)|]. split; [exact (i_shape I1)|].
      split; [rewrite Sd2; apply quiet_fresh; [exact I|exact I|exact (i_fresh I1)]|].
      intros _. split; [discriminate|]. intros sis [= ->]. cbn [m_count]. rewrite (C1 eq_refl sis eq_refl). cbn. reflexivity.
    + injection H as <- <- <-. exists (MR run (w_clock w) None c1). split; [exact (New w1 c1 I1)|].
      split; [intros ts; exact (Cover w1 c1 ts I1)|]. split; [exact (i_reach I1)|]. split; [exact (i_shape I1)|]. split; [exact (i_fresh I1)|]. discriminate.
  - injection H as <- <- <-. exists (MR run (w_clock w) None 0). split; [exact (New w0 0 I0)|].
    split; [intros ts; exact (Cover w0 0 ts I0)|]. split; [exact (i_reach I0)|]. split; [exact (i_shape I0)|]. split; [exact (i_fresh I0)|]. discriminate.
Qed.
End Run.

(** ** The walk *)

Lemma all_Some (l : list (option bytes)) : ~ In None l -> exists m, l = map Some m.
Proof.
  induction l as [|[x|] l IH]; intros H.
  - now exists [].
  - destruct IH as [m ->]; [intros J; apply H; now right|]. now exists (x :: m).
  - exfalso. apply H. now left.
Qed.
Lemma cost_perm pv a b : Permutation a b -> cost pv a = cost pv b.
Proof. intros P. induction P; cbn [map sumZ]; lia. Qed.
Lemma sizes_at_perm sv a b : Permutation a b -> Permutation (sizes_at sv a) (sizes_at sv b).
Proof. intros P. unfold sizes_at. now apply Permutation_flat_map. Qed.
Lemma sizes_everywhere_perm servers a b w : Permutation a b -> Permutation (sizes_everywhere servers a w) (sizes_everywhere servers b w).
Proof.
  intros P. unfold sizes_everywhere. induction servers as [|i l IH]; cbn [flat_map]; [constructor|]. apply Permutation_app; [apply sizes_at_perm, P|exact IH].
Qed.
