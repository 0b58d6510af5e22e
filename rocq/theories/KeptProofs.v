(** Proofs for C127: a run of lease maintenance that ends well has kept everything. *)
From Verif Require Import Prelude PreludeFacts BytesModel BytesProofs PassModel PricingModel PricingSpec PricingProofs
  ContainerModel ContainerProofs TahoeModel ServerModel ServerSpec ServerProofs ServerStateProofs ServerRequestProofs
  StoreModel StoreSpec StoreProofs SpendModel SpendSpec SpendProofs SpendProperties ClientModel ClientProofs ClientProperties EnoughSpec EnoughProofs
  LeaseStoreProofs LeaseServerProofs BoughtSpec BoughtProofs LeaseModel LeaseSpec LeaseProofs UpkeepModel UpkeepSpec UpkeepProofs.
Set Implicit Arguments.

Lemma lasts_sooner a b s : a <= b -> lasts b s -> lasts a s.
Proof. intros L (l & J & E). exists l. split; [exact J|lia]. Qed.

Section Kept.
Variable signed : bytes -> bytes -> bytes -> bool.
Variables pv iv mv : Z.
Variable preimage : Z -> bytes.
Variable sign : bytes -> Z -> bytes.
Variable scan : nat -> list Z -> list Z.
Variable mut : bytes -> bool.
Hypothesis Hs : sound_passes preimage sign.
Hypothesis Hscan : fair_scan scan.
Hypothesis Hv : 0 < pv.
Notation reach := (reachable_server signed pv iv mv mut).
Notation serve := (serve signed pv mv).

(** ** A renewal that is reported as made was made *)

Lemma lease_call_ok now room si renew cancel sv fuel d x d' tr : reach sv -> fresh_reachable d ->
  linked_add_lease signed pv mv preimage sign now room scan si renew cancel sv fuel d = Some (Ok x, d', tr) ->
  exists passes, serve now room passes (AddLease si renew cancel) sv = (Ok x, state_after signed pv mv now room (AddLease si renew cancel) sv tr).
Proof.
  intros Re F E. set (q := AddLease si renew cancel) in *.
  pose proof (exact_price_sum (map (fun ns => data_size (snd ns)) (dirs (sv_storage sv) si)) Hv) as Pr.
  set (n := cost pv (map (fun ns => data_size (snd ns)) (dirs (sv_storage sv) si))) in *.
  rewrite (@lease_call_eq signed pv iv mv preimage sign scan mut Hv now room si renew cancel sv n Re Pr fuel d) in E. fold q in E.
  pose proof E as E0. unfold call_with_passes in E0.
  set (to_pass := fun _ : Z => ristretto_pass preimage sign (make_message KLease si)) in *.
  set (lk := link signed pv mv now room q (fun r => r) sv) in *.
  destruct (@spend_call_story _ _ to_pass lk scan 0 n (@link_polite _ _ _ _ _ _ _ _ _) Hscan (conv_ok Hs q) _ d _ d' tr F E) as [(_ & X & _)|O];
    [discriminate X|].
  pose proof (@call_asked _ _ to_pass lk scan 0 n (@spend_all pass reply) (fun _ g => map fst g) (@link_polite _ _ _ _ _ _ _ _ _) Hscan (conv_ok Hs q)
             (fun x g t H => H) _ d _ d' tr F E0) as As.
  pose proof (answers_past As) as Past.
  destruct (outcome_spent O) as (g & (past & A) & Sp).
  exists (encode_passes g).
  assert (Sa : state_after signed pv mv now room q sv tr = snd (serve now room (encode_passes g) q sv)).
  { rewrite A. unfold state_after. rewrite fold_left_app. cbn [fold_left fst].
    pose proof (Past past [(g, Accept x)] A ltac:(discriminate)) as Pp. unfold state_after in Pp. rewrite Pp. reflexivity. }
  rewrite Sa. destruct As as (As1 & _). destruct (As1 past (g, Accept x) [] A) as [d0 X].
  unfold lk, link in X. cbn [app fst snd] in X. rewrite (Past past [(g, Accept x)] A ltac:(discriminate)) in X. unfold answer in X.
  destruct (serve now room (encode_passes g) q sv) as [[y|e] sv1]; cbn [fst] in X.
  - injection X as ->. reflexivity.
  - destruct e; discriminate X.
Qed.

(** ** A whole run *)

Variable room : Z -> Z -> bool.
Variable later : Z -> Z.
Variables frh brh fch bch : bytes -> bytes -> bytes.
Variable seed : Z -> bytes.
Variables rs cs : bytes.
Variable remaining : Z.
Variable ids : list Z.
Hypothesis Hlater : forall t, t <= later t.
Hypothesis Hrem : 0 <= remaining.
Notation up_stat := (up_stat_shares later).
Notation up_add := (up_add_lease signed pv mv preimage sign room scan later).
Notation loop := (renew_loop up_add (up_observe pv) frh brh fch bch seed remaining rs cs).
Notation on_server := (renew_leases_on_server up_stat up_add (up_observe pv) frh brh fch bch seed remaining rs cs).
Notation on_servers := (renew_on_servers up_stat up_add (up_observe pv) w_clock frh brh fch bch seed remaining rs cs).
Notation renews servers := (renew_leases up_stat up_add up_start (up_observe pv) up_finish w_clock (fun _ : world => servers) frh brh fch bch seed remaining rs cs).
Notation dir w id si := (dirs (sv_storage (w_servers w id)) si).
Notation stats_at sv si := (map (fun ns => (fst ns, stat_of (snd ns))) (dirs (sv_storage sv) si)).

Record sane (w : world) : Prop := {
  s_reach : forall i, In i ids -> reach (w_servers w i);
  s_fresh : fresh_reachable (w_db w);
  s_time : 0 <= w_time w
}.

Lemma observe_ok sizes w r w1 : sane w -> up_observe pv sizes w = (r, w1) -> sane w1 /\ w_servers w1 = w_servers w /\ w_time w1 = w_time w.
Proof.
  intros [R F T] H. unfold up_observe in H. destruct (step (w_db w) (OMaintObserve pv (w_run w) sizes)) as [r0 d] eqn:S.
  injection H as <- <-. split; [|auto]. split; cbn [w_servers w_db w_time]; try assumption.
  replace d with (snd (step (w_db w) (OMaintObserve pv (w_run w) sizes))) by (rewrite S; reflexivity).
  apply quiet_fresh; [exact I|exact I|exact F].
Qed.

Lemma add_ok id si renew cancel w w1 : sane w -> In id ids -> up_add id si renew cancel w = (Ok tt, w1) ->
  sane w1 /\ w_time w <= w_time w1 /\ (forall i, i <> id -> w_servers w1 i = w_servers w i) /\
  (forall si', si' <> si -> dir w1 id si' = dir w id si') /\
  forall n s, In (n, s) (dir w id si) -> exists s', In (n, s') (dir w1 id si) /\ lasts (w_clock w + nearly_a_month) s'.
Proof.
  intros [R F T] Ii H. pose proof (R id Ii) as Re. unfold up_add_lease in H.
  destruct (linked_add_lease signed pv mv preimage sign (w_time w) (room id) scan si renew cancel (w_servers w id) (S (length (available (w_db w)))) (w_db w))
    as [[[[x|e] d] tr]|] eqn:E; try discriminate.
  injection H as <-.
  destruct (@lease_call_ok _ _ _ _ _ _ _ _ _ _ _ Re F E) as (passes & Sv).
  pose proof (exact_price_sum (map (fun ns => data_size (snd ns)) (dir w id si)) Hv) as Pr.
  destruct (@lease_call_any signed pv iv mv preimage sign scan mut Hs Hscan Hv (w_time w) (room id) si renew cancel (w_servers w id) _ Re Pr
              _ (w_db w) _ d tr F E) as (Go & _).
  pose proof (@serve_lease_step signed pv iv mv mut _ _ _ _ _ _ _ _ _ Sv) as Ls.
  assert (Put : forall sv, put_server id sv (w_servers w) id = sv) by (intros sv; unfold put_server; now rewrite Z.eqb_refl).
  split; [|split; [apply Hlater|split; [|split]]].
  - split; cbn [w_servers w_db w_time].
    + intros i J. unfold put_server. destruct (Z.eqb_spec i id) as [->|N]; [|apply R, J]. apply (ls_reach Ls), Re.
    + exact (goes_fresh F Go).
    + pose proof (Hlater (w_time w)). lia.
  - intros i N. cbn [w_servers]. unfold put_server. destruct (Z.eqb_spec i id); [contradiction|reflexivity].
  - intros si' N. cbn [w_servers]. rewrite Put. exact (ls_other Ls N).
  - intros n s J. cbn [w_servers]. rewrite Put.
    assert (St : server_step signed pv iv mv (w_servers w id) (ERequest (w_time w) (room id) passes (AddLease si renew cancel))
                 = (Some (Ok x), state_after signed pv mv (w_time w) (room id) (AddLease si renew cancel) (w_servers w id) tr))
      by (cbn [server_step]; now rewrite Sv).
    assert (Pe : proper_event (ERequest (w_time w) (room id) passes (AddLease si renew cancel))) by exact Logic.I.
    destruct (step_keeps s Re Pe ltac:(discriminate) St J) as (s' & I' & _).
    exists s'. split; [exact I'|].
    destruct (add_lease_grants _ _ _ _ _ _ _ _ _ _ _ _ Sv I') as (l & Il & _ & Ex).
    exists l. split; [exact Il|]. apply month_lasts; [exact T|exact Ex].
Qed.

Lemma loop_ok id now l : In id ids -> 0 < now -> forall w w1 t, sane w -> now <= w_clock w -> NoDup (map fst l) ->
  (forall si d, In (si, d) l -> d = stats_at (w_servers w id) si) ->
  loop id now l w = (Ok tt, w1, t) ->
  sane w1 /\ w_time w <= w_time w1 /\ (forall i, i <> id -> w_servers w1 i = w_servers w i) /\
    (forall si, ~ In si (map fst l) -> dir w1 id si = dir w id si) /\
    forall si, In si (map fst l) -> forall n s, In (n, s) (dir w id si) ->
      exists s', In (n, s') (dir w1 id si) /\ lasts (now + Z.min remaining nearly_a_month) s'.
Proof.
  intros Ii Hn. induction l as [|[si d] l IH]; intros w w1 t G Lc N Hl H; cbn [map fst] in *.
  - injection H as <- _. split; [exact G|]. split; [lia|]. split; [reflexivity|]. split; [reflexivity|]. intros si [].
  - inversion N as [|? ? Nsi N']; subst. pose proof (Hl si d (or_introl eq_refl)) as Ed.
    (* the rest of the loop, from a world like this *)
    assert (Rest : forall w0 t0 (same : forall si', si' <> si -> dir w0 id si' = dir w id si'), sane w0 -> w_time w <= w_time w0 ->
        (forall i, i <> id -> w_servers w0 i = w_servers w i) ->
        (forall n s, In (n, s) (dir w id si) -> exists s', In (n, s') (dir w0 id si) /\ lasts (now + Z.min remaining nearly_a_month) s') ->
        loop id now l w0 = (Ok tt, w1, t0) ->
        sane w1 /\ w_time w <= w_time w1 /\ (forall i, i <> id -> w_servers w1 i = w_servers w i) /\
          (forall si', ~ (si = si' \/ In si' (map fst l)) -> dir w1 id si' = dir w id si') /\
          forall si', si = si' \/ In si' (map fst l) -> forall n s, In (n, s) (dir w id si') ->
            exists s', In (n, s') (dir w1 id si') /\ lasts (now + Z.min remaining nearly_a_month) s').
    { intros w0 t0 Same G0 T0 O0 L0 E.
      destruct (IH w0 w1 t0 G0) as (G2 & T2 & O2 & D2 & L2).
      - unfold w_clock in *. etransitivity; [exact Lc|]. apply Z.div_le_mono; [reflexivity|lia].
      - exact N'.
      - intros si' d' J. assert (Ne : si' <> si) by (intros ->; apply Nsi; apply in_map_iff; exists (si, d'); auto).
        rewrite Same by exact Ne. exact (Hl si' d' (or_intror J)).
      - exact E.
      - split; [exact G2|]. split; [lia|]. split; [intros i Ni; rewrite O2 by exact Ni; apply O0, Ni|]. split.
        + intros si' Nn. rewrite D2 by tauto. apply Same. intros ->. tauto.
        + intros si' [<-|J] n s X.
          * rewrite (D2 si Nsi). exact (L0 n s X).
          * apply (L2 si' J n s). rewrite Same; [exact X|]. intros ->. contradiction. }
    cbn [renew_loop] in H. destruct (dvalues d) as [|x more] eqn:D.
    + assert (Nil : dir w id si = []).
      { subst d. unfold dvalues in D. destruct (dir w id si); [reflexivity|discriminate]. }
      eapply (Rest w t (fun _ _ => eq_refl) G ltac:(lia) (fun _ _ => eq_refl)); [|exact H].
      intros n s X. rewrite Nil in X. destruct X.
    + unfold mbind at 1 in H. unfold call at 1 in H.
      destruct (up_observe pv (map size (x :: more)) w) as [ro w0] eqn:Eo.
      destruct (@observe_ok _ _ _ _ G Eo) as (G0 & Sv0 & T0). destruct ro as [[]|e]; [|discriminate].
      destruct (needs_lease_renew remaining (soonest_expiration x more) now) as [b|e] eqn:Nd; [|discriminate].
      pose proof (needs_is_due _ _ d D Nd) as Du. destruct b.
      * unfold mbind, renew_lease, call in H.
        set (renew := brh (frh rs si) (seed id)) in H. set (cancel := bch (fch cs si) (seed id)) in H.
        destruct (up_add id si renew cancel w0) as [ra w2] eqn:Ea. destruct ra as [[]|e]; [|discriminate].
        destruct (loop id now l w2) as [[r3 w3] t3] eqn:El. injection H as -> -> _.
        assert (Dr : dir w0 id si = dir w id si) by (rewrite Sv0; reflexivity).
        destruct (@add_ok _ _ _ _ _ _ G0 Ii Ea) as (G1 & T1 & O1 & D1 & L1). rewrite Dr in L1.
        eapply (Rest w2 t3); [|exact G1|lia| | |exact El].
        { intros si' Ne. rewrite (D1 si' Ne), Sv0. reflexivity. }
        { intros i Ni. rewrite (O1 i Ni), Sv0. reflexivity. }
        { intros n s X. destruct (L1 n s X) as (s' & X' & La). exists s'. split; [exact X'|]. eapply lasts_sooner; [|exact La].
          unfold w_clock in Lc |- *. rewrite T0. lia. }
      * destruct (loop id now l w0) as [[r3 w3] t3] eqn:El. injection H as -> -> _.
        eapply (Rest w0 t3); [|exact G0|lia| | |exact El].
        { intros si' Ne. rewrite Sv0. reflexivity. }
        { intros i Ni. rewrite Sv0. reflexivity. }
        { intros n s X. exists s. split; [rewrite Sv0; exact X|].
          assert (Ns : (lease_expiration (stat_of s) * 1000000 - now <? remaining) = false).
          { destruct (lease_expiration (stat_of s) * 1000000 - now <? remaining) eqn:Y; [|reflexivity]. rewrite Du. symmetry.
            apply existsb_exists. exists (n, stat_of s). split; [|exact Y]. rewrite Ed. apply in_map_iff. exists (n, s). auto. }
          apply Z.ltb_ge in Ns. destruct (stat_lease s) as [Z0|(l0 & Il & El0)]; [rewrite Z0 in Ns; lia|].
          exists l0. split; [exact Il|]. rewrite El0. lia. }
Qed.

Lemma server_ok id now sis w w1 t : In id ids -> 0 < now -> sane w -> now <= w_clock w -> NoDup sis ->
  on_server (map Some sis) id now w = (Ok tt, w1, t) ->
  sane w1 /\ w_time w <= w_time w1 /\ (forall i, i <> id -> w_servers w1 i = w_servers w i) /\
    forall si, In si sis -> forall n s, In (n, s) (dir w id si) ->
      exists s', In (n, s') (dir w1 id si) /\ lasts (now + Z.min remaining nearly_a_month) s'.
Proof.
  intros Ii Hn G Lc N H. unfold renew_leases_on_server in H. rewrite all_indexes_Some in H. unfold mbind, call, up_stat_shares at 1 in H.
  rewrite (@stats_eq signed pv iv mv mut _ _ (s_reach G _ Ii)) in H. rewrite combine_map_self in H.
  set (w0 := World (w_servers w) (w_db w) (later (w_time w)) (w_run w)) in *.
  set (l := map (fun si => (si, stats_at (w_servers w id) si)) sis) in *.
  assert (Fl : map fst l = sis) by (unfold l; rewrite map_map; apply map_id).
  pose proof (Hlater (w_time w)) as Lt.
  assert (G0 : sane w0) by (destruct G as [A B C]; split; auto; cbn [w0 w_time]; lia).
  destruct (loop id now l w0) as [[r2 w2] t2] eqn:El. injection H as -> -> _.
  destruct (@loop_ok id now l Ii Hn w0 w1 t2 G0) as (G1 & T1 & O1 & D1 & L1).
  - unfold w_clock in *. cbn [w0 w_time]. etransitivity; [exact Lc|]. apply Z.div_le_mono; [reflexivity|]. lia.
  - rewrite Fl. exact N.
  - intros si d J. unfold l in J. apply in_map_iff in J as (si' & X & J). injection X as <- <-. reflexivity.
  - exact El.
  - rewrite Fl in *. split; [exact G1|]. split; [cbn [w0 w_time] in T1; lia|]. split; [exact O1|exact L1].
Qed.

Lemma servers_ok base sis l : 0 < base -> NoDup sis -> NoDup l -> (forall i, In i l -> In i ids) -> forall w w1 t, sane w -> base <= w_clock w ->
  on_servers (map Some sis) l w = (Ok tt, w1, t) ->
  sane w1 /\ w_time w <= w_time w1 /\ (forall i, ~ In i l -> w_servers w1 i = w_servers w i) /\
    forall id si, In id l -> In si sis -> forall n s, In (n, s) (dir w id si) ->
      exists s', In (n, s') (dir w1 id si) /\ lasts (base + Z.min remaining nearly_a_month) s'.
Proof.
  intros Hb Ns. induction l as [|id l IH]; intros Nl Sub w w2 t G Lc H.
  - injection H as <- _. split; [exact G|]. split; [lia|]. split; [reflexivity|]. intros id si [].
  - inversion Nl as [|? ? Ni Nl']; subst. cbn [renew_on_servers] in H. unfold mbind in H.
    destruct (on_server (map Some sis) id (w_clock w) w) as [[[[]|e] w1] t1] eqn:E1; [|discriminate].
    destruct (on_servers (map Some sis) l w1) as [[r2 w2'] t2] eqn:E2. injection H as -> -> _.
    destruct (@server_ok id (w_clock w) sis w w1 t1 (Sub id (or_introl eq_refl)) ltac:(lia) G ltac:(lia) Ns E1) as (G1 & T1 & O1 & L1).
    assert (Sv : forall i, In i l -> w_servers w1 i = w_servers w i) by (intros i J; apply O1; intros ->; contradiction).
    destruct (IH Nl' (fun i J => Sub i (or_intror J)) w1 w2 t2 G1) as (G2 & T2 & O2 & L2).
    + etransitivity; [exact Lc|]. unfold w_clock. apply Z.div_le_mono; [reflexivity|lia].
    + exact E2.
    + split; [exact G2|]. split; [lia|]. split.
      * intros i J. rewrite O2 by (intros K; apply J; now right). apply O1. intros ->. apply J. now left.
      * intros i si [<-|J] K n s X.
        { rewrite O2 by exact Ni. destruct (L1 si K n s X) as (s' & X' & La). exists s'. split; [exact X'|]. eapply lasts_sooner; [|exact La]. lia. }
        { apply (L2 i si J K n s). rewrite Sv by exact J. exact X. }
Qed.

Lemma all_indexes_ok osis sis : all_indexes osis = Ok sis -> osis = map Some sis.
Proof.
  revert sis. induction osis as [|[si|] osis IH]; cbn; intros sis H; [injection H as <-; reflexivity| |discriminate].
  destruct (all_indexes osis) as [l|e]; [|discriminate]. injection H as <-. cbn. now rewrite (IH l eq_refl).
Qed.

Lemma run_ok servers visited w w1 t : 0 < w_clock w -> NoDup servers -> (forall i, In i servers -> In i ids) -> sane w ->
  (forall osis, visited = Ok osis -> NoDup osis) ->
  renews servers visited w = (Ok tt, w1, t) ->
  exists osis, visited = Ok osis /\ (servers <> [] -> exists sis, osis = map Some sis /\
    forall id si, In id servers -> In si sis -> forall n s, In (n, s) (dir w id si) ->
      exists s', In (n, s') (dir w1 id si) /\ lasts (w_clock w + Z.min remaining nearly_a_month) s').
Proof.
  intros Hb Nl Sub G Nv H. unfold renew_leases in H. unfold mbind at 1 in H. unfold call at 1 in H. unfold up_start in H.
  destruct (step (w_db w) (OMaintStart (w_clock w))) as [r0 d0] eqn:S0. pose proof (step_rows _ _ S0) as [-> _].
  assert (Sd : d0 = snd (step (w_db w) (OMaintStart (w_clock w)))) by (rewrite S0; reflexivity).
  destruct visited as [osis|e]; [|discriminate]. exists osis. split; [reflexivity|]. intros Ne.
  set (w0 := World (w_servers w) d0 (w_time w) (Some (next_id (map m_id (maint (w_db w)))))) in *.
  assert (G0 : sane w0).
  { destruct G as [A B C]. split; auto. cbn [w0 w_db]. rewrite Sd. apply quiet_fresh; [exact I|exact I|exact B]. }
  unfold mbind at 1 in H. destruct (on_servers osis servers w0) as [[[[]|e] w2] t2] eqn:E; [|discriminate].
  assert (Ex : exists sis, osis = map Some sis).
  { destruct servers as [|i servers]; [contradiction|]. cbn [renew_on_servers] in E. unfold mbind at 1, renew_leases_on_server at 1 in E.
    destruct (all_indexes osis) as [sis|e] eqn:Ai; [|discriminate]. exists sis. now apply all_indexes_ok. }
  destruct Ex as [sis ->]. exists sis. split; [reflexivity|].
  unfold call, up_finish in H. destruct (step (w_db w2) (OMaintFinish (w_run w2) (w_clock w2))) as [r2 d2] eqn:S2.
  injection H as _ <- _. cbn [w_servers].
  destruct (@servers_ok (w_clock w) sis servers Hb (NoDup_map_inv _ _ (Nv _ eq_refl)) Nl Sub w0 w2 t2 G0 ltac:(unfold w_clock; cbn; lia) E) as (_ & _ & _ & L1).
  exact L1.
Qed.
End Kept.
