(** Proofs about maintenance of a storage server: C53, C54, C79. *)
From Verif Require Import Prelude PreludeFacts BytesModel BytesProofs PricingModel PricingSpec ContainerModel ContainerProofs TahoeModel
  ServerModel ServerSpec ServerProofs ServerStateProofs ServerRequestProofs ClientProofs ServerProperties
  StoreModel LeaseModel LeaseSpec LeaseProofs LeaseServer.
Set Implicit Arguments.

(** ** Histories of the server *)

Section Server.
Variable signed : bytes -> bytes -> bytes -> bool.
Variables pv iv mv : Z.
Notation step := (server_step signed pv iv mv).
Notation srun := (server_run signed pv iv mv).

Lemma server_run_snoc es e : forall sv os sv1 o sv2, srun sv es = (os, sv1) -> step sv1 e = (o, sv2) ->
  srun sv (es ++ [e]) = (os ++ [o], sv2).
Proof.
  induction es as [|e0 es IH]; intros sv os sv1 o sv2; cbn.
  - intros [= <- <-] ->. reflexivity.
  - destruct (step sv e0) as [o0 sv0]. destruct (srun sv0 es) as [os1 sv3] eqn:R. intros [= <- <-] S.
    rewrite (IH _ _ _ _ _ R S). reflexivity.
Qed.

Lemma reachable_step mut sv e o sv' : reachable_server signed pv iv mv mut sv -> proper_event e -> separate mut e ->
  step sv e = (o, sv') -> reachable_server signed pv iv mv mut sv'.
Proof.
  intros (Hi & Hm & es & os & P & Q & R) Pe Se S. split; [exact Hi|]. split; [exact Hm|].
  exists (es ++ [e]), (os ++ [o]). split; [apply Forall_app; auto|]. split; [apply Forall_app; auto|].
  exact (server_run_snoc _ _ _ R S).
Qed.

(** A share that is being uploaded does not exist yet. *)
Definition fresh (st : storage) : Prop :=
  forall u, In u (incoming st) -> dget (up_num u) (dirs st (up_si u)) = None.

Lemma allocate_fresh now room passes si renew cancel nums sz sv r sv' u :
  serve signed pv mv now room passes (Allocate si renew cancel nums sz) sv = (r, sv') ->
  In u (incoming (sv_storage sv')) ->
  In u (incoming (sv_storage sv)) \/ dget (up_num u) (dirs (sv_storage sv) (up_si u)) = None.
Proof.
  cbn. unfold remote_allocate_buckets. destruct (validate_passes _ _ _); [|intros [= _ <-]; auto].
  destruct (check_pass_quantity_for_write _ _ _ _); [|intros [= _ <-]; auto].
  destruct (tahoe_allocate_buckets room now si renew cancel nums sz (sv_storage sv)) as [[[x y]|e] st] eqn:T.
  - assert (H : In u (incoming st) ->
        In u (incoming (sv_storage sv)) \/ dget (up_num u) (dirs (sv_storage sv) (up_si u)) = None).
    { unfold tahoe_allocate_buckets in T. destruct (existsb _ _); [discriminate|]. destruct (_ && _); [discriminate|].
      injection T as _ _ <-. cbn. intros I. apply in_app_or in I as [I|I]; [auto|right].
      apply in_map_iff in I as (n & <- & I). cbn. apply filter_In in I as [_ I].
      apply andb_true_iff in I as [I _]. apply andb_true_iff in I as [I _]. apply negb_true_iff in I.
      apply dget_None. now apply memZ_not_In. }
    destruct (required_passes _ _); intros [= _ <-]; exact H.
  - intros [= _ <-]. assert (st = sv_storage sv) as ->.
    { unfold tahoe_allocate_buckets in T. destruct (existsb _ _); [congruence|]. destruct (_ && _); congruence. }
    auto.
Qed.

Lemma step_fresh mut sv e o sv' : mv = 1 \/ mv = 2 -> proper_event e -> separate mut e ->
  wf_storage (sv_storage sv) -> kinds mut (sv_storage sv) -> fresh (sv_storage sv) ->
  step sv e = (o, sv') -> fresh (sv_storage sv').
Proof.
  intros Hm P Se W K F S u I. destruct e as [now room passes q|si n content|si n|si n]; cbn in S.
  - destruct (serve signed pv mv now room passes q sv) as [r sv1] eqn:E. injection S as <- <-.
    assert (N : dget (up_num u) (dirs (sv_storage sv) (up_si u)) = None).
    { destruct q as [si renew cancel nums sz|si renew cancel|si we renew cancel tw rv].
      - destruct (allocate_fresh _ _ _ _ _ _ _ _ _ _ E I) as [J|J]; [now apply F|exact J].
      - destruct (serve_effect _ _ _ _ _ _ _ _ E) as [[-> _]|(_ & Ef & _)]; [now apply F|].
        destruct (storage_effect_incoming _ Ef I) as [J|[X _]]; [now apply F|discriminate].
      - destruct (serve_effect _ _ _ _ _ _ _ _ E) as [[-> _]|(_ & Ef & _)]; [now apply F|].
        destruct (storage_effect_incoming _ Ef I) as [J|[X _]]; [now apply F|discriminate]. }
    destruct (serve_effect _ _ _ _ _ _ _ _ E) as [[-> _]|(_ & Ef & _)]; [exact N|].
    pose proof (proj1 (W (up_si u))) as W1. destruct (storage_effect_dirs signed pv (up_si u) Hm P W1 Ef) as [_ H].
    specialize (H (up_num u)). rewrite N in H. destruct (dget (up_num u) (dirs (sv_storage sv1) (up_si u))) as [s'|] eqn:D; [|reflexivity].
    exfalso. destruct H as (_ & _ & Hq). destruct q as [| |si we renew cancel tw rv]; try discriminate. cbn in Se.
    destruct (storage_effect_incoming _ Ef I) as [J|[X _]]; [|discriminate]. pose proof (proj2 K u J) as Mu.
    destruct (bytes_eqb_spec si (up_si u)) as [->|Ne]; [congruence|].
    inversion Ef; subst. match goal with Ho : forall si', si' <> si -> _ |- _ => rewrite Ho in D by congruence end. congruence.
  - injection S as <- <-. cbn [sv_storage with_storage] in *. unfold close_bucket in *.
    destruct (find _ _) as [u0|] eqn:Fi; [|now apply F]. cbn [incoming set_dir drop_incoming] in I.
    apply filter_In in I as [I X]. specialize (F u I).
    destruct (bytes_eqb_spec si (up_si u)) as [E|Ne]; [|rewrite set_dir_other by congruence; exact F].
    rewrite <- E, set_dir_same, dget_dset. cbn [dirs drop_incoming]. rewrite E.
    destruct (Z.eqb_spec (up_num u) n) as [E2|]; [|exact F]. exfalso. apply negb_true_iff, andb_false_iff in X as [X|X].
    + destruct (bytes_eqb_spec (up_si u) si); congruence.
    + discriminate X.
  - injection S as <- <-. cbn in *. apply filter_In in I as [I _]. now apply F.
  - injection S as <- <-. cbn [sv_storage with_storage delete_share] in *. specialize (F u I).
    destruct (bytes_eqb_spec si (up_si u)) as [E|Ne]; [|unfold delete_share; rewrite set_dir_other by congruence; exact F].
    unfold delete_share. rewrite <- E, set_dir_same. rewrite E. apply dget_None. apply dget_None in F. intros J. apply F.
    unfold dkeys in *. apply in_map_iff in J as (x & <- & J). apply filter_In in J as [J _]. now apply in_map.
Qed.

Lemma run_fresh mut es : forall sv os sv', iv = 1 \/ iv = 2 -> mv = 1 \/ mv = 2 -> Forall proper_event es -> Forall (separate mut) es ->
  wf_storage (sv_storage sv) -> kinds mut (sv_storage sv) -> fresh (sv_storage sv) ->
  srun sv es = (os, sv') -> fresh (sv_storage sv').
Proof.
  induction es as [|e es IH]; intros sv os sv' Hi Hm P Q W K F; cbn; [intros [= <- <-]; exact F|].
  destruct (step sv e) as [o sv1] eqn:S. destruct (srun sv1 es) as [os1 sv2] eqn:R. intros [= <- <-].
  inversion P as [|? ? P1 P2]; subst. inversion Q as [|? ? Q1 Q2]; subst.
  refine (IH sv1 _ _ Hi Hm P2 Q2 _ _ _ R).
  - exact (@step_wf signed pv iv mv _ _ _ _ Hi Hm P1 W S).
  - exact (@step_kinds signed pv iv mv _ _ _ _ _ Hm P1 Q1 W K S).
  - exact (step_fresh _ _ Hm P1 Q1 W K F S).
Qed.

Lemma reachable_fresh mut sv : reachable_server signed pv iv mv mut sv -> fresh (sv_storage sv).
Proof.
  intros (Hi & Hm & es & os & P & S & R).
  refine (run_fresh _ Hi Hm P S empty_wf (empty_kinds mut) _ R). intros u [].
Qed.

(** Nothing but a deletion removes a share or shortens a lease. *)
Lemma step_keeps mut sv e o sv' si n s : reachable_server signed pv iv mv mut sv -> proper_event e ->
  e <> EDelete si n -> step sv e = (o, sv') -> In (n, s) (dirs (sv_storage sv) si) ->
  exists s', In (n, s') (dirs (sv_storage sv') si) /\ leases_kept (s_leases s) (s_leases s').
Proof.
  intros R P Ne S I. pose proof (proj1 (@reachable_wf _ _ _ _ _ _ R si)) as W. pose proof (reachable_fresh R) as F.
  assert (Same : exists s', In (n, s') (dirs (sv_storage sv) si) /\ leases_kept (s_leases s) (s_leases s')).
  { exists s. split; [exact I|apply leases_kept_refl]. }
  destruct R as (_ & Hm & _). destruct e as [now room passes q|si0 n0 content|si0 n0|si0 n0]; cbn in S.
  - destruct (serve signed pv mv now room passes q sv) as [r sv1] eqn:E. injection S as <- <-.
    exact (leases_never_shortened signed pv _ _ _ _ _ _ _ _ Hm P W E I).
  - injection S as <- <-. cbn [sv_storage with_storage]. unfold close_bucket. destruct (find _ _) as [u|] eqn:Fi; [|exact Same].
    apply find_some in Fi as [Iu Eu]. apply andb_true_iff in Eu as [E1 E2]. apply Z.eqb_eq in E2.
    destruct (bytes_eqb_spec (up_si u) si0) as [Es|]; [|discriminate]. specialize (F u Iu).
    destruct (bytes_eqb_spec si0 si) as [->|N]; [|rewrite set_dir_other by congruence; exact Same].
    rewrite set_dir_same. cbn [dirs drop_incoming]. exists s. split; [|apply leases_kept_refl].
    apply dget_Some_In. rewrite dget_dset. destruct (Z.eqb_spec n n0) as [->|]; [|now apply dget_In_wf].
    exfalso. apply (dget_In_wf _ _ W) in I. congruence.
  - injection S as <- <-. exact Same.
  - injection S as <- <-. cbn [sv_storage with_storage]. unfold delete_share.
    destruct (bytes_eqb_spec si0 si) as [->|N]; [|rewrite set_dir_other by congruence; exact Same].
    rewrite set_dir_same. exists s. split; [|apply leases_kept_refl]. apply filter_In. split; [exact I|].
    cbn. apply negb_true_iff, Z.eqb_neq. congruence.
Qed.

(** An accepted renewal gives every share of the storage index a full period. *)
Lemma add_lease_loop_gives room renew cancel e d : forall d', add_lease_loop room renew cancel e d = (Ok tt, d') ->
  forall n s', In (n, s') d' -> exists l, In l (s_leases s') /\ l_expiration l * hz > e - hz.
Proof.
  induction d as [|[m s] d IH]; intros d'; cbn; [intros [= <-] n s' []|].
  destruct (add_or_renew_lease (room m) 1 renew cancel e s) as [s2|t] eqn:A; [|discriminate].
  destruct (add_lease_loop room renew cancel e d) as [r d2] eqn:L. intros [= -> <-] n s' [E|I].
  - injection E as <- <-. apply add_or_renew_spec in A. apply A.
  - exact (IH _ eq_refl _ _ I).
Qed.

Lemma add_lease_gives now room passes si renew cancel sv b sv' n s' :
  serve signed pv mv now room passes (AddLease si renew cancel) sv = (Ok b, sv') ->
  In (n, s') (dirs (sv_storage sv') si) ->
  exists l, In l (s_leases s') /\ l_expiration l * hz > now + 31 * 86400 * hz - hz.
Proof.
  cbn. unfold remote_add_lease. destruct (validate_passes _ _ _); [|discriminate].
  destruct (check_pass_quantity_for_lease _ _ _); [|discriminate]. unfold tahoe_add_lease.
  destruct (add_lease_loop _ _ _ _ _) as [[[]|e] d'] eqn:L; [|discriminate]. intros [= <- <-].
  cbn [sv_storage observe mark_as_spent with_storage]. rewrite set_dir_same. intros I.
  exact (@add_lease_loop_gives _ _ _ _ _ _ L _ _ I).
Qed.
End Server.

(** ** Visits *)

Section Visits.
Variable signed : bytes -> bytes -> bytes -> bool.
Variables pv iv mv : Z.
Variables frh brh fch bch : bytes -> bytes -> bytes.
Variable seed : Z -> bytes.
Variables rs cs : bytes.
Variable remaining : Z.
Variable mut : bytes -> bool.
Notation visit_server := (visit_server signed pv mv frh brh fch bch seed rs cs remaining).
Notation history := (history signed pv iv mv frh brh fch bch seed rs cs remaining).
Notation reach := (reachable_server signed pv iv mv mut).
Notation vloop v := (renew_loop (server_add_lease signed pv mv v) (fun _ sv => (Ok tt, sv)) frh brh fch bch seed).

(** Every share that was there is still there, with leases as long as before. *)
Definition kept (si : bytes) (n : Z) (sv sv' : server) : Prop :=
  forall s, In (n, s) (dirs (sv_storage sv) si) ->
  exists s', In (n, s') (dirs (sv_storage sv') si) /\ leases_kept (s_leases s) (s_leases s').
Lemma kept_refl si n sv : kept si n sv sv.
Proof. intros s I. exists s. split; [exact I|apply leases_kept_refl]. Qed.
Lemma kept_trans si n a b c : kept si n a b -> kept si n b c -> kept si n a c.
Proof.
  intros H1 H2 s I. destruct (H1 s I) as (s1 & I1 & K1). destruct (H2 s1 I1) as (s2 & I2 & K2).
  exists s2. split; [exact I2|exact (leases_kept_trans K1 K2)].
Qed.

(** The loop renews what is due. *)
Lemma vloop_gives v id l : forall sv sv' t, reach sv ->
  vloop v remaining rs cs id (v_now v) l sv = (Ok tt, sv', t) ->
  reach sv' /\ (forall si n, kept si n sv sv') /\
  forall si d, In (si, d) l -> is_due remaining (v_now v) d = true ->
    forall n s, In (n, s) (dirs (sv_storage sv) si) -> exists s', In (n, s') (dirs (sv_storage sv') si) /\
      exists l, In l (s_leases s') /\ l_expiration l * hz > v_at v si + 31 * 86400 * hz - hz.
Proof.
  induction l as [|[si d] l IH]; intros sv sv' t R; cbn [renew_loop].
  - intros [= <- <-]. split; [exact R|]. split; [intros; apply kept_refl|]. intros si d [].
  - destruct (dvalues d) as [|x more] eqn:D.
    + intros H. destruct (IH _ _ _ R H) as (R' & K & G). split; [exact R'|]. split; [exact K|].
      intros si0 d0 [E|I] Du; [injection E as <- <-; now rewrite (not_due_nil _ _ d D) in Du|]. exact (G _ _ I Du).
    + intros H. apply bind_inv in H as [(e & H & X)|([] & w1 & t1 & t2 & H & H2 & ->)]; [discriminate|].
      apply call_inv in H as [H _]. injection H as <-.
      destruct (needs_lease_renew remaining (soonest_expiration x more) (v_now v)) as [b|e] eqn:N; [|discriminate].
      pose proof (needs_is_due _ _ d D N) as Nd. destruct b.
      * apply bind_inv in H2 as [(e & H & X)|([] & w2 & t3 & t4 & H & H2 & ->)]; [discriminate|].
        unfold LeaseModel.renew_lease in H. apply call_inv in H as [H _]. unfold server_add_lease in H.
        set (renew := brh (frh rs si) (seed id)) in *. set (cancel := bch (fch cs si) (seed id)) in *.
        destruct (serve signed pv mv (v_at v si) (v_room v si) (v_passes v si) (AddLease si renew cancel) sv) as [[rp|e] sv1] eqn:Sv; [|discriminate].
        injection H as <-.
        assert (St : server_step signed pv iv mv sv (ERequest (v_at v si) (v_room v si) (v_passes v si) (AddLease si renew cancel))
                     = (Some (Ok rp), sv1)) by (cbn [server_step]; now rewrite Sv).
        assert (R1 : reach sv1) by (refine (@reachable_step signed pv iv mv mut _ _ _ _ R _ _ St); exact I).
        assert (K1 : forall si n, kept si n sv sv1).
        { intros si0 n s I. refine (@step_keeps signed pv iv mv mut _ _ _ _ _ _ _ R _ _ St I); [exact Logic.I|discriminate]. }
        destruct (IH _ _ _ R1 H2) as (R' & K & G). split; [exact R'|]. split; [intros; eapply kept_trans; eauto|].
        intros si0 d0 [E|I] Du n s J.
        -- injection E as <- <-. destruct (K1 si n s J) as (s1 & J1 & _). destruct (K si n s1 J1) as (s2 & J2 & L2).
           exists s2. split; [exact J2|]. destruct (@add_lease_gives signed pv mv _ _ _ _ _ _ _ _ _ _ _ Sv J1) as (le & Il & El).
           exact (leases_kept_active L2 (ex_intro _ le (conj Il El))).
        -- destruct (K1 si0 n s J) as (s1 & J1 & _). exact (G _ _ I Du n s1 J1).
      * destruct (IH _ _ _ R H2) as (R' & K & G). split; [exact R'|]. split; [exact K|].
        intros si0 d0 [E|I] Du; [injection E as <- <-; congruence|]. exact (G _ _ I Du).
Qed.

Lemma all_indexes_Some sis : all_indexes (map Some sis) = Ok sis.
Proof. induction sis as [|a sis IH]; cbn; [reflexivity|]. now rewrite IH. Qed.

Lemma map_res_In E A B (f : A -> res E B) l : forall l' x, map_res f l = Ok l' -> In x l ->
  exists y, f x = Ok y /\ In (x, y) (combine l l').
Proof.
  induction l as [|a l IH]; intros l' x; cbn; [intros _ []|].
  destruct (f a) as [y|e] eqn:F; [|discriminate]. cbn. destruct (map_res f l) as [ys|e]; [|discriminate]. cbn. intros [= <-] [<-|I].
  - exists y. split; [exact F|now left].
  - destruct (IH ys x eq_refl I) as (z & Fz & J). exists z. split; [exact Fz|now right].
Qed.

(** What a visit does for the shares of a storage index it names. *)
Lemma visit_gives v id sv sv' t : reach sv -> visit_server v id sv = (Ok tt, sv', t) ->
  reach sv' /\ (forall si n, kept si n sv sv') /\
  forall si n s, In si (v_indexes v) -> In (n, s) (dirs (sv_storage sv) si) ->
    exists s', In (n, s') (dirs (sv_storage sv') si) /\
      forall b, 0 <= b -> covered remaining v si b -> active b s'.
Proof.
  intros R H. unfold LeaseServer.visit_server, renew_leases_on_server in H. rewrite all_indexes_Some in H.
  apply bind_inv in H as [(e & H & X)|(stats & w1 & t1 & t2 & H & H2 & ->)]; [discriminate|].
  apply call_inv in H as [H _]. unfold server_stats in H.
  destruct (map_res (remote_stat_shares sv) (v_indexes v)) as [l|e] eqn:Ml; [|discriminate]. injection H as <- <-.
  destruct (vloop_gives _ _ _ R H2) as (R' & K & G). split; [exact R'|]. split; [exact K|].
  intros si n s I J. destruct (map_res_In _ _ si Ml I) as (d & Sd & Id).
  assert (Ed : d = map (fun ns => (fst ns, stat_of (snd ns))) (dirs (sv_storage sv) si)).
  { rewrite stat_shares_eq in Sd; [congruence| |].
    - split; [apply (@reachable_wf _ _ _ _ _ _ R si)|apply (@reachable_wf _ _ _ _ _ _ R si)].
    - exact (@reachable_homogeneous _ _ _ _ _ _ si R). }
  destruct (is_due remaining (v_now v) d) eqn:Du.
  - destruct (G si d Id Du n s J) as (s' & J' & le & Il & El). exists s'. split; [exact J'|].
    intros b Hb [_ C]. exists le. split; [exact Il|]. lia.
  - destruct (K si n s J) as (s' & J' & L). exists s'. split; [exact J'|]. intros b Hb [C _].
    refine (leases_kept_active L _). apply activeb_spec. rewrite <- stat_active by exact Hb.
    unfold is_due in Du. rewrite Ed in Du. apply Z.gtb_lt.
    assert (Du' : (lease_expiration (stat_of s) * 1000000 - v_now v <? remaining) = false).
    { destruct (lease_expiration (stat_of s) * 1000000 - v_now v <? remaining) eqn:X; [|reflexivity]. rewrite <- Du. symmetry.
      apply existsb_exists. exists (n, stat_of s). split; [|exact X]. apply in_map_iff. exists (n, s). auto. }
    apply Z.ltb_ge in Du'. unfold hz in *. nia.
Qed.

Lemma covered_earlier v si b b' : covered remaining v si b' -> b <= b' -> covered remaining v si b.
Proof. intros [A B] L. split; lia. Qed.

Lemma spaced_next si u b post : spaced remaining si (Some u) post -> before_next si b post -> covered remaining u si b.
Proof.
  intros S B. induction B as [v items I L|i items N B IH].
  - inversion S as [|? ? ? ? C|? ? ? N]; subst; [|exfalso; apply N; exists v; auto].
    exact (covered_earlier (C u eq_refl) L).
  - inversion S as [|? v ? I C|]; subst; [exfalso; apply N; exists v; auto|]. now apply IH.
Qed.

Lemma history_gives id si n pre post : forall sv sv' u s b, history id sv pre sv' -> reach sv ->
  Forall (proper_item mut) pre -> (forall i, In i pre -> ~ deletes si n i) ->
  spaced remaining si (Some u) (pre ++ post) -> before_next si b post -> 0 <= b ->
  In (n, s) (dirs (sv_storage sv) si) -> (forall b, 0 <= b -> covered remaining u si b -> active b s) ->
  exists s', In (n, s') (dirs (sv_storage sv') si) /\ active b s'.
Proof.
  intros sv sv' u s b H. revert u s. induction H as [sv|sv v sv1 t items sv2 V H IH|sv e o sv1 items sv2 St H IH];
    intros u s R P D Sp Bn Hb I A.
  - exists s. split; [exact I|]. apply A; [exact Hb|exact (spaced_next Sp Bn)].
  - inversion P as [|? ? P1 P2]; subst. destruct (visit_gives _ _ R V) as (R1 & K & G).
    assert (D2 : forall i, In i items -> ~ deletes si n i) by (intros i J; apply D; now right).
    cbn in Sp. inversion Sp as [|? ? ? Iv C Sp2|? ? ? Nv Sp2]; subst.
    + destruct (G si n s Iv I) as (s' & I' & A'). exact (IH v s' R1 P2 D2 Sp2 Bn Hb I' A').
    + destruct (K si n s I) as (s' & I' & L). refine (IH u s' R1 P2 D2 Sp2 Bn Hb I' _).
      intros b0 H0 C0. exact (leases_kept_active L (A b0 H0 C0)).
  - inversion P as [|? ? PQ P2]; subst. destruct PQ as [P1 Q1].
    assert (D2 : forall i, In i items -> ~ deletes si n i) by (intros i J; apply D; now right).
    assert (Ne : e <> EDelete si n) by (intros ->; apply (D (Others (EDelete si n))); [now left|reflexivity]).
    pose proof (@reachable_step signed pv iv mv mut _ _ _ _ R P1 Q1 St) as R1.
    destruct (@step_keeps signed pv iv mv mut _ _ _ _ _ _ _ R P1 Ne St I) as (s' & I' & L).
    cbn in Sp. inversion Sp as [|? ? ? Iv C Sp2|? ? ? Nv Sp2]; subst.
    refine (IH u s' R1 P2 D2 Sp2 Bn Hb I' _). intros b0 H0 C0. exact (leases_kept_active L (A b0 H0 C0)).
Qed.

Lemma history_maintained id si n v pre post sv sv' s b : history id sv (Visits v :: pre) sv' -> reach sv ->
  In si (v_indexes v) -> Forall (proper_item mut) pre -> (forall i, In i pre -> ~ deletes si n i) ->
  spaced remaining si None (Visits v :: pre ++ post) -> before_next si b post -> 0 <= b ->
  In (n, s) (dirs (sv_storage sv) si) ->
  exists s', In (n, s') (dirs (sv_storage sv') si) /\ active b s'.
Proof.
  intros H R Iv P D Sp Bn Hb I. inversion H as [|? ? sv1 t ? ? V H2|]; subst.
  destruct (visit_gives _ _ R V) as (R1 & K & G). destruct (G si n s Iv I) as (s' & I' & A').
  inversion Sp as [|? ? ? _ C Sp2|? ? ? Nv Sp2]; subst; [|exfalso; apply Nv; exists v; auto].
  exact (history_gives H2 R1 P D Sp2 Bn Hb I' A').
Qed.
End Visits.

(** ** One lease for all runs *)

Definition has_lease (renew : bytes) (s : share) : Prop := exists l, In l (s_leases s) /\ l_renew l = renew.

Lemma renew_lease_has renew e ls : (exists l, In l ls /\ l_renew l = renew) -> exists r, TahoeModel.renew_lease renew e ls = Some r.
Proof.
  induction ls as [|l ls IH]; [intros (? & [] & _)|]. intros (x & I & E). cbn.
  destruct (bytes_eqb_spec (l_renew l) renew) as [|N]; [eauto|]. destruct I as [<-|I]; [contradiction|].
  destruct IH as [r ->]; [eauto|]. cbn. eauto.
Qed.
Lemma renew_lease_keeps_secret renew e ls : forall ls', TahoeModel.renew_lease renew e ls = Some (Ok ls') ->
  map l_renew ls' = map l_renew ls.
Proof.
  induction ls as [|l ls IH]; intros ls'; cbn; [discriminate|].
  destruct (bytes_eqb (l_renew l) renew).
  - destruct (_ >? _); [destruct (packable _)|]; intros [= <-]; reflexivity.
  - destruct (TahoeModel.renew_lease renew e ls) as [[m|x]|]; cbn; try discriminate. intros [= <-]. cbn. now rewrite (IH m eq_refl).
Qed.

Definition grown (renew : bytes) (k : nat) (s : share) : Prop :=
  (length (s_leases s) <= k \/ has_lease renew s /\ length (s_leases s) <= S k)%nat.

Lemma add_or_renew_grown room owner renew cancel e k s s' : grown renew k s ->
  add_or_renew_lease room owner renew cancel e s = Ok s' -> grown renew k s'.
Proof.
  unfold add_or_renew_lease, grown, has_lease. intros G.
  destruct (TahoeModel.renew_lease renew e (s_leases s)) as [[ls|x]|] eqn:E; cbn [bind]; try discriminate.
  - intros [= <-]. cbn [s_leases]. apply renew_lease_keeps_secret in E.
    assert (L : length ls = length (s_leases s)) by (rewrite <- (map_length l_renew), E, map_length; reflexivity).
    rewrite L. destruct G as [G|[(l & I & El) G]]; [now left|right]. split; [|exact G].
    apply (in_map l_renew) in I. rewrite <- E in I. apply in_map_iff in I as (l' & E' & I'). exists l'. split; [exact I'|congruence].
  - destruct (negb room); [discriminate|]. destruct (_ && _); [|discriminate]. intros [= <-]. cbn [s_leases].
    destruct G as [G|[H _]].
    + right. split; [|rewrite app_length; cbn; lia]. eexists. split; [apply in_or_app; right; left; reflexivity|reflexivity].
    + exfalso. destruct (renew_lease_has e _ H) as [r Hr]. congruence.
Qed.

Lemma add_lease_loop_grown room renew cancel e k d : forall r d', add_lease_loop room renew cancel e d = (r, d') ->
  forall n, (forall s, In (n, s) d -> grown renew k s) -> forall s', In (n, s') d' -> grown renew k s'.
Proof.
  induction d as [|[m s] d IH]; intros r d'; cbn; [intros [= <- <-] n _ s' []|].
  destruct (add_or_renew_lease (room m) 1 renew cancel e s) as [s2|t] eqn:A.
  - destruct (add_lease_loop room renew cancel e d) as [r2 d2] eqn:L. intros [= <- <-] n H s' [E|I].
    + injection E as -> <-. exact (@add_or_renew_grown _ _ _ _ _ _ _ _ (H s (or_introl eq_refl)) A).
    + exact (IH _ _ eq_refl n (fun x J => H x (or_intror J)) s' I).
  - intros [= <- <-] n H s' I. now apply H.
Qed.

Section Secrets.
Variable signed : bytes -> bytes -> bytes -> bool.
Variables pv iv mv : Z.
Variables frh brh fch bch : bytes -> bytes -> bytes.
Variable seed : Z -> bytes.
Variables rs cs : bytes.
Variable remaining : Z.
Notation visit_server := (visit_server signed pv mv frh brh fch bch seed rs cs remaining).
Notation history := (history signed pv iv mv frh brh fch bch seed rs cs remaining).
Notation vloop v := (renew_loop (server_add_lease signed pv mv v) (fun _ sv => (Ok tt, sv)) frh brh fch bch seed).

Lemma serve_grown now room passes si0 renew cancel sv r sv' si n k :
  serve signed pv mv now room passes (AddLease si0 renew cancel) sv = (r, sv') ->
  (si0 = si -> forall s, In (n, s) (dirs (sv_storage sv) si) -> grown renew k s) ->
  forall s', In (n, s') (dirs (sv_storage sv') si) ->
  In (n, s') (dirs (sv_storage sv) si) \/ (si0 = si /\ grown renew k s').
Proof.
  intros S G s' I. cbn in S. unfold remote_add_lease in S.
  destruct (validate_passes _ _ _); [|injection S as <- <-; auto].
  destruct (check_pass_quantity_for_lease _ _ _); [|injection S as <- <-; auto].
  unfold tahoe_add_lease in S. destruct (add_lease_loop _ _ _ _ _) as [r1 d'] eqn:L.
  assert (E : sv_storage sv' = set_dir si0 d' (sv_storage sv)) by (destruct r1; injection S as <- <-; reflexivity).
  rewrite E in I. destruct (bytes_eqb_spec si0 si) as [<-|N]; [|rewrite set_dir_other in I by congruence; auto].
  rewrite set_dir_same in I. right. split; [reflexivity|]. exact (@add_lease_loop_grown _ _ _ _ _ _ _ _ L _ (G eq_refl) _ I).
Qed.

Lemma vloop_grown v id si n k l : forall sv r sv' t,
  vloop v remaining rs cs id (v_now v) l sv = (r, sv', t) ->
  (forall s, In (n, s) (dirs (sv_storage sv) si) -> grown (brh (frh rs si) (seed id)) k s) ->
  forall s, In (n, s) (dirs (sv_storage sv') si) -> grown (brh (frh rs si) (seed id)) k s.
Proof.
  induction l as [|[si0 d] l IH]; intros sv r sv' t; cbn [renew_loop].
  - intros [= <- <- <-] G. exact G.
  - destruct (dvalues d) as [|x more]; [apply IH|]. intros H G.
    apply bind_inv in H as [(e & H & X)|([] & w1 & t1 & t2 & H & H2 & ->)]; [apply call_inv in H as [H _]; discriminate|].
    apply call_inv in H as [H _]. injection H as <-.
    destruct (needs_lease_renew _ _ _) as [[]|e].
    + assert (St : forall r1 w2 t3, LeaseModel.renew_lease (server_add_lease signed pv mv v) frh brh fch bch seed rs cs si0 id sv = (r1, w2, t3) ->
        forall s, In (n, s) (dirs (sv_storage w2) si) -> grown (brh (frh rs si) (seed id)) k s).
      { intros r1 w2 t3 Hr. unfold LeaseModel.renew_lease in Hr. apply call_inv in Hr as [Hr _]. unfold server_add_lease in Hr.
        set (renew := brh (frh rs si0) (seed id)) in *. set (cancel := bch (fch cs si0) (seed id)) in *.
        destruct (serve signed pv mv (v_at v si0) (v_room v si0) (v_passes v si0) (AddLease si0 renew cancel) sv) as [q sv1] eqn:Sv.
        assert (w2 = sv1) as -> by (destruct q; congruence). intros s I.
        destruct (@serve_grown _ _ _ _ _ _ _ _ _ si n k Sv) with (s' := s) as [J|[<- J]]; try exact I.
        - intros <-. exact G.
        - now apply G.
        - exact J. }
      apply bind_inv in H2 as [(e & H & X)|([] & w2 & t3 & t4 & H & H2 & ->)].
      * exact (St _ _ _ H).
      * exact (IH _ _ _ _ H2 (St _ _ _ H)).
    + exact (IH _ _ _ _ H2 G).
    + injection H2 as <- <- <-. exact G.
Qed.

Lemma visit_grown v id si n k sv r sv' t : visit_server v id sv = (r, sv', t) ->
  (forall s, In (n, s) (dirs (sv_storage sv) si) -> grown (brh (frh rs si) (seed id)) k s) ->
  forall s, In (n, s) (dirs (sv_storage sv') si) -> grown (brh (frh rs si) (seed id)) k s.
Proof.
  unfold LeaseServer.visit_server, renew_leases_on_server. rewrite all_indexes_Some. intros H G.
  apply bind_inv in H as [(e & H & X)|(stats & w1 & t1 & t2 & H & H2 & ->)]; apply call_inv in H as [H _]; unfold server_stats in H.
  - injection H as _ <-. exact G.
  - injection H as _ <-. exact (@vloop_grown _ _ _ _ _ _ _ _ _ _ H2 G).
Qed.

Lemma visits_grown id si n k items : forall sv sv', history id sv items sv' -> (forall e, ~ In (Others e) items) ->
  (forall s, In (n, s) (dirs (sv_storage sv) si) -> grown (brh (frh rs si) (seed id)) k s) ->
  forall s, In (n, s) (dirs (sv_storage sv') si) -> grown (brh (frh rs si) (seed id)) k s.
Proof.
  intros sv sv' H. induction H as [sv|sv v sv1 t items sv2 V H IH|sv e o sv1 items sv2 St H IH]; intros N G.
  - exact G.
  - apply IH; [intros e J; apply (N e); now right|]. exact (@visit_grown _ _ _ _ _ _ _ _ _ V G).
  - exfalso. apply (N e). now left.
Qed.
End Secrets.
