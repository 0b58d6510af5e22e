(** Proofs for C123. *)
From Verif Require Import Prelude PreludeFacts BytesModel BytesProofs PassModel PricingModel PricingSpec ContainerModel ContainerProofs TahoeModel
  ServerModel ServerSpec ServerProofs ServerStateProofs ServerRequestProofs ClientProofs ServerProperties LeaseServerProofs BoughtSpec.
Set Implicit Arguments.

(** ** Where leases come from *)

Lemma month_after_eq now : month_after now = Z.quot (now + RENEWAL_SECONDS * hz) hz.
Proof. reflexivity. Qed.

Lemma renew_lease_new renew e ls : forall ls' l, renew_lease renew e ls = Some (Ok ls') -> In l ls' ->
  In l ls \/ (l_renew l = renew /\ l_expiration l = Z.quot e hz).
Proof.
  induction ls as [|x ls IH]; intros ls' l; cbn; [discriminate|].
  destruct (bytes_eqb_spec (l_renew x) renew) as [E|N].
  - destruct (e >? _); [|intros [= <-]; auto]. destruct (packable _); [|discriminate].
    intros [= <-] [<-|I]; [right; auto|left; right; exact I].
  - destruct (renew_lease renew e ls) as [[more|]|] eqn:R; cbn; try discriminate.
    intros [= <-] [<-|I]; [left; left; reflexivity|]. destruct (IH _ _ eq_refl I); auto.
Qed.

Lemma add_or_renew_new space owner renew cancel e s s' l :
  add_or_renew_lease space owner renew cancel e s = Ok s' -> In l (s_leases s') ->
  In l (s_leases s) \/ (l_renew l = renew /\ l_expiration l = Z.quot e hz).
Proof.
  unfold add_or_renew_lease. destruct (renew_lease renew e (s_leases s)) as [[ls|x]|] eqn:R; cbn; [|discriminate|].
  - intros [= <-]. cbn. apply (renew_lease_new _ _ _ _ R).
  - destruct space; cbn; [|discriminate]. destruct (_ && _); [|discriminate]. intros [= <-]. cbn. intros I.
    apply in_app_or in I as [I|[<-|[]]]; auto.
Qed.

Lemma renew_lease_grants renew e ls : forall ls', renew_lease renew e ls = Some (Ok ls') ->
  exists l, In l ls' /\ l_renew l = renew /\ Z.quot e hz <= l_expiration l.
Proof.
  induction ls as [|x ls IH]; intros ls'; cbn; [discriminate|].
  destruct (bytes_eqb_spec (l_renew x) renew) as [E|N].
  - destruct (Z.gtb_spec e (l_expiration x * hz)) as [G|G].
    + destruct (packable _); [|discriminate]. intros [= <-]. eexists. split; [left; reflexivity|]. cbn. split; [exact E|lia].
    + intros [= <-]. exists x. split; [left; reflexivity|]. split; [exact E|].
      rewrite <- (Z.quot_mul (l_expiration x) hz) by discriminate. apply Z.quot_le_mono; [reflexivity|exact G].
  - destruct (renew_lease renew e ls) as [[more|]|] eqn:R; cbn; try discriminate.
    intros [= <-]. destruct (IH _ eq_refl) as (l & I & H). exists l. split; [right; exact I|exact H].
Qed.

Lemma add_or_renew_grants space owner renew cancel e s s' :
  add_or_renew_lease space owner renew cancel e s = Ok s' -> leased renew (Z.quot e hz) s'.
Proof.
  unfold add_or_renew_lease. destruct (renew_lease renew e (s_leases s)) as [[ls|x]|] eqn:R; cbn; [|discriminate|].
  - intros [= <-]. exact (renew_lease_grants _ _ _ R).
  - destruct space; cbn; [|discriminate]. destruct (_ && _); [|discriminate]. intros [= <-]. cbn.
    eexists. split; [apply in_or_app; right; left; reflexivity|]. cbn. split; [reflexivity|lia].
Qed.

Lemma add_lease_loop_new room renew cancel e d : forall r d' n s', add_lease_loop room renew cancel e d = (r, d') -> In (n, s') d' ->
  exists s, In (n, s) d /\ s_container s' = s_container s /\ s_data s' = s_data s /\
    forall l, In l (s_leases s') -> In l (s_leases s) \/ (l_renew l = renew /\ l_expiration l = Z.quot e hz).
Proof.
  induction d as [|[m t] d IH]; intros r d' n s'; cbn; [intros [= <- <-] []|].
  destruct (add_or_renew_lease (room m) 1 renew cancel e t) as [t'|x] eqn:A.
  - destruct (add_lease_loop room renew cancel e d) as [r1 d1] eqn:L. intros [= <- <-] [E|I].
    + injection E as <- <-. exists t. split; [left; reflexivity|]. pose proof (@add_or_renew_spec _ _ _ _ _ _ _ A) as (C & D & _).
      split; [exact C|]. split; [exact D|]. intros l. apply (@add_or_renew_new _ _ _ _ _ _ _ l A).
    + destruct (IH _ _ _ _ eq_refl I) as (s & J & H). exists s. split; [right; exact J|exact H].
  - intros [= <- <-] I. exists s'. split; [exact I|]. auto.
Qed.

Lemma add_lease_loop_grants room renew cancel e d : forall d', add_lease_loop room renew cancel e d = (Ok tt, d') ->
  forall n s', In (n, s') d' -> leased renew (Z.quot e hz) s'.
Proof.
  induction d as [|[m s] d IH]; intros d'; cbn; [intros [= <-] n s' []|].
  destruct (add_or_renew_lease (room m) 1 renew cancel e s) as [s2|t] eqn:A; [|discriminate].
  destruct (add_lease_loop room renew cancel e d) as [r d2] eqn:L. intros [= -> <-] n s' [E|I].
  - injection E as <- <-. exact (@add_or_renew_grants _ _ _ _ _ _ _ A).
  - exact (IH _ eq_refl _ _ I).
Qed.

Lemma add_leases_loop_new room renew cancel tw now d : forall r d' n s', add_leases_loop room renew cancel tw now d = (r, d') -> In (n, s') d' ->
  exists s, In (n, s) d /\ s_container s' = s_container s /\ s_data s' = s_data s /\
    forall l, In l (s_leases s') -> In l (s_leases s) \/
      (l_renew l = renew /\ l_expiration l = month_after now /\ exists w, dget n tw = Some w /\ is_write w = true).
Proof.
  induction d as [|[m t] d IH]; intros r d' n s'; cbn -[is_write]; [intros [= <- <-] []|].
  set (one := match dget m tw with None => _ | Some v => _ end).
  assert (One : forall r1 t', one = (r1, t') -> s_container t' = s_container t /\ s_data t' = s_data t /\
    forall l, In l (s_leases t') -> In l (s_leases t) \/
      (l_renew l = renew /\ l_expiration l = month_after now /\ exists w, dget m tw = Some w /\ is_write w = true)).
  { unfold one. intros r1 t'. destruct (dget m tw) as [w|]; [|intros [= <- <-]; auto].
    destruct (is_write w) eqn:Iw; [|intros [= <- <-]; auto]. destruct (existsb _ _); [intros [= <- <-]; auto|].
    destruct (add_or_renew_lease _ _ _ _ _ _) as [t2|x] eqn:A; intros [= <- <-]; [|auto].
    pose proof (@add_or_renew_spec _ _ _ _ _ _ _ A) as (C & D & _). split; [exact C|]. split; [exact D|].
    intros l I. destruct (@add_or_renew_new _ _ _ _ _ _ _ _ A I) as [J|[J1 J2]]; [auto|right]. split; [exact J1|]. split; [exact J2|]. eauto. }
  destruct one as [r1 t'] eqn:Eone. specialize (One _ _ eq_refl). destruct r1 as [u|x].
  - destruct (add_leases_loop room renew cancel tw now d) as [r2 d2] eqn:L. intros [= <- <-] [E|I].
    + injection E as <- <-. exists t. split; [left; reflexivity|exact One].
    + destruct (IH _ _ _ _ eq_refl I) as (s & J & H). exists s. split; [right; exact J|exact H].
  - intros [= <- <-] [E|I].
    + injection E as <- <-. exists t. split; [left; reflexivity|exact One].
    + exists s'. split; [right; exact I|]. auto.
Qed.

Lemma stays_leased renew t s s' : leases_kept (s_leases s) (s_leases s') -> leased renew t s -> leased renew t s'.
Proof.
  intros K (l & I & E & L). apply In_nth_error in I as [i I]. destruct (K _ _ I) as (l' & I' & E' & _ & L').
  exists l'. split; [eapply nth_error_In; eassumption|]. split; [congruence|lia].
Qed.

Section Server.
Variable signed : bytes -> bytes -> bytes -> bool.
Variables pv iv mv : Z.
Notation serve := (serve signed pv mv).
Notation step := (server_step signed pv iv mv).
Notation srun := (server_run signed pv iv mv).

Definition given (now : Z) (q : request) (st : storage) (si : bytes) (n : Z) (l : lease) : Prop :=
  index_of q = si /\ asks_for st q n /\ l_renew l = renew_secret q /\ l_expiration l = month_after now.

Lemma serve_dirs_new now room passes q sv r sv' si n s' :
  proper q -> dict_wf (dirs (sv_storage sv) si) ->
  serve now room passes q sv = (r, sv') -> In (n, s') (dirs (sv_storage sv') si) ->
  (forall l, In l (s_leases s') -> given now q (sv_storage sv) si n l \/
     exists s, In (n, s) (dirs (sv_storage sv) si) /\ In l (s_leases s)) /\
  (forall v, s_container s' = CImmutable v ->
     exists s v', In (n, s) (dirs (sv_storage sv) si) /\ s_container s = CImmutable v' /\ s_data s' = s_data s).
Proof.
  intros P W S I.
  assert (Same : In (n, s') (dirs (sv_storage sv) si) ->
    (forall l, In l (s_leases s') -> given now q (sv_storage sv) si n l \/
       exists s, In (n, s) (dirs (sv_storage sv) si) /\ In l (s_leases s)) /\
    (forall v, s_container s' = CImmutable v ->
       exists s v', In (n, s) (dirs (sv_storage sv) si) /\ s_container s = CImmutable v' /\ s_data s' = s_data s)).
  { intros J. split; [intros l K; right; eauto|]. intros v C. exists s', v. auto. }
  destruct (serve_effect _ _ _ _ _ _ _ _ S) as [[-> _]|(_ & Ef & _)]; [now apply Same|].
  destruct Ef as [si0 renew cancel nums sz st' D _|si0 renew cancel r1 d' L|si0 we renew cancel tw rv st' r1 d1 F C Inc O Ev Al].
  - rewrite D in I. now apply Same.
  - destruct (bytes_eqb_spec si0 si) as [->|N]; [|rewrite set_dir_other in I by congruence; now apply Same].
    rewrite set_dir_same in I. destruct (@add_lease_loop_new _ _ _ _ _ _ _ _ _ L I) as (s & J & Hc & Hd & Hl). split.
    + intros l K. destruct (Hl _ K) as [K1|[K1 K2]]; [right; eauto|left]. split; [reflexivity|]. split; [|split; [exact K1|exact K2]].
      cbn. unfold dkeys. change n with (fst (n, s)). now apply in_map.
    + intros v X. exists s, v. split; [exact J|]. split; [congruence|exact Hd].
  - destruct (bytes_eqb_spec si0 si) as [->|N]; [|rewrite O in I by congruence; now apply Same].
    pose proof (collect_mutable_Ok _ _ C) as Cm.
    assert (H1 : forall s1, In (n, s1) d1 -> (forall l, In l (s_leases s1) -> exists s, In (n, s) (dirs (sv_storage sv) si) /\ In l (s_leases s)) /\
                 exists v w, s_container s1 = CMutable v w).
    { intros s1 J. destruct Ev as [[Ev _]|(_ & -> & _)].
      - apply evaluate_write_spec in Ev; try assumption. destruct Ev as [W1 H1]. specialize (H1 n).
        rewrite (dget_In_wf _ _ W1 J) in H1. destruct (dget n (dirs (sv_storage sv) si)) as [s|] eqn:Dn.
        + apply dget_Some_In in Dn. destruct H1 as (Hc & Hl & _). rewrite Hl, Hc. split; [eauto|]. destruct (Cm _ _ Dn) as [v X]. eauto.
        + destruct H1 as (Hc & Hl & _). rewrite Hl. split; [intros l []|eauto].
      - split; [eauto|]. destruct (Cm _ _ J) as [v X]. eauto. }
    assert (T : forall w, dget n tw = Some w -> is_write w = true -> tw_data w <> []).
    { intros w Dw Iw. unfold is_write in Iw. rewrite (proj1 (first_new_length_None tw) F _ _ (dget_Some_In _ _ Dw)) in Iw.
      intros X. rewrite X in Iw. discriminate. }
    destruct Al as [[E _]|(r2 & Al & _)].
    + rewrite E in I. destruct (H1 _ I) as [Hl (v & w & Hc)]. split; [auto|]. congruence.
    + destruct (@add_leases_loop_new _ _ _ _ _ _ _ _ _ _ Al I) as (s1 & J & Hc & Hd & Hl). destruct (H1 _ J) as [Kl (v & w & Kc)]. split; [|congruence].
      intros l K. destruct (Hl _ K) as [K1|(K1 & K2 & w' & K3 & K4)]; [right; auto|left].
      split; [reflexivity|]. split; [|split; [exact K1|exact K2]]. cbn. exists w'. split; [apply dget_Some_In, K3|eauto].
Qed.

Lemma serve_incoming_new now room passes q sv r sv' u :
  serve now room passes q sv = (r, sv') -> In u (incoming (sv_storage sv')) ->
  In u (incoming (sv_storage sv)) \/
  exists renew cancel nums, q = Allocate (up_si u) renew cancel nums (up_size u) /\ In (up_num u) nums /\
    l_renew (up_lease u) = renew /\ l_expiration (up_lease u) = month_after now.
Proof.
  intros S I. destruct q as [si renew cancel nums sz|si renew cancel|si we renew cancel tw rv].
  - revert S I. cbn. unfold remote_allocate_buckets. destruct (validate_passes _ _ _); [|intros [= _ <-]; auto].
    destruct (check_pass_quantity_for_write _ _ _ _); [|intros [= _ <-]; auto].
    destruct (tahoe_allocate_buckets room now si renew cancel nums sz (sv_storage sv)) as [r1 st] eqn:T.
    assert (H : In u (incoming st) -> In u (incoming (sv_storage sv)) \/
       exists renew0 cancel0 nums0, Allocate si renew cancel nums sz = Allocate (up_si u) renew0 cancel0 nums0 (up_size u) /\ In (up_num u) nums0 /\
         l_renew (up_lease u) = renew0 /\ l_expiration (up_lease u) = month_after now).
    { unfold tahoe_allocate_buckets in T. destruct (existsb _ _); [injection T as _ <-; auto|].
      destruct (_ && _); [injection T as _ <-; auto|].
      injection T as _ <-. cbn. intros I. apply in_app_or in I as [I|I]; [auto|right].
      apply in_map_iff in I as (n & <- & I). cbn. apply filter_In in I as [I _]. exists renew, cancel, nums. auto. }
    destruct r1 as [[x y]|e]; [destruct (required_passes _ _)|]; intros [= _ <-]; exact H.
  - destruct (serve_effect _ _ _ _ _ _ _ _ S) as [[-> _]|(_ & Ef & _)]; [auto|].
    destruct (storage_effect_incoming _ Ef I) as [J|[X _]]; [auto|discriminate].
  - destruct (serve_effect _ _ _ _ _ _ _ _ S) as [[-> _]|(_ & Ef & _)]; [auto|].
    destruct (storage_effect_incoming _ Ef I) as [J|[X _]]; [auto|discriminate].
Qed.

(** ** Histories *)

Lemma run_app es1 : forall es2 sv, srun sv (es1 ++ es2) =
  let '(os1, sv1) := srun sv es1 in let '(os2, sv2) := srun sv1 es2 in (os1 ++ os2, sv2).
Proof.
  induction es1 as [|e es1 IH]; intros es2 sv; cbn [app server_run].
  - destruct (srun sv es2). reflexivity.
  - destruct (step sv e) as [o sv1]. rewrite IH. destruct (srun sv1 es1) as [os1 sv2]. destruct (srun sv2 es2). reflexivity.
Qed.

Notation lease_bought := (lease_bought signed pv iv mv).
Notation space_bought := (space_bought signed pv iv mv).

Lemma lease_bought_more es e si n l : lease_bought es si n l -> lease_bought (es ++ e) si n l.
Proof.
  intros (es1 & now & room & passes & q & es2 & os1 & sv1 & -> & H). exists es1, now, room, passes, q, (es2 ++ e), os1, sv1.
  split; [|exact H]. rewrite <- app_assoc. reflexivity.
Qed.
Lemma space_bought_more es e si n sz : space_bought es si n sz -> space_bought (es ++ e) si n sz.
Proof.
  intros (es1 & now & room & passes & a & b & c & es2 & os1 & sv1 & -> & H). exists es1, now, room, passes, a, b, c, (es2 ++ e), os1, sv1.
  split; [|exact H]. rewrite <- app_assoc. reflexivity.
Qed.

(** Everything that is stored or being uploaded was bought. *)
Definition accounted (es : list event) (st : storage) : Prop :=
  (forall si n s, In (n, s) (dirs st si) ->
     (forall l, In l (s_leases s) -> lease_bought es si n l) /\
     (forall v, s_container s = CImmutable v -> space_bought es si n (data_size s))) /\
  (forall u, In u (incoming st) ->
     lease_bought es (up_si u) (up_num u) (up_lease u) /\ space_bought es (up_si u) (up_num u) (up_size u) /\ 0 <= up_size u).

Lemma accounted_more es e st : accounted es st -> accounted (es ++ e) st.
Proof.
  intros [A B]. split.
  - intros si n s I. destruct (A _ _ _ I) as [A1 A2]. split.
    + intros l J. apply lease_bought_more. auto.
    + intros v J. apply space_bought_more. eauto.
  - intros u I. destruct (B _ I) as (B1 & B2 & B3). split; [apply lease_bought_more, B1|]. split; [apply space_bought_more, B2|exact B3].
Qed.

Lemma step_accounted mut es os sv e o sv' : 0 < pv -> iv = 1 \/ iv = 2 -> mv = 1 \/ mv = 2 ->
  Forall proper_event es -> Forall (separate mut) es -> srun empty_server es = (os, sv) -> proper_event e ->
  accounted es (sv_storage sv) -> step sv e = (o, sv') -> accounted (es ++ [e]) (sv_storage sv').
Proof.
  intros Hp Hi Hm P Q R Pe A S.
  assert (Re : reachable_server signed pv iv mv mut sv).
  { split; [exact Hi|]. split; [exact Hm|]. exists es, os. auto. }
  pose proof (@reachable_wf _ _ _ _ _ _ Re) as W.
  destruct e as [now room passes q|si n content|si n|si n]; cbn in S.
  - destruct (serve now room passes q sv) as [r sv1] eqn:E. injection S as <- <-.
    destruct (@no_effect_without_passes signed pv mv now room passes q sv r sv1 Hp (W _) Pe (fun _ => @reachable_homogeneous _ _ _ _ _ _ (index_of q) Re) E) as [->|Pd].
    { now apply accounted_more. }
    apply (accounted_more [ERequest now room passes q]) in A. destruct A as [A B].
    assert (G : forall si n l, given now q (sv_storage sv) si n l -> lease_bought (es ++ [ERequest now room passes q]) si n l).
    { intros si n l (G1 & G2 & G3 & G4). exists es, now, room, passes, q, [], os, sv. repeat (split; [first [reflexivity|assumption]|]). exact Pd. }
    split.
    + intros si n s' I. destruct (@serve_dirs_new _ _ _ _ _ _ _ _ _ _ Pe (proj1 (W si)) E I) as [H1 H2]. split.
      * intros l J. destruct (H1 _ J) as [K|(s & K1 & K2)]; [now apply G|]. now apply (A _ _ _ K1).
      * intros v C. destruct (H2 _ C) as (s & v' & K1 & K2 & K3). unfold data_size. rewrite K3. exact (proj2 (A _ _ _ K1) _ K2).
    + intros u I. destruct (@serve_incoming_new _ _ _ _ _ _ _ _ E I) as [J|(renew & cancel & nums & -> & J1 & J2 & J3)]; [now apply B|].
      split; [|split].
      * apply G. split; [reflexivity|]. split; [exact J1|]. split; [exact J2|exact J3].
      * exists es, now, room, passes, renew, cancel, nums, [], os, sv. repeat (split; [first [reflexivity|assumption]|]). exact Pd.
      * exact (proj2 Pe).
  - injection S as <- <-. apply (accounted_more [EClose si n content]) in A. destruct A as [A B]. cbn [sv_storage with_storage]. unfold close_bucket.
    destruct (find _ _) as [u|] eqn:Fi; [|split; assumption]. apply find_some in Fi as [Iu Eu].
    apply andb_true_iff in Eu as [E1 E2]. apply Z.eqb_eq in E2. destruct (bytes_eqb_spec (up_si u) si) as [Es|]; [|discriminate].
    destruct (B _ Iu) as (B1 & B2 & B3). split.
    + intros si' m s' I. destruct (bytes_eqb_spec si si') as [<-|N]; [|rewrite set_dir_other in I by congruence; exact (A _ _ _ I)].
      rewrite set_dir_same in I. cbn [dirs drop_incoming] in I. apply (dget_In_wf _ _ (dset_wf _ _ (proj1 (W si)))) in I. rewrite dget_dset in I.
      destruct (Z.eqb_spec m n) as [->|Nm]; [|apply dget_Some_In in I; exact (A _ _ _ I)]. injection I as <-. cbn. split.
      * intros l [<-|[]]. rewrite Es, E2 in B1. exact B1.
      * intros v _. unfold data_size. cbn. rewrite pack_s_length, Z2Nat.id by exact B3. rewrite Es, E2 in B2. exact B2.
    + intros u' I. cbn in I. apply filter_In in I as [I _]. now apply B.
  - injection S as <- <-. apply (accounted_more [EAbort si n]) in A. destruct A as [A B]. split; [exact A|].
    intros u I. cbn in I. apply filter_In in I as [I _]. now apply B.
  - injection S as <- <-. apply (accounted_more [EDelete si n]) in A. destruct A as [A B]. split; [|exact B].
    intros si' m s I. cbn [sv_storage with_storage] in I. unfold delete_share in I.
    destruct (bytes_eqb_spec si si') as [<-|N]; [|rewrite set_dir_other in I by congruence; exact (A _ _ _ I)].
    rewrite set_dir_same in I. apply filter_In in I as [I _]. exact (A _ _ _ I).
Qed.

Lemma run_accounted mut es os sv : 0 < pv -> iv = 1 \/ iv = 2 -> mv = 1 \/ mv = 2 ->
  Forall proper_event es -> Forall (separate mut) es -> srun empty_server es = (os, sv) -> accounted es (sv_storage sv).
Proof.
  intros Hp Hi Hm. revert os sv. induction es as [|e es IH] using rev_ind; intros os sv P Q R.
  - injection R as <- <-. split; [intros si n s []|intros u []].
  - rewrite run_app in R. destruct (srun empty_server es) as [os1 sv1] eqn:R1. cbn in R. destruct (step sv1 e) as [o sv2] eqn:S.
    injection R as <- <-. apply Forall_app in P as [P1 P2], Q as [Q1 Q2]. inversion P2; subst.
    refine (@step_accounted mut es os1 sv1 e o sv2 Hp Hi Hm P1 Q1 R1 _ (IH _ _ P1 Q1 eq_refl) S). assumption.
Qed.

(** ** What is bought is given and kept *)

Lemma reachable_step mut sv e o sv' : reachable_server signed pv iv mv mut sv -> proper_event e -> separate mut e ->
  step sv e = (o, sv') -> reachable_server signed pv iv mv mut sv'.
Proof.
  intros (Hi & Hm & es & os & P & Q & R) Pe Qe S. split; [exact Hi|]. split; [exact Hm|]. exists (es ++ [e]), (os ++ [o]).
  split; [apply Forall_app; auto|]. split; [apply Forall_app; auto|]. rewrite run_app, R. cbn. rewrite S. reflexivity.
Qed.

Lemma reachable_run mut es : forall sv os sv', reachable_server signed pv iv mv mut sv -> Forall proper_event es -> Forall (separate mut) es ->
  srun sv es = (os, sv') -> reachable_server signed pv iv mv mut sv'.
Proof.
  induction es as [|e es IH]; intros sv os sv' Re P Q R; cbn in R; [injection R as <- <-; exact Re|].
  destruct (step sv e) as [o sv1] eqn:S. destruct (srun sv1 es) as [os1 sv2] eqn:R1. injection R as <- <-.
  inversion P; subst. inversion Q; subst. eapply IH; [|eassumption..]. eapply reachable_step; eassumption.
Qed.

Lemma run_keeps mut es : forall sv os sv' si n s, reachable_server signed pv iv mv mut sv -> Forall proper_event es -> Forall (separate mut) es ->
  ~ In (EDelete si n) es -> srun sv es = (os, sv') -> In (n, s) (dirs (sv_storage sv) si) ->
  exists s', In (n, s') (dirs (sv_storage sv') si) /\ leases_kept (s_leases s) (s_leases s').
Proof.
  induction es as [|e es IH]; intros sv os sv' si n s Re P Q Nd R I; cbn in R; [injection R as <- <-; exists s; split; [exact I|apply leases_kept_refl]|].
  destruct (step sv e) as [o sv1] eqn:S. destruct (srun sv1 es) as [os1 sv2] eqn:R1. injection R as <- <-.
  inversion P as [|? ? P1 P2]; subst. inversion Q as [|? ? Q1 Q2]; subst.
  destruct (@step_keeps signed pv iv mv _ _ _ _ _ _ _ _ Re P1 (fun X => Nd (or_introl X)) S I) as (s1 & I1 & K1).
  destruct (IH _ _ _ _ _ _ (@reachable_step _ _ _ _ _ Re P1 Q1 S) P2 Q2 (fun X => Nd (or_intror X)) R1 I1) as (s2 & I2 & K2).
  exists s2. split; [exact I2|]. eapply leases_kept_trans; eassumption.
Qed.

Lemma add_lease_grants now room passes si renew cancel sv b sv' n s' :
  serve now room passes (AddLease si renew cancel) sv = (Ok b, sv') ->
  In (n, s') (dirs (sv_storage sv') si) -> leased renew (month_after now) s'.
Proof.
  cbn. unfold remote_add_lease. destruct (validate_passes _ _ _); [|discriminate].
  destruct (check_pass_quantity_for_lease _ _ _); [|discriminate]. unfold tahoe_add_lease.
  destruct (add_lease_loop _ _ _ _ _) as [[[]|e] d'] eqn:L; [|discriminate]. intros [= <- <-].
  cbn [sv_storage observe mark_as_spent with_storage]. rewrite set_dir_same. intros I.
  exact (@add_lease_loop_grants _ _ _ _ _ _ L _ _ I).
Qed.

(** Uploads in progress are not disturbed. *)
Definition uploading (st : storage) (si : bytes) (n sz : Z) (renew : bytes) (until : Z) : Prop :=
  exists u, find (fun u => bytes_eqb (up_si u) si && (up_num u =? n)) (incoming st) = Some u /\
    up_size u = sz /\ l_renew (up_lease u) = renew /\ l_expiration (up_lease u) = until.

Lemma find_app A (f : A -> bool) l l' : find f (l ++ l') = match find f l with Some x => Some x | None => find f l' end.
Proof. induction l as [|x l IH]; cbn; [reflexivity|]. destruct (f x); auto. Qed.

Lemma find_filter A (f g : A -> bool) l : (forall x, f x = true -> g x = true) -> find f (filter g l) = find f l.
Proof.
  intros H. induction l as [|x l IH]; cbn; [reflexivity|]. destruct (f x) eqn:E.
  - rewrite (H _ E). cbn. rewrite E. reflexivity.
  - destruct (g x); cbn; rewrite ?E; exact IH.
Qed.

Lemma serve_incoming_app now room passes q sv r sv' :
  serve now room passes q sv = (r, sv') -> exists more, incoming (sv_storage sv') = incoming (sv_storage sv) ++ more.
Proof.
  assert (Z0 : forall l : list upload, exists more, l = l ++ more) by (intros l; exists []; now rewrite app_nil_r).
  intros S. destruct q as [si renew cancel nums sz|si renew cancel|si we renew cancel tw rv].
  - revert S. cbn. unfold remote_allocate_buckets. destruct (validate_passes _ _ _); [|intros [= _ <-]; auto].
    destruct (check_pass_quantity_for_write _ _ _ _); [|intros [= _ <-]; auto].
    destruct (tahoe_allocate_buckets room now si renew cancel nums sz (sv_storage sv)) as [r1 st] eqn:T.
    assert (H : exists more, incoming st = incoming (sv_storage sv) ++ more).
    { unfold tahoe_allocate_buckets in T. destruct (existsb _ _); [injection T as _ <-; auto|].
      destruct (_ && _); [injection T as _ <-; auto|]. injection T as _ <-. cbn. eauto. }
    destruct r1 as [[x y]|e]; [destruct (required_passes _ _)|]; intros [= _ <-]; exact H.
  - destruct (serve_effect _ _ _ _ _ _ _ _ S) as [[-> _]|(_ & Ef & _)]; [auto|]. inversion Ef; subst. cbn. auto.
  - destruct (serve_effect _ _ _ _ _ _ _ _ S) as [[-> _]|(_ & Ef & _)]; [auto|]. inversion Ef; subst.
    match goal with H : incoming _ = incoming _ |- _ => rewrite H end. auto.
Qed.

Lemma step_uploading sv e o sv' si n sz renew t : (forall c, e <> EClose si n c) -> e <> EAbort si n ->
  step sv e = (o, sv') -> uploading (sv_storage sv) si n sz renew t -> uploading (sv_storage sv') si n sz renew t.
Proof.
  intros Nc Na S (u & Fu & H). exists u. split; [|exact H]. clear H.
  assert (D : forall si0 n0, (si0, n0) <> (si, n) ->
    find (fun u => bytes_eqb (up_si u) si && (up_num u =? n)) (incoming (drop_incoming si0 n0 (sv_storage sv))) = Some u).
  { intros si0 n0 N. cbn. rewrite find_filter; [exact Fu|]. intros x Ex. apply negb_true_iff. apply andb_true_iff in Ex as [E1 E2].
    apply Z.eqb_eq in E2. destruct (bytes_eqb_spec (up_si x) si) as [Es|]; [|discriminate].
    apply andb_false_iff. destruct (bytes_eqb_spec (up_si x) si0); [right|left; reflexivity]. apply Z.eqb_neq. congruence. }
  destruct e as [now room passes q|si0 n0 content|si0 n0|si0 n0]; cbn in S.
  - destruct (serve now room passes q sv) as [r sv1] eqn:E. injection S as <- <-.
    destruct (serve_incoming_app _ _ _ _ _ E) as [more ->]. rewrite find_app, Fu. reflexivity.
  - injection S as <- <-. cbn [sv_storage with_storage]. unfold close_bucket. destruct (find _ (incoming (sv_storage sv))) as [u0|] in |- *; [|exact Fu].
    cbn [incoming set_dir]. apply D. intros [= -> ->]. now apply (Nc content).
  - injection S as <- <-. cbn [sv_storage with_storage]. apply D. congruence.
  - injection S as <- <-. exact Fu.
Qed.

Lemma run_uploading es : forall sv os sv' si n sz renew t, (forall c, ~ In (EClose si n c) es) -> ~ In (EAbort si n) es ->
  srun sv es = (os, sv') -> uploading (sv_storage sv) si n sz renew t -> uploading (sv_storage sv') si n sz renew t.
Proof.
  induction es as [|e es IH]; intros sv os sv' si n sz renew t Nc Na R U; cbn in R; [injection R as <- <-; exact U|].
  destruct (step sv e) as [o sv1] eqn:S. destruct (srun sv1 es) as [os1 sv2] eqn:R1. injection R as <- <-.
  eapply IH; [..|exact R1|].
  - intros c X. apply (Nc c). right. exact X.
  - intros X. apply Na. right. exact X.
  - eapply step_uploading; [..|exact S|exact U].
    + intros c ->. apply (Nc c). left. reflexivity.
    + intros ->. apply Na. left. reflexivity.
Qed.

Lemma allocate_uploading now room passes si renew cancel nums sz sv a b sv' n :
  serve now room passes (Allocate si renew cancel nums sz) sv = (Ok (Allocated a b), sv') -> In n b ->
  uploading (sv_storage sv') si n sz renew (month_after now).
Proof.
  cbn. unfold remote_allocate_buckets. destruct (validate_passes _ _ _); [|discriminate].
  destruct (check_pass_quantity_for_write _ _ _ _); [|discriminate].
  unfold tahoe_allocate_buckets. destruct (existsb _ _) eqn:Ex; [discriminate|]. destruct (_ && _); [discriminate|].
  set (bw := filter _ nums). destruct (required_passes _ _); [|discriminate]. intros [= <- Eb <-] I. fold bw in Eb. subst b.
  cbn [sv_storage observe mark_as_spent with_storage]. unfold uploading. cbn [incoming]. rewrite find_app.
  assert (In0 : is_incoming (sv_storage sv) si n = false).
  { apply filter_In in I as [_ I]. apply andb_true_iff in I as [I _]. apply andb_true_iff in I as [_ I]. now apply negb_true_iff in I. }
  assert (find (fun u => bytes_eqb (up_si u) si && (up_num u =? n)) (incoming (sv_storage sv)) = None) as ->.
  { destruct (find _ _) as [u|] eqn:Fi; [|reflexivity]. apply find_some in Fi. unfold is_incoming in In0.
    rewrite (proj2 (existsb_exists _ _) (ex_intro _ u Fi)) in In0. discriminate. }
  clearbody bw. induction bw as [|m bw IH]; [destruct I|]. cbn [map find up_si up_num]. rewrite bytes_eqb_refl. cbn [andb].
  destruct (Z.eqb_spec m n) as [->|N].
  - eexists. split; [reflexivity|]. cbn. auto.
  - destruct I as [E|I]; [congruence|]. now apply IH.
Qed.

Lemma close_uploading sv o sv' si n content sz renew t : 0 <= sz ->
  uploading (sv_storage sv) si n sz renew t -> step sv (EClose si n content) = (o, sv') ->
  exists s, In (n, s) (dirs (sv_storage sv') si) /\ s_container s = CImmutable iv /\ data_size s = sz /\ leased renew t s /\
    (Z.of_nat (length content) = sz -> s_data s = content).
Proof.
  intros Hs (u & Fu & Esz & Er & Ee) S. cbn in S. injection S as <- <-. cbn [sv_storage with_storage]. unfold close_bucket. rewrite Fu, set_dir_same.
  eexists. split; [|split; [|split; [|split]]].
  - apply dget_Some_In. rewrite dget_dset, Z.eqb_refl. reflexivity.
  - reflexivity.
  - unfold data_size. cbn. rewrite pack_s_length, Esz, Z2Nat.id by exact Hs. reflexivity.
  - exists (up_lease u). cbn. split; [left; reflexivity|]. split; [exact Er|lia].
  - cbn. intros L. rewrite Esz, <- L, Nat2Z.id. unfold pack_s. rewrite firstn_app, firstn_all, Nat.sub_diag. cbn. apply app_nil_r.
Qed.
End Server.
