(** Proofs for C126. *)
From Verif Require Import Prelude PreludeFacts BytesModel BytesProofs PassModel PricingModel PricingSpec PricingProofs ContainerModel ContainerProofs TahoeModel
  ServerModel ServerSpec ServerProofs ServerStateProofs ServerRequestProofs ClientProofs ServerProperties LeaseServerProofs BoughtProofs WireProofs UpkeepProofs PaidForSpec.
Set Implicit Arguments.

Lemma sum_map_add A (f g : A -> Z) l : sumZ (map (fun x => f x + g x) l) = sumZ (map f l) + sumZ (map g l).
Proof. induction l as [|x l IH]; cbn; [reflexivity|]. rewrite IH. lia. Qed.

Section Cost.
Variable pv : Z.
Hypothesis Hv : 0 < pv.

Definition dir_cost (d : dict share) : Z := cost pv (map (fun ns => data_size (snd ns)) d).
Definition uploads_cost (us : list upload) : Z := cost pv (map up_size us).

Lemma held_cost st sis : cost pv (held st sis) = sumZ (map (fun si => dir_cost (dirs st si)) sis) + uploads_cost (incoming st).
Proof.
  unfold held. rewrite cost_app. f_equal. induction sis as [|si sis IH]; [reflexivity|]. cbn [flat_map].
  rewrite cost_app, IH. reflexivity.
Qed.

Lemma sum_update (f f' : bytes -> Z) si0 extra sis : NoDup sis -> 0 <= extra -> (forall si, si <> si0 -> f' si = f si) ->
  f' si0 <= f si0 + extra -> sumZ (map f' sis) <= sumZ (map f sis) + extra.
Proof.
  intros N P O G.
  assert (Out : forall l, ~ In si0 l -> sumZ (map f' l) = sumZ (map f l)).
  { intros l I. apply sumZ_map_ext. intros x J. apply O. intros ->. exact (I J). }
  induction sis as [|si sis IH]; cbn; [lia|]. inversion N as [|? ? I N']; subst.
  destruct (list_eq_dec Byte.byte_eq_dec si si0) as [->|D].
  - rewrite (Out _ I). lia.
  - rewrite (O _ D). specialize (IH N'). lia.
Qed.

Lemma dir_cost_dset n s d : dir_cost (dset n s d) <= dir_cost d + cdiv (data_size s) pv.
Proof.
  unfold dir_cost. induction d as [|[m t] d IH]; cbn; [lia|]. destruct (n =? m); cbn in *; [|lia].
  pose proof (@cdiv_nonneg pv (data_size t) Hv). unfold data_size in *. lia.
Qed.
Lemma dir_cost_filter f d : dir_cost (filter f d) <= dir_cost d.
Proof.
  unfold dir_cost. induction d as [|[m t] d IH]; cbn; [lia|]. pose proof (@cdiv_nonneg pv (data_size t) Hv).
  destruct (f (m, t)); cbn in *; unfold data_size in *; lia.
Qed.
Lemma uploads_cost_filter f us : (forall u, In u us -> 0 <= up_size u) -> uploads_cost (filter f us) <= uploads_cost us.
Proof.
  unfold uploads_cost. induction us as [|u us IH]; cbn; [lia|]. intros P. pose proof (@cdiv_nonneg pv _ Hv (P u (or_introl eq_refl))).
  specialize (IH (fun x J => P x (or_intror J))). destruct (f u); cbn; lia.
Qed.
Lemma uploads_cost_take f us u : (forall u, In u us -> 0 <= up_size u) -> In u us -> f u = false ->
  uploads_cost (filter f us) + cdiv (up_size u) pv <= uploads_cost us.
Proof.
  induction us as [|v us IH]; [intros _ []|]. intros P I F. cbn [filter].
  assert (P' : forall u, In u us -> 0 <= up_size u) by (intros x J; apply P; right; exact J).
  pose proof (@cdiv_nonneg pv _ Hv (P v (or_introl eq_refl))).
  destruct I as [->|I].
  - rewrite F. pose proof (@uploads_cost_filter f us P'). unfold uploads_cost in *. cbn. lia.
  - specialize (IH P' I F). unfold uploads_cost in *. destruct (f v); cbn; lia.
Qed.

(** The sizes of the shares of a directory, 0 for absent ones. *)
Definition sizes (d : dict share) (k : Z) : Z := match dget k d with Some s => data_size s | None => 0 end.
Lemma dir_cost_total d ks : dict_wf d -> NoDup ks -> incl (dkeys d) ks -> dir_cost d = total_price pv ks (sizes d).
Proof.
  intros W N I. unfold dir_cost.
  rewrite <- (@total_price_dict pv ks (map (fun ns => (fst ns, data_size (snd ns))) d) (sizes d) Hv).
  - unfold dvalues. rewrite !map_map. reflexivity.
  - split; [unfold dict_wf; unfold dkeys; rewrite keys_map_snd; exact W|]. intros k. unfold dget_or. rewrite dget_map. unfold sizes. destruct (dget k d); reflexivity.
  - exact N.
  - unfold dkeys at 1. rewrite keys_map_snd. exact I.
Qed.
End Cost.

Section Server.
Variable signed : bytes -> bytes -> bytes -> bool.
Variables pv iv mv : Z.
Hypothesis Hv : 0 < pv.
Notation serve := (serve signed pv mv).
Notation step := (server_step signed pv iv mv).
Notation srun := (server_run signed pv iv mv).
Notation cost_of := (dir_cost pv).

(** What is held is paid for, but for a debt. *)
Definition covered (debt : Z) (sv : server) : Prop :=
  (forall u, In u (incoming (sv_storage sv)) -> 0 <= up_size u) /\
  forall sis, NoDup sis -> cost pv (held (sv_storage sv) sis) <= lenZ (sv_spent sv) + debt.

(** A change of one directory and the uploads that is paid for. *)
Lemma covered_step debt debt' sv sv' si extra : covered debt sv -> 0 <= extra ->
  (forall u, In u (incoming (sv_storage sv')) -> 0 <= up_size u) ->
  (forall si', si' <> si -> dirs (sv_storage sv') si' = dirs (sv_storage sv) si') ->
  cost_of (dirs (sv_storage sv') si) <= cost_of (dirs (sv_storage sv) si) + extra ->
  uploads_cost pv (incoming (sv_storage sv')) + extra + lenZ (sv_spent sv) + debt <= uploads_cost pv (incoming (sv_storage sv)) + lenZ (sv_spent sv') + debt' ->
  covered debt' sv'.
Proof.
  intros [_ C] E P O D U. split; [exact P|]. intros sis N. specialize (C sis N). rewrite held_cost in *.
  pose proof (@sum_update (fun si => cost_of (dirs (sv_storage sv) si)) (fun si => cost_of (dirs (sv_storage sv') si)) si extra sis N E) as H.
  cbv beta in H. specialize (H (fun x Nx => f_equal cost_of (O x Nx)) D). lia.
Qed.

(** What any write can do to the sizes. *)
Definition grows (tw : tw_vectors) (d d' : dict share) : Prop :=
  dict_wf d' /\ (forall k, In k (dkeys d') -> In k (dkeys d) \/ In k (dkeys tw)) /\
  forall k, sizes d' k <= sizes d k \/
    exists w e, dget k tw = Some w /\ tw_new_length w = None /\ write_end (tw_data w) e /\ sizes d' k <= Z.max (sizes d k) e.

Lemma sizes_nonneg d k : 0 <= sizes d k.
Proof. unfold sizes. destruct (dget k d); unfold data_size; lia. Qed.
Lemma grows_refl tw d : dict_wf d -> grows tw d d.
Proof. intros W. split; [exact W|]. split; [auto|]. intros k. left. lia. Qed.

Lemma write_data_bound M dv : (forall o d, In (o, d) dv -> o + Z.of_nat (length d) <= M) -> forall data r data', write_data dv data = (r, data') ->
  Z.of_nat (length data') <= Z.max (Z.of_nat (length data)) M.
Proof.
  induction dv as [|[o d] dv IH]; intros B data r data'; cbn [write_data]; [intros [= _ <-]; lia|].
  destruct (Z.ltb_spec o 0); [intros [= _ <-]; lia|]. destruct (_ >? _); [intros [= _ <-]; lia|].
  intros E. apply IH in E; [|intros o' d' J; apply B; right; exact J]. rewrite write_at_length in E.
  specialize (B o d (or_introl eq_refl)). lia.
Qed.

Lemma evaluate_grows version we tw : forall d r d', dict_wf d -> first_new_length tw = None -> dict_wf tw ->
  evaluate_write_vectors version we tw d = (r, d') -> grows tw d d'.
Proof.
  induction tw as [|[m w] tw IH]; intros d r d' Wd Nl Wt; cbn [evaluate_write_vectors].
  - intros [= _ <-]. apply grows_refl, Wd.
  - cbn in Nl. destruct (tw_new_length w) eqn:Ew; [discriminate|]. inversion Wt as [|? ? Nm Wt']; subst.
    assert (Dm : dget m tw = None) by (apply dget_None; exact Nm).
    set (s := match dget m d with Some s => s | None => _ end).
    assert (Ss : data_size s = sizes d m) by (unfold s, sizes; destruct (dget m d); reflexivity).
    assert (One : forall data, (exists r0, write_data (tw_data w) (s_data s) = (r0, data)) ->
              sizes (dset m (Share (s_container s) data (s_leases s)) d) m <= Z.max (sizes d m) (get_implied_data_length (tw_data w) None)).
    { intros data [r0 E]. unfold sizes at 1. rewrite dget_dset, Z.eqb_refl. unfold data_size. cbn [s_data]. rewrite <- Ss.
      destruct (implied_None_write_end (tw_data w)) as [[X Y]|[_ Y]].
      - rewrite X in E. injection E as _ <-. unfold data_size. lia.
      - exact (@write_data_bound _ _ Y _ _ _ E). }
    assert (Oth : forall data k, k <> m -> sizes (dset m (Share (s_container s) data (s_leases s)) d) k = sizes d k).
    { intros data k N. unfold sizes. rewrite dget_dset. destruct (Z.eqb_spec k m); [contradiction|reflexivity]. }
    assert (Keys : forall data k, In k (dkeys (dset m (Share (s_container s) data (s_leases s)) d)) -> In k (dkeys d) \/ k = m).
    { intros data k J. destruct (Z.eq_dec k m) as [->|N]; [auto|left]. destruct (dget k d) as [t|] eqn:D.
      - apply dget_Some_In in D. apply in_map_iff. exists (k, t). auto.
      - exfalso. apply (proj1 (@dget_None _ k (dset m (Share (s_container s) data (s_leases s)) d))); [|exact J].
        rewrite dget_dset. destruct (Z.eqb_spec k m); [contradiction|exact D]. }
    destruct (write_data (tw_data w) (s_data s)) as [[u|x] data] eqn:E; specialize (One data (ex_intro _ _ eq_refl)); specialize (Oth data); specialize (Keys data).
    + cbn [truncate]. intros H. specialize (IH _ _ _ (dset_wf m (Share (s_container s) data (s_leases s)) Wd) Nl Wt' H).
      destruct IH as (W' & K & G). split; [exact W'|]. split.
      * intros k J. destruct (K k J) as [J'|J']; [destruct (Keys k J') as [L| ->]; [auto|right; left; reflexivity]|right; right; exact J'].
      * intros k. cbn [dget]. destruct (Z.eqb_spec k m) as [->|N].
        -- right. exists w, (get_implied_data_length (tw_data w) None). split; [reflexivity|]. split; [exact Ew|]. split; [apply implied_None_write_end|].
           destruct (G m) as [G'|(w' & e & X & _)]; [lia|congruence].
        -- specialize (G k). rewrite (Oth k N) in G. exact G.
    + intros [= _ <-]. split; [apply dset_wf, Wd|]. split.
      * intros k J. destruct (Keys k J) as [L| ->]; [auto|right; left; reflexivity].
      * intros k. cbn [dget]. destruct (Z.eqb_spec k m) as [->|N].
        -- right. exists w, (get_implied_data_length (tw_data w) None). split; [reflexivity|]. split; [exact Ew|]. split; [apply implied_None_write_end|exact One].
        -- left. rewrite (Oth k N). lia.
Qed.

Lemma serve_grows mut now room passes si we renew cancel tw rv sv r sv' : reachable_server signed pv iv mv mut sv -> dict_wf tw ->
  serve now room passes (Writev si we renew cancel tw rv) sv = (r, sv') ->
  incoming (sv_storage sv') = incoming (sv_storage sv) /\
  (forall si', si' <> si -> dirs (sv_storage sv') si' = dirs (sv_storage sv) si') /\
  grows tw (dirs (sv_storage sv) si) (dirs (sv_storage sv') si).
Proof.
  intros Re P S. pose proof (proj1 (@reachable_wf _ _ _ _ _ _ Re si)) as W.
  destruct (serve_effect _ _ _ _ _ _ _ _ S) as [[-> _]|(_ & Ef & _)]; [split; [reflexivity|]; split; [reflexivity|apply grows_refl, W]|].
  inversion Ef as [| |si0 we0 renew0 cancel0 tw0 rv0 st' r1 d1 F C Inc O Ev Al]; subst. split; [exact Inc|]. split; [exact O|].
  assert (G : grows tw (dirs (sv_storage sv) si) d1).
  { destruct Ev as [[Ev _]|(_ & -> & _)]; [exact (@evaluate_grows _ _ _ _ _ _ W F P Ev)|apply grows_refl, W]. }
  destruct Al as [[-> _]|(r2 & Al & _)]; [exact G|]. apply add_leases_loop_spec in Al as [K H]. destruct G as (W1 & K1 & G).
  assert (Sz : forall k, sizes (dirs (sv_storage sv') si) k = sizes d1 k).
  { intros k. unfold sizes. specialize (H k). destruct (dget k d1), (dget k (dirs (sv_storage sv') si)); try contradiction; [|reflexivity].
    destruct H as ((_ & Hd & _) & _). unfold data_size. rewrite Hd. reflexivity. }
  split; [eapply dkeys_wf; eassumption|]. split; [rewrite K; exact K1|]. intros k. rewrite Sz. apply G.
Qed.

(** What a write is charged pays for what it adds. *)
Lemma grows_cost st now si we renew cancel tw rv n d' : dict_wf (dirs st si) -> price pv st now (Writev si we renew cancel tw rv) n ->
  grows tw (dirs st si) d' -> 0 <= n /\ cost_of d' <= cost_of (dirs st si) + n.
Proof.
  intros W (f & g & ks & F & G & N & I1 & I2 & En) (W' & K & H). split.
  - rewrite En. unfold total_price. rewrite <- sumZ_map_sub. apply sumZ_nonneg. intros y J. apply in_map_iff in J as (k & <- & _).
    pose proof (@cdiv_mono pv (f k) (g k) Hv (@written_ge _ _ _ k G)). lia.
  - assert (I3 : incl (dkeys d') ks) by (intros k J; destruct (K k J); auto).
    rewrite (@dir_cost_total pv Hv _ ks W' N I3), (@dir_cost_total pv Hv _ ks W N I1), En.
    unfold total_price. rewrite <- sumZ_map_sub.
    enough (sumZ (map (fun k => cdiv (sizes d' k) pv) ks) <=
            sumZ (map (fun k => cdiv (sizes (dirs st si) k) pv + (cdiv (g k) pv - cdiv (f k) pv)) ks)) as X
      by (rewrite sum_map_add in X; exact X).
    apply sumZ_le. intros k _. specialize (H k). specialize (G k). set (d := dirs st si) in *.
    assert (Fk : f k = sizes d k \/ f k = 0).
    { unfold sizes. destruct (F k) as [(s & J & _ & ->)|[_ ->]]; [left|right; reflexivity]. now rewrite (dget_In_wf _ _ W J). }
    assert (Ge : f k <= g k) by (apply size_after_after in G; rewrite G; destruct (dget k tw); cbn; lia).
    pose proof (@cdiv_mono pv _ _ Hv Ge) as Gc. pose proof (sizes_nonneg d k) as S0. pose proof (@cdiv_nonneg pv _ Hv S0) as C0.
    destruct H as [H|(w & e & T & Nl & We & H)]; [pose proof (@cdiv_mono pv _ _ Hv H); lia|].
    rewrite T in G. cbn [size_after] in G. destruct G as (e' & We' & G). rewrite Nl in G.
    rewrite (PricingProofs.write_end_unique We' We) in G. apply (@cdiv_mono pv _ _ Hv) in H.
    destruct Fk as [Fk|Fk]; rewrite Fk in *; rewrite G in *; [lia|]. rewrite cdiv_0 in * by exact Hv.
    destruct (Z.max_spec (sizes d k) e) as [[_ X]|[_ X]]; rewrite X in H.
    + pose proof (@cdiv_mono pv e (Z.max 0 e) Hv ltac:(lia)). lia.
    + lia.
Qed.

Lemma lenZ_app A (a b : list A) : lenZ (a ++ b) = lenZ a + lenZ b.
Proof. unfold lenZ. rewrite app_length. lia. Qed.

Lemma serve_covered mut debt now room passes q sv r sv' : reachable_server signed pv iv mv mut sv -> proper q ->
  serve now room passes q sv = (r, sv') -> ~ abandoned_write (ERequest now room passes q) (Some r) -> covered debt sv -> covered debt sv'.
Proof.
  intros Re P S A C. pose proof (proj1 Re) as Hi. pose proof (proj1 (proj2 Re)) as Hm.
  pose proof (@reachable_wf _ _ _ _ _ _ Re) as W.
  destruct q as [si renew cancel nums sz|si renew cancel|si we renew cancel tw rv].
  - destruct P as [Nd Sz]. cbn in S. unfold remote_allocate_buckets in S.
    destruct (validate_passes _ _ _) as [v|] eqn:V; [|injection S as _ <-; exact C].
    destruct (check_pass_quantity_for_write pv v nums sz) as [u|] eqn:Q; [|injection S as _ <-; exact C].
    unfold tahoe_allocate_buckets in S. destruct (existsb _ _); [injection S as _ <-; exact C|].
    set (b := filter _ nums) in S. destruct (_ && _); [injection S as _ <-; exact C|].
    rewrite required_passes_pos in S by exact Hv. injection S as _ <-.
    set (k := sumZ (map (fun s => cdiv s pv) (repeat sz (length b)))).
    assert (Ek : k = Z.of_nat (length b) * cdiv sz pv) by (unfold k; rewrite map_repeat, sumZ_repeat; reflexivity).
    pose proof (@cdiv_nonneg pv sz Hv Sz) as C0.
    assert (Lb : (length b <= length nums)%nat) by apply ServerRequestProofs.filter_length_le.
    assert (Kv : 0 <= k <= lenZ (valid v)).
    { split; [nia|]. unfold check_pass_quantity_for_write, check_pass_quantity in Q. rewrite required_passes_pos in Q by exact Hv. cbn [lift bind] in Q.
      rewrite map_repeat, sumZ_repeat in Q. destruct (lenZ (valid v) <? _) eqn:L; [discriminate|]. nia. }
    assert (U : uploads_cost pv (map (fun n => Upload si n sz (Lease 0 renew cancel (Z.quot (now + RENEWAL_SECONDS * hz) hz))) b) = k).
    { unfold uploads_cost. rewrite Ek, map_map. cbn [up_size]. rewrite map_map, <- sumZ_repeat. f_equal. generalize b. clear. intros l. induction l as [|n l IH]; [reflexivity|]. cbn [map repeat length up_size]. f_equal. exact IH. }
    refine (@covered_step debt debt sv _ si 0 C _ _ _ _ _); [lia| | |rewrite Z.add_0_r; apply Z.le_refl|].
    + intros x. cbn. intros J. apply in_app_or in J as [J|J]; [exact (proj1 C _ J)|]. apply in_map_iff in J as (n & <- & _). exact Sz.
    + reflexivity.
    + cbn [mark_as_spent observe with_storage sv_storage sv_spent incoming]. rewrite lenZ_app. unfold uploads_cost in *. rewrite map_app, cost_app. match goal with |- _ + ?x + _ + _ + _ <= _ => replace x with k by (symmetry; exact U) end. unfold slice_to.
      replace (k <? 0) with false by lia. unfold lenZ at 2 3. rewrite firstn_length. unfold lenZ in *. lia.
  - destruct (serve_effect _ _ _ _ _ _ _ _ S) as [[-> _]|(_ & Ef & ps & Sp & _)]; [exact C|].
    assert (L : exists r1 d', add_lease_loop room renew cancel (now + RENEWAL_SECONDS * hz) (dirs (sv_storage sv) si) = (r1, d') /\ sv_storage sv' = set_dir si d' (sv_storage sv))
      by (inversion Ef; subst; eauto).
    destruct L as (r1 & d' & L & E).
    refine (@covered_step debt debt sv sv' si 0 C _ _ _ _ _); rewrite ?E; [lia| | | |].
    + exact (proj1 C).
    + intros si' N. apply set_dir_other. congruence.
    + rewrite set_dir_same. pose proof (@add_lease_loop_shape _ _ _ _ _ _ _ L) as Sh. apply (f_equal (map (fun nb => Z.of_nat (length (snd nb))))) in Sh. rewrite !map_map in Sh. change (map (fun ns => data_size (snd ns)) d' = map (fun ns => data_size (snd ns)) (dirs (sv_storage sv) si)) in Sh.
      unfold dir_cost. rewrite Sh. lia.
    + rewrite Sp, lenZ_app. cbn [set_dir incoming]. unfold lenZ. lia.
  - destruct r as [x|e].
    + destruct (@accepted_paid signed pv mv now room passes (Writev si we renew cancel tw rv) sv x sv' Hv) as (n & Pn & Ln);
        [apply W|exact P|discriminate|exact S|].
      destruct (serve_effect _ _ _ _ _ _ _ _ S) as [[_ N]|(_ & _ & ps & Sp & _ & j & _ & Q)]; [exfalso; eapply N; reflexivity|].
      specialize (Q (ex_intro _ _ eq_refl)).
      destruct (@serve_grows _ _ _ _ _ _ _ _ _ _ _ _ _ Re P S) as (Inc & Oth & G).
      destruct (@grows_cost _ _ _ _ _ _ _ _ _ _ (proj1 (W si)) Pn G) as [N0 Le].
      refine (@covered_step debt debt sv sv' si n C N0 _ Oth Le _).
      * rewrite Inc. exact (proj1 C).
      * rewrite Inc, Sp, lenZ_app, Q. unfold verified, lenZ. rewrite map_length. lia.
    + destruct e as [a b c|a| | | |t]; try (apply own_errors_change_nothing in S; [subst; exact C|exact Hv|discriminate]).
      exfalso. exact (A Logic.I).
Qed.

Lemma step_covered mut debt sv e o sv' : reachable_server signed pv iv mv mut sv -> proper_event e ->
  step sv e = (o, sv') -> ~ abandoned_write e o -> covered debt sv -> covered debt sv'.
Proof.
  intros Re Pe S A C.
  destruct e as [now room passes q|si n content|si n|si n]; cbn in S.
  - destruct (serve now room passes q sv) as [r sv1] eqn:E. injection S as <- <-. eapply serve_covered; eassumption.
  - injection S as _ <-. cbn [with_storage]. unfold close_bucket.
    destruct (find _ _) as [u|] eqn:Fi; [|exact C]. apply find_some in Fi as [Iu Eu]. pose proof (proj1 C) as P.
    refine (@covered_step debt debt sv _ si (cdiv (up_size u) pv) C _ _ _ _ _).
    + apply cdiv_nonneg; auto.
    + cbn. intros x J. apply filter_In in J as [J _]. auto.
    + intros si' N. cbn [with_storage sv_storage]. rewrite set_dir_other by congruence. reflexivity.
    + cbn [with_storage sv_storage]. rewrite set_dir_same. cbn [drop_incoming dirs].
      eapply Z.le_trans; [apply dir_cost_dset; exact Hv|]. unfold data_size. cbn [s_data]. rewrite pack_s_length, Z2Nat.id by auto. lia.
    + cbn [with_storage sv_storage sv_spent set_dir incoming drop_incoming]. pose proof (@uploads_cost_take pv Hv (fun u => negb (bytes_eqb (up_si u) si && (up_num u =? n))) (incoming (sv_storage sv)) u P Iu) as U.
      cbv beta in U. rewrite Eu in U. specialize (U eq_refl). lia.
  - injection S as _ <-. refine (@covered_step debt debt sv _ si 0 C _ _ _ _ _); [lia| | |rewrite Z.add_0_r; apply Z.le_refl|].
    + cbn. intros x J. apply filter_In in J as [J _]. exact (proj1 C _ J).
    + reflexivity.
    + cbn [with_storage sv_storage sv_spent incoming drop_incoming]. pose proof (@uploads_cost_filter pv Hv (fun u => negb (bytes_eqb (up_si u) si && (up_num u =? n))) _ (proj1 C)). lia.
  - injection S as _ <-. refine (@covered_step debt debt sv _ si 0 C _ _ _ _ _); [lia| | | |].
    + exact (proj1 C).
    + intros si' N. cbn [with_storage sv_storage]. unfold delete_share. rewrite set_dir_other by congruence. reflexivity.
    + cbn [with_storage sv_storage]. unfold delete_share. rewrite set_dir_same. pose proof (@dir_cost_filter pv Hv (fun kv => negb (fst kv =? n)) (dirs (sv_storage sv) si)). lia.
    + cbn [with_storage sv_storage sv_spent]. unfold delete_share. cbn [set_dir incoming]. lia.
Qed.

Lemma abandoned_covered mut debt sv now room passes q o sv' n : reachable_server signed pv iv mv mut sv -> proper q ->
  step sv (ERequest now room passes q) = (o, sv') -> abandoned_write (ERequest now room passes q) o -> price pv (sv_storage sv) now q n ->
  covered debt sv -> covered (debt + n) sv'.
Proof.
  intros Re P S A Pn C. cbn in S. destruct (serve now room passes q sv) as [r sv1] eqn:E. injection S as <- <-.
  destruct q as [si renew cancel nums sz|si renew cancel|si we renew cancel tw rv]; [destruct A|destruct A|].
  pose proof (@reachable_wf _ _ _ _ _ _ Re) as W.
  destruct (@serve_grows _ _ _ _ _ _ _ _ _ _ _ _ _ Re P E) as (Inc & Oth & G).
  destruct (@grows_cost _ _ _ _ _ _ _ _ _ _ (proj1 (W si)) Pn G) as [N0 Le].
  refine (@covered_step debt (debt + n) sv sv1 si n C N0 _ Oth Le _).
  - rewrite Inc. exact (proj1 C).
  - rewrite Inc. destruct r as [x|e]; [destruct A|]. rewrite (proj1 (C70_errors_change_nothing_partial _ _ _ _ _ _ _ _ _ _ E)). lia.
Qed.

Lemma run_covered mut es : forall debt sv os sv' n, reachable_server signed pv iv mv mut sv -> Forall proper_event es -> Forall (separate mut) es ->
  srun sv es = (os, sv') -> owed signed pv iv mv sv es n -> covered debt sv -> covered (debt + n) sv'.
Proof.
  induction es as [|e es IH]; intros debt sv os sv' n Re P Q R A C; cbn in R.
  - injection R as _ <-. inversion A; subst. rewrite Z.add_0_r. exact C.
  - destruct (step sv e) as [o sv1] eqn:S. destruct (srun sv1 es) as [os1 sv2] eqn:R1. injection R as <- <-.
    inversion P as [|? ? P1 P2]; subst. inversion Q as [|? ? Q1 Q2]; subst.
    pose proof (@BoughtProofs.reachable_step signed pv iv mv mut sv e o sv1 Re P1 Q1 S) as Re1.
    inversion A as [|sv0 e0 es0 o0 sv10 n0 S0 A0 O0|sv0 now room passes q es0 o0 sv10 p n0 S0 A0 Pr O0]; subst.
    + rewrite S in S0. injection S0 as <- <-. eapply IH; [exact Re1|exact P2|exact Q2|exact R1|exact O0|].
      eapply step_covered; [exact Re|exact P1|exact S|exact A0|exact C].
    + rewrite S in S0. injection S0 as <- <-. rewrite Z.add_assoc. eapply IH; [exact Re1|exact P2|exact Q2|exact R1|exact O0|].
      eapply abandoned_covered; [exact Re|exact P1|exact S|exact A0|exact Pr|exact C].
Qed.

Lemma nothing_owed es : forall sv os sv', srun sv es = (os, sv') -> no_abandoned_write es os -> owed signed pv iv mv sv es 0.
Proof.
  induction es as [|e es IH]; intros sv os sv' R A; cbn in R; [constructor|].
  destruct (step sv e) as [o sv1] eqn:S. destruct (srun sv1 es) as [os1 sv2] eqn:R1. injection R as <- <-.
  eapply owed_other; [exact S|exact (A O e o eq_refl eq_refl)|]. eapply IH; [exact R1|].
  intros i e' o' X Y. exact (A (Datatypes.S i) e' o' X Y).
Qed.

(** Every history owes something. *)
Lemma owed_exists mut es : forall sv, reachable_server signed pv iv mv mut sv -> Forall proper_event es -> Forall (separate mut) es ->
  exists n, owed signed pv iv mv sv es n.
Proof.
  induction es as [|e es IH]; intros sv Re P Q; [exists 0; constructor|].
  destruct (step sv e) as [o sv1] eqn:S. inversion P as [|? ? P1 P2]; subst. inversion Q as [|? ? Q1 Q2]; subst.
  pose proof (@BoughtProofs.reachable_step signed pv iv mv mut sv e o sv1 Re P1 Q1 S) as Re1.
  destruct (IH _ Re1 P2 Q2) as [n O].
  destruct e as [now room passes q|si m content|si m|si m]; [|exists n; eapply owed_other; [exact S|intros []|exact O]..].
  assert (X : exists p, price pv (sv_storage sv) now q p) by (eapply price_exists; [exact Hv|exact (@reachable_wf _ _ _ _ _ _ Re (index_of q))|exact P1]). destruct X as [p Pr].
  assert (D : abandoned_write (ERequest now room passes q) o \/ ~ abandoned_write (ERequest now room passes q) o).
  { destruct q; cbn; auto. destruct o as [[|[]]|]; auto. }
  destruct D as [D|D]; [exists (p + n); eapply owed_write; eassumption|exists n; eapply owed_other; eassumption].
Qed.
End Server.
