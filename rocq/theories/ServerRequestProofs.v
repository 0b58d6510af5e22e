(** Lemmas about whole requests and histories of requests. *)
From Verif Require Import Prelude PreludeFacts BytesModel BytesProofs PassModel PricingModel PricingSpec PricingProofs
  ContainerModel ContainerProofs TahoeModel ServerModel ServerSpec ServerProofs ServerStateProofs.
Set Implicit Arguments.

Lemma with_storage_same sv : with_storage (sv_storage sv) sv = sv.
Proof. destruct sv; reflexivity. Qed.

Section Requests.
Variable signed : bytes -> bytes -> bytes -> bool.
Variable pv : Z.
Variables iv mv : Z.
Notation serve := (serve signed pv mv).
Notation verifies := (verifies signed).
Notation verified := (verified signed).

(** What is left to do once the passes suffice for the price [n]. *)
Definition effect (now : Z) (room : Z -> bool) (q : request) (n : Z) (vs : list bytes) (sv : server)
  : res server_error reply * server :=
  match q with
  | Allocate si renew cancel nums sz =>
      match tahoe_allocate_buckets room now si renew cancel nums sz (sv_storage sv) with
      | (Err e, st) => (Err (FromTahoe e), with_storage st sv)
      | (Ok (a, b), st) =>
          match required_passes pv (repeat sz (length b)) with
          | Err e => (Err (BadPrice e), with_storage st sv)
          | Ok k => (Ok (Allocated a b), mark_as_spent (slice_to k vs) (observe k (with_storage st sv)))
          end
      end
  | AddLease si renew cancel =>
      match tahoe_add_lease room now si renew cancel (sv_storage sv) with
      | (Err e, st) => (Err (FromTahoe e), with_storage st sv)
      | (Ok _, st) => (Ok LeaseAdded, observe (lenZ vs) (mark_as_spent vs (with_storage st sv)))
      end
  | Writev si we renew cancel tw rv =>
      match tahoe_writev mv si we tw rv (sv_storage sv) with
      | (Err e, st) => (Err (FromTahoe e), with_storage st sv)
      | (Ok (good, read), st) =>
          match add_leases_for_writev room si renew cancel tw now st with
          | (Err e, st') => (Err e, with_storage st' sv)
          | (Ok _, st') => (Ok (Written good read), observe n (mark_as_spent vs (with_storage st' sv)))
          end
      end
  end.

(** ** Prices *)

Lemma written_fun f tw g h : written f tw g -> written f tw h -> forall k, g k = h k.
Proof. intros G H k. exact (size_after_fun _ _ _ _ (G k) (H k)). Qed.

Lemma price_exists st now q : 0 < pv -> wf_dir (dirs st (index_of q)) -> proper q -> exists n, price pv st now q n.
Proof.
  intros Hv W P. destruct q as [si renew cancel nums sz|si renew cancel|si we renew cancel tw rv]; cbn in *.
  - eexists. apply exact_price_sum. exact Hv.
  - eexists. apply exact_price_sum. exact Hv.
  - set (f := paid (dirs st si) now). destruct (written_exists f tw) as [g G].
    eexists. exists f, g, (nodup Z.eq_dec (dkeys (dirs st si) ++ dkeys tw)).
    split; [intros k; apply paid_spec; apply W|]. split; [exact G|]. split; [apply NoDup_nodup|].
    split; [intros x X; apply nodup_In, in_or_app; auto|]. split; [intros x X; apply nodup_In, in_or_app; auto|]. reflexivity.
Qed.

Lemma price_unique st now q n m : 0 < pv -> wf_dir (dirs st (index_of q)) -> homogeneous (dirs st (index_of q)) -> proper q ->
  price pv st now q n -> price pv st now q m -> n = m.
Proof.
  intros Hv W H P. destruct q as [si renew cancel nums sz|si renew cancel|si we renew cancel tw rv]; cbn in *.
  - apply exact_price_unique.
  - apply exact_price_unique.
  - intros (f & g & ks & F & G & N & I1 & I2 & ->) (f' & g' & ks' & F' & G' & N' & I1' & I2' & ->).
    pose proof (@writev_price_eq signed pv _ _ _ _ _ _ Hv W H P F G N I1 I2) as A.
    pose proof (@writev_price_eq signed pv _ _ _ _ _ _ Hv W H P F' G' N' I1' I2') as B.
    congruence.
Qed.

Lemma check_quantity_eq sizes n v : 0 < pv -> exact_price pv sizes n ->
  check_pass_quantity pv v sizes = if n >? lenZ (valid v) then raise_for v n else Ok tt.
Proof.
  intros Hv E. unfold check_pass_quantity. apply required_passes_exact in E; [|exact Hv]. rewrite E. cbn.
  rewrite Z.gtb_ltb. reflexivity.
Qed.

Lemma serve_eq now room passes q sv n :
  0 < pv -> wf_dir (dirs (sv_storage sv) (index_of q)) ->
  (kind_of q = KAllocate \/ homogeneous (dirs (sv_storage sv) (index_of q))) ->
  proper q -> no_truncation q -> (forall s, In s passes -> well_formed s) ->
  price pv (sv_storage sv) now q n ->
  serve now room passes q sv
  = if n >? lenZ (verified q passes)
    then (Err (MorePassesRequired (lenZ (verified q passes)) n (failed_from (verifies q) 0 passes)), sv)
    else effect now room q n (verified q passes) sv.
Proof.
  intros Hv W H P T Wf Pr.
  destruct (validate_cases signed q passes) as [[_ V]|[(s & I & N) _]]; [|exfalso; apply N, Wf, I].
  destruct q as [si renew cancel nums sz|si renew cancel|si we renew cancel tw rv];
    cbn [kind_of index_of price] in *; cbn [ServerModel.serve effect];
    try (destruct H as [H|H]; [discriminate H|]).
  - unfold remote_allocate_buckets. rewrite V. unfold check_pass_quantity_for_write.
    rewrite (check_quantity_eq _ Hv Pr). cbn [valid]. destruct (n >? _); reflexivity.
  - unfold remote_add_lease. rewrite V. unfold dir_of. rewrite lease_check_eq by assumption.
    rewrite (check_quantity_eq _ Hv Pr). cbn [valid]. destruct (n >? _); reflexivity.
  - unfold remote_slot_writev. rewrite V. cbn in T. apply first_new_length_None in T. rewrite T.
    destruct Pr as (f & g & ks & F & G & Nd & I1 & I2 & ->). unfold dir_of.
    rewrite (@writev_price_eq signed pv _ _ _ _ _ _ Hv W H P F G Nd I1 I2). cbn [valid].
    destruct (_ >? _); reflexivity.
Qed.

Lemma serve_malformed now room passes q sv :
  (exists s, In s passes /\ ~ well_formed s) \/ ~ no_truncation q ->
  exists e, serve now room passes q sv = (Err e, sv) /\ (e = BadPass \/ exists n, e = NewLengthRejected n).
Proof.
  intros Hyp. destruct (validate_cases signed q passes) as [[Wf V]|[_ V]].
  - destruct Hyp as [(s & I & N)|T]; [exfalso; apply N, Wf, I|].
    destruct q as [si renew cancel nums sz|si renew cancel|si we renew cancel tw rv]; cbn in T; try (exfalso; apply T; exact I).
    cbn. unfold remote_slot_writev. destruct (first_new_length tw) eqn:F.
    + eexists. split; [reflexivity|]. right. eauto.
    + exfalso. apply T. apply first_new_length_None. exact F.
  - destruct q as [si renew cancel nums sz|si renew cancel|si we renew cancel tw rv]; cbn [ServerModel.serve kind_of index_of] in *.
    + unfold remote_allocate_buckets. rewrite V. eauto.
    + unfold remote_add_lease. rewrite V. eauto.
    + unfold remote_slot_writev. destruct (first_new_length tw); [eauto|]. rewrite V. eauto.
Qed.

(** ** What a request does, whatever the directory *)

Inductive storage_effect (now : Z) (room : Z -> bool) (st : storage) (r : res server_error reply) : request -> storage -> Prop :=
| SE_allocate si renew cancel nums sz st' :
    dirs st' = dirs st ->
    (forall x, In x (incoming st') -> In x (incoming st) \/ up_si x = si) ->
    storage_effect now room st r (Allocate si renew cancel nums sz) st'
| SE_lease si renew cancel r1 d' :
    add_lease_loop room renew cancel (now + RENEWAL_SECONDS * hz) (dirs st si) = (r1, d') ->
    storage_effect now room st r (AddLease si renew cancel) (set_dir si d' st)
| SE_write si we renew cancel tw rv st' r1 d1 :
    first_new_length tw = None -> collect_mutable we (dirs st si) = Ok tt ->
    incoming st' = incoming st ->
    (forall si', si' <> si -> dirs st' si' = dirs st si') ->
    ((evaluate_write_vectors mv we tw (dirs st si) = (r1, d1) /\ (forall b, r = Ok b -> r1 = Ok tt) /\ (forall b x, r = Ok (Written b x) -> b = true)) \/
     (r1 = Ok tt /\ d1 = dirs st si /\ forall b x, r = Ok (Written b x) -> b = false)) ->
    ((dirs st' si = d1 /\ forall b, r <> Ok b) \/
     (exists r2, add_leases_loop room renew cancel tw now d1 = (r2, dirs st' si) /\ forall b, r = Ok b -> r2 = Ok tt)) ->
    storage_effect now room st r (Writev si we renew cancel tw rv) st'.

Lemma serve_effect now room passes q sv r sv' :
  serve now room passes q sv = (r, sv') ->
  (sv' = sv /\ forall b, r <> Ok b) \/
  ((forall s, In s passes -> well_formed s) /\
   storage_effect now room (sv_storage sv) r q (sv_storage sv') /\
   exists ps, sv_spent sv' = sv_spent sv ++ ps /\
     ((forall b, r <> Ok b) -> ps = []) /\
     exists k, ps = firstn k (verified q passes) /\ 
       match q with Allocate _ _ _ _ _ => True | _ => (exists b, r = Ok b) -> ps = verified q passes end).
Proof.
  intros S. destruct (validate_cases signed q passes) as [[Wf V]|[X V]].
  2:{ left. destruct (serve_malformed now room passes q sv (or_introl X)) as (e & E & _). rewrite E in S. injection S as <- <-.
      split; [reflexivity|discriminate]. }
  assert (Same : forall e, (Err e, sv) = (r, sv') -> sv' = sv /\ forall b, r <> Ok b).
  { intros e [= <- <-]. split; [reflexivity|discriminate]. }
  destruct q as [si renew cancel nums sz|si renew cancel|si we renew cancel tw rv]; cbn [ServerModel.serve kind_of index_of] in *.
  - unfold remote_allocate_buckets in S. rewrite V in S. destruct (check_pass_quantity_for_write _ _ _ _) as [u|e]; [|left; eauto].
    destruct (tahoe_allocate_buckets room now si renew cancel nums sz (sv_storage sv)) as [[[a b]|e] st] eqn:T.
    + assert (D : dirs st = dirs (sv_storage sv) /\ forall x, In x (incoming st) -> In x (incoming (sv_storage sv)) \/ up_si x = si).
      { unfold tahoe_allocate_buckets in T. destruct (existsb _ _); [discriminate|]. destruct (_ && _); [discriminate|].
        injection T as _ _ <-. cbn. split; [reflexivity|]. intros x I. apply in_app_or in I. destruct I as [I|I]; [auto|].
        apply in_map_iff in I. destruct I as (n & <- & _). right. reflexivity. }
      right. split; [exact Wf|]. destruct (required_passes pv (repeat sz (length b))) as [k|e]; injection S as <- <-; cbn.
      * split; [constructor; apply D|]. eexists. split; [reflexivity|]. split; [intros N; exfalso; eapply N; reflexivity|].
        eexists. split; [reflexivity|exact I].
      * split; [constructor; apply D|]. exists []. rewrite app_nil_r. split; [reflexivity|]. split; [reflexivity|]. exists O. auto.
    + left. assert (st = sv_storage sv) as ->.
      { unfold tahoe_allocate_buckets in T. destruct (existsb _ _); [congruence|]. destruct (_ && _); congruence. }
      rewrite with_storage_same in S. eauto.
  - unfold remote_add_lease in S. rewrite V in S. destruct (check_pass_quantity_for_lease _ _ _) as [u|e]; [|left; eauto].
    unfold tahoe_add_lease in S.
    destruct (add_lease_loop room renew cancel (now + RENEWAL_SECONDS * hz) (dirs (sv_storage sv) si)) as [r1 d'] eqn:L.
    right. split; [exact Wf|]. destruct r1 as [u'|e]; injection S as <- <-; cbn [sv_storage sv_spent observe mark_as_spent with_storage].
    + split; [econstructor; exact L|]. eexists. split; [reflexivity|]. split; [intros N; exfalso; eapply N; reflexivity|].
      exists (length (verified (AddLease si renew cancel) passes)). rewrite firstn_all. cbn. auto.
    + split; [econstructor; exact L|]. exists []. rewrite app_nil_r. split; [reflexivity|]. split; [reflexivity|].
      exists O. split; [reflexivity|]. intros [b [=]].
  - unfold remote_slot_writev in S. destruct (first_new_length tw) eqn:F; [left; eauto|]. rewrite V in S.
    destruct (get_writev_price pv _ tw now) as [n|e]; [|left; eauto].
    destruct (_ >? _); [left; eauto|]. unfold tahoe_writev in S.
    destruct (collect_mutable we (dirs (sv_storage sv) si)) as [u|e] eqn:C.
    2:{ rewrite with_storage_same in S. left; eauto. }
    destruct u. right. split; [exact Wf|].
    destruct (evaluate_test_vectors tw (dirs (sv_storage sv) si)).
    + destruct (evaluate_write_vectors mv we tw (dirs (sv_storage sv) si)) as [r1 d1] eqn:Ew. destruct r1 as [u|e]; cbn [bind] in S.
      * unfold add_leases_for_writev in S. rewrite set_dir_same in S.
        destruct (add_leases_loop room renew cancel tw now d1) as [r2 d2] eqn:Al.
        destruct u. destruct r2 as [u2|e2]; injection S as <- <-; cbn [sv_storage sv_spent observe mark_as_spent with_storage].
        -- split.
           { econstructor; eauto.
             - intros si' N. rewrite !set_dir_other by exact N. reflexivity.
             - left. split; [exact Ew|]. split; [reflexivity|]. intros b x [= <- _]. reflexivity.
             - right. exists (Ok tt). rewrite set_dir_same. destruct u2. auto. }
           eexists. split; [reflexivity|]. split; [intros N; exfalso; eapply N; reflexivity|].
           exists (length (verified (Writev si we renew cancel tw rv) passes)). rewrite firstn_all. cbn. auto.
        -- split.
           { econstructor; eauto.
             - intros si' N. rewrite !set_dir_other by exact N. reflexivity.
             - left. split; [exact Ew|]. split; [reflexivity|]. discriminate.
             - right. exists (Err e2). rewrite set_dir_same. split; [exact Al|]. discriminate. }
           exists []. rewrite app_nil_r. split; [reflexivity|]. split; [reflexivity|].
           exists O. split; [reflexivity|]. intros [b [=]].
      * injection S as <- <-. cbn [sv_storage sv_spent with_storage]. split.
        { econstructor; eauto.
          - intros si' N. rewrite !set_dir_other by exact N. reflexivity.
          - left. split; [exact Ew|]. split; discriminate.
          - left. rewrite set_dir_same. split; [reflexivity|discriminate]. }
        exists []. rewrite app_nil_r. split; [reflexivity|]. split; [reflexivity|].
        exists O. split; [reflexivity|]. intros [b [=]].
    + unfold add_leases_for_writev in S.
      destruct (add_leases_loop room renew cancel tw now (dirs (sv_storage sv) si)) as [r2 d2] eqn:Al.
      destruct r2 as [u2|e2]; injection S as <- <-; cbn [sv_storage sv_spent observe mark_as_spent with_storage].
      * split.
        { eapply SE_write with (r1 := Ok tt) (d1 := dirs (sv_storage sv) si); eauto.
          - intros si' N. rewrite !set_dir_other by exact N. reflexivity.
          - right. split; [reflexivity|]. split; [reflexivity|]. intros b x [= <- _]. reflexivity.
          - right. exists (Ok tt). rewrite set_dir_same. destruct u2. auto. }
        eexists. split; [reflexivity|]. split; [intros N; exfalso; eapply N; reflexivity|].
        exists (length (verified (Writev si we renew cancel tw rv) passes)). rewrite firstn_all. cbn. auto.
      * split.
        { eapply SE_write with (r1 := Ok tt) (d1 := dirs (sv_storage sv) si); eauto.
          - intros si' N. rewrite !set_dir_other by exact N. reflexivity.
          - right. split; [reflexivity|]. split; [reflexivity|]. discriminate.
          - right. exists (Err e2). rewrite set_dir_same. split; [exact Al|]. discriminate. }
        exists []. rewrite app_nil_r. split; [reflexivity|]. split; [reflexivity|].
        exists O. split; [reflexivity|]. intros [b [=]].
Qed.

(** ** C07 *)

Lemma no_effect_without_passes now room passes q sv r sv' :
  0 < pv -> wf_dir (dirs (sv_storage sv) (index_of q)) -> proper q ->
  (kind_of q = KLease -> homogeneous (dirs (sv_storage sv) (index_of q))) ->
  serve now room passes q sv = (r, sv') ->
  sv' = sv \/
  ((forall s, In s passes -> well_formed s) /\
   exists n, price pv (sv_storage sv) now q n /\ n <= Z.of_nat (length (filter (verifies q) passes))).
Proof.
  intros Hv W P H S. destruct (serve_effect _ _ _ _ _ S) as [[-> _]|(Wf & E & _)]; [auto|].
  assert (G : kind_of q = KAllocate \/ homogeneous (dirs (sv_storage sv) (index_of q))).
  { destruct E as [| |si we renew cancel tw rv st' r1 d1 F C]; [auto|auto|].
    right. left. intros n s I. destruct (collect_mutable_Ok _ _ C _ _ I) as [v Hc]. exists v, we. exact Hc. }
  assert (T : no_truncation q).
  { destruct E as [| |si we renew cancel tw rv st' r1 d1 F C]; cbn; auto. apply first_new_length_None. exact F. }
  destruct (price_exists (sv_storage sv) now q Hv W P) as [n Pn].
  rewrite (@serve_eq now room passes q sv n Hv W G P T Wf Pn) in S.
  destruct (Z.gtb_spec n (lenZ (verified q passes))) as [L|L]; [injection S as _ <-; auto|].
  right. split; [exact Wf|]. exists n. split; [exact Pn|]. unfold lenZ, ServerSpec.verified in L. rewrite map_length in L. exact L.
Qed.

(** An accepted request came with its price. *)
Lemma accepted_paid now room passes q sv x sv' :
  0 < pv -> wf_dir (dirs (sv_storage sv) (index_of q)) -> proper q ->
  (kind_of q = KLease -> homogeneous (dirs (sv_storage sv) (index_of q))) ->
  serve now room passes q sv = (Ok x, sv') ->
  exists n, price pv (sv_storage sv) now q n /\ n <= Z.of_nat (length (filter (verifies q) passes)).
Proof.
  intros Hv W P H S. destruct (serve_effect _ _ _ _ _ S) as [[_ N]|(Wf & E & _)]; [exfalso; eapply N; reflexivity|].
  assert (G : kind_of q = KAllocate \/ homogeneous (dirs (sv_storage sv) (index_of q))).
  { destruct E as [| |si we renew cancel tw rv st' r1 d1 F C]; [auto|auto|].
    right. left. intros n s I. destruct (collect_mutable_Ok _ _ C _ _ I) as [v Hc]. exists v, we. exact Hc. }
  assert (T : no_truncation q).
  { destruct E as [| |si we renew cancel tw rv st' r1 d1 F C]; cbn; auto. apply first_new_length_None. exact F. }
  destruct (price_exists (sv_storage sv) now q Hv W P) as [n Pn].
  rewrite (@serve_eq now room passes q sv n Hv W G P T Wf Pn) in S.
  destruct (Z.gtb_spec n (lenZ (verified q passes))) as [L|L]; [discriminate|].
  exists n. split; [exact Pn|]. unfold lenZ, ServerSpec.verified in L. rewrite map_length in L. exact L.
Qed.

(** Every share written at least costs its growth. *)
Lemma share_growth_charged st now si we renew cancel tw rv n f g k : 0 < pv ->
  price pv st now (Writev si we renew cancel tw rv) n -> dict_wf (dirs st si) ->
  (forall k, paid_size (dirs st si) now k (f k)) -> written f tw g -> In k (dkeys tw) ->
  cdiv (g k) pv - cdiv (f k) pv <= n.
Proof.
  intros Hv (f' & g' & ks & F' & G' & N & I1 & I2 & ->) W F G I.
  assert (Ef : forall j, f' j = f j) by (intros j; rewrite (paid_unique W (F j)); apply (paid_unique W (F' j))).
  assert (Eg : forall j, g' j = g j).
  { intros j. specialize (G j). specialize (G' j). rewrite Ef in G'. exact (size_after_fun _ _ _ _ G' G). }
  unfold total_price. rewrite <- sumZ_map_sub. apply I2 in I. revert I. clear I1 I2. induction ks as [|j ks IH]; [intros []|].
  inversion N; subst. cbn. rewrite Ef, Eg.
  assert (P : forall l, 0 <= sumZ (map (fun k => cdiv (g' k) pv - cdiv (f' k) pv) l)).
  { intros l. apply sumZ_nonneg. intros x J. apply in_map_iff in J. destruct J as (y & <- & _).
    pose proof (@cdiv_mono pv (f' y) (g' y) Hv (@written_ge _ _ _ y G')). lia. }
  intros [<-|I].
  - specialize (P ks). lia.
  - specialize (IH ltac:(assumption) I).
    pose proof (@cdiv_mono pv (f j) (g j) Hv (@written_ge _ _ _ j G)). lia.
Qed.

(** Errors the authorizer raises itself come before any effect. *)
Lemma leases_loop_error room renew cancel tw now d : forall r d',
  add_leases_loop room renew cancel tw now d = (r, d') -> forall e, r = Err e -> exists t, e = FromTahoe t.
Proof.
  induction d as [|[m s] d IH]; intros r d' Al e Ee; cbn in Al; [congruence|].
  assert (R : (let '(r', rest') := add_leases_loop room renew cancel tw now d in (r', (m, s) :: rest')) = (r, d') ->
              exists t, e = FromTahoe t).
  { destruct (add_leases_loop room renew cancel tw now d) as [r0 d0]. intros [= -> _]. eapply IH; eauto. }
  destruct (dget m tw) as [w|]; [|exact (R Al)].
  destruct (is_write w); [|exact (R Al)].
  destruct (existsb _ _); [exact (R Al)|].
  destruct (add_or_renew_lease _ _ _ _ _ _) as [s2|t]; [|injection Al as <- _; injection Ee as <-; eauto].
  destruct (add_leases_loop room renew cancel tw now d) as [r0 d0]. injection Al as -> _. eapply IH; eauto.
Qed.
Lemma own_errors_change_nothing now room passes q sv e sv' : 0 < pv -> (forall t, e <> FromTahoe t) ->
  serve now room passes q sv = (Err e, sv') -> sv' = sv.
Proof.
  intros Hv N. destruct q as [si renew cancel nums sz|si renew cancel|si we renew cancel tw rv]; cbn.
  - unfold remote_allocate_buckets. destruct (validate_passes _ _ _); [|congruence].
    destruct (check_pass_quantity_for_write _ _ _ _); [|congruence].
    destruct (tahoe_allocate_buckets _ _ _ _ _ _ _ _) as [[[x y]|t] st]; [|intros [= <- _]; exfalso; eapply N; reflexivity].
    rewrite required_passes_pos by exact Hv. discriminate.
  - unfold remote_add_lease. destruct (validate_passes _ _ _); [|congruence].
    destruct (check_pass_quantity_for_lease _ _ _); [|congruence].
    destruct (tahoe_add_lease _ _ _ _ _ _) as [[x|t] st]; [discriminate|intros [= <- _]; exfalso; eapply N; reflexivity].
  - unfold remote_slot_writev. destruct (first_new_length tw); [congruence|].
    destruct (validate_passes _ _ _); [|congruence].
    destruct (get_writev_price _ _ _ _); [|congruence].
    destruct (_ >? _); [congruence|]. destruct (tahoe_writev _ _ _ _ _ _) as [[[x y]|t] st]; [|intros [= <- _]; exfalso; eapply N; reflexivity].
    unfold add_leases_for_writev.
    destruct (add_leases_loop room renew cancel tw now (dirs st si)) as [[u|e2] d'] eqn:Al; [discriminate|].
    intros [= -> _]. destruct (leases_loop_error _ _ _ _ _ _ Al eq_refl) as [t ->]. exfalso. eapply N. reflexivity.
Qed.

(** ** C08 *)

Lemma refused_iff now room passes q sv :
  0 < pv -> wf_dir (dirs (sv_storage sv) (index_of q)) ->
  (kind_of q = KAllocate \/ homogeneous (dirs (sv_storage sv) (index_of q))) ->
  proper q -> no_truncation q -> (forall s, In s passes -> well_formed s) ->
  exists n failed, price pv (sv_storage sv) now q n /\ failed_positions signed q passes failed /\
    let valid := Z.of_nat (length (filter (verifies q) passes)) in
    (valid < n -> serve now room passes q sv = (Err (MorePassesRequired valid n failed), sv)) /\
    (n <= valid -> forall a b c, fst (serve now room passes q sv) <> Err (MorePassesRequired a b c)).
Proof.
  intros Hv W G P T Wf. destruct (price_exists (sv_storage sv) now q Hv W P) as [n Pn].
  exists n, (failed_from (verifies q) 0 passes). split; [exact Pn|]. split; [apply failed_from_spec|].
  cbv zeta. rewrite (@serve_eq now room passes q sv n Hv W G P T Wf Pn).
  assert (L : lenZ (verified q passes) = Z.of_nat (length (filter (verifies q) passes))).
  { unfold lenZ, ServerSpec.verified. rewrite map_length. reflexivity. }
  rewrite <- L. split; intros C.
  - destruct (Z.gtb_spec n (lenZ (verified q passes))); [reflexivity|lia].
  - destruct (Z.gtb_spec n (lenZ (verified q passes))); [lia|]. intros a b c.
    destruct q as [si renew cancel nums sz|si renew cancel|si we renew cancel tw rv]; cbn [effect].
    + destruct (tahoe_allocate_buckets _ _ _ _ _ _ _ _) as [[[x y]|e] st]; [|discriminate].
      destruct (required_passes _ _); discriminate.
    + destruct (tahoe_add_lease _ _ _ _ _ _) as [[x|e] st]; discriminate.
    + destruct (tahoe_writev _ _ _ _ _ _) as [[[x y]|e] st]; [|discriminate].
      unfold add_leases_for_writev.
      destruct (add_leases_loop room renew cancel tw now (dirs st si)) as [[u|e] d'] eqn:Al; [discriminate|].
      cbn. intros [= ->]. revert d' Al. induction (dirs st si) as [|[m s] d IH]; intros d' Al; cbn in Al; [discriminate|].
      destruct (dget m tw) as [w|].
      2:{ destruct (add_leases_loop room renew cancel tw now d) as [r0 d0]. injection Al as -> <-. eapply IH. reflexivity. }
      destruct (is_write w).
      2:{ destruct (add_leases_loop room renew cancel tw now d) as [r0 d0]. injection Al as -> <-. eapply IH. reflexivity. }
      destruct (existsb _ _).
      1:{ destruct (add_leases_loop room renew cancel tw now d) as [r0 d0]. injection Al as -> <-. eapply IH. reflexivity. }
      destruct (add_or_renew_lease _ _ _ _ _ _); [|discriminate].
      destruct (add_leases_loop room renew cancel tw now d) as [r0 d0]. injection Al as -> <-. eapply IH. reflexivity.
Qed.
(** ** Stored shares *)

(** What any request makes of a directory. *)
Definition dir_rel (q : request) (d d' : dict share) : Prop :=
  dict_wf d' /\
  forall n, match dget n d, dget n d' with
    | Some s, Some s' => s_container s' = s_container s /\ leases_kept (s_leases s) (s_leases s') /\
                         (wf_share s -> wf_share s')
    | None, Some s' => (exists we, s_container s' = CMutable mv we) /\ wf_share s' /\ kind_of q = KWritev
    | None, None => True
    | Some _, None => False
    end.

Lemma dir_rel_refl q d : dict_wf d -> dir_rel q d d.
Proof.
  intros W. split; [exact W|]. intros n. destruct (dget n d); [|exact I].
  split; [reflexivity|]. split; [apply leases_kept_refl|auto].
Qed.

Lemma storage_effect_dirs now room st r q st' si :
  mv = 1 \/ mv = 2 -> proper q -> dict_wf (dirs st si) -> storage_effect now room st r q st' ->
  dir_rel q (dirs st si) (dirs st' si).
Proof.
  intros Hm P W E. destruct E as [si0 renew cancel nums sz st' D _|si0 renew cancel r1 d' L|si0 we renew cancel tw rv st' r1 d1 F C Inc O Ev Al].
  - rewrite D. apply dir_rel_refl, W.
  - destruct (bytes_eqb_spec si0 si) as [->|N]; [|rewrite set_dir_other by congruence; apply dir_rel_refl, W].
    rewrite set_dir_same. apply add_lease_loop_spec in L. destruct L as [K H]. split; [eapply dkeys_wf; eassumption|].
    intros n. specialize (H n). destruct (dget n (dirs st si)), (dget n d'); try contradiction; auto. unfold extended in H. tauto.
  - destruct (bytes_eqb_spec si0 si) as [->|N]; [|rewrite O by congruence; apply dir_rel_refl, W].
    assert (H1 : dict_wf d1 /\ forall n, match dget n (dirs st si), dget n d1 with
      | Some s, Some s' => s_container s' = s_container s /\ s_leases s' = s_leases s /\ (wf_share s -> wf_share s')
      | None, Some s' => (exists we, s_container s' = CMutable mv we) /\ wf_share s'
      | None, None => True
      | Some _, None => False
      end).
    { destruct Ev as [[Ev _]|(_ & -> & _)].
      - apply evaluate_write_spec in Ev; try assumption. destruct Ev as [W1 H1]. split; [exact W1|]. intros n. specialize (H1 n).
        destruct (dget n (dirs st si)) as [s|], (dget n d1) as [s'|]; try contradiction; auto.
        + destruct H1 as (Hc & Hl & Hs & _). split; [exact Hc|]. split; [exact Hl|].
          unfold wf_share. rewrite Hc, Hl. intros [A B]. split; [exact A|]. destruct (s_container s); [exact B|]. split; [apply B|]. lia.
        + destruct H1 as (Hc & Hl & Hs & _). split; [eauto|]. unfold wf_share. rewrite Hc, Hl. cbn. split; [reflexivity|]. auto.
      - split; [exact W|]. intros n. destruct (dget n (dirs st si)); [|exact I]. auto. }
    destruct H1 as [W1 H1]. destruct Al as [[<- _]|(r2 & Al & _)].
    + split; [exact W1|]. intros n. specialize (H1 n).
      destruct (dget n (dirs st si)) as [s|], (dget n (dirs st' si)) as [s'|]; try contradiction; auto.
      * destruct H1 as (Hc & Hl & Hw). rewrite Hl. split; [exact Hc|]. split; [apply leases_kept_refl|exact Hw].
      * destruct H1 as (Hc & Hw). split; [exact Hc|]. split; [exact Hw|reflexivity].
    + apply add_leases_loop_spec in Al. destruct Al as [K H2]. split; [eapply dkeys_wf; eassumption|].
      intros n. specialize (H1 n). specialize (H2 n).
      destruct (dget n (dirs st si)) as [s|], (dget n d1) as [s1|], (dget n (dirs st' si)) as [s'|]; try contradiction; auto.
      * destruct H1 as (Hc & Hl & Hw). destruct H2 as ((Hc2 & Hd2 & Hl2 & Hw2) & _). rewrite Hl in Hl2.
        split; [congruence|]. auto.
      * destruct H1 as ((we' & Hc) & Hw). destruct H2 as ((Hc2 & Hd2 & Hl2 & Hw2) & _).
        split; [exists we'; congruence|]. auto.
Qed.

Lemma storage_effect_incoming now room st r q st' u :
  storage_effect now room st r q st' -> In u (incoming st') ->
  In u (incoming st) \/ (kind_of q = KAllocate /\ up_si u = index_of q).
Proof.
  intros E I. destruct E as [si0 renew cancel nums sz st' D J|si0 renew cancel r1 d' L|si0 we renew cancel tw rv st' r1 d1 F C Inc O Ev Al].
  - apply J in I. cbn. destruct I; auto.
  - left. exact I.
  - left. rewrite <- Inc. exact I.
Qed.

(** ** C11 *)

Lemma leases_never_shortened now room passes q sv r sv' si n s :
  mv = 1 \/ mv = 2 -> proper q -> dict_wf (dirs (sv_storage sv) si) ->
  serve now room passes q sv = (r, sv') -> In (n, s) (dirs (sv_storage sv) si) ->
  exists s', In (n, s') (dirs (sv_storage sv') si) /\ leases_kept (s_leases s) (s_leases s').
Proof.
  intros Hm P W S I. destruct (serve_effect _ _ _ _ _ S) as [[-> _]|(_ & E & _)].
  - exists s. split; [exact I|apply leases_kept_refl].
  - destruct (storage_effect_dirs si Hm P W E) as [W' H]. specialize (H n). rewrite (dget_In_wf _ _ W I) in H.
    destruct (dget n (dirs (sv_storage sv') si)) as [s'|] eqn:D; [|contradiction]. exists s'. split; [apply dget_Some_In, D|apply H].
Qed.

Lemma written_shares now room passes si we renew cancel tw rv sv good read sv' :
  mv = 1 \/ mv = 2 -> dict_wf tw -> dict_wf (dirs (sv_storage sv) si) ->
  serve now room passes (Writev si we renew cancel tw rv) sv = (Ok (Written good read), sv') ->
  let d := dirs (sv_storage sv) si in let d' := dirs (sv_storage sv') si in
  dict_wf d' /\
  (forall n w s', dget n tw = Some w -> tw_data w <> [] -> In (n, s') d' -> active now s') /\
  (forall n s, In (n, s) d -> active now s -> exists s', In (n, s') d' /\ s_leases s' = s_leases s) /\
  (forall n, match dget n d, dget n d' with
             | Some s, Some s' => if good then size_after (data_size s) (dget n tw) (data_size s') else s_data s' = s_data s
             | None, Some s' => good = true /\ dget n tw <> None /\ size_after 0 (dget n tw) (data_size s')
             | None, None => good = true -> dget n tw = None
             | Some _, None => False end).
Proof.
  intros Hm P W S d d'. destruct (serve_effect _ _ _ _ _ S) as [[_ N]|(_ & E & _)]; [exfalso; eapply N; reflexivity|].
  destruct (@storage_effect_dirs now room _ _ (Writev si we renew cancel tw rv) _ si Hm P W E) as [W' _].
  inversion E as [| |si0 we0 renew0 cancel0 tw0 rv0 st' r1 d1 F C Inc O Ev Al]; subst.
  destruct Al as [[_ N]|(r2 & Al & R2)]; [exfalso; eapply N; reflexivity|]. specialize (R2 _ eq_refl). subst r2.
  apply add_leases_loop_spec in Al. destruct Al as [K H2].
  assert (H1 : forall n, match dget n d, dget n d1 with
             | Some s, Some s' => s_leases s' = s_leases s /\ if good then size_after (data_size s) (dget n tw) (data_size s') else s_data s' = s_data s
             | None, Some s' => good = true /\ dget n tw <> None /\ size_after 0 (dget n tw) (data_size s')
             | None, None => good = true -> dget n tw = None
             | Some _, None => False end).
  { intros n. destruct Ev as [(Ev & R1 & G)|(_ & -> & G)].
    - specialize (R1 _ eq_refl). subst r1. specialize (G _ _ eq_refl). subst good.
      apply evaluate_write_spec in Ev; try assumption. destruct Ev as [_ H1]. specialize (H1 n). fold d in H1.
      destruct (dget n d), (dget n d1); try contradiction; intuition.
    - specialize (G _ _ eq_refl). subst good. fold d. destruct (dget n d); [auto|discriminate]. }
  clear Ev E. fold d' in W', H2. split; [exact W'|]. split; [|split].
  - intros n w s' Dw Nw I. specialize (H2 n). rewrite (dget_In_wf _ _ W' I) in H2. destruct (dget n d1); [|contradiction].
    destruct H2 as (_ & _ & _ & A). apply activeb_spec. apply (A eq_refl w Dw). unfold is_write. destruct (tw_data w); [congruence|reflexivity].
  - intros n s I A. specialize (H1 n). specialize (H2 n). pose proof (dget_In_wf _ _ W I) as Dn. fold d in Dn. rewrite Dn in H1.
    destruct (dget n d1) as [s1|]; [|contradiction]. destruct (dget n d') as [s'|] eqn:D'; [|contradiction].
    destruct H1 as [L1 _]. destruct H2 as (_ & Ac & _). exists s'. split; [apply dget_Some_In, D'|].
    rewrite Ac; [exact L1|]. apply activeb_spec. unfold active. rewrite L1. exact A.
  - intros n. specialize (H1 n). specialize (H2 n). unfold extended in H2.
    destruct (dget n d) as [s|], (dget n d1) as [s1|], (dget n d') as [s'|]; try contradiction; auto.
    + destruct H1 as [_ H1]. destruct H2 as ((_ & Hd & _) & _). unfold data_size in *. rewrite Hd. exact H1.
    + destruct H2 as ((_ & Hd & _) & _). unfold data_size in *. rewrite Hd. exact H1.
Qed.

(** ** C09 *)

Lemma filter_length_le A (f : A -> bool) l : (length (filter f l) <= length l)%nat.
Proof. induction l as [|x l IH]; cbn; [lia|]. destruct (f x); cbn; lia. Qed.

Lemma least_cover_count v sz k : 0 < v -> forall n, exact_price v (repeat sz n) k -> k = Z.of_nat n * cdiv sz v.
Proof.
  intros Hv n E. rewrite (exact_price_unique E (exact_price_sum (repeat sz n) Hv)).
  rewrite map_repeat, sumZ_repeat. reflexivity.
Qed.

Lemma allocate_charge now room passes si renew cancel nums sz sv a b sv' :
  0 < pv -> NoDup nums -> 0 <= sz ->
  serve now room passes (Allocate si renew cancel nums sz) sv = (Ok (Allocated a b), sv') ->
  (forall n, In n b <-> In n nums /\ dget n (dirs (sv_storage sv) si) = None /\
      ~ (exists u, In u (incoming (sv_storage sv)) /\ up_si u = si /\ up_num u = n) /\ room n = true) /\
  NoDup b /\ a = dkeys (dirs (sv_storage sv) si) /\
  exists k, exact_price pv (repeat sz (length b)) k /\ 0 <= k <= Z.of_nat (length (filter (verifies (Allocate si renew cancel nums sz)) passes)) /\
    sv_spent sv' = sv_spent sv ++ firstn (Z.to_nat k) (verified (Allocate si renew cancel nums sz) passes) /\
    sv_metric sv' = sv_metric sv ++ [k].
Proof.
  set (q := Allocate si renew cancel nums sz). intros Hv Nd Hs S.
  destruct (validate_cases signed q passes) as [[Wf V]|[X V]].
  2:{ cbn in S. unfold remote_allocate_buckets in S. cbn [q kind_of index_of] in V. rewrite V in S. discriminate. }
  cbn in S. unfold remote_allocate_buckets in S. cbn [q kind_of index_of] in V. rewrite V in S. unfold check_pass_quantity_for_write in S.
  rewrite (check_quantity_eq _ Hv (exact_price_sum (repeat sz (length nums)) Hv)) in S. cbn [valid] in S.
  rewrite map_repeat, sumZ_repeat in S.
  destruct (Z.gtb_spec (Z.of_nat (length nums) * cdiv sz pv) (lenZ (verified q passes))) as [L|L]; [discriminate|].
  unfold tahoe_allocate_buckets in S. destruct (existsb _ _); [discriminate|]. destruct (_ && _); [discriminate|].
  set (bw := filter _ nums) in S. rewrite required_passes_pos in S by exact Hv. rewrite map_repeat, sumZ_repeat in S.
  injection S as <- Eb <-. fold bw in Eb. subst b. cbn [sv_spent sv_metric mark_as_spent observe with_storage].
  split; [|split; [apply NoDup_filter; exact Nd|split; [reflexivity|]]].
  - intros n. unfold bw. rewrite filter_In, !andb_true_iff, !negb_true_iff, memZ_not_In, <- dget_None.
    assert (Hi : is_incoming (sv_storage sv) si n = false <-> ~ (exists u, In u (incoming (sv_storage sv)) /\ up_si u = si /\ up_num u = n)).
    { rewrite <- not_true_iff_false. apply not_iff_compat. unfold is_incoming. rewrite existsb_exists. split.
      - intros (u & I & B). apply andb_true_iff in B. destruct B as [B1 B2]. exists u. split; [exact I|].
        destruct (bytes_eqb_spec (up_si u) si); [|discriminate]. split; [assumption|lia].
      - intros (u & I & B1 & B2). exists u. split; [exact I|]. rewrite B1, bytes_eqb_refl. cbn. lia. }
    rewrite Hi. tauto.
  - pose proof (cdiv_nonneg Hv Hs) as C0.
    assert (Lb : (length bw <= length nums)%nat) by apply filter_length_le.
    exists (Z.of_nat (length bw) * cdiv sz pv).
    assert (Lv : lenZ (verified q passes) = Z.of_nat (length (filter (verifies q) passes))).
    { unfold lenZ, ServerSpec.verified. rewrite map_length. reflexivity. }
    split; [|split; [rewrite <- Lv; nia|split; [|reflexivity]]].
    + pose proof (exact_price_sum (repeat sz (length bw)) Hv) as Ex. rewrite map_repeat, sumZ_repeat in Ex. exact Ex.
    + unfold slice_to. destruct (Z.ltb_spec (Z.of_nat (length bw) * cdiv sz pv) 0); [nia|reflexivity].
Qed.

(** ** Histories *)

Notation server_step := (server_step signed pv iv mv).
Notation server_run := (server_run signed pv iv mv).

Lemma step_wf sv e o sv' : iv = 1 \/ iv = 2 -> mv = 1 \/ mv = 2 -> proper_event e -> wf_storage (sv_storage sv) ->
  server_step sv e = (o, sv') -> wf_storage (sv_storage sv').
Proof.
  intros Hi Hm P W S. destruct e as [now room passes q|si n content|si n|si n]; cbn in S.
  - destruct (serve now room passes q sv) as [r sv1] eqn:E. injection S as <- <-.
    destruct (serve_effect _ _ _ _ _ E) as [[-> _]|(_ & Ef & _)]; [exact W|]. intros si. destruct (W si) as [W1 W2].
    destruct (storage_effect_dirs si Hm P W1 Ef) as [W' H]. split; [exact W'|]. apply wf_dir_get; [exact W'|].
    intros n s D. specialize (H n). rewrite D in H. destruct (dget n (dirs (sv_storage sv) si)) as [s0|] eqn:D0.
    + apply H. apply (W2 n). apply dget_Some_In, D0.
    + apply H.
  - injection S as <- <-. cbn [sv_storage with_storage]. unfold close_bucket. destruct (find _ _) as [u|]; [|exact W].
    intros si'. destruct (bytes_eqb_spec si si') as [<-|N]; [|rewrite set_dir_other by congruence; apply W].
    rewrite set_dir_same. cbn [dirs drop_incoming]. destruct (W si) as [W1 W2]. split; [apply dset_wf, W1|].
    apply wf_dir_get; [apply dset_wf, W1|]. intros m s. rewrite dget_dset. destruct (m =? n).
    + intros [= <-]. unfold wf_share. cbn. split; [reflexivity|]. split; [exact Hi|discriminate].
    + intros D. apply (W2 m). apply dget_Some_In, D.
  - injection S as <- <-. exact W.
  - injection S as <- <-. cbn [sv_storage with_storage]. unfold delete_share.
    intros si'. destruct (bytes_eqb_spec si si') as [<-|N]; [|rewrite set_dir_other by congruence; apply W].
    rewrite set_dir_same. destruct (W si) as [W1 W2]. split; [apply NoDup_filter_keys, W1|].
    intros m s I. apply filter_In in I. apply (W2 m). apply I.
Qed.

Definition kinds (mut : bytes -> bool) (st : storage) : Prop :=
  (forall si n s, In (n, s) (dirs st si) -> (mutable s <-> mut si = true)) /\
  (forall u, In u (incoming st) -> mut (up_si u) = false).

Lemma kinds_homogeneous mut st si : kinds mut st -> homogeneous (dirs st si).
Proof.
  intros [K _]. destruct (mut si) eqn:M; [left|right]; intros n s I; specialize (K si n s I); intuition congruence.
Qed.

Lemma mutable_same s s' : s_container s' = s_container s -> (mutable s' <-> mutable s).
Proof. intros E. unfold mutable. rewrite E. reflexivity. Qed.

Lemma step_kinds mut sv e o sv' : mv = 1 \/ mv = 2 -> proper_event e -> separate mut e ->
  wf_storage (sv_storage sv) -> kinds mut (sv_storage sv) ->
  server_step sv e = (o, sv') -> kinds mut (sv_storage sv').
Proof.
  intros Hm P Se W K S. destruct e as [now room passes q|si n content|si n|si n]; cbn in S.
  - destruct (serve now room passes q sv) as [r sv1] eqn:E. injection S as <- <-.
    destruct (serve_effect _ _ _ _ _ E) as [[-> _]|(_ & Ef & _)]; [exact K|]. split.
    + intros si n s I. destruct (W si) as [W1 W2]. destruct (storage_effect_dirs si Hm P W1 Ef) as [W' H].
      specialize (H n). rewrite (dget_In_wf _ _ W' I) in H. destruct (dget n (dirs (sv_storage sv) si)) as [s0|] eqn:D0.
      * destruct H as [Hc _]. rewrite (mutable_same _ _ Hc). apply (proj1 K si n). apply dget_Some_In, D0.
      * destruct H as ((we & Hc) & _ & Hq). split; [intros _|intros _; exists mv, we; exact Hc].
        destruct q as [? ? ? ? ?|? ? ?|si0 we0 renew cancel tw rv]; try discriminate. cbn in Se.
        destruct (bytes_eqb_spec si0 si) as [<-|N]; [exact Se|]. exfalso.
        inversion Ef; subst. match goal with Ho : forall si', si' <> si0 -> _ |- _ => rewrite Ho in I by congruence end.
        apply (dget_In_wf _ _ W1) in I. congruence.
    + intros u I. destruct (storage_effect_incoming _ Ef I) as [I'|[Q U]]; [apply K, I'|].
      destruct q; try discriminate. cbn in *. congruence.
  - injection S as <- <-. cbn [sv_storage with_storage]. unfold close_bucket. destruct (find _ _) as [u|] eqn:F; [|exact K].
    apply find_some in F. destruct F as [Iu Eu]. apply andb_true_iff in Eu. destruct Eu as [Eu _].
    destruct (bytes_eqb_spec (up_si u) si) as [Es|]; [|discriminate]. pose proof (proj2 K u Iu) as Mu. rewrite Es in Mu.
    split.
    + intros si' m s I. destruct (bytes_eqb_spec si si') as [<-|N]; [|rewrite set_dir_other in I by congruence; eapply K; exact I].
      rewrite set_dir_same in I. cbn [dirs drop_incoming] in I. destruct (W si) as [W1 W2].
      apply (dget_In_wf _ _ (dset_wf _ _ W1)) in I. rewrite dget_dset in I. destruct (m =? n).
      * injection I as <-. rewrite Mu. split; [intros (v & w & [=])|discriminate].
      * apply (proj1 K si m). apply dget_Some_In, I.
    + cbn. intros u' I. apply filter_In in I. apply K, I.
  - injection S as <- <-. cbn. split; [apply K|]. intros u I. apply filter_In in I. apply K, I.
  - injection S as <- <-. cbn [sv_storage with_storage]. unfold delete_share. split; [|apply K].
    intros si' m s I. destruct (bytes_eqb_spec si si') as [<-|N]; [|rewrite set_dir_other in I by congruence; eapply K; exact I].
    rewrite set_dir_same in I. apply filter_In in I. eapply K. apply I.
Qed.

Lemma run_wf es : forall sv os sv', iv = 1 \/ iv = 2 -> mv = 1 \/ mv = 2 -> Forall proper_event es -> wf_storage (sv_storage sv) ->
  server_run sv es = (os, sv') -> wf_storage (sv_storage sv').
Proof.
  induction es as [|e es IH]; intros sv os sv' Hi Hm P W; cbn; [intros [= <- <-]; exact W|].
  destruct (server_step sv e) as [o sv1] eqn:S. destruct (server_run sv1 es) as [os1 sv2] eqn:R. intros [= <- <-].
  inversion P; subst. eapply (IH sv1); eauto. eapply step_wf; eauto.
Qed.

Lemma run_kinds mut es : forall sv os sv', iv = 1 \/ iv = 2 -> mv = 1 \/ mv = 2 -> Forall proper_event es -> Forall (separate mut) es ->
  wf_storage (sv_storage sv) -> kinds mut (sv_storage sv) ->
  server_run sv es = (os, sv') -> kinds mut (sv_storage sv').
Proof.
  induction es as [|e es IH]; intros sv os sv' Hi Hm P Q W K; cbn; [intros [= <- <-]; exact K|].
  destruct (server_step sv e) as [o sv1] eqn:S. destruct (server_run sv1 es) as [os1 sv2] eqn:R. intros [= <- <-].
  inversion P; subst. inversion Q; subst. eapply (IH sv1); eauto.
  - eapply step_wf; eauto.
  - eapply step_kinds; eauto.
Qed.

Lemma empty_wf : wf_storage (sv_storage empty_server).
Proof. intros si. split; [constructor|intros n s []]. Qed.
Lemma empty_kinds mut : kinds mut (sv_storage empty_server).
Proof. split; [intros si n s []|intros u []]. Qed.

(** ** C10 *)

Lemma step_contributes sv e o sv' : server_step sv e = (o, sv') ->
  exists ps, contributes signed e o ps /\ sv_spent sv' = sv_spent sv ++ ps.
Proof.
  intros S. destruct e as [now room passes q|si n content|si n|si n]; cbn in S.
  - destruct (serve now room passes q sv) as [r sv1] eqn:E. injection S as <- <-.
    destruct (serve_effect _ _ _ _ _ E) as [[-> N]|(Wf & _ & ps & Sp & Er & k & Ek & _)].
    + exists []. rewrite app_nil_r. split; [|reflexivity]. destruct r as [b|x]; [exfalso; eapply N; reflexivity|reflexivity].
    + exists ps. split; [|exact Sp]. destruct r as [b|x]; cbn; [split; [exact Wf|exists k; exact Ek]|].
      apply Er. discriminate.
  - injection S as <- <-. exists []. rewrite app_nil_r. split; reflexivity.
  - injection S as <- <-. exists []. rewrite app_nil_r. split; reflexivity.
  - injection S as <- <-. exists []. rewrite app_nil_r. split; reflexivity.
Qed.

Lemma run_contributes es : forall sv os sv', server_run sv es = (os, sv') ->
  exists parts, Forall2 (fun eo ps => contributes signed (fst eo) (snd eo) ps) (combine es os) parts /\
    length os = length es /\ sv_spent sv' = sv_spent sv ++ concat parts.
Proof.
  induction es as [|e es IH]; intros sv os sv'; cbn.
  - intros [= <- <-]. exists []. rewrite app_nil_r. repeat split. constructor.
  - destruct (server_step sv e) as [o sv1] eqn:S. destruct (server_run sv1 es) as [os1 sv2] eqn:R. intros [= <- <-].
    destruct (step_contributes _ _ S) as (ps & C & Sp). destruct (IH _ _ _ R) as (parts & F & L & Sp2).
    exists (ps :: parts). split; [constructor; assumption|]. split; [cbn; congruence|]. cbn. rewrite Sp2, Sp, app_assoc. reflexivity.
Qed.

Lemma firstn_In A (x : A) k l : In x (firstn k l) -> In x l.
Proof. intros I. rewrite <- (firstn_skipn k l). apply in_or_app. left. exact I. Qed.

Lemma spent_came_from es os sv' p : server_run empty_server es = (os, sv') -> In p (sv_spent sv') ->
  exists i now room passes q b s, nth_error es i = Some (ERequest now room passes q) /\
    nth_error os i = Some (Some (Ok b)) /\ In s passes /\ well_formed s /\ verifies q s = true /\ p = preimage_of s.
Proof.
  intros R I. destruct (run_contributes _ _ R) as (parts & F & L & Sp). cbn in Sp. rewrite Sp in I. clear Sp R.
  revert os parts L F I. induction es as [|e es IH]; intros [|o os] parts L F I; try discriminate; cbn in F; inversion F as [|? ps ? parts' C F' E1 E2]; subst.
  - destruct I.
  - cbn in I. apply in_app_or in I. destruct I as [I|I].
    + exists O. cbn in C. unfold contributes in C. destruct e as [now room passes q| | |]; try (subst ps; destruct I).
      destruct o as [[b|x]|]; try (subst ps; destruct I). destruct C as [Wf [k ->]].
      apply firstn_In in I. unfold ServerSpec.verified in I. apply in_map_iff in I. destruct I as (s & <- & I).
      apply filter_In in I. exists now, room, passes, q, b, s. repeat split; try tauto. apply Wf, I.
    + injection L as L. destruct (IH os parts' L F' I) as (i & rest). exists (S i). exact rest.
Qed.
End Requests.
