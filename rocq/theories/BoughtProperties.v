(** C123: every lease was paid for, and what was paid for is given and kept. *)
From Verif Require Import Prelude PreludeFacts BytesModel BytesProofs PassModel PricingModel PricingSpec ContainerModel TahoeModel
  ServerModel ServerSpec ServerProofs ServerProperties LeaseServerProofs BoughtSpec BoughtProofs.

From Coq Require Strings.String.
Import Coq.Strings.String.StringSyntax.

(** Whatever happened to a storage server since its disk was empty, every lease
    of every share it stores comes from a request that was about this share,
    was paid for in full when it was made, and names the lease's secret; and the
    lease lasts for 31 days from then. *)
Theorem C123_every_lease_was_paid_for :
  forall signed pv iv mv mut es os sv si n s l,
  0 < pv -> iv = 1 \/ iv = 2 -> mv = 1 \/ mv = 2 ->
  Forall proper_event es -> Forall (separate mut) es ->
  server_run signed pv iv mv empty_server es = (os, sv) ->
  In (n, s) (dirs (sv_storage sv) si) -> In l (s_leases s) ->
  lease_bought signed pv iv mv es si n l.
Proof.
  intros signed pv iv mv mut es os sv si n s l Hp Hi Hm P Q R I J.
  exact (proj1 (proj1 (@run_accounted signed pv iv mv mut es os sv Hp Hi Hm P Q R) si n s I) l J).
Qed.
Print Assumptions C123_every_lease_was_paid_for.

(** Every immutable share is exactly as large as a paid request said. *)
Theorem C123_every_upload_was_paid_for :
  forall signed pv iv mv mut es os sv si n s v,
  0 < pv -> iv = 1 \/ iv = 2 -> mv = 1 \/ mv = 2 ->
  Forall proper_event es -> Forall (separate mut) es ->
  server_run signed pv iv mv empty_server es = (os, sv) ->
  In (n, s) (dirs (sv_storage sv) si) -> s_container s = CImmutable v ->
  space_bought signed pv iv mv es si n (data_size s).
Proof.
  intros signed pv iv mv mut es os sv si n s v Hp Hi Hm P Q R I J.
  exact (proj2 (proj1 (@run_accounted signed pv iv mv mut es os sv Hp Hi Hm P Q R) si n s I) v J).
Qed.
Print Assumptions C123_every_upload_was_paid_for.

(** An accepted renewal gives every share of the storage index a lease under the
    given secret for at least 31 days; whatever happens afterwards, except that
    the share itself is removed, the share and this lease are there. *)
Theorem C123_renewals_are_given_and_kept :
  forall signed pv iv mv mut sv now room passes si renew cancel b es os sv' n s,
  reachable_server signed pv iv mv mut sv -> Forall proper_event es -> Forall (separate mut) es ->
  server_run signed pv iv mv sv (ERequest now room passes (AddLease si renew cancel) :: es) = (Some (Ok b) :: os, sv') ->
  ~ In (EDelete si n) es -> In (n, s) (dirs (sv_storage sv) si) ->
  exists s', In (n, s') (dirs (sv_storage sv') si) /\ leased renew (month_after now) s'.
Proof.
  intros signed pv iv mv mut sv now room passes si renew cancel b es os sv' n s Re P Q R Nd I.
  cbn [server_run server_step] in R. destruct (serve signed pv mv now room passes (AddLease si renew cancel) sv) as [r sv1] eqn:E.
  destruct (server_run signed pv iv mv sv1 es) as [os1 sv2] eqn:R1. injection R as -> -> ->.
  assert (S : server_step signed pv iv mv sv (ERequest now room passes (AddLease si renew cancel)) = (Some (Ok b), sv1)).
  { cbn [server_step]. rewrite E. reflexivity. }
  set (e0 := ERequest now room passes (AddLease si renew cancel)) in *.
  assert (P0 : proper_event e0) by exact Logic.I. assert (Q0 : separate mut e0) by exact Logic.I.
  pose proof (@reachable_step signed pv iv mv mut sv e0 _ _ Re P0 Q0 S) as R1'.
  assert (D0 : e0 <> EDelete si n) by discriminate.
  destruct (@step_keeps signed pv iv mv mut sv e0 _ _ si n s Re P0 D0 S I) as (s1 & I1 & K1).
  destruct (@run_keeps signed pv iv mv mut _ _ _ _ _ _ _ R1' P Q Nd R1 I1) as (s2 & I2 & K2).
  exists s2. split; [exact I2|]. eapply stays_leased; [exact K2|]. eapply add_lease_grants; [exact E|exact I1].
Qed.
Print Assumptions C123_renewals_are_given_and_kept.

(** A bucket that was allocated and is closed later becomes a share of the
    allocated size, holding what was uploaded, with a lease under the given secret
    for 31 days from the allocation; whatever happens in between and afterwards,
    except that the upload is given up or the share removed, it is there. *)
Theorem C123_uploads_are_given_and_kept :
  forall signed pv iv mv mut sv now room passes si renew cancel nums sz a b es1 content es2 os sv' n,
  reachable_server signed pv iv mv mut sv -> NoDup nums -> 0 <= sz -> mut si = false ->
  Forall proper_event (es1 ++ es2) -> Forall (separate mut) (es1 ++ es2) ->
  server_run signed pv iv mv sv
    (ERequest now room passes (Allocate si renew cancel nums sz) :: es1 ++ EClose si n content :: es2) =
    (Some (Ok (Allocated a b)) :: os, sv') ->
  In n b -> (forall c, ~ In (EClose si n c) es1) -> ~ In (EAbort si n) es1 -> ~ In (EDelete si n) es2 ->
  exists s sv1 os1,
    server_run signed pv iv mv sv
      (ERequest now room passes (Allocate si renew cancel nums sz) :: es1 ++ [EClose si n content]) = (os1, sv1) /\
    In (n, s) (dirs (sv_storage sv1) si) /\ s_container s = CImmutable iv /\
    data_size s = sz /\ (Z.of_nat (length content) = sz -> s_data s = content) /\
    leased renew (month_after now) s /\
    exists s', In (n, s') (dirs (sv_storage sv') si) /\ leased renew (month_after now) s'.
Proof.
  intros signed pv iv mv mut sv now room passes si renew cancel nums sz a b es1 content es2 os sv' n Re Nn Hs Hmu P Q R Ib Nc Na Nd.
  set (e0 := ERequest now room passes (Allocate si renew cancel nums sz)) in *.
  apply Forall_app in P as [P1 P2], Q as [Q1 Q2].
  destruct (serve signed pv mv now room passes (Allocate si renew cancel nums sz) sv) as [r sva] eqn:E.
  assert (S : server_step signed pv iv mv sv e0 = (Some r, sva)) by (unfold e0; cbn [server_step]; rewrite E; reflexivity).
  cbn [server_run] in R. rewrite S in R. cbn [server_run]. rewrite S.
  destruct (server_run signed pv iv mv sva (es1 ++ EClose si n content :: es2)) as [o2 svz] eqn:R2. injection R as -> -> ->.
  assert (U : uploading (sv_storage sva) si n sz renew (month_after now)) by (eapply allocate_uploading; eassumption).
  rewrite run_app in R2 |- *. destruct (server_run signed pv iv mv sva es1) as [ob svb] eqn:Rb.
  pose proof (@run_uploading signed pv iv mv es1 _ _ _ _ _ _ _ _ Nc Na Rb U) as U2.
  cbn [server_run] in R2 |- *. destruct (server_step signed pv iv mv svb (EClose si n content)) as [oc svc] eqn:Sc.
  destruct (@close_uploading signed pv iv mv _ _ _ _ _ content _ _ _ Hs U2 Sc) as (s & I & C & D & L & F).
  destruct (server_run signed pv iv mv svc es2) as [od svd] eqn:Rd. injection R2 as <- <-.
  assert (Ra : reachable_server signed pv iv mv mut sva).
  { refine (@reachable_step signed pv iv mv mut _ e0 _ _ Re _ _ S); [split; assumption|exact Hmu]. }
  assert (Rc : reachable_server signed pv iv mv mut svc).
  { refine (@reachable_step signed pv iv mv mut _ (EClose si n content) _ _ _ _ _ Sc); [|exact Logic.I|exact Logic.I].
    exact (@reachable_run signed pv iv mv mut es1 _ _ _ Ra P1 Q1 Rb). }
  destruct (@run_keeps signed pv iv mv mut es2 _ _ _ _ _ _ Rc P2 Q2 Nd Rd I) as (s2 & I2 & K2).
  exists s, svc. eexists. split; [reflexivity|]. repeat (split; [assumption|]). exists s2. split; [exact I2|]. eapply stays_leased; [exact K2|exact L].
Qed.
Print Assumptions C123_uploads_are_given_and_kept.

(** The history of [ServerProperties] with a second upload, a renewal of
    everything in the bucket, a refused renewal and a write that revives a slot. *)
Definition bx_history : list event :=
  vx_history ++
  [ERequest vx_soon vx_room vx_twelve vx_alloc2;
   EClose vx_bucket 2 (repeat x7a 25);
   ERequest vx_soon vx_room (map vx_pass [x61; x62; x63; x64; x65; x66]) (AddLease vx_bucket (ascii "other") (ascii "c"));
   ERequest vx_late vx_room [] (AddLease vx_bucket (ascii "never") (ascii "c"));
   ERequest vx_late vx_room (map vx_pass [x70; x71; x72]) (vx_writev [(0, [(0, repeat x41 25)])])].
Definition bx_out := server_run vx_signed 10 2 2 empty_server bx_history.

Lemma bx_proper : Forall proper_event bx_history /\ Forall (separate vx_mut) bx_history.
Proof.
  split.
  - repeat constructor; cbn; try tauto; try lia; try discriminate; intros; repeat match goal with H : _ \/ _ |- _ => destruct H end; congruence || tauto || lia.
  - repeat constructor; vm_compute; reflexivity.
Qed.

Example C123_example :
  map (fun ns => (fst ns, map (fun l => (l_renew l, l_expiration l)) (s_leases (snd ns)))) (dirs (sv_storage (snd bx_out)) vx_bucket)
  = [(5, [(ascii "renew", month_after vx_now); (ascii "other", month_after vx_soon)]);
     (2, [(ascii "r", month_after vx_soon); (ascii "other", month_after vx_soon)])] /\
  map (fun ns => (fst ns, map (fun l => (l_renew l, l_expiration l)) (s_leases (snd ns)))) (dirs (sv_storage (snd bx_out)) vx_si)
  = [(0, [(ascii "renew", month_after vx_late)]); (1, [(ascii "renew", month_after vx_now)])] /\
  (forall si n s l, In (n, s) (dirs (sv_storage (snd bx_out)) si) -> In l (s_leases s) ->
     lease_bought vx_signed 10 2 2 bx_history si n l).
Proof.
  split; [vm_compute; reflexivity|]. split; [vm_compute; reflexivity|]. intros si n s l I J.
  refine (C123_every_lease_was_paid_for vx_signed 10 2 2 vx_mut bx_history (fst bx_out) (snd bx_out) si n s l _ _ _ _ _ _ I J);
    [reflexivity|right; reflexivity|right; reflexivity|apply bx_proper|apply bx_proper|apply surjective_pairing].
Qed.

(** The same upload and renewal, by the last two theorems. *)
Definition bx_alloc : event := ERequest vx_soon vx_room vx_twelve vx_alloc2.
Definition bx_close : event := EClose vx_bucket 2 (repeat x7a 25).
Definition bx_renew : event :=
  ERequest vx_soon vx_room (map vx_pass [x61; x62; x63; x64; x65; x66]) (AddLease vx_bucket (ascii "other") (ascii "c")).
Definition bx_after : list event :=
  [ERequest vx_late vx_room [] (AddLease vx_bucket (ascii "never") (ascii "c")); EDelete vx_bucket 5;
   ERequest vx_late vx_room (map vx_pass [x70; x71; x72]) (vx_writev [(0, [(0, repeat x41 25)])])].
Lemma bx_after_proper : Forall proper_event (bx_renew :: bx_after) /\ Forall (separate vx_mut) (bx_renew :: bx_after).
Proof. split; repeat constructor; cbn; tauto. Qed.

Lemma bx_nums : NoDup [0; 1; 2; 5].
Proof. repeat constructor; cbn; intuition discriminate. Qed.

Example C123_example_upload : exists s s' os sv,
  server_run vx_signed 10 2 2 vx_server (bx_alloc :: [] ++ bx_close :: bx_renew :: bx_after) = (Some (Ok (Allocated [5] [1; 2])) :: os, sv) /\
  data_size s = 25 /\ s_data s = repeat x7a 25 /\
  In (2, s') (dirs (sv_storage sv) vx_bucket) /\ leased (ascii "r") (month_after vx_soon) s'.
Proof.
  destruct (server_run vx_signed 10 2 2 vx_server (bx_alloc :: [] ++ bx_close :: bx_renew :: bx_after)) as [o sv] eqn:R.
  assert (E : exists os, o = Some (Ok (Allocated [5] [1; 2])) :: os).
  { apply (f_equal fst) in R. vm_compute in R. cbn [fst] in R. eexists. symmetry. exact R. }
  destruct E as [os ->].
  destruct (C123_uploads_are_given_and_kept vx_signed 10 2 2 vx_mut vx_server vx_soon vx_room vx_twelve vx_bucket (ascii "r") (ascii "c")
    [0; 1; 2; 5] 25 [5] [1; 2] [] (repeat x7a 25) (bx_renew :: bx_after) os sv 2) as (s & _ & _ & _ & _ & _ & D & F & _ & s' & I & L).
  - exact vx_reachable.
  - exact bx_nums.
  - discriminate.
  - reflexivity.
  - apply bx_after_proper.
  - apply bx_after_proper.
  - unfold bx_alloc, bx_close, vx_alloc2 in R. exact R.
  - cbn; auto.
  - intros c [].
  - intros [].
  - intros [H|[H|[H|[H|[]]]]]; discriminate.
  - exists s, s', os, sv. split; [reflexivity|]. split; [exact D|]. split; [apply F; reflexivity|]. split; [exact I|exact L].
Qed.

Example C123_example_renewal : exists s' os sv,
  server_run vx_signed 10 2 2 vx_server (ERequest vx_soon vx_room (map vx_pass [x61; x62; x63]) (AddLease vx_bucket (ascii "other") (ascii "c")) :: [bx_alloc; bx_close])
    = (Some (Ok LeaseAdded) :: os, sv) /\
  In (5, s') (dirs (sv_storage sv) vx_bucket) /\ leased (ascii "other") (month_after vx_soon) s'.
Proof.
  destruct (server_run vx_signed 10 2 2 vx_server (ERequest vx_soon vx_room (map vx_pass [x61; x62; x63]) (AddLease vx_bucket (ascii "other") (ascii "c")) :: [bx_alloc; bx_close])) as [o sv] eqn:R.
  assert (E : exists os, o = Some (Ok LeaseAdded) :: os).
  { apply (f_equal fst) in R. vm_compute in R. cbn [fst] in R. eexists. symmetry. exact R. }
  destruct E as [os ->].
  assert (J : exists s, In (5, s) (dirs (sv_storage vx_server) vx_bucket)) by (eexists; apply dget_Some_In; vm_compute; reflexivity).
  destruct J as [s J].
  destruct (C123_renewals_are_given_and_kept vx_signed 10 2 2 vx_mut vx_server vx_soon vx_room (map vx_pass [x61; x62; x63]) vx_bucket (ascii "other") (ascii "c")
    LeaseAdded [bx_alloc; bx_close] os sv 5 s) as (s' & I & L).
  - exact vx_reachable.
  - apply Forall_cons; [split; [exact bx_nums|discriminate]|repeat constructor].
  - repeat constructor.
  - exact R.
  - intros [H|[H|[]]]; discriminate.
  - exact J.
  - exists s', os, sv. split; [reflexivity|]. split; [exact I|exact L].
Qed.
