(** Property theorems C06-C14: the storage server, and the client's prices. *)
From Verif Require Import Prelude PreludeFacts BytesModel BytesProofs PassModel PricingModel PricingSpec PricingProofs
  ContainerModel ContainerProofs TahoeModel ServerModel ServerSpec ServerProofs ServerStateProofs ServerRequestProofs
  ClientModel ClientProofs.
From Coq Require Strings.String.
Import Coq.Strings.String.StringSyntax.

(** ** A concrete server for the examples *)

(** A signature is right when it repeats the preimage. *)
Definition vx_signed (m p s : bytes) : bool := bytes_eqb p s.
Definition vx_pass (b : byte) : bytes := repeat b 88 ++ x20 :: repeat b 88.
Definition vx_bad (b : byte) : bytes := repeat b 88 ++ x20 :: repeat x2e 88.
Definition vx_si : bytes := ascii "slot".
Definition vx_bucket : bytes := ascii "bucket".
Definition vx_mut (si : bytes) : bool := bytes_eqb si vx_si.
Definition vx_room (n : Z) : bool := true.
Definition vx_now : Z := 1000000 * hz.
(** The same day, and 50 days later. *)
Definition vx_soon : Z := vx_now + 86400 * hz.
Definition vx_late : Z := vx_now + 50 * 86400 * hz.
Definition vx_write (ws : list (Z * list (Z * bytes))) : tw_vectors :=
  map (fun nw => (fst nw, TW [] (snd nw) None)) ws.
Definition vx_writev (ws : list (Z * list (Z * bytes))) : request :=
  Writev vx_si [] (ascii "renew") (ascii "cancel") (vx_write ws) [].
Definition vx_alloc : request := Allocate vx_bucket (ascii "renew") (ascii "cancel") [0; 5] 25.

(** Pass value 10.  Two shares of 25 and 7 bytes are written into a slot, two
    buckets of 25 bytes are allocated and one of them is closed. *)
Definition vx_history : list event :=
  [ERequest vx_now vx_room (map vx_pass [x61; x62; x63; x64])
     (vx_writev [(0, [(0, repeat x61 25)]); (1, [(0, repeat x62 7)])]);
   ERequest vx_now vx_room (vx_bad x30 :: map vx_pass [x65; x66; x67; x68; x69; x6a]) vx_alloc;
   EClose vx_bucket 5 (repeat x7a 25)].
Definition vx_server : server := snd (server_run vx_signed 10 2 2 empty_server vx_history).
Lemma vx_reachable : reachable_server vx_signed 10 2 2 vx_mut vx_server.
Proof.
  split; [auto|]. split; [auto|]. exists vx_history, (fst (server_run vx_signed 10 2 2 empty_server vx_history)).
  split; [|split].
  - repeat constructor; cbn; intuition (try discriminate; try lia).
  - repeat constructor.
  - unfold vx_server. destruct (server_run _ _ _ _ _ _); reflexivity.
Qed.
Example vx_sizes : remote_share_sizes vx_server vx_si None = Ok [(0, 25); (1, 7)] /\
  remote_share_sizes vx_server vx_bucket None = Ok [(5, 25)].
Proof. split; vm_compute; reflexivity. Qed.

Lemma reachable_wf signed pv iv mv mut sv : reachable_server signed pv iv mv mut sv -> wf_storage (sv_storage sv).
Proof. intros (Hi & Hm & es & os & P & _ & R). exact (@run_wf signed pv iv mv es empty_server os sv Hi Hm P empty_wf R). Qed.
Lemma reachable_homogeneous signed pv iv mv mut sv si :
  reachable_server signed pv iv mv mut sv -> homogeneous (dirs (sv_storage sv) si).
Proof.
  intros (Hi & Hm & es & os & P & S & R). eapply kinds_homogeneous with (mut := mut); [exact signed|].
  exact (@run_kinds signed pv iv mv mut es empty_server os sv Hi Hm P S empty_wf (empty_kinds mut) R).
Qed.

(** ** C06 *)

(** The price the client computes from the server's answer to [stat_shares] is
    the price the server insists on: fewer valid passes are refused, naming this
    price, and with as many valid passes the server does not ask for more. *)
Theorem C06_client_price_is_server_price :
  forall signed pv mv now room si we renew cancel tw rv sv passes,
  0 < pv -> 0 <= now -> dict_wf tw -> no_truncation (Writev si we renew cancel tw rv) ->
  wf_dir (dirs (sv_storage sv) si) -> homogeneous (dirs (sv_storage sv) si) ->
  (forall s, In s passes -> well_formed s) ->
  let q := Writev si we renew cancel tw rv in
  let valid := Z.of_nat (length (filter (verifies signed q) passes)) in
  exists stats n, remote_stat_shares sv si = Ok stats /\ client_write_price pv stats now tw = Ok n /\
    price pv (sv_storage sv) now q n /\
    (valid < n -> exists failed, serve signed pv mv now room passes q sv = (Err (MorePassesRequired valid n failed), sv)) /\
    (n <= valid -> forall a b c, fst (serve signed pv mv now room passes q sv) <> Err (MorePassesRequired a b c)).
Proof.
  intros signed pv mv now room si we renew cancel tw rv sv passes Hv Hn Wt T W H Wf q valid.
  destruct (refused_iff signed mv now room passes q sv Hv W (or_intror H) Wt T Wf) as (n & failed & P & _ & A & B).
  pose proof (stat_shares_eq sv si W H) as Es.
  do 2 eexists. split; [exact Es|]. split; [eapply client_price_writev; eassumption|].
  split; [exact P|]. split; [intros L; exists failed; exact (A L)|exact B].
Qed.
Print Assumptions C06_client_price_is_server_price.

(** A request without writes costs nothing, whatever the slot. *)
Theorem C06_reads_are_free : forall pv stats now tw,
  dict_wf tw -> (forall n w, In (n, w) tw -> tw_data w = []) -> client_write_price pv stats now tw = Ok 0.
Proof.
  intros pv stats now tw W H. apply no_writes_free.
  destruct (get_write_sharenums tw) as [|k l] eqn:E; [reflexivity|].
  destruct (proj1 (write_sharenums_In (tw := tw) k W) ltac:(rewrite E; left; reflexivity)) as (w & D & N).
  exfalso. apply N. apply (H k). apply dget_Some_In, D.
Qed.
Print Assumptions C06_reads_are_free.

(** The same for leases. *)
Theorem C06_client_lease_price_is_server_price :
  forall signed pv mv now room si renew cancel sv passes,
  0 < pv -> wf_dir (dirs (sv_storage sv) si) -> homogeneous (dirs (sv_storage sv) si) ->
  (forall s, In s passes -> well_formed s) ->
  let q := AddLease si renew cancel in
  let valid := Z.of_nat (length (filter (verifies signed q) passes)) in
  exists sizes n, remote_share_sizes sv si None = Ok sizes /\ client_lease_price pv sizes = Ok n /\
    price pv (sv_storage sv) now q n /\
    (valid < n -> exists failed, serve signed pv mv now room passes q sv = (Err (MorePassesRequired valid n failed), sv)) /\
    (n <= valid -> forall a b c, fst (serve signed pv mv now room passes q sv) <> Err (MorePassesRequired a b c)).
Proof.
  intros signed pv mv now room si renew cancel sv passes Hv W H Wf q valid.
  destruct (refused_iff signed mv now room passes q sv Hv W (or_intror H) I I Wf) as (n & failed & P & _ & A & B).
  pose proof (share_sizes_eq sv si W H) as Es.
  do 2 eexists. split; [exact Es|]. split; [eapply client_price_lease; eassumption|].
  split; [exact P|]. split; [intros L; exists failed; exact (A L)|exact B].
Qed.
Print Assumptions C06_client_lease_price_is_server_price.

(** Share 0 grows from 25 to 41 bytes (5 - 3 passes), share 3 appears with 10
    bytes (1 pass); after the leases ran out share 0 costs 5. *)
Definition vx_tw := vx_write [(0, [(21, repeat x41 20)]); (3, [(0, repeat x42 10)]); (1, [])].
Example C06_example : exists stats, remote_stat_shares vx_server vx_si = Ok stats /\
  client_write_price 10 stats vx_soon vx_tw = Ok 3 /\ client_write_price 10 stats vx_late vx_tw = Ok 6.
Proof. eexists. split; [vm_compute; reflexivity|]. split; vm_compute; reflexivity. Qed.
Example C06_example_hypotheses : 0 <= vx_soon /\ dict_wf vx_tw /\ wf_dir (dirs (sv_storage vx_server) vx_si) /\
  homogeneous (dirs (sv_storage vx_server) vx_si) /\ no_truncation (Writev vx_si [] [] [] vx_tw []).
Proof.
  split; [vm_compute; discriminate|]. split.
  - unfold dict_wf, vx_tw. cbn. repeat constructor; cbn; intuition discriminate.
  - split; [eapply reachable_wf; apply vx_reachable|]. split; [eapply reachable_homogeneous; apply vx_reachable|].
    intros n w I. cbn in I. intuition (match goal with H : (_, _) = (n, w) |- _ => injection H as <- <- end; reflexivity).
Qed.

(** ** C07 *)

(** Whatever a request does to the server, it came with as many valid passes as
    its price. *)
Theorem C07_no_effect_without_passes :
  forall signed pv iv mv mut sv now room passes q r sv',
  0 < pv -> reachable_server signed pv iv mv mut sv -> proper q ->
  serve signed pv mv now room passes q sv = (r, sv') ->
  sv' = sv \/
  ((forall s, In s passes -> well_formed s) /\
   exists n, price pv (sv_storage sv) now q n /\ n <= Z.of_nat (length (filter (verifies signed q) passes))).
Proof.
  intros signed pv iv mv mut sv now room passes q r sv' Hv R P S.
  eapply no_effect_without_passes; eauto; [eapply reachable_wf; exact R|intros _; eapply reachable_homogeneous; exact R].
Qed.
Print Assumptions C07_no_effect_without_passes.

(** The same in any state, reachable or not, of well-formed containers; adding
    leases needs a directory with one kind of shares. *)
Theorem C07_no_effect_without_passes_any_state :
  forall signed pv mv sv now room passes q r sv',
  0 < pv -> wf_dir (dirs (sv_storage sv) (index_of q)) -> proper q ->
  (kind_of q = KLease -> homogeneous (dirs (sv_storage sv) (index_of q))) ->
  serve signed pv mv now room passes q sv = (r, sv') ->
  sv' = sv \/
  ((forall s, In s passes -> well_formed s) /\
   exists n, price pv (sv_storage sv) now q n /\ n <= Z.of_nat (length (filter (verifies signed q) passes))).
Proof. intros signed pv mv sv now room passes q r sv'. apply no_effect_without_passes. Qed.
Print Assumptions C07_no_effect_without_passes_any_state.

(** Three passes for the write of price 3: accepted; with one of them badly
    signed: nothing happens. *)
Example C07_example :
  (exists x, fst (serve vx_signed 10 2 vx_soon vx_room (map vx_pass [x61; x62; x63])
     (Writev vx_si [] (ascii "r") (ascii "c") vx_tw []) vx_server) = Ok x) /\
  serve vx_signed 10 2 vx_soon vx_room [vx_pass x61; vx_bad x62; vx_pass x63]
     (Writev vx_si [] (ascii "r") (ascii "c") vx_tw []) vx_server = (Err (MorePassesRequired 2 3 [1]), vx_server).
Proof.
  split; [eexists; vm_compute; reflexivity|].
  assert (E : fst (serve vx_signed 10 2 vx_soon vx_room [vx_pass x61; vx_bad x62; vx_pass x63]
     (Writev vx_si [] (ascii "r") (ascii "c") vx_tw []) vx_server) = Err (MorePassesRequired 2 3 [1])) by (vm_compute; reflexivity).
  destruct (serve _ _ _ _ _ _ _ vx_server) as [r sv'] eqn:S. cbn in E. subst r. apply refusal_changes_nothing in S. subst. reflexivity.
Qed.

(** The one-kind hypothesis is needed: with a mutable share and an immutable
    share under one storage index, which a client with few passes can arrange,
    adding leases is charged by a size read from the wrong place. *)
Definition vx_mixed : list event :=
  [ERequest vx_now vx_room (map vx_pass [x61; x62; x63; x64; x65; x66; x67; x68; x69; x6a; x6b; x6c])
     (Allocate vx_si (ascii "r") (ascii "c") [3] 120);
   ERequest vx_now vx_room [vx_pass x6d] (vx_writev [(0, [(0, repeat x61 7)])]);
   EClose vx_si 3 (repeat x00 120)].
Definition vx_mixed_server := snd (server_run vx_signed 10 2 2 empty_server vx_mixed).
Theorem C07_lease_on_mixed_directory_refuted :
  exists sv, (exists es os, Forall proper_event es /\ server_run vx_signed 10 2 2 empty_server es = (os, sv)) /\
  exists passes q r sv' n, kind_of q = KLease /\
    serve vx_signed 10 2 vx_soon vx_room passes q sv = (r, sv') /\ r = Ok LeaseAdded /\ sv_spent sv' <> sv_spent sv /\
    price 10 (sv_storage sv) vx_soon q n /\ Z.of_nat (length (filter (verifies vx_signed q) passes)) < n.
Proof.
  exists vx_mixed_server. split.
  - exists vx_mixed, (fst (server_run vx_signed 10 2 2 empty_server vx_mixed)). split.
    + repeat constructor; cbn; intuition (try discriminate; try lia).
    + unfold vx_mixed_server. destruct (server_run _ _ _ _ _ _); reflexivity.
  - exists [vx_pass x70], (AddLease vx_si (ascii "x") (ascii "y")). do 2 eexists. exists 13. split; [reflexivity|].
    split; [apply surjective_pairing|]. split; [vm_compute; reflexivity|]. split; [vm_compute; discriminate|]. split.
    + cbn [price]. apply required_passes_exact; [lia|]. vm_compute. reflexivity.
    + vm_compute. reflexivity.
Qed.
Print Assumptions C07_lease_on_mixed_directory_refuted.

(** ** C08 *)

(** With well-formed passes the server refuses exactly when the price exceeds
    the number of passes that verify, and then reports both numbers and exactly
    the positions of the passes that do not verify. *)
Theorem C08_refusal_reports_the_truth :
  forall signed pv iv mv mut sv now room passes q,
  0 < pv -> reachable_server signed pv iv mv mut sv -> proper q -> no_truncation q ->
  (forall s, In s passes -> well_formed s) ->
  exists n failed, price pv (sv_storage sv) now q n /\ failed_positions signed q passes failed /\
    let valid := Z.of_nat (length (filter (verifies signed q) passes)) in
    (valid < n -> serve signed pv mv now room passes q sv = (Err (MorePassesRequired valid n failed), sv)) /\
    (n <= valid -> forall a b c, fst (serve signed pv mv now room passes q sv) <> Err (MorePassesRequired a b c)).
Proof.
  intros signed pv iv mv mut sv now room passes q Hv R P T Wf.
  apply refused_iff; auto; [eapply reachable_wf; exact R|right; eapply reachable_homogeneous; exact R].
Qed.
Print Assumptions C08_refusal_reports_the_truth.

(** Badly formed passes and truncating writes are refused with other errors,
    without any effect. *)
Theorem C08_other_refusals :
  forall signed pv mv sv now room passes q,
  (exists s, In s passes /\ ~ well_formed s) \/ ~ no_truncation q ->
  exists e, serve signed pv mv now room passes q sv = (Err e, sv) /\ (e = BadPass \/ exists n, e = NewLengthRejected n).
Proof. intros signed pv mv sv now room passes q. apply serve_malformed. Qed.
Print Assumptions C08_other_refusals.

(** Refused in the middle and at the end of the list. *)
Example C08_example : fst (serve vx_signed 10 2 vx_soon vx_room
    [vx_pass x61; vx_bad x62; vx_pass x63; vx_bad x64] vx_alloc vx_server)
  = Err (MorePassesRequired 2 6 [1; 3]).
Proof. vm_compute. reflexivity. Qed.
Example C08_example_malformed : exists e, serve vx_signed 10 2 vx_soon vx_room [vx_pass x61; repeat x61 177] vx_alloc vx_server
  = (Err e, vx_server) /\ (e = BadPass \/ exists n, e = NewLengthRejected n).
Proof.
  apply C08_other_refusals. left. exists (repeat x61 177). split; [right; left; reflexivity|].
  intros (a & b & E & _). assert (I : In x20 (repeat x61 177)) by (rewrite E; apply in_or_app; right; left; reflexivity).
  apply repeat_spec in I. discriminate.
Qed.

(** ** C09 *)

(** A successful allocation creates a bucket for exactly the requested shares
    which are not stored, not being uploaded and have room; it records the price
    of these buckets, taken from the front of the verified passes. *)
Theorem C09_allocation_charges_created_buckets :
  forall signed pv mv sv now room passes si renew cancel nums sz a b sv',
  0 < pv -> NoDup nums -> 0 <= sz ->
  serve signed pv mv now room passes (Allocate si renew cancel nums sz) sv = (Ok (Allocated a b), sv') ->
  (forall n, In n b <-> In n nums /\ dget n (dirs (sv_storage sv) si) = None /\
      ~ (exists u, In u (incoming (sv_storage sv)) /\ up_si u = si /\ up_num u = n) /\ room n = true) /\
  NoDup b /\ a = dkeys (dirs (sv_storage sv) si) /\
  exists k, exact_price pv (repeat sz (length b)) k /\
    0 <= k <= Z.of_nat (length (filter (verifies signed (Allocate si renew cancel nums sz)) passes)) /\
    sv_spent sv' = sv_spent sv ++ firstn (Z.to_nat k) (verified signed (Allocate si renew cancel nums sz) passes) /\
    sv_metric sv' = sv_metric sv ++ [k].
Proof. intros signed pv mv sv now room passes si renew cancel nums sz a b sv'. apply allocate_charge. Qed.
Print Assumptions C09_allocation_charges_created_buckets.

(** Different passes are recorded once each. *)
Theorem C09_none_recorded_twice :
  forall signed pv mv sv now room passes si renew cancel nums sz x sv',
  serve signed pv mv now room passes (Allocate si renew cancel nums sz) sv = (Ok x, sv') ->
  NoDup (map preimage_of passes) ->
  exists ps, sv_spent sv' = sv_spent sv ++ ps /\ NoDup ps /\ incl ps (map preimage_of passes).
Proof.
  intros signed pv mv sv now room passes si renew cancel nums sz x sv' S N.
  destruct (serve_effect _ _ _ _ _ _ _ _ S) as [[_ X]|(_ & _ & ps & Sp & _ & k & E & _)]; [exfalso; eapply X; reflexivity|].
  exists ps. split; [exact Sp|]. subst ps. unfold verified.
  assert (H : NoDup (map preimage_of (filter (verifies signed (Allocate si renew cancel nums sz)) passes)) /\
              incl (map preimage_of (filter (verifies signed (Allocate si renew cancel nums sz)) passes)) (map preimage_of passes)).
  { clear - N. induction passes as [|p l IH]; cbn; [split; [constructor|intros ? []]|]. inversion N as [|? ? N1 N2]; subst.
    destruct (IH N2) as [A B]. destruct (verifies signed _ p); cbn.
    - split; [constructor; [intros I; apply N1, B, I|exact A]|]. intros y [<-|I]; [left; reflexivity|right; apply B, I].
    - split; [exact A|]. intros y I. right. apply B, I. }
  split; [apply StoreProofs.NoDup_firstn, H|]. intros y I. apply H. eapply firstn_In. exact I.
Qed.
Print Assumptions C09_none_recorded_twice.

(** Share 5 is stored, share 0 is being uploaded: only shares 1 and 2 are new,
    six of the ten passes are recorded. *)
Definition vx_alloc2 : request := Allocate vx_bucket (ascii "r") (ascii "c") [0; 1; 2; 5] 25.
Definition vx_twelve := map vx_pass [x41; x42; x43; x44; x45; x46; x47; x48; x49; x4a; x4b; x4c].
Example C09_example :
  fst (serve vx_signed 10 2 vx_soon vx_room vx_twelve vx_alloc2 vx_server) = Ok (Allocated [5] [1; 2]) /\
  sv_spent (snd (serve vx_signed 10 2 vx_soon vx_room vx_twelve vx_alloc2 vx_server))
  = sv_spent vx_server ++ map (fun b => repeat b 88) [x41; x42; x43; x44; x45; x46].
Proof. split; vm_compute; reflexivity. Qed.

(** ** C10 *)

(** The record of spent passes is made of one part per event, in order; the part
    of an accepted request is a leading part of its verified passes, all other
    parts are empty. *)
Theorem C10_record_is_verified_passes :
  forall signed pv iv mv es sv os sv', server_run signed pv iv mv sv es = (os, sv') ->
  exists parts, Forall2 (fun eo ps => contributes signed (fst eo) (snd eo) ps) (combine es os) parts /\
    length os = length es /\ sv_spent sv' = sv_spent sv ++ concat parts.
Proof. intros signed pv iv mv es sv os sv'. apply run_contributes. Qed.
Print Assumptions C10_record_is_verified_passes.

Theorem C10_every_recorded_pass_was_presented :
  forall signed pv iv mv es os sv' p, server_run signed pv iv mv empty_server es = (os, sv') -> In p (sv_spent sv') ->
  exists i now room passes q b s, nth_error es i = Some (ERequest now room passes q) /\
    nth_error os i = Some (Some (Ok b)) /\ In s passes /\ well_formed s /\ verifies signed q s = true /\ p = preimage_of s.
Proof. intros signed pv iv mv es os sv' p. apply spent_came_from. Qed.
Print Assumptions C10_every_recorded_pass_was_presented.

Example C10_example :
  fst (server_run vx_signed 10 2 2 empty_server
        (vx_history ++ [ERequest vx_soon vx_room [vx_pass x70] vx_alloc2]))
  = [Some (Ok (Written true [])); Some (Ok (Allocated [] [0; 5])); None;
     Some (Err (MorePassesRequired 1 12 []))] /\
  sv_spent vx_server = map (fun b => repeat b 88) [x61; x62; x63; x64; x65; x66; x67; x68; x69; x6a].
Proof. split; vm_compute; reflexivity. Qed.

(** ** C11 *)

Theorem C11_written_shares_have_an_active_lease :
  forall signed pv iv mv mut sv now room passes si we renew cancel tw rv good read sv',
  reachable_server signed pv iv mv mut sv -> dict_wf tw ->
  serve signed pv mv now room passes (Writev si we renew cancel tw rv) sv = (Ok (Written good read), sv') ->
  let d := dirs (sv_storage sv) si in let d' := dirs (sv_storage sv') si in
  (forall n w s', dget n tw = Some w -> tw_data w <> [] -> In (n, s') d' -> active now s') /\
  (forall n s, In (n, s) d -> active now s -> exists s', In (n, s') d' /\ s_leases s' = s_leases s).
Proof.
  intros signed pv iv mv mut sv now room passes si we renew cancel tw rv good read sv' R Wt S d d'.
  pose proof (proj1 (@reachable_wf _ _ _ _ _ _ R si)) as W. destruct R as (_ & Hm & _).
  edestruct written_shares as (W' & A & B & C); [exact Hm|exact Wt|exact W|exact S|]. split; [exact A|exact B].
Qed.
Print Assumptions C11_written_shares_have_an_active_lease.

(** No request of any kind, answered or refused, drops or shortens a lease. *)
Theorem C11_leases_never_shortened :
  forall signed pv iv mv mut sv now room passes q r sv' si n s,
  reachable_server signed pv iv mv mut sv -> proper q ->
  serve signed pv mv now room passes q sv = (r, sv') -> In (n, s) (dirs (sv_storage sv) si) ->
  exists s', In (n, s') (dirs (sv_storage sv') si) /\ leases_kept (s_leases s) (s_leases s').
Proof.
  intros signed pv iv mv mut sv now room passes q r sv' si n s R P S I.
  pose proof (proj1 (@reachable_wf _ _ _ _ _ _ R si)) as W. destruct R as (_ & Hm & _).
  eapply leases_never_shortened; eauto.
Qed.
Print Assumptions C11_leases_never_shortened.

(** After 50 days the two shares of the slot have no active lease; writing to
    share 0 gives it one again, share 1 stays without. *)
Definition vx_revive := serve vx_signed 10 2 vx_late vx_room (map vx_pass [x70; x71; x72])
  (vx_writev [(0, [(0, repeat x41 25)])]) vx_server.
Example C11_example : fst vx_revive = Ok (Written true [(0, []); (1, [])]) /\
  map (fun ns => (fst ns, map l_expiration (s_leases (snd ns)))) (dirs (sv_storage vx_server) vx_si)
  = [(0, [3678400]); (1, [3678400])] /\
  map (fun ns => (fst ns, map l_expiration (s_leases (snd ns)))) (dirs (sv_storage (snd vx_revive)) vx_si)
  = [(0, [7998400]); (1, [3678400])].
Proof. repeat split; vm_compute; reflexivity. Qed.

(** ** C12 *)

(** C12 is false: one byte written into a lapsed share of 25 bytes costs one
    pass, and the share, which is worth three, has a lease again. *)
Definition vx_cheap := serve vx_signed 10 2 vx_late vx_room [vx_pass x70]
  (vx_writev [(0, [(0, [x41])])]) vx_server.
Theorem C12_reviving_costs_the_whole_share_refuted :
  exists signed pv iv mv mut sv now room passes si we renew cancel tw rv good read sv' n s s' m,
  0 < pv /\ reachable_server signed pv iv mv mut sv /\ dict_wf tw /\
  serve signed pv mv now room passes (Writev si we renew cancel tw rv) sv = (Ok (Written good read), sv') /\
  In (n, s) (dirs (sv_storage sv) si) /\ ~ active now s /\
  In (n, s') (dirs (sv_storage sv') si) /\ active now s' /\ data_size s' = data_size s /\
  least_cover pv (data_size s) m /\ Z.of_nat (length passes) < m.
Proof.
  exists vx_signed, 10, 2, 2, vx_mut, vx_server, vx_late, vx_room, [vx_pass x70], vx_si, [], (ascii "renew"), (ascii "cancel"),
    (vx_write [(0, [(0, [x41])])]), [], true, [(0, []); (1, [])], (snd vx_cheap), 0.
  exists (Share (CMutable 2 []) (repeat x61 25) [Lease 1 (ascii "renew") (ascii "cancel") 3678400]).
  exists (Share (CMutable 2 []) (x41 :: repeat x61 24) [Lease 1 (ascii "renew") (ascii "cancel") 7998400]), 3.
  split; [lia|]. split; [exact vx_reachable|]. split; [unfold dict_wf; cbn; repeat constructor; cbn; tauto|].
  split; [change (serve _ _ _ _ _ _ _ _) with vx_cheap; rewrite (surjective_pairing vx_cheap); f_equal; vm_compute; reflexivity|].
  split; [vm_compute; left; reflexivity|].
  split; [intros (l & [<-|[]] & A); vm_compute in A; discriminate|].
  split; [vm_compute; left; reflexivity|].
  split; [eexists; split; [left; reflexivity|vm_compute; reflexivity]|].
  split; [reflexivity|]. split; [split; [vm_compute; discriminate|intros m]; unfold data_size; cbn [s_data repeat length]; lia|].
  cbn. lia.
Qed.
Print Assumptions C12_reviving_costs_the_whole_share_refuted.

(** What is true (missing for C12: the part of the share behind the end of the
    write): a write that revives a share costs at least the price of the bytes up
    to the end of the write, so the whole share if the write reaches its end. *)
Theorem C12_reviving_costs_the_whole_share_partial :
  forall signed pv iv mv mut sv now room passes si we renew cancel tw rv x sv' n s w e m,
  0 < pv -> reachable_server signed pv iv mv mut sv -> dict_wf tw ->
  serve signed pv mv now room passes (Writev si we renew cancel tw rv) sv = (Ok x, sv') ->
  In (n, s) (dirs (sv_storage sv) si) -> ~ active now s ->
  dget n tw = Some w -> write_end (tw_data w) e -> least_cover pv (Z.min (data_size s) e) m ->
  m <= Z.of_nat (length (filter (verifies signed (Writev si we renew cancel tw rv)) passes)).
Proof.
  intros signed pv iv mv mut sv now room passes si we renew cancel tw rv x sv' n s w e m Hv R Wt S I A D E M.
  pose proof (@reachable_wf _ _ _ _ _ _ R si) as W.
  assert (T : tw_new_length w = None).
  { destruct (tw_new_length w) eqn:T; [|reflexivity]. exfalso.
    destruct (serve_malformed signed pv mv now room passes (Writev si we renew cancel tw rv) sv) as (e0 & X & _).
    - right. intros X. rewrite (X n w) in T; [discriminate|]. apply dget_Some_In, D.
    - rewrite X in S. discriminate. }
  destruct (@accepted_paid signed pv mv now room passes (Writev si we renew cancel tw rv) sv x sv' Hv W Wt) as (p & P & L);
    [discriminate|exact S|].
  etransitivity; [|exact L].
  set (f := paid (dirs (sv_storage sv) si) now). destruct (written_exists f tw) as [g G].
  assert (F : forall k, paid_size (dirs (sv_storage sv) si) now k (f k)) by (intros k; apply paid_spec, W).
  pose proof (@share_growth_charged signed pv _ _ _ _ _ _ _ _ _ f g n Hv P (proj1 W) F G) as C.
  assert (In n (dkeys tw)) by (apply in_map_iff; exists (n, w); split; [reflexivity|apply dget_Some_In, D]).
  specialize (C ltac:(assumption)).
  assert (F0 : f n = 0).
  { destruct (F n) as [(s0 & I0 & A0 & _)|[_ Z0]]; [|exact Z0]. exfalso. apply A.
    pose proof (dget_In_wf _ _ (proj1 W) I) as D1. pose proof (dget_In_wf _ _ (proj1 W) I0) as D2. congruence. }
  specialize (G n). rewrite D, F0 in G. destruct G as (e' & E' & Gn). rewrite T in Gn.
  assert (e' = e).
  { clear - E E'. unfold write_end in *.
    destruct E as [[X ->]|[(o & d0 & J & ->) B]], E' as [[X' ->]|[(o' & d' & J' & ->) B']]; [reflexivity| | |].
    - rewrite X in J'. destruct J'.
    - rewrite X' in J. destruct J.
    - specialize (B _ _ J'). specialize (B' _ _ J). lia. }
  subst e'. rewrite F0, cdiv_0 in C by exact Hv.
  assert (m <= cdiv (g n) pv); [|lia]. apply M.
  destruct (@cdiv_least pv (g n) Hv) as [X _]. lia.
Qed.
Print Assumptions C12_reviving_costs_the_whole_share_partial.

(** The write reaches the end of the 25 bytes: three passes, not fewer. *)
Example C12_example : fst vx_revive = Ok (Written true [(0, []); (1, [])]) /\
  fst (serve vx_signed 10 2 vx_late vx_room (map vx_pass [x70; x71]) (vx_writev [(0, [(24, [x41])])]) vx_server)
  = Err (MorePassesRequired 2 3 []).
Proof. split; vm_compute; reflexivity. Qed.

(** ** C13 *)

(** The size read from a container is the length of its data. *)
Theorem C13_immutable_size :
  forall name exps version nleases data leases,
  version = 1 \/ version = 2 -> 0 < nleases < 2 ^ 32 -> Z.of_nat (length leases) = 72 * nleases ->
  let e := Entry name (immutable_file version nleases data leases) (Ok exps) in
  exists stat s, get_stat e = Ok stat /\ stat e = Ok s /\ size s = Z.of_nat (length data).
Proof.
  intros name exps version n data leases V N L e. exists stat_bucket. eexists. split.
  - apply get_stat_immutable; [exact V|lia].
  - unfold stat_bucket, e. cbn [e_file]. rewrite immutable_size by (auto; lia). cbn. split; reflexivity.
Qed.
Print Assumptions C13_immutable_size.
Theorem C13_mutable_size :
  forall name exps version nodeid we off slots data rest,
  version = 1 \/ version = 2 -> Z.of_nat (length data) < 2 ^ 64 ->
  let e := Entry name (mutable_file version nodeid we off slots data rest) (Ok exps) in
  exists stat s, get_stat e = Ok stat /\ stat e = Ok s /\ size s = Z.of_nat (length data).
Proof.
  intros name exps version nodeid we off slots data rest V L e. exists stat_slot. eexists. split.
  - apply get_stat_mutable, V.
  - unfold stat_slot, e. cbn [e_file]. rewrite mutable_size by exact L. cbn. split; reflexivity.
Qed.
Print Assumptions C13_mutable_size.
(** A container that starts like neither kind is refused when it decides how the
    directory is read. *)
Theorem C13_unknown_version_refused :
  forall name file exps,
  ~ (unbe (firstn 4 file) = 1 \/ unbe (firstn 4 file) = 2) ->
  firstn 32 file <> mutable_magic 1 -> firstn 32 file <> mutable_magic 2 ->
  exists err, get_stat (Entry name file exps) = Err err.
Proof.
  intros name file exps V M1 M2. unfold get_stat. cbn [e_file]. destruct (Nat.ltb _ _); [eauto|].
  unfold immutable_header_ok, mutable_header_ok. rewrite !firstn_firstn. cbn [Nat.min].
  destruct (Z.eqb_spec (unbe (firstn 4 file)) 1); [tauto|]. destruct (Z.eqb_spec (unbe (firstn 4 file)) 2); [tauto|]. cbn [orb].
  destruct (bytes_eqb_spec (firstn 32 file) (mutable_magic 1)); [tauto|].
  destruct (bytes_eqb_spec (firstn 32 file) (mutable_magic 2)); [tauto|]. cbn. eauto.
Qed.
Print Assumptions C13_unknown_version_refused.

(** But only the first container of a directory is looked at this way: behind a
    known mutable one, a container of unknown version is priced by whatever is
    at the place of the length. *)
Theorem C13_unknown_version_refused_refuted :
  exists dir e err n x, In e dir /\ py_int (e_name e) = Some n /\ get_stat e = Err err /\
    exists sizes, get_share_sizes (Some dir) None = Ok sizes /\ In (n, x) sizes.
Proof.
  exists [Entry (ascii "0") (mutable_file 2 [] [] 475 [] (repeat x61 7) []) (Ok []); Entry (ascii "1") (repeat x39 100) (Ok [])].
  eexists. exists UnknownVersion, 1, 4123389851770370361. split; [right; left; reflexivity|]. split; [reflexivity|].
  split; [vm_compute; reflexivity|]. eexists. split; [vm_compute; reflexivity|]. right. left. reflexivity.
Qed.
Print Assumptions C13_unknown_version_refused_refuted.

Example C13_example : exists file, file = immutable_file 2 2 (repeat x61 1000) (repeat x62 144) /\
  get_storage_index_share_size file = Ok 1000.
Proof. eexists. split; [reflexivity|]. vm_compute. reflexivity. Qed.
Example C13_example_mutable : exists file, file = mutable_file 1 (repeat x63 20) (repeat x64 32) 1468 (repeat x65 368) (repeat x61 1000) (repeat x62 144) /\
  get_slot_share_size file = Ok 1000.
Proof. eexists. split; [reflexivity|]. vm_compute. reflexivity. Qed.
Example C13_example_unknown : get_stat (Entry (ascii "0") (be 4 3 ++ repeat x00 60) (Ok [])) = Err UnknownVersion.
Proof. vm_compute. reflexivity. Qed.

(** ** C14 *)

(** The sizes query answers with exactly the shares that exist and were asked
    for, each once, with its own size. *)
Theorem C14_share_sizes_exact :
  forall signed pv iv mv mut sv si sharenums, reachable_server signed pv iv mv mut sv ->
  exists sizes, remote_share_sizes sv si sharenums = Ok sizes /\ NoDup (map fst sizes) /\
    forall n x, In (n, x) sizes <->
      (match sharenums with None => True | Some l => In n l end) /\
      exists s, In (n, s) (dirs (sv_storage sv) si) /\ x = data_size s.
Proof.
  intros signed pv iv mv mut sv si sharenums R.
  pose proof (@reachable_wf _ _ _ _ _ _ R si) as W. pose proof (@reachable_homogeneous _ _ _ _ _ _ si R) as H.
  unfold remote_share_sizes, dir_of. rewrite (share_sizes_dir signed sharenums W H). cbn [bind].
  set (d := dirs (sv_storage sv) si) in *.
  assert (N : NoDup (map fst (wanted_shares sharenums d))) by (apply NoDup_filter_keys, W).
  eexists. split; [reflexivity|]. rewrite dict_of_id by (rewrite keys_map_snd; exact N).
  split; [rewrite keys_map_snd; exact N|]. intros n x. rewrite in_map_iff. unfold wanted_shares.
  assert (Wa : forall k, wanted sharenums k = true <-> match sharenums with None => True | Some l => In k l end).
  { intros k. unfold wanted. destruct sharenums as [l|]; [apply StoreProofs.memZ_true|tauto]. }
  split.
  - intros ([m s] & E & I). apply filter_In in I. cbn in E, I. injection E as <- <-.
    split; [apply Wa, I|]. exists s. split; [apply I|reflexivity].
  - intros (K & s & I & ->). exists (n, s). split; [reflexivity|]. apply filter_In. split; [exact I|]. apply Wa, K.
Qed.
Print Assumptions C14_share_sizes_exact.

(** The stat query: every share, with its size and its latest lease expiration
    (0 without a lease). *)
Theorem C14_stat_shares_exact :
  forall signed pv iv mv mut sv si, reachable_server signed pv iv mv mut sv ->
  exists stats, remote_stat_shares sv si = Ok stats /\ NoDup (map fst stats) /\
    forall n x, In (n, x) stats <->
      exists s, In (n, s) (dirs (sv_storage sv) si) /\ size x = data_size s /\
        (s_leases s = [] -> lease_expiration x = 0) /\
        (s_leases s <> [] -> In (lease_expiration x) (map l_expiration (s_leases s)) /\
                             forall l, In l (s_leases s) -> l_expiration l <= lease_expiration x).
Proof.
  intros signed pv iv mv mut sv si R.
  pose proof (@reachable_wf _ _ _ _ _ _ R si) as W. pose proof (@reachable_homogeneous _ _ _ _ _ _ si R) as H.
  eexists. split; [apply (stat_shares_eq sv si W H)|]. split; [rewrite keys_map_snd; apply W|].
  assert (St : forall s x, x = stat_of s <-> (size x = data_size s /\
        (s_leases s = [] -> lease_expiration x = 0) /\
        (s_leases s <> [] -> In (lease_expiration x) (map l_expiration (s_leases s)) /\
                             forall l, In l (s_leases s) -> l_expiration l <= lease_expiration x))).
  { intros s [sz le]. unfold stat_of. cbn. destruct (s_leases s) as [|l ls]; cbn.
    - split; [intros [= -> ->]; tauto|]. intros (-> & X & _). rewrite X; reflexivity.
    - destruct (fold_max_spec (map l_expiration ls) (l_expiration l)) as (A & B & C).
      set (m := fold_left Z.max (map l_expiration ls) (l_expiration l)) in *. split.
      + intros [= -> ->]. split; [reflexivity|]. split; [discriminate|]. intros _. split; [destruct C as [->|C]; auto|].
        intros l' [<-|I]; [exact A|]. apply B, in_map, I.
      + intros (-> & _ & X). destruct (X ltac:(discriminate)) as [X1 X2]. f_equal. apply Z.le_antisymm.
        * destruct X1 as [<-|X1]; [exact A|apply B, X1].
        * destruct C as [->|C]; [apply X2; left; reflexivity|].
          apply in_map_iff in C. destruct C as (l' & <- & C). apply X2. right. exact C. }
  intros n x. rewrite in_map_iff. split.
  - intros ([m s] & E & I). cbn in E. injection E as <- <-. exists s. split; [exact I|]. apply St. reflexivity.
  - intros (s & I & X). apply St in X. subst x. exists (n, s). split; [reflexivity|exact I].
Qed.
Print Assumptions C14_stat_shares_exact.

(** Whatever is in the directory: entries whose name is a number, and no
    others. *)
Theorem C14_only_numeric_entries :
  forall contents n e, In (n, e) (get_all_share_paths (Some contents)) <-> In e contents /\ py_int (e_name e) = Some n.
Proof. intros contents n e. apply numeric_entries_In. Qed.
Print Assumptions C14_only_numeric_entries.

Example C14_example : remote_share_sizes vx_server vx_si (Some [1; 4]) = Ok [(1, 7)] /\
  map fst (get_all_share_paths (Some [Entry (ascii "12") [] (Ok []); Entry (ascii "incoming") [] (Ok []); Entry (ascii "0") [] (Ok [])]))
  = [12; 0].
Proof. split; vm_compute; reflexivity. Qed.

(** In a directory the server did not write itself two names can mean one number
    and the share is listed twice. *)
Theorem C14_each_share_once_refuted :
  exists contents, NoDup (map e_name contents) /\
    ~ NoDup (map fst (get_all_share_paths (Some contents))).
Proof.
  exists [Entry (ascii "1") [] (Ok []); Entry (ascii "01") [] (Ok [])]. split.
  - repeat constructor; cbn; intuition discriminate.
  - cbn. intros N. inversion N as [|? ? X _]. apply X. left. reflexivity.
Qed.
Print Assumptions C14_each_share_once_refuted.

(** ** C67 *)

Lemma vx_price now we renew cancel tw rv n : 0 <= now -> dict_wf tw ->
  client_write_price 10 (map (fun ns => (fst ns, stat_of (snd ns))) (dirs (sv_storage vx_server) vx_si)) now tw = Ok n ->
  price 10 (sv_storage vx_server) now (Writev vx_si we renew cancel tw rv) n.
Proof.
  intros Hn Wt E.
  assert (W : wf_dir (dirs (sv_storage vx_server) vx_si)) by (eapply reachable_wf; exact vx_reachable).
  assert (H : homogeneous (dirs (sv_storage vx_server) vx_si)) by (eapply reachable_homogeneous; exact vx_reachable).
  destruct (@price_exists 10 (sv_storage vx_server) now (Writev vx_si we renew cancel tw rv) ltac:(lia) W Wt) as [m Pm].
  pose proof (stat_shares_eq _ _ W H) as Es.
  rewrite (@client_price_writev 10 vx_server vx_si _ now we renew cancel tw rv m ltac:(lia) Hn W H Wt Es Pm) in E.
  injection E as <-. exact Pm.
Qed.

(** C67 is false: the server does not look into its record, so a pass presented
    twice pays twice, in one request or in two. *)
Theorem C67_a_pass_pays_once_refuted :
  exists signed pv iv mv mut sv now room p q r sv',
  0 < pv /\ reachable_server signed pv iv mv mut sv /\ proper q /\ price pv (sv_storage sv) now q 2 /\
  well_formed p /\ serve signed pv mv now room [p; p] q sv = (Ok r, sv') /\
  sv_spent sv' = sv_spent sv ++ [preimage_of p; preimage_of p] /\ In (preimage_of p) (sv_spent sv).
Proof.
  exists vx_signed, 10, 2, 2, vx_mut, vx_server, vx_soon, vx_room, (vx_pass x61), (vx_writev [(9, [(0, repeat x61 20)])]).
  do 2 eexists. split; [lia|]. split; [exact vx_reachable|].
  assert (Wt : dict_wf (vx_write [(9, [(0, repeat x61 20)])])) by (unfold dict_wf; cbn; repeat constructor; cbn; tauto).
  split; [exact Wt|]. split; [apply vx_price; [vm_compute; discriminate|exact Wt|vm_compute; reflexivity]|].
  split; [exists (repeat x61 88), (repeat x61 88); repeat split; try reflexivity; intros I; apply repeat_spec in I; discriminate|].
  split; [apply injective_projections; [vm_compute; reflexivity|reflexivity]|]. split; [vm_compute; reflexivity|].
  vm_compute. left. reflexivity.
Qed.
Print Assumptions C67_a_pass_pays_once_refuted.

(** ** C68 *)

Lemma write_elsewhere mv now room st r si we renew cancel tw rv st' si' :
  storage_effect mv now room st r (Writev si we renew cancel tw rv) st' -> si' <> si -> dirs st' si' = dirs st si'.
Proof. intros Ef N. inversion Ef; subst. match goal with H : forall s', _ -> _ |- _ => apply H, N end. Qed.

(** C68 is false of writes and leases: every valid pass presented is recorded,
    also beyond the price and also if the test vectors did not match and nothing
    was written. *)
Definition vx_failing_tw : tw_vectors := [(0, TW [(0, 1, [x7a])] [(0, repeat x61 30)] None); (1, TW [] [(0, repeat x61 20)] None)].
Theorem C68_records_exactly_the_price_refuted :
  exists signed pv iv mv mut sv now room passes q read sv' n,
  0 < pv /\ reachable_server signed pv iv mv mut sv /\ proper q /\ price pv (sv_storage sv) now q n /\
  serve signed pv mv now room passes q sv = (Ok (Written false read), sv') /\
  (forall si, dirs (sv_storage sv') si = dirs (sv_storage sv) si) /\
  sv_spent sv' = sv_spent sv ++ map preimage_of passes /\ Z.of_nat (length passes) = n + 1.
Proof.
  exists vx_signed, 10, 2, 2, vx_mut, vx_server, vx_soon, vx_room, (map vx_pass [x70; x71]),
    (Writev vx_si [] [] [] vx_failing_tw []), [(0, []); (1, [])].
  eexists. exists 1. split; [lia|]. split; [exact vx_reachable|].
  assert (Wt : dict_wf vx_failing_tw) by (unfold dict_wf; cbn; repeat constructor; cbn; intuition discriminate).
  split; [exact Wt|]. split; [apply vx_price; [vm_compute; discriminate|exact Wt|vm_compute; reflexivity]|].
  set (out := serve vx_signed 10 2 vx_soon vx_room (map vx_pass [x70; x71]) (Writev vx_si [] [] [] vx_failing_tw []) vx_server).
  assert (E : out = (Ok (Written false [(0, []); (1, [])]), snd out)) by (apply injective_projections; [vm_compute; reflexivity|reflexivity]).
  split; [exact E|]. split.
  - intros si. destruct (bytes_eqb_spec vx_si si) as [<-|N]; [vm_compute; reflexivity|].
    change (dirs (sv_storage (snd out)) si = dirs (sv_storage vx_server) si).
    destruct (serve_effect _ _ _ _ _ _ _ _ E) as [[X _]|(_ & Ef & _)]; [rewrite X; reflexivity|].
    apply (write_elsewhere _ _ _ _ _ _ _ _ _ _ _ _ _ Ef). congruence.
  - split; vm_compute; reflexivity.
Qed.
Print Assumptions C68_records_exactly_the_price_refuted.

(** What is true (missing: equality with the price for leases and writes): an
    accepted request records exactly the price of the created buckets for an
    allocation, and all verified passes, which are no fewer than the price, for
    leases and writes. *)
Theorem C68_records_exactly_the_price_partial :
  forall signed pv iv mv mut sv now room passes q x sv',
  0 < pv -> reachable_server signed pv iv mv mut sv -> proper q ->
  serve signed pv mv now room passes q sv = (Ok x, sv') ->
  exists ps, sv_spent sv' = sv_spent sv ++ ps /\
  match q with
  | Allocate _ _ _ _ sz => exists a b, x = Allocated a b /\ exact_price pv (repeat sz (length b)) (Z.of_nat (length ps))
  | _ => ps = verified signed q passes /\
         exists n, price pv (sv_storage sv) now q n /\ n <= Z.of_nat (length ps)
  end.
Proof.
  intros signed pv iv mv mut sv now room passes q x sv' Hv R P S.
  destruct (serve_effect _ _ _ _ _ _ _ _ S) as [[_ N]|(_ & _ & ps & Sp & _ & k & Ek & Q)]; [exfalso; eapply N; reflexivity|].
  destruct (@accepted_paid signed pv mv now room passes q sv x sv' Hv) as (n & Pn & Ln);
    [eapply reachable_wf; exact R|exact P|intros _; eapply reachable_homogeneous; exact R|exact S|].
  assert (Lv : length (verified signed q passes) = length (filter (verifies signed q) passes)) by (unfold verified; apply map_length).
  destruct q as [si renew cancel nums sz|si renew cancel|si we renew cancel tw rv].
  - assert (Sh : exists a b, x = Allocated a b).
    { cbn in S. unfold remote_allocate_buckets in S. destruct (validate_passes _ _ _); [|discriminate].
      destruct (check_pass_quantity_for_write _ _ _ _); [|discriminate].
      destruct (tahoe_allocate_buckets _ _ _ _ _ _ _ _) as [[[y z]|e] st]; [|discriminate].
      destruct (required_passes pv (repeat sz (length z))); [|discriminate]. injection S as <- _. eauto. }
    destruct Sh as (a & b & ->). destruct P as [Pn1 Ps].
    destruct (@allocate_charge signed pv mv now room passes si renew cancel nums sz sv a b sv' Hv Pn1 Ps S)
      as (_ & _ & _ & j & Ej & Rj & Sj & _).
    eexists. split; [exact Sj|]. exists a, b. split; [reflexivity|].
    rewrite firstn_length, Lv, Nat.min_l by lia. rewrite Z2Nat.id by lia. exact Ej.
  - exists ps. split; [exact Sp|]. specialize (Q (ex_intro _ x eq_refl)). split; [exact Q|].
    exists n. split; [exact Pn|]. rewrite Q, Lv. exact Ln.
  - exists ps. split; [exact Sp|]. specialize (Q (ex_intro _ x eq_refl)). split; [exact Q|].
    exists n. split; [exact Pn|]. rewrite Q, Lv. exact Ln.
Qed.
Print Assumptions C68_records_exactly_the_price_partial.
Example C68_example : sv_spent (snd vx_revive) = sv_spent vx_server ++ map (fun b => repeat b 88) [x70; x71; x72].
Proof. vm_compute. reflexivity. Qed.

(** ** C69 *)

(** A successful write leaves the shares with exactly the sizes it was charged
    for; if the test vectors did not match, all data are as before. *)
Theorem C69_stored_is_what_was_paid_for :
  forall signed pv iv mv mut sv now room passes si we renew cancel tw rv good read sv',
  reachable_server signed pv iv mv mut sv -> dict_wf tw ->
  serve signed pv mv now room passes (Writev si we renew cancel tw rv) sv = (Ok (Written good read), sv') ->
  let d := dirs (sv_storage sv) si in let d' := dirs (sv_storage sv') si in
  forall n, match dget n d, dget n d' with
            | Some s, Some s' => if good then size_after (data_size s) (dget n tw) (data_size s') else s_data s' = s_data s
            | None, Some s' => good = true /\ dget n tw <> None /\ size_after 0 (dget n tw) (data_size s')
            | None, None => good = true -> dget n tw = None
            | Some _, None => False end.
Proof.
  intros signed pv iv mv mut sv now room passes si we renew cancel tw rv good read sv' R Wt S d d'.
  pose proof (proj1 (@reachable_wf _ _ _ _ _ _ R si)) as W. destruct R as (_ & Hm & _).
  edestruct written_shares as (W' & A & B & C); [exact Hm|exact Wt|exact W|exact S|]. exact C.
Qed.
Print Assumptions C69_stored_is_what_was_paid_for.

(** Other storage indexes are left alone. *)
Theorem C69_other_slots_untouched :
  forall signed pv iv mv mut sv now room passes q r sv' si,
  reachable_server signed pv iv mv mut sv -> proper q ->
  serve signed pv mv now room passes q sv = (r, sv') -> si <> index_of q ->
  dirs (sv_storage sv') si = dirs (sv_storage sv) si.
Proof.
  intros signed pv iv mv mut sv now room passes q r sv' si R P S N.
  destruct (serve_effect _ _ _ _ _ _ _ _ S) as [[-> _]|(_ & Ef & _)]; [reflexivity|].
  revert N Ef. generalize (sv_storage sv'). intros st' N Ef.
  destruct Ef as [si0 renew cancel nums sz st' D _|si0 renew cancel r1 d' L|si0 we renew cancel tw rv st' r1 d1 F C Inc O _ _]; cbn [index_of] in N.
  - rewrite D. reflexivity.
  - apply set_dir_other. congruence.
  - apply O. exact N.
Qed.
Print Assumptions C69_other_slots_untouched.
Example C69_example :
  let out := serve vx_signed 10 2 vx_soon vx_room (map vx_pass [x61; x62; x63]) (Writev vx_si [] (ascii "r") (ascii "c") vx_tw []) vx_server in
  map (fun ns => (fst ns, data_size (snd ns))) (dirs (sv_storage (snd out)) vx_si) = [(0, 41); (1, 7); (3, 10)].
Proof. vm_compute. reflexivity. Qed.

(** ** C70 *)

(** C70 is false: when the lease of a newly written share does not fit on the
    disk, the request fails, the data are stored, and no pass is recorded. *)
Definition vx_no_room (n : Z) : bool := false.
Theorem C70_errors_change_nothing_refuted :
  exists signed pv iv mv mut sv now room passes q e sv' n s,
  0 < pv /\ reachable_server signed pv iv mv mut sv /\ proper q /\
  serve signed pv mv now room passes q sv = (Err e, sv') /\
  dget n (dirs (sv_storage sv) (index_of q)) = None /\ dget n (dirs (sv_storage sv') (index_of q)) = Some s /\
  data_size s = 20 /\ sv_spent sv' = sv_spent sv.
Proof.
  exists vx_signed, 10, 2, 2, vx_mut, vx_server, vx_soon, vx_no_room, (map vx_pass [x70; x71]), (vx_writev [(9, [(0, repeat x61 20)])]).
  do 2 eexists. exists 9. eexists. split; [lia|]. split; [exact vx_reachable|].
  split; [unfold proper, vx_writev, dict_wf; cbn; repeat constructor; cbn; tauto|].
  split; [apply injective_projections; [vm_compute; reflexivity|reflexivity]|].
  split; [vm_compute; reflexivity|]. split; [vm_compute; reflexivity|]. split; vm_compute; reflexivity.
Qed.
Print Assumptions C70_errors_change_nothing_refuted.

(** What is true (missing: errors raised by the wrapped server): a request
    answered with an error records no pass, and the errors raised by the
    authorizer itself leave everything as it was. *)
Theorem C70_errors_change_nothing_partial :
  forall signed pv mv sv now room passes q e sv',
  serve signed pv mv now room passes q sv = (Err e, sv') ->
  sv_spent sv' = sv_spent sv /\ ((forall t, e <> FromTahoe t) -> 0 < pv -> sv' = sv).
Proof.
  intros signed pv mv sv now room passes q e sv' S. split.
  - destruct (serve_effect _ _ _ _ _ _ _ _ S) as [[-> _]|(_ & _ & ps & Sp & Er & _)]; [reflexivity|].
    rewrite Sp, Er by discriminate. apply app_nil_r.
  - intros N Hv. exact (own_errors_change_nothing _ _ _ _ _ _ _ Hv N S).
Qed.
Print Assumptions C70_errors_change_nothing_partial.
Example C70_example : serve vx_signed 10 2 vx_soon vx_room [vx_pass x61] vx_alloc vx_server
  = (Err (MorePassesRequired 1 6 []), vx_server).
Proof.
  assert (E : fst (serve vx_signed 10 2 vx_soon vx_room [vx_pass x61] vx_alloc vx_server) = Err (MorePassesRequired 1 6 []))
    by (vm_compute; reflexivity).
  destruct (serve vx_signed 10 2 vx_soon vx_room [vx_pass x61] vx_alloc vx_server) as [r sv'] eqn:S. cbn in E. subst r.
  apply C70_errors_change_nothing_partial in S. rewrite (proj2 S); [reflexivity|discriminate|lia].
Qed.
