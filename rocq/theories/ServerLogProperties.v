(** C134: what the storage server logs of a paid request. *)
From Verif Require Import Prelude PreludeFacts BytesModel PassModel PricingModel PricingSpec ContainerModel TahoeModel
  ServerModel ServerSpec ServerProofs ServerProperties ServerLogModel ServerLogSpec ServerLogProofs.
From Coq Require Strings.String. Import Coq.Strings.String.StringSyntax.
Set Implicit Arguments.

(** Logging changes neither the answer nor the server. *)
Theorem C134_logging_changes_nothing : forall signed pv mv now room passes q sv,
  snd (log_serve signed pv mv now room passes q sv) = serve signed pv mv now room passes q sv.
Proof. exact erase_serve. Qed.
Print Assumptions C134_logging_changes_nothing.

(** Take two servers that store shares of the same numbers and sizes under the
    storage index of a request, the same ones of them with an unexpired lease,
    but whatever contents, lease secrets and write enablers.  Send them requests
    that differ in secrets, contents and what is read, with whatever passes.  If
    both are served or both refused in the same way, the two logs are the same. *)
Theorem C134_log_shows_no_secret : forall signed pv iv mv mut1 mut2 sv1 sv2
    now1 now2 room1 room2 passes1 passes2 q1 q2,
  reachable_server signed pv iv mv mut1 sv1 -> reachable_server signed pv iv mv mut2 sv2 ->
  alike q1 q2 ->
  pairwise (alike_share now1 now2) (dirs (sv_storage sv1) (index_of q1)) (dirs (sv_storage sv2) (index_of q1)) ->
  end_alike (fst (serve signed pv mv now1 room1 passes1 q1 sv1)) (fst (serve signed pv mv now2 room2 passes2 q2 sv2)) ->
  fst (log_serve signed pv mv now1 room1 passes1 q1 sv1) = fst (log_serve signed pv mv now2 room2 passes2 q2 sv2).
Proof.
  intros signed pv iv mv mut1 mut2 sv1 sv2 now1 now2 room1 room2 passes1 passes2 q1 q2 R1 R2. apply same_log.
  - apply (@reachable_wf _ _ _ _ _ _ R1).
  - apply (@reachable_homogeneous _ _ _ _ _ _ _ R1).
  - apply (@reachable_wf _ _ _ _ _ _ R2).
  - apply (@reachable_homogeneous _ _ _ _ _ _ _ R2).
Qed.
Print Assumptions C134_log_shows_no_secret.

(** The first line names the operation and its storage index, the last says how
    it ended. *)
Theorem C134_log_says_how_it_ended : forall signed pv mv now room passes q sv,
  exists l,
  fst (log_serve signed pv mv now room passes q sv) =
  match q with
  | Allocate si _ _ sharenums size => RemoteAllocate si sharenums size
  | AddLease si _ _ => RemoteAddLease si
  | Writev si _ _ _ _ _ => RemoteWritev si
  end :: l ++ [match fst (serve signed pv mv now room passes q sv) with Ok _ => Succeeded | Err e => Failed e end].
Proof.
  intros. rewrite <- erase_serve. unfold log_serve.
  destruct q; [destruct (log_allocate_buckets _ _ _ _ _ _ _ _ _ _ _) as [l [r sv']]
    |destruct (log_add_lease _ _ _ _ _ _ _ _ _) as [l [r sv']]
    |destruct (log_slot_writev _ _ _ _ _ _ _ _ _ _ _ _ _) as [l [r sv']]]; exists l; reflexivity.
Qed.
Print Assumptions C134_log_says_how_it_ended.

(** The sizes logged for a lease are those of the stored shares. *)
Theorem C134_lease_sizes_are_true : forall signed pv iv mv mut sv now room passes si renew cancel sizes,
  reachable_server signed pv iv mv mut sv ->
  In (ShareSizes sizes) (fst (log_serve signed pv mv now room passes (AddLease si renew cancel) sv)) ->
  sizes = map (fun ns => (fst ns, data_size (snd ns))) (dirs (sv_storage sv) si).
Proof.
  intros signed pv iv mv mut sv now room passes si renew cancel sizes R. apply lease_sizes_true.
  - apply (@reachable_wf _ _ _ _ _ _ R).
  - apply (@reachable_homogeneous _ _ _ _ _ _ _ R).
Qed.
Print Assumptions C134_lease_sizes_are_true.

(** The sizes logged for a write are those of the stored shares that are written. *)
Theorem C134_write_sizes_are_true : forall signed pv iv mv mut sv now room passes si we renew cancel tw rv sizes,
  reachable_server signed pv iv mv mut sv -> proper (Writev si we renew cancel tw rv) ->
  In (ShareSizes sizes) (fst (log_serve signed pv mv now room passes (Writev si we renew cancel tw rv) sv)) ->
  forall n z, In (n, z) sizes <->
    (exists s, In (n, s) (dirs (sv_storage sv) si) /\ z = data_size s) /\ exists w, In (n, w) tw /\ tw_data w <> [].
Proof.
  intros signed pv iv mv mut sv now room passes si we renew cancel tw rv sizes R P. apply write_sizes_true.
  - apply (@reachable_wf _ _ _ _ _ _ R).
  - apply (@reachable_homogeneous _ _ _ _ _ _ _ R).
  - exact P.
Qed.
Print Assumptions C134_write_sizes_are_true.

(** The calculation logged for a write: its passes are the price of its sizes,
    and their difference is the price of the write. *)
Theorem C134_write_price_is_true : forall signed pv iv mv mut sv now room passes si we renew cancel tw rv cur sm a new b,
  0 < pv -> reachable_server signed pv iv mv mut sv -> proper (Writev si we renew cancel tw rv) ->
  In (MutablePassesRequired cur sm a new b)
     (fst (log_serve signed pv mv now room passes (Writev si we renew cancel tw rv) sv)) ->
  exact_price pv (map snd cur) a /\ exact_price pv (map snd new) b /\
  price pv (sv_storage sv) now (Writev si we renew cancel tw rv) (b - a).
Proof.
  intros signed pv iv mv mut sv now room passes si we renew cancel tw rv cur sm a new b Hv R P. apply write_price_true.
  - exact Hv.
  - apply (@reachable_wf _ _ _ _ _ _ R).
  - apply (@reachable_homogeneous _ _ _ _ _ _ _ R).
  - exact P.
Qed.
Print Assumptions C134_write_price_is_true.

(** An accepted write has the calculation in the log. *)
Theorem C134_accepted_write_is_explained : forall signed pv mv now room passes si we renew cancel tw rv sv x,
  fst (serve signed pv mv now room passes (Writev si we renew cancel tw rv) sv) = Ok x ->
  exists cur sm a new b, In (MutablePassesRequired cur sm a new b)
     (fst (log_serve signed pv mv now room passes (Writev si we renew cancel tw rv) sv)).
Proof.
  intros signed pv mv now room passes si we renew cancel tw rv sv x H.
  destruct (accepted_write_logged _ _ _ _ _ _ _ _ _ _ _ _ _ H) as (cur & a & new & b & I). eauto 6.
Qed.
Print Assumptions C134_accepted_write_is_explained.

(** The summary in it has the place and the number of the bytes compared and
    written. *)
Theorem C134_write_summary_is_true : forall signed pv mv now room passes si we renew cancel tw rv sv cur sm a new b,
  In (MutablePassesRequired cur sm a new b)
     (fst (log_serve signed pv mv now room passes (Writev si we renew cancel tw rv) sv)) ->
  pairwise describes sm tw.
Proof. exact summary_true. Qed.
Print Assumptions C134_write_summary_is_true.

(** ** Cases *)
Lemma svx_nil A B (R : A -> B -> Prop) : pairwise R [] [].
Proof. split; [reflexivity|]. intros [|i] x y X; discriminate. Qed.
Lemma svx_cons A B (R : A -> B -> Prop) x y a b : R x y -> pairwise R a b -> pairwise R (x :: a) (y :: b).
Proof.
  intros H [L P]. split; [cbn; now rewrite L|]. intros [|i] u v U V; cbn in U, V; [congruence|eapply P; eassumption].
Qed.
Definition svx_write (b : byte) (r c : bytes) : request :=
  Writev vx_si [] r c (vx_write [(0, [(21, repeat b 20)]); (3, [(0, repeat b 10)])]) [].
Definition svx_log (b : byte) (r c : bytes) (passes : list bytes) : list line :=
  fst (log_serve vx_signed 10 2 vx_soon vx_room passes (svx_write b r c) vx_server).
Example C134_example_log :
  svx_log x41 (ascii "renew") (ascii "cancel") (map vx_pass [x61; x62; x63]) =
  [RemoteWritev vx_si; GetShareSizes vx_si [0; 3]; ShareSizes [(0, 25)];
   MutablePassesRequired [(0, 25)]
     [(0, Summary [] [(21, 20)] None); (3, Summary [] [(0, 10)] None)]
     3 [(0, 41); (3, 10)] 6;
   Succeeded].
Proof. vm_compute. reflexivity. Qed.
Example C134_example_no_secret :
  svx_log x41 (ascii "renew") (ascii "cancel") (map vx_pass [x61; x62; x63]) =
  svx_log x42 (ascii "other") (ascii "others") (map vx_pass [x64; x65; x66; x67]).
Proof.
  unfold svx_log. eapply C134_log_shows_no_secret with (now1 := vx_soon) (now2 := vx_soon).
  - exact vx_reachable.
  - exact vx_reachable.
  - unfold svx_write. constructor. unfold vx_write. cbn [map]. repeat (apply svx_cons || apply svx_nil);
      (split; [reflexivity|split; [|split; [|reflexivity]]]; repeat (apply svx_cons || apply svx_nil); split; reflexivity).
  - split; [reflexivity|]. intros i x y X Y. rewrite X in Y. injection Y as <-. repeat split; auto.
  - vm_compute. exact I.
Qed.
