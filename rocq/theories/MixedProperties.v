(** Property theorems C106: client and server with different pass values. *)
From Verif Require Import Prelude PreludeFacts BytesModel BytesProofs PassModel PricingModel PricingSpec PricingProofs
  ContainerModel ContainerProofs TahoeModel ServerModel ServerSpec ServerProofs ServerStateProofs ServerRequestProofs
  StoreModel StoreSpec StoreProofs SpendModel SpendSpec SpendProofs SpendProperties
  ClientModel ClientProofs ServerProperties ClientProperties EnoughSpec EnoughProofs EnoughProperties
  ConfigModel ConfigSpec ConfigProperties MixedModel MixedProofs.
From Coq Require Strings.String.
Import Coq.Strings.String.StringSyntax.

(** C106 is false: a client is set up for a server whose passes have another
    value, and whose key is not one of the allowed ones. *)
Theorem C106_same_terms_refuted : ~ (forall is_url options key a spv c cpv r,
  uses_ristretto c -> get_storage_server options key = Ok (a, spv) -> get_storage_client is_url c a = Ok (cpv, r) ->
  cpv = spv \/ exists allowed, get_configured_allowed_public_keys c = Ok allowed /\ In key allowed).
Proof.
  intros H.
  set (url := ascii "https://issuer/").
  set (options := fun o => if bytes_eqb o (ascii "pass-value") then None else Some url).
  set (c := cx [(ascii "ristretto-issuer-root-url", url); (ascii "pass-value", ascii "1000"); (ascii "allowed-public-keys", ascii "k1")]).
  destruct (H (fun _ => true) options (ascii "k2") (Announcement (Some url) [ascii "k2"]) 1048576 c 1000 (RistrettoRedeemer url))
    as [X|(allowed & X & Y)].
  - left. reflexivity.
  - reflexivity.
  - reflexivity.
  - discriminate X.
  - vm_compute in X. injection X as <-. destruct Y as [Y|[]]. discriminate Y.
Qed.
Print Assumptions C106_same_terms_refuted.

(** What happens then.  The client counts [m] passes, the server wants [n].

    Too few: the call ends with an error whatever tokens there are, the server
    is unchanged, and no token is spent. *)

Theorem C106_underpaid_allocate :
  forall signed cpv spv iv mv mut preimage sign now room scan si renew cancel nums sz sv m n d k fuel,
  let q := Allocate si renew cancel nums sz in
  sound_passes preimage sign -> fair_scan scan -> 0 < cpv -> 0 < spv -> NoDup nums -> 0 <= sz ->
  reachable_server signed spv iv mv mut sv -> fresh_reachable d ->
  price cpv (sv_storage sv) now q m -> price spv (sv_storage sv) now q n -> m < n ->
  available_count d k -> (k < fuel)%nat ->
  exists f d' tr,
    mixed_allocate signed cpv spv mv preimage sign now room scan si renew cancel nums sz sv fuel d = Some (Err f, d', tr) /\
    state_after signed spv mv now room q sv tr = sv /\ (forall t, taken tr t -> ~ is_spent d' t).
Proof.
  intros signed cpv spv iv mv mut preimage sign now room scan si renew cancel nums sz sv m n d k fuel q Hs Hc Hp Hv N Z0 R F Pm Pn Lt Av Lf.
  assert (W : wf_dir (dirs (sv_storage sv) si)) by (eapply reachable_wf; exact R).
  exact (@allocate_under signed cpv spv mv preimage sign now room scan Hs Hc Hp Hv si renew cancel nums sz sv m n d k fuel N Z0 W F Pm Pn Lt Av Lf).
Qed.
Print Assumptions C106_underpaid_allocate.

Theorem C106_underpaid_add_lease :
  forall signed cpv spv iv mv mut preimage sign now room scan si renew cancel sv m n d k fuel,
  let q := AddLease si renew cancel in
  sound_passes preimage sign -> fair_scan scan -> 0 < cpv -> 0 < spv ->
  reachable_server signed spv iv mv mut sv -> fresh_reachable d ->
  price cpv (sv_storage sv) now q m -> price spv (sv_storage sv) now q n -> m < n ->
  available_count d k -> (k < fuel)%nat ->
  exists f d' tr,
    mixed_add_lease signed cpv spv mv preimage sign now room scan si renew cancel sv fuel d = Some (Err f, d', tr) /\
    state_after signed spv mv now room q sv tr = sv /\ (forall t, taken tr t -> ~ is_spent d' t).
Proof.
  intros signed cpv spv iv mv mut preimage sign now room scan si renew cancel sv m n d k fuel q Hs Hc Hp Hv R F Pm Pn Lt Av Lf.
  assert (W : wf_dir (dirs (sv_storage sv) si)) by (eapply reachable_wf; exact R).
  assert (H : homogeneous (dirs (sv_storage sv) si)) by (eapply reachable_homogeneous; exact R).
  exact (@add_lease_under signed cpv spv mv preimage sign now room scan Hs Hc Hp Hv si renew cancel sv m n d k fuel W H F Pm Pn Lt Av Lf).
Qed.
Print Assumptions C106_underpaid_add_lease.

Theorem C106_underpaid_writev :
  forall signed cpv spv iv mv mut preimage sign now room scan si we renew cancel tw rv sv m n d k fuel,
  let q := Writev si we renew cancel tw rv in
  sound_passes preimage sign -> fair_scan scan -> 0 < cpv -> 0 < spv -> 0 <= now -> dict_wf tw ->
  reachable_server signed spv iv mv mut sv -> fresh_reachable d ->
  price cpv (sv_storage sv) now q m -> price spv (sv_storage sv) now q n -> m < n ->
  available_count d k -> (k < fuel)%nat ->
  exists f d' tr,
    mixed_writev signed cpv spv mv preimage sign now room scan si we renew cancel tw rv sv fuel d = Some (Err f, d', tr) /\
    state_after signed spv mv now room q sv tr = sv /\ (forall t, taken tr t -> ~ is_spent d' t).
Proof.
  intros signed cpv spv iv mv mut preimage sign now room scan si we renew cancel tw rv sv m n d k fuel q Hs Hc Hp Hv Hn Wt R F Pm Pn Lt Av Lf.
  assert (W : wf_dir (dirs (sv_storage sv) si)) by (eapply reachable_wf; exact R).
  assert (H : homogeneous (dirs (sv_storage sv) si)) by (eapply reachable_homogeneous; exact R).
  exact (@writev_under signed cpv spv mv preimage sign now room scan Hs Hc Hp Hv si we renew cancel tw rv sv m n d k fuel Hn Wt W H F Pm Pn Lt Av Lf).
Qed.
Print Assumptions C106_underpaid_writev.

(** Too many: with enough good tokens the call is served, and [m] tokens are
    spent for [n]; for an allocation, the client's price of the buckets made. *)

Theorem C106_overpaid_allocate :
  forall signed cpv spv iv mv mut preimage sign now room scan si renew cancel nums sz sv m n good d k fuel,
  let q := Allocate si renew cancel nums sz in
  sound_passes preimage sign -> fair_scan scan -> 0 < cpv -> 0 < spv -> NoDup nums -> 0 <= sz ->
  reachable_server signed spv iv mv mut sv -> fresh_reachable d ->
  price cpv (sv_storage sv) now q m -> price spv (sv_storage sv) now q n -> n <= m -> m <= SQLITE3_INTEGER_MAX ->
  good_tokens signed preimage sign q d good -> m <= good -> available_count d k -> (k < fuel)%nat ->
  exists r d' tr x,
    mixed_allocate signed cpv spv mv preimage sign now room scan si renew cancel nums sz sv fuel d = Some (r, d', tr) /\
    given_for signed spv mv now room q sv n x /\
    r = match x with Ok y => Ok (buckets_of y) | Err _ => Err (Remote 0) end /\
    (forall have buckets, r = Ok (have, buckets) ->
       exists l c, NoDup l /\ exact_price cpv (repeat sz (length buckets)) c /\ Z.of_nat (length l) = Z.min c m /\
         forall t, taken tr t -> (is_spent d' t <-> In t l)).
Proof.
  intros signed cpv spv iv mv mut preimage sign now room scan si renew cancel nums sz sv m n good d k fuel q Hs Hc Hp Hv N Z0 R F Pm Pn Le Mx G Lg Av Lf.
  assert (W : wf_dir (dirs (sv_storage sv) si)) by (eapply reachable_wf; exact R).
  exact (@allocate_over signed cpv spv mv preimage sign now room scan Hs Hc Hp Hv si renew cancel nums sz sv m n good d k fuel N Z0 W F Pm Pn Le Mx G Lg Av Lf).
Qed.
Print Assumptions C106_overpaid_allocate.

Theorem C106_overpaid_add_lease :
  forall signed cpv spv iv mv mut preimage sign now room scan si renew cancel sv m n good d k fuel,
  let q := AddLease si renew cancel in
  sound_passes preimage sign -> fair_scan scan -> 0 < cpv -> 0 < spv ->
  reachable_server signed spv iv mv mut sv -> fresh_reachable d ->
  price cpv (sv_storage sv) now q m -> price spv (sv_storage sv) now q n -> n <= m -> m <= SQLITE3_INTEGER_MAX ->
  good_tokens signed preimage sign q d good -> m <= good -> available_count d k -> (k < fuel)%nat ->
  exists r d' tr x,
    mixed_add_lease signed cpv spv mv preimage sign now room scan si renew cancel sv fuel d = Some (r, d', tr) /\
    given_for signed spv mv now room q sv n x /\
    r = match x with Ok y => Ok y | Err _ => Err (Remote 0) end /\
    ((exists y, r = Ok y) -> exists l, NoDup l /\ Z.of_nat (length l) = m /\ forall t, taken tr t -> (is_spent d' t <-> In t l)).
Proof.
  intros signed cpv spv iv mv mut preimage sign now room scan si renew cancel sv m n good d k fuel q Hs Hc Hp Hv R F Pm Pn Le Mx G Lg Av Lf.
  assert (W : wf_dir (dirs (sv_storage sv) si)) by (eapply reachable_wf; exact R).
  assert (H : homogeneous (dirs (sv_storage sv) si)) by (eapply reachable_homogeneous; exact R).
  exact (@add_lease_over signed cpv spv mv preimage sign now room scan Hs Hc Hp Hv si renew cancel sv m n good d k fuel W H F Pm Pn Le Mx G Lg Av Lf).
Qed.
Print Assumptions C106_overpaid_add_lease.

Theorem C106_overpaid_writev :
  forall signed cpv spv iv mv mut preimage sign now room scan si we renew cancel tw rv sv m n good d k fuel,
  let q := Writev si we renew cancel tw rv in
  sound_passes preimage sign -> fair_scan scan -> 0 < cpv -> 0 < spv -> 0 <= now -> dict_wf tw ->
  reachable_server signed spv iv mv mut sv -> fresh_reachable d ->
  price cpv (sv_storage sv) now q m -> price spv (sv_storage sv) now q n -> n <= m -> m <= SQLITE3_INTEGER_MAX ->
  good_tokens signed preimage sign q d good -> m <= good -> available_count d k -> (k < fuel)%nat ->
  exists r d' tr x,
    mixed_writev signed cpv spv mv preimage sign now room scan si we renew cancel tw rv sv fuel d = Some (r, d', tr) /\
    given_for signed spv mv now room q sv n x /\
    r = match x with Ok y => Ok y | Err _ => Err (Remote 0) end /\
    ((exists y, r = Ok y) -> exists l, NoDup l /\ Z.of_nat (length l) = m /\ forall t, taken tr t -> (is_spent d' t <-> In t l)).
Proof.
  intros signed cpv spv iv mv mut preimage sign now room scan si we renew cancel tw rv sv m n good d k fuel q Hs Hc Hp Hv Hn Wt R F Pm Pn Le Mx G Lg Av Lf.
  assert (W : wf_dir (dirs (sv_storage sv) si)) by (eapply reachable_wf; exact R).
  assert (H : homogeneous (dirs (sv_storage sv) si)) by (eapply reachable_homogeneous; exact R).
  exact (@writev_over signed cpv spv mv preimage sign now room scan Hs Hc Hp Hv si we renew cancel tw rv sv m n good d k fuel Hn Wt W H F Pm Pn Le Mx G Lg Av Lf).
Qed.
Print Assumptions C106_overpaid_writev.

(** ** Example *)

(** The write that costs 3 passes of 10 bytes: a client for which passes are of
    20 bytes presents 2, one for which they are of 8 bytes presents 4.  (Token 12 is bad:
    in the second case the server needs 3 good passes and has them at once, and
    the bad one is spent along with them.) *)
Example C106_example :
  let stats := map (fun ns => (fst ns, stat_of (snd ns))) (dirs (sv_storage vx_server) vx_si) in
  let call cpv := mixed_writev vx_signed cpv 10 2 lx_preimage lx_sign vx_soon vx_room (fun _ l => l)
          vx_si [] (ascii "r") (ascii "c") vx_tw [] vx_server 6 sx_db in
  client_write_price 20 stats vx_soon vx_tw = Ok 2 /\ client_write_price 8 stats vx_soon vx_tw = Ok 4 /\
  match call 20 with
  | Some (Err (MorePasses []), _, tr) => map (fun a => map fst (fst a)) tr = [[11; 12]; [11; 13]]
  | _ => False
  end /\
  match call 8 with
  | Some (Ok (Written true _), d', tr) =>
      map (fun a => map fst (fst a)) tr = [[11; 12; 13; 14]] /\ map u_token (unblinded d') = [15; 21; 22]
  | _ => False
  end.
Proof. vm_compute. auto. Qed.
