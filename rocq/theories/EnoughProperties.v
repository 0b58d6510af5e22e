(** Property theorem C101: enough good tokens always suffice. *)
From Verif Require Import Prelude PreludeFacts BytesModel BytesProofs PassModel PricingModel PricingSpec PricingProofs
  ContainerModel ContainerProofs TahoeModel ServerModel ServerSpec ServerProofs ServerStateProofs ServerRequestProofs
  StoreModel StoreSpec StoreProofs SpendModel SpendSpec SpendProofs SpendProperties
  ClientModel ClientProofs ServerProperties ClientProperties EnoughSpec EnoughProofs.
From Coq Require Strings.String.
Import Coq.Strings.String.StringSyntax.

(** In each theorem the request costs [n] passes, the wallet has [good >= n]
    good tokens among the [k] that can be taken, and the server may find any of
    the others bad.  The call ends, after at most [1 + k - good] attempts (one, and
    one more for each token that is not good), with the
    one answer [x] this server has for anybody who pays. *)

Theorem C101_allocate_served :
  forall signed pv iv mv mut preimage sign now room scan si renew cancel nums sz sv n good d k fuel,
  let q := Allocate si renew cancel nums sz in
  sound_passes preimage sign -> fair_scan scan -> 0 < pv -> NoDup nums -> 0 <= sz ->
  reachable_server signed pv iv mv mut sv -> fresh_reachable d ->
  price pv (sv_storage sv) now q n -> n <= SQLITE3_INTEGER_MAX ->
  good_tokens signed preimage sign q d good -> n <= good ->
  available_count d k -> (k < fuel)%nat ->
  exists r d' tr x,
    linked_allocate signed pv mv preimage sign now room scan si renew cancel nums sz sv fuel d = Some (r, d', tr) /\
    (length tr <= S (k - Z.to_nat good))%nat /\
    given_for signed pv mv now room q sv n x /\
    (forall y, given_for signed pv mv now room q sv n y -> y = x) /\
    r = match x with Ok y => Ok (buckets_of y) | Err _ => Err (Remote 0) end.
Proof.
  intros signed pv iv mv mut preimage sign now room scan si renew cancel nums sz sv n good d k fuel q Hs Hc Hv N Z0 R F Pr Le G Lg Av Lf.
  assert (W : wf_dir (dirs (sv_storage sv) si)) by (eapply reachable_wf; exact R).
  destruct (@allocate_served signed pv mv preimage sign now room scan Hs Hc Hv si renew cancel nums sz sv n good d k fuel
              N Z0 W F Pr Le G Lg Av Lf) as (r & d' & tr & x & E & L & Gx & Er).
  exists r, d', tr, x. split; [exact E|]. split; [exact L|]. split; [exact Gx|]. split; [|exact Er].
  intros y Gy. exact (@given_unique signed pv mv now room Hv q sv n W (or_introl eq_refl) (conj N Z0) Pr y x Gy Gx).
Qed.
Print Assumptions C101_allocate_served.

Theorem C101_add_lease_served :
  forall signed pv iv mv mut preimage sign now room scan si renew cancel sv n good d k fuel,
  let q := AddLease si renew cancel in
  sound_passes preimage sign -> fair_scan scan -> 0 < pv ->
  reachable_server signed pv iv mv mut sv -> fresh_reachable d ->
  price pv (sv_storage sv) now q n -> n <= SQLITE3_INTEGER_MAX ->
  good_tokens signed preimage sign q d good -> n <= good ->
  available_count d k -> (k < fuel)%nat ->
  exists r d' tr x,
    linked_add_lease signed pv mv preimage sign now room scan si renew cancel sv fuel d = Some (r, d', tr) /\
    (length tr <= S (k - Z.to_nat good))%nat /\
    given_for signed pv mv now room q sv n x /\
    (forall y, given_for signed pv mv now room q sv n y -> y = x) /\
    r = match x with Ok y => Ok y | Err _ => Err (Remote 0) end.
Proof.
  intros signed pv iv mv mut preimage sign now room scan si renew cancel sv n good d k fuel q Hs Hc Hv R F Pr Le G Lg Av Lf.
  assert (W : wf_dir (dirs (sv_storage sv) si)) by (eapply reachable_wf; exact R).
  assert (H : homogeneous (dirs (sv_storage sv) si)) by (eapply reachable_homogeneous; exact R).
  destruct (@add_lease_served signed pv mv preimage sign now room scan Hs Hc Hv si renew cancel sv n good d k fuel
              W H F Pr Le G Lg Av Lf) as (r & d' & tr & x & E & L & Gx & Er).
  exists r, d', tr, x. split; [exact E|]. split; [exact L|]. split; [exact Gx|]. split; [|exact Er].
  intros y Gy. exact (@given_unique signed pv mv now room Hv q sv n W (or_intror H) I Pr y x Gy Gx).
Qed.
Print Assumptions C101_add_lease_served.

Theorem C101_writev_served :
  forall signed pv iv mv mut preimage sign now room scan si we renew cancel tw rv sv n good d k fuel,
  let q := Writev si we renew cancel tw rv in
  sound_passes preimage sign -> fair_scan scan -> 0 < pv -> 0 <= now -> dict_wf tw ->
  reachable_server signed pv iv mv mut sv -> fresh_reachable d ->
  price pv (sv_storage sv) now q n -> n <= SQLITE3_INTEGER_MAX ->
  good_tokens signed preimage sign q d good -> n <= good ->
  available_count d k -> (k < fuel)%nat ->
  exists r d' tr x,
    linked_writev signed pv mv preimage sign now room scan si we renew cancel tw rv sv fuel d = Some (r, d', tr) /\
    (length tr <= S (k - Z.to_nat good))%nat /\
    given_for signed pv mv now room q sv n x /\
    (forall y, given_for signed pv mv now room q sv n y -> y = x) /\
    r = match x with Ok y => Ok y | Err _ => Err (Remote 0) end.
Proof.
  intros signed pv iv mv mut preimage sign now room scan si we renew cancel tw rv sv n good d k fuel q Hs Hc Hv Hn Wt R F Pr Le G Lg Av Lf.
  assert (W : wf_dir (dirs (sv_storage sv) si)) by (eapply reachable_wf; exact R).
  assert (H : homogeneous (dirs (sv_storage sv) si)) by (eapply reachable_homogeneous; exact R).
  destruct (@writev_served signed pv mv preimage sign now room scan Hs Hc Hv si we renew cancel tw rv sv n good d k fuel
              Hn Wt W H F Pr Le G Lg Av Lf) as (r & d' & tr & x & E & L & Gx & Er).
  exists r, d', tr, x. split; [exact E|]. split; [exact L|]. split; [exact Gx|]. split; [|exact Er].
  intros y Gy. exact (@given_unique signed pv mv now room Hv q sv n W (or_intror H) Wt Pr y x Gy Gx).
Qed.
Print Assumptions C101_writev_served.

(** ** Example *)

(** The write of price 3 and the wallet of C26: tokens 11 to 15 can be taken,
    token 12 is bad, and the first attempt presents it. *)
Definition ex_q := Writev vx_si [] (ascii "r") (ascii "c") vx_tw [].
Example C101_example :
  fair_scan (fun _ l => l) /\ 0 <= vx_soon /\ dict_wf vx_tw /\
  price 10 (sv_storage vx_server) vx_soon ex_q 3 /\
  good_tokens vx_signed lx_preimage lx_sign ex_q sx_db 4 /\ ~ good_for vx_signed lx_preimage lx_sign ex_q 12 /\
  available_count sx_db 5 /\
  match linked_writev vx_signed 10 2 lx_preimage lx_sign vx_soon vx_room (fun _ l => l)
          vx_si [] (ascii "r") (ascii "c") vx_tw [] vx_server 6 sx_db with
  | Some (Ok (Written true _), _, tr) => map (fun a => map fst (fst a)) tr = [[11; 12; 13]; [11; 13; 14]]
  | _ => False
  end.
Proof.
  assert (Wt : dict_wf vx_tw) by apply C06_example_hypotheses.
  assert (Av : available sx_db = [11; 12; 13; 14; 15]) by (vm_compute; reflexivity).
  split; [intros n l; apply Permutation_refl|]. split; [vm_compute; discriminate|]. split; [exact Wt|].
  split; [unfold ex_q; apply vx_price; [vm_compute; discriminate|exact Wt|vm_compute; reflexivity]|].
  split.
  { exists [11; 13; 14; 15]. split; [repeat constructor; cbn; intuition discriminate|]. split; [reflexivity|].
    intros t I. assert (J : In t (available sx_db)) by (rewrite Av; clear - I; cbn [In] in *; tauto).
    destruct (proj1 (in_available sx_db t) J) as [J1 J2]. split; [exact J1|]. split; [exact J2|].
    unfold good_for, vx_signed, lx_sign. destruct (Z.eqb_spec t 12) as [->|Nt]; [clear - I; cbn [In] in I; lia|].
    apply bytes_eqb_refl. }
  split; [vm_compute; discriminate|]. split.
  { exists (available sx_db). split; [apply available_NoDup; apply (fresh_clean sx_fresh)|].
    split; [|rewrite Av; reflexivity]. exact (in_available sx_db). }
  vm_compute. reflexivity.
Qed.
