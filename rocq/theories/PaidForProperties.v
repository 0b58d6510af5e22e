(** C126: the server is paid for everything it holds. *)
From Coq Require Strings.String. Import Coq.Strings.String.StringSyntax.
From Verif Require Import Prelude PreludeFacts BytesModel PassModel PricingModel PricingSpec PricingProofs ContainerModel TahoeModel
  ServerModel ServerSpec ServerProofs ServerStateProofs ServerRequestProofs ServerProperties UpkeepProofs PaidForSpec PaidForProofs.
Set Implicit Arguments.

(** C126 is false: what a write leaves behind when the wrapped server gives up is
    held without any pass on record. *)
Definition pf_history : list event :=
  vx_history ++ [ERequest vx_soon vx_no_room (map vx_pass [x70; x71]) (vx_writev [(9, [(0, repeat x61 20)])])].
Definition pf_server : server := snd (server_run vx_signed 10 2 2 empty_server pf_history).
Theorem C126_paid_for_all_it_holds_refuted :
  exists signed pv iv mv mut sv sis p,
  0 < pv /\ reachable_server signed pv iv mv mut sv /\ NoDup sis /\
  exact_price pv (held (sv_storage sv) sis) p /\ Z.of_nat (length (sv_spent sv)) < p.
Proof.
  exists vx_signed, 10, 2, 2, vx_mut, pf_server, [vx_si; vx_bucket], 12. split; [lia|]. split.
  - split; [auto|]. split; [auto|]. exists pf_history, (fst (server_run vx_signed 10 2 2 empty_server pf_history)).
    split; [repeat constructor; cbn; intuition (try discriminate; try lia)|]. split; [repeat constructor|].
    unfold pf_server. destruct (server_run _ _ _ _ _ _); reflexivity.
  - split; [repeat constructor; cbn; intuition discriminate|]. split; [|vm_compute; reflexivity].
    replace (held (sv_storage pf_server) [vx_si; vx_bucket]) with [25; 7; 20; 25; 25] by (vm_compute; reflexivity).
    change 12 with (sumZ (map (fun s => cdiv s 10) [25; 7; 20; 25; 25])). apply exact_price_sum. lia.
Qed.
Print Assumptions C126_paid_for_all_it_holds_refuted.

(** What is true of any history: all that is stored and all that is being
    uploaded, priced share by share, costs no more than the passes recorded as
    spent and the price of the abandoned writes. *)
Theorem C126_only_abandoned_writes_are_unpaid :
  forall signed pv iv mv mut es os sv owing sis p,
  0 < pv -> iv = 1 \/ iv = 2 -> mv = 1 \/ mv = 2 -> Forall proper_event es -> Forall (separate mut) es ->
  server_run signed pv iv mv empty_server es = (os, sv) -> owed signed pv iv mv empty_server es owing ->
  NoDup sis -> exact_price pv (held (sv_storage sv) sis) p ->
  p <= Z.of_nat (length (sv_spent sv)) + owing.
Proof.
  intros signed pv iv mv mut es os sv owing sis p Hv Hi Hm P Q R O N E.
  assert (Re : reachable_server signed pv iv mv mut empty_server).
  { split; [exact Hi|]. split; [exact Hm|]. exists [], []. repeat constructor. }
  rewrite (exact_cost Hv E).
  refine (proj2 (@run_covered signed pv iv mv Hv mut es 0 empty_server os sv owing Re P Q R O _) sis N).
  split; [intros u []|]. intros l _. rewrite held_cost. cbn [empty_server sv_storage dirs incoming sv_spent].
  assert (Z0 : sumZ (map (fun _ => dir_cost pv []) l) = 0) by (induction l as [|x l IH]; [reflexivity|cbn in *; lia]).
  rewrite Z0. cbn. lia.
Qed.
Print Assumptions C126_only_abandoned_writes_are_unpaid.

(** (Missing: histories with abandoned writes.)  If the wrapped server gave up no
    write, everything is paid for. *)
Theorem C126_paid_for_all_it_holds_partial :
  forall signed pv iv mv mut es os sv sis p,
  0 < pv -> iv = 1 \/ iv = 2 -> mv = 1 \/ mv = 2 -> Forall proper_event es -> Forall (separate mut) es ->
  server_run signed pv iv mv empty_server es = (os, sv) -> no_abandoned_write es os ->
  NoDup sis -> exact_price pv (held (sv_storage sv) sis) p ->
  p <= Z.of_nat (length (sv_spent sv)).
Proof.
  intros signed pv iv mv mut es os sv sis p Hv Hi Hm P Q R A N E.
  rewrite <- (Z.add_0_r (Z.of_nat _)).
  refine (@C126_only_abandoned_writes_are_unpaid signed pv iv mv mut es os sv 0 sis p Hv Hi Hm P Q R _ N E).
  eapply nothing_owed; [exact R|exact A].
Qed.
Print Assumptions C126_paid_for_all_it_holds_partial.

(** The history of [vx_server]: two shares in a slot, one share and one upload
    in a bucket cost 3 + 1 + 3 + 3 passes, and ten are on record. *)
Example C126_example :
  held (sv_storage vx_server) [vx_si; vx_bucket] = [25; 7; 25; 25] /\
  sumZ (map (fun s => cdiv s 10) [25; 7; 25; 25]) = 10 /\ length (sv_spent vx_server) = 10%nat.
Proof. repeat split; vm_compute; reflexivity. Qed.
Example C126_example_hypotheses :
  Forall proper_event vx_history /\ Forall (separate vx_mut) vx_history /\
  no_abandoned_write vx_history (fst (server_run vx_signed 10 2 2 empty_server vx_history)) /\
  NoDup [vx_si; vx_bucket] /\ exact_price 10 (held (sv_storage vx_server) [vx_si; vx_bucket]) 10.
Proof.
  split; [repeat constructor; cbn; intuition (try discriminate; try lia)|]. split; [repeat constructor|]. split.
  - set (os := fst _). assert (E : os = [Some (Ok (Written true [])); Some (Ok (Allocated [] [0; 5])); None]) by (vm_compute; reflexivity).
    rewrite E. clear E os. intros i e o X Y A. destruct i as [|[|[|i]]]; cbn in Y; try (destruct i; discriminate); injection Y as <-.
    + injection X as <-. exact A.
    + injection X as <-. exact A.
    + injection X as <-. exact A.
  - split; [repeat constructor; cbn; intuition discriminate|].
    destruct C126_example as (-> & <- & _). apply exact_price_sum. lia.
Qed.
(** With the abandoned write, its two passes are owing. *)
Example C126_example_owing : owed vx_signed 10 2 2 empty_server pf_history 2.
Proof.
  unfold pf_history, vx_history. cbn [app].
  eapply owed_other; [apply surjective_pairing|vm_compute; tauto|].
  eapply owed_other; [apply surjective_pairing|vm_compute; tauto|].
  eapply owed_other; [apply surjective_pairing|vm_compute; tauto|].
  match goal with |- owed _ _ _ _ ?s ?l 2 => change (owed vx_signed 10 2 2 s l (2 + 0)) end.
  eapply owed_write; [apply surjective_pairing|vm_compute; exact Logic.I| |constructor].
  match goal with |- price _ (sv_storage ?s) _ _ _ => change s with vx_server end.
  apply vx_price; [vm_compute; discriminate|unfold dict_wf; cbn; repeat constructor; cbn; tauto|vm_compute; reflexivity].
Qed.

(** ** C69 *)

(** An accepted write: priced share by share, the slot afterwards costs no more
    than the slot before and the passes that verified for the request. *)
Theorem C69_growth_is_paid_for :
  forall signed pv iv mv mut sv now room passes si we renew cancel tw rv x sv' before after,
  0 < pv -> reachable_server signed pv iv mv mut sv -> dict_wf tw ->
  let q := Writev si we renew cancel tw rv in
  serve signed pv mv now room passes q sv = (Ok x, sv') ->
  exact_price pv (map (fun ns => data_size (snd ns)) (dirs (sv_storage sv) si)) before ->
  exact_price pv (map (fun ns => data_size (snd ns)) (dirs (sv_storage sv') si)) after ->
  after <= before + Z.of_nat (length (filter (verifies signed q) passes)).
Proof.
  intros signed pv iv mv mut sv now room passes si we renew cancel tw rv x sv' before after Hv R P q S B A.
  destruct (@accepted_paid signed pv mv now room passes q sv x sv' Hv) as (n & Pn & Ln);
    [eapply reachable_wf; exact R|exact P|discriminate|exact S|].
  destruct (@serve_grows _ _ _ _ _ _ _ _ _ _ _ _ _ _ _ _ _ R P S) as (_ & _ & G).
  destruct (@grows_cost signed pv Hv _ _ _ _ _ _ _ _ _ _ (proj1 (@reachable_wf _ _ _ _ _ _ R si)) Pn G) as [_ Le].
  rewrite (exact_cost Hv B), (exact_cost Hv A). unfold dir_cost in Le. lia.
Qed.
Print Assumptions C69_growth_is_paid_for.
Example C69_growth_example :
  let out := serve vx_signed 10 2 vx_soon vx_room (map vx_pass [x61; x62; x63]) (Writev vx_si [] (ascii "r") (ascii "c") vx_tw []) vx_server in
  (exists x, fst out = Ok x) /\
  exact_price 10 (map (fun ns => data_size (snd ns)) (dirs (sv_storage vx_server) vx_si)) 4 /\
  exact_price 10 (map (fun ns => data_size (snd ns)) (dirs (sv_storage (snd out)) vx_si)) 7.
Proof.
  split; [eexists; vm_compute; reflexivity|]. split.
  - change 4 with (sumZ (map (fun s => cdiv s 10) [25; 7])). apply exact_price_sum. lia.
  - match goal with |- exact_price _ ?l _ => replace l with [41; 7; 10] by (vm_compute; reflexivity) end.
    change 7 with (sumZ (map (fun s => cdiv s 10) [41; 7; 10])). apply exact_price_sum. lia.
Qed.
