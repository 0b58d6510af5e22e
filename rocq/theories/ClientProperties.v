(** Property theorem C26: client and server agree on the spent passes. *)
From Verif Require Import Prelude PreludeFacts BytesModel BytesProofs PassModel PricingModel PricingSpec PricingProofs
  ContainerModel ContainerProofs TahoeModel ServerModel ServerSpec ServerProofs ServerStateProofs ServerRequestProofs
  StoreModel StoreSpec StoreProofs SpendModel SpendSpec SpendProofs SpendProperties
  ClientModel ClientProofs ServerProperties.
From Coq Require Strings.String.
Import Coq.Strings.String.StringSyntax.

(** In each theorem [ps] is what the server recorded during the call: no pass
    twice; of the tokens the client took for the call exactly those with their
    preimage in [ps] are spent in the wallet afterwards; and nothing else is in
    [ps]. *)

Theorem C26_allocate_agrees :
  forall signed pv iv mv mut preimage sign now room scan si renew cancel nums sz sv fuel d r d' tr,
  sound_passes preimage sign -> fair_scan scan -> 0 < pv ->
  NoDup nums -> 0 <= sz -> reachable_server signed pv iv mv mut sv -> fresh_reachable d ->
  linked_allocate signed pv mv preimage sign now room scan si renew cancel nums sz sv fuel d = Some (r, d', tr) -> different_preimages preimage tr ->
  let sv' := state_after signed pv mv now room (Allocate si renew cancel nums sz) sv tr in
  exists ps, sv_spent sv' = sv_spent sv ++ ps /\ NoDup ps /\
    (forall t, taken tr t -> (is_spent d' t <-> In (preimage t) ps)) /\
    (forall p, In p ps -> exists t, taken tr t /\ p = preimage t).
Proof.
  intros signed pv iv mv mut preimage sign now room scan si renew cancel nums sz sv fuel d r d' tr Hs Hc Hv N Z0 R F E D.
  eapply allocate_agrees; eauto. eapply reachable_wf; exact R.
Qed.
Print Assumptions C26_allocate_agrees.

Theorem C26_add_lease_agrees :
  forall signed pv iv mv mut preimage sign now room scan si renew cancel sv fuel d r d' tr,
  sound_passes preimage sign -> fair_scan scan -> 0 < pv ->
  reachable_server signed pv iv mv mut sv -> fresh_reachable d ->
  linked_add_lease signed pv mv preimage sign now room scan si renew cancel sv fuel d = Some (r, d', tr) -> different_preimages preimage tr ->
  let sv' := state_after signed pv mv now room (AddLease si renew cancel) sv tr in
  exists ps, sv_spent sv' = sv_spent sv ++ ps /\ NoDup ps /\
    (forall t, taken tr t -> (is_spent d' t <-> In (preimage t) ps)) /\
    (forall p, In p ps -> exists t, taken tr t /\ p = preimage t).
Proof.
  intros signed pv iv mv mut preimage sign now room scan si renew cancel sv fuel d r d' tr Hs Hc Hv R F E D.
  eapply add_lease_agrees; eauto; [eapply reachable_wf; exact R|eapply reachable_homogeneous; exact R].
Qed.
Print Assumptions C26_add_lease_agrees.

Theorem C26_writev_agrees :
  forall signed pv iv mv mut preimage sign now room scan si we renew cancel tw rv sv fuel d r d' tr,
  sound_passes preimage sign -> fair_scan scan -> 0 < pv -> 0 <= now -> dict_wf tw ->
  reachable_server signed pv iv mv mut sv -> fresh_reachable d ->
  linked_writev signed pv mv preimage sign now room scan si we renew cancel tw rv sv fuel d = Some (r, d', tr) -> different_preimages preimage tr ->
  let sv' := state_after signed pv mv now room (Writev si we renew cancel tw rv) sv tr in
  exists ps, sv_spent sv' = sv_spent sv ++ ps /\ NoDup ps /\
    (forall t, taken tr t -> (is_spent d' t <-> In (preimage t) ps)) /\
    (forall p, In p ps -> exists t, taken tr t /\ p = preimage t).
Proof.
  intros signed pv iv mv mut preimage sign now room scan si we renew cancel tw rv sv fuel d r d' tr Hs Hc Hv Hn Wt R F E D.
  eapply writev_agrees; eauto; [eapply reachable_wf; exact R|eapply reachable_homogeneous; exact R].
Qed.
Print Assumptions C26_writev_agrees.

(** ** Example *)

(** The wallet of the spending examples has tokens 11 to 15; token 12 yields a
    pass with a bad signature. *)
Definition lx_preimage (t : Z) : bytes := repeat (zb (65 + t mod 60)) 88.
Definition lx_sign (m : bytes) (t : Z) : bytes := if t =? 12 then repeat x2e 88 else lx_preimage t.
Lemma zb_not_space z : 65 <= z < 128 -> zb z <> x20.
Proof. intros H E. apply (f_equal bz) in E. rewrite bz_zb, Z.mod_small in E by lia. cbn in E. lia. Qed.
Lemma lx_sound : sound_passes lx_preimage lx_sign.
Proof.
  assert (P : forall t, length (lx_preimage t) = 88%nat /\ ~ In x20 (lx_preimage t)).
  { intros t. unfold lx_preimage. split; [apply repeat_length|]. intros I. apply repeat_spec in I. symmetry in I. revert I.
    apply zb_not_space. pose proof (Z.mod_pos_bound t 60). lia. }
  split; [exact P|]. intros m t. unfold lx_sign. destruct (t =? 12); [|apply P].
  split; [reflexivity|]. intros I. apply repeat_spec in I. discriminate.
Qed.

(** The write of price 3: token 12 is found bad, 14 replaces it, and 11, 13 and
    14 are spent on both sides. *)
Definition lx_call := linked_writev vx_signed 10 2 lx_preimage lx_sign vx_soon vx_room (fun _ l => l)
  vx_si [] (ascii "r") (ascii "c") vx_tw [] vx_server 5 sx_db.
Definition lx_trace := match lx_call with Some (_, _, tr) => tr | None => [] end.
Example C26_example :
  match lx_call with
  | Some (Ok (Written true _), d', tr) =>
      map (fun a => map fst (fst a)) tr = [[11; 12; 13]; [11; 13; 14]] /\
      map u_token (unblinded d') = [15; 21; 22] /\ map fst (invalid d') = [12] /\
      sv_spent (state_after vx_signed 10 2 vx_soon vx_room (Writev vx_si [] (ascii "r") (ascii "c") vx_tw []) vx_server tr)
      = sv_spent vx_server ++ map lx_preimage [11; 13; 14]
  | _ => False
  end.
Proof. vm_compute. repeat split. Qed.
Lemma taken_In A B (tr : list (attempt A B)) t : taken tr t -> In t (concat (map (fun a => map fst (fst a)) tr)).
Proof.
  intros (g & rs & p & I & J). apply in_concat. exists (map fst g).
  split; [apply in_map_iff; exists (g, rs); auto|]. apply in_map_iff. exists (t, p). auto.
Qed.
Lemma lx_taken t : taken lx_trace t -> 11 <= t <= 14.
Proof.
  intros H. apply taken_In in H. assert (C : concat (map (fun a => map fst (fst a)) lx_trace) = [11; 12; 13; 11; 13; 14])
    by (vm_compute; reflexivity).
  rewrite C in H. clear C. cbn [In] in H. lia.
Qed.
Lemma lx_preimage_inj t t' : 11 <= t <= 14 -> 11 <= t' <= 14 -> lx_preimage t = lx_preimage t' -> t = t'.
Proof.
  intros A B E. apply (f_equal (hd x00)) in E. unfold lx_preimage in E. cbn [repeat hd] in E.
  rewrite (Z.mod_small t), (Z.mod_small t') in E by lia. apply (f_equal bz) in E. rewrite !bz_zb in E.
  rewrite (Z.mod_small (65 + t)), (Z.mod_small (65 + t')) in E by lia. lia.
Qed.
Example C26_example_hypotheses :
  sound_passes lx_preimage lx_sign /\ fair_scan (fun _ l => l) /\ 0 <= vx_soon /\ dict_wf vx_tw /\
  reachable_server vx_signed 10 2 2 vx_mut vx_server /\ fresh_reachable sx_db /\
  different_preimages lx_preimage lx_trace.
Proof.
  split; [exact lx_sound|]. split; [intros n l; apply Permutation_refl|]. split; [vm_compute; discriminate|].
  split; [apply C06_example_hypotheses|]. split; [exact vx_reachable|]. split; [exact sx_fresh|].
  intros t t' A B E. eapply lx_preimage_inj; [apply lx_taken; exact A|apply lx_taken; exact B|exact E].
Qed.
