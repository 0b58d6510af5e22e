(** Property theorems C27 and C58: messages and passes on the wire. *)
From Verif Require Import Prelude PreludeFacts BytesModel BytesProofs PassModel ServerSpec ServerProofs.
From Coq Require Strings.String.
Import Coq.Strings.String.StringSyntax.

(** ** C27 *)

Theorem C27_messages_never_collide :
  forall k k' si si', make_message k si = make_message k' si' -> k = k' /\ si = si'.
Proof.
  intros k k' si si' E. unfold make_message in E.
  assert (N : forall k, ~ In x20 (label k)).
  { intros [] I; vm_compute in I; intuition discriminate. }
  assert (L : label k = label k' /\ b64encode si = b64encode si').
  { pose proof (f_equal (split_on x20) E) as S. rewrite !split_on_app in S by apply N. injection S as S _.
    split; [exact S|]. rewrite S in E. apply app_inv_head in E. injection E as E. exact E. }
  split; [|apply b64encode_inj, L]. destruct L as [L _]. destruct k, k'; try reflexivity; vm_compute in L; discriminate.
Qed.
Print Assumptions C27_messages_never_collide.
(** Hence a pass bound to one request is bound to no other. *)
Theorem C27_different_requests_different_messages :
  forall k k' si si', k <> k' \/ si <> si' -> make_message k si <> make_message k' si'.
Proof. intros k k' si si' N E. apply C27_messages_never_collide in E. destruct E, N; contradiction. Qed.
Print Assumptions C27_different_requests_different_messages.
Example C27_example : make_message KLease (ascii "si") = ascii "add_lease c2k=" /\
  make_message KAllocate (ascii "si!") = ascii "allocate_buckets c2kh".
Proof. split; vm_compute; reflexivity. Qed.

(** ** C58 *)

(** Every pass whose parts contain no space survives; base64 text contains
    none. *)
Theorem C58_pass_round_trip :
  forall preimage signature p, make_pass preimage signature = Some p ->
  ~ In x20 preimage -> ~ In x20 signature -> from_bytes (pass_bytes p) = Some p.
Proof.
  intros a b p E A B. unfold make_pass in E. destruct (base64_bytes 88 a && base64_bytes 88 b) eqn:L; [|discriminate].
  injection E as <-. unfold pass_bytes. cbn [p_preimage p_signature]. unfold from_bytes.
  rewrite split_on_app by exact A. rewrite split_on_nosep by exact B. unfold make_pass. rewrite L. reflexivity.
Qed.
Print Assumptions C58_pass_round_trip.

(** What the Ristretto library puts into passes is base64 of 64 bytes, so no
    space is ever in it. *)
Lemma b64char_no_space n : 0 <= n < 64 -> b64char n <> x20.
Proof.
  intros Ha E. assert (S : forallb (fun a => negb (Byte.eqb (b64char a) x20)) all64 = true) by (vm_compute; reflexivity).
  rewrite forallb_forall in S. specialize (S n (in_all64 Ha)). rewrite E in S. discriminate.
Qed.
Lemma b64encode_no_space s : ~ In x20 (b64encode s).
Proof.
  induction s as [|a|a b|a b c s IH] using list3_ind; cbn [b64encode]; b64_bounds; intros I.
  - exact I.
  - repeat destruct I as [I|I]; try discriminate; try (revert I; apply b64char_no_space; lia). exact I.
  - repeat destruct I as [I|I]; try discriminate; try (revert I; apply b64char_no_space; lia). exact I.
  - repeat destruct I as [I|I]; try discriminate; try (revert I; apply b64char_no_space; lia). exact (IH I).
Qed.
Lemma b64encode_length s : length (b64encode s) = (4 * ((length s + 2) / 3))%nat.
Proof.
  induction s as [|a|a b|a b c s IH] using list3_ind; try reflexivity. cbn [b64encode length]. rewrite IH.
  replace (S (S (S (length s))) + 2)%nat with (length s + 2 + 1 * 3)%nat by lia. rewrite Nat.div_add by lia. lia.
Qed.
Theorem C58_encoded_pass_round_trip :
  forall preimage signature, length preimage = 64%nat -> length signature = 64%nat ->
  exists p, make_pass (b64encode preimage) (b64encode signature) = Some p /\
    from_bytes (pass_bytes p) = Some p /\ p_preimage p = b64encode preimage /\ p_signature p = b64encode signature.
Proof.
  intros a b A B.
  assert (E : make_pass (b64encode a) (b64encode b) = Some (Pass (b64encode a) (b64encode b))).
  { unfold make_pass, base64_bytes. rewrite !b64encode_length, A, B. reflexivity. }
  eexists. split; [exact E|]. split; [|split; reflexivity].
  eapply C58_pass_round_trip; [exact E| |]; apply b64encode_no_space.
Qed.
Print Assumptions C58_encoded_pass_round_trip.

(** Exactly the byte strings of two 88-byte fields with one space in between are
    accepted. *)
Theorem C58_wrong_structure_refused :
  forall s, from_bytes s <> None <-> well_formed s.
Proof.
  intros s. split.
  - destruct (from_bytes s) eqn:E; [intros _; eapply from_bytes_Some; eassumption|congruence].
  - intros W. rewrite (from_bytes_wf W). discriminate.
Qed.
Print Assumptions C58_wrong_structure_refused.
(** Different passes look different on the wire. *)
Theorem C58_decoding_is_faithful :
  forall s p, from_bytes s = Some p -> pass_bytes p = s.
Proof.
  intros s p E. unfold from_bytes in E. destruct (split_on x20 s) as [|a [|b [|c l]]] eqn:S; try discriminate.
  apply split_on_two in S. unfold make_pass in E. destruct (_ && _); [|discriminate]. injection E as <-. symmetry. exact S.
Qed.
Print Assumptions C58_decoding_is_faithful.

(** The constructor checks only the lengths of the parts: a pass with a space in
    one of them can be built and does not survive. *)
Theorem C58_base64_needed :
  exists preimage signature p, make_pass preimage signature = Some p /\ from_bytes (pass_bytes p) = None.
Proof.
  exists (repeat x20 88), (repeat x61 88). eexists. split; [reflexivity|]. vm_compute. reflexivity.
Qed.
Print Assumptions C58_base64_needed.

Example C58_example : exists p, make_pass (b64encode (repeat x01 64)) (b64encode (repeat xff 64)) = Some p /\
  from_bytes (pass_bytes p) = Some p /\ from_bytes (pass_bytes p ++ [x20]) = None /\ from_bytes (repeat x61 88) = None.
Proof. eexists. split; [vm_compute; reflexivity|]. repeat split; vm_compute; reflexivity. Qed.
