(** The stack limit of the client's process: C120. *)
From Verif Require Import Prelude BytesModel CborModel StreamModel JsonModel VoucherModel PassModel RedeemModel RedeemSpec RedeemProofs RedeemProperties
  StackModel StackSpec StackProofs.

(** * C120: redeeming leaves the process's limits as they were *)

(** Whatever the issuer answers to any number of redemptions, their results are those of
    [redeem] (C92, C93), the hard limit stays as it is, and the soft limit stays as it is
    unless the proof in one of the answers is refused.  Missing: that it stays as it is then. *)
Theorem C120_redeeming_keeps_the_stack_limit_partial :
  forall accepts L F float_of float_repr float_zero max_digits decode depth l q rs l',
  goes_back accepts -> possible l ->
  redemptions (F := F) accepts L float_of float_repr float_zero max_digits decode depth l q = (rs, l') ->
  rs = map (fun a => redeem L float_of float_repr float_zero max_digits decode depth (at_number a) (at_counter a) (at_tokens a) (at_answer a)) q /\
  snd l' = snd l /\ (~ In (Err RProof) rs -> l' = l).
Proof.
  intros * G P R. destruct (redemptions_limits G _ _ _ _ _ _ _ _ P R) as (A & B & C).
  split; [exact A|]. split; [exact B|]. intros N. destruct C as [C|(_ & C)]; [|contradiction].
  destruct l, l'. cbn in *. congruence.
Qed.
Print Assumptions C120_redeeming_keeps_the_stack_limit_partial.

(** One answer with a wrong proof, on any system with POSIX limits, leaves the soft limit at
    the hard limit. *)
Definition sx_attempt (k : tri) : attempt :=
  Attempt voucher_number 3 ex_rts (Some (200, dumps_utf8 ex_repr (honest_answer small unit k ex_proof ex_pairs))).
Definition sx_run := redemptions (F := unit) posix small ex_float ex_repr ex_zero 100 ex_decode 5.
Theorem C120_redeeming_keeps_the_stack_limit_refuted :
  exists accepts q rs l l', goes_back accepts /\ possible l /\
  redemptions (F := unit) accepts small ex_float ex_repr ex_zero 100 ex_decode 5 l q = (rs, l') /\ l' <> l.
Proof.
  exists posix, [sx_attempt T1], [Err RProof], (Some 8388608, None), (None, None).
  split; [exact posix_goes_back|]. split; [reflexivity|]. split; [vm_compute; reflexivity|discriminate].
Qed.
Print Assumptions C120_redeeming_keeps_the_stack_limit_refuted.

(** A redemption that works, under a limit that is raised for it. *)
Example C120_example :
  fst (sx_run (Some 8388608, None) [sx_attempt T2]) =
    [Ok ([token_for small T2 (pre x00); token_for small T2 (pre x07)], ex_key)] /\
  snd (sx_run (Some 8388608, None) [sx_attempt T2]) = (Some 8388608, None) /\
  posix (Some 8388608, None) (None, None) = true.
Proof. vm_compute. repeat split. Qed.
