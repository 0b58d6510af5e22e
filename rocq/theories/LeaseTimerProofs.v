(** Proofs about the schedule and the configuration of lease maintenance: C57, C63, C77, C80. *)
From Verif Require Import Prelude BytesModel BytesProofs CborModel PricingModel ContainerModel StoreModel LeaseModel LeaseSpec.
Set Implicit Arguments.

(** ** The schedule *)

Lemma timer_run_app es1 es2 : forall t, timer_run t (es1 ++ es2) =
  let '(t1, o1) := timer_run t es1 in let '(t2, o2) := timer_run t1 es2 in (t2, o1 ++ o2).
Proof.
  induction es1 as [|e es1 IH]; intros t; cbn [timer_run app].
  - destruct (timer_run t es2). reflexivity.
  - destruct (timer_step t e) as [t0 o0]. rewrite IH. destruct (timer_run t0 es1) as [t1 o1].
    destruct (timer_run t1 es2) as [t2 o2]. now rewrite app_assoc.
Qed.

Lemma boot_due last sample now running call :
  timer_step (Timer call running (Some last)) (Boot now sample) =
  (Timer (Due (Z.max now (last + sample))) false (Some last), []).
Proof.
  cbn [timer_step t_file]. unfold call_later, initial_interval, calculate_initial_interval.
  destruct (Z.ltb_spec (Z.max (sample - (now - last)) 0) 0); [lia|].
  replace (now + Z.max (sample - (now - last)) 0) with (Z.max now (last + sample)) by lia. reflexivity.
Qed.

(** After the end of a run, at [d], nothing is due before [d + lo]. *)
Definition resting lo d (t : timer) : Prop :=
  (exists f, t_file t = Some f /\ d <= f) /\ forall x, t_call t = Due x -> d + lo <= x.

Lemma call_later_cases delay now file t o : call_later delay now file = (t, o) ->
  t_running t = false /\ t_file t = file /\
  ((0 <= delay /\ t_call t = Due (now + delay) /\ o = []) \/ (delay < 0 /\ t_call t = NoCall /\ o = [BadDelay])).
Proof.
  unfold call_later. destruct (Z.ltb_spec delay 0); intros [= <- <-]; cbn; repeat split; auto.
Qed.

Lemma resting_step lo d t e t' o : resting lo d t -> long_enough lo e -> d <= time_of d e ->
  timer_step t e = (t', o) -> resting lo d t' /\ forall x, In (RunStarted x) o -> d + lo <= x.
Proof.
  intros ((f & F & L) & D) Lo Tm S. destruct e as [now sample|now|now sample| |]; cbn [timer_step] in S; cbn in Lo, Tm.
  - rewrite F in S. destruct (call_later_cases _ _ _ S) as (_ & Ff & C). unfold initial_interval, calculate_initial_interval in C. split.
    + split; [exists f; auto|]. intros x Hx. destruct C as [(_ & Cc & _)|(C & _)]; [|lia]. rewrite Cc in Hx. injection Hx as <-. lia.
    + destruct C as [(_ & _ & ->)|(C & _)]; [intros x []|lia].
  - destruct (t_call t) as [|x|] eqn:C.
    + injection S as <- <-. split; [split; [exists f; auto|intros x; congruence]|intros x []].
    + destruct (Z.leb_spec x now) as [Le|Le]; injection S as <- <-; cbn.
      * split; [split; [exists f; auto|discriminate]|]. intros y [E|[]]. injection E as <-. specialize (D x eq_refl). lia.
      * split; [split; [exists f; auto|]|intros y []]. intros y. rewrite C. intros [= <-]. now apply D.
    + injection S as <- <-. split; [split; [exists f; auto|intros x; congruence]|intros x []].
  - destruct (t_running t) eqn:R.
    + destruct (call_later sample now (Some now)) as [t1 o1] eqn:Cl. destruct (call_later_cases _ _ _ Cl) as (_ & Ff & C).
      destruct C as [(C0 & Cc & ->)|(C0 & Cc & ->)]; injection S as <- <-.
      * split; [|intros x []]. split; [exists now; auto|]. intros x. rewrite Cc. intros [= <-]. lia.
      * split; [|intros x [E|[]]; discriminate]. split; [exists now; auto|discriminate].
    + injection S as <- <-. split; [|intros x []]. split; [exists f; auto|exact D].
  - destruct (t_call t) eqn:C; injection S as <- <-; cbn.
    + split; [|intros x []]. split; [exists f; auto|intros x; congruence].
    + split; [|intros x []]. split; [exists f; auto|discriminate].
    + split; [|intros x [E|[]]; discriminate]. split; [exists f; auto|intros x; congruence].
  - injection S as <- <-. cbn. split; [|intros x []]. split; [exists f; auto|discriminate].
Qed.

Lemma resting_run lo d es : forall t t' o, resting lo d t -> Forall (long_enough lo) es -> Forall (fun e => d <= time_of d e) es ->
  timer_run t es = (t', o) -> forall x, In (RunStarted x) o -> d + lo <= x.
Proof.
  induction es as [|e es IH]; intros t t' o R L T; cbn [timer_run]; [intros [= <- <-] x []|].
  destruct (timer_step t e) as [t1 o1] eqn:S. destruct (timer_run t1 es) as [t2 o2] eqn:Rn. intros [= <- <-] x I.
  inversion L; subst. inversion T; subst. destruct (resting_step _ R ltac:(eassumption) ltac:(eassumption) S) as [R1 O1].
  apply in_app_or in I as [I|I]; [now apply O1|]. eapply IH; eauto.
Qed.

Lemma done_resting lo d sample t t' o : t_running t = true -> lo <= sample ->
  timer_step t (Done d sample) = (t', o) -> resting lo d t' /\ forall x, ~ In (RunStarted x) o.
Proof.
  intros R L. cbn [timer_step]. rewrite R. destruct (call_later sample d (Some d)) as [t1 o1] eqn:Cl.
  destruct (call_later_cases _ _ _ Cl) as (_ & Ff & [(C0 & Cc & ->)|(C0 & Cc & ->)]); intros [= <- <-].
  - split; [|intros x []]. split; [exists d; split; [exact Ff|lia]|]. rewrite Cc. intros x [= <-]. lia.
  - split; [|intros x [E|[]]; discriminate]. split; [exists d; split; [reflexivity|lia]|discriminate].
Qed.

(** ** Stopping *)

Definition quiet (t : timer) : Prop := t_call t = NoCall /\ t_running t = false.
Lemma quiet_step t e t' o : quiet t -> (forall now sample, e <> Boot now sample) -> timer_step t e = (t', o) -> quiet t' /\ o = [].
Proof.
  intros [C R] N S. destruct e as [now sample|now|now sample| |]; cbn in S; rewrite ?C, ?R in S; try (injection S as <- <-).
  - exfalso. eapply N. reflexivity.
  - unfold quiet. auto.
  - unfold quiet. auto.
  - unfold quiet. auto.
  - unfold quiet. auto.
Qed.
Lemma quiet_run es : forall t t' o, quiet t -> (forall now sample, ~ In (Boot now sample) es) -> timer_run t es = (t', o) -> o = [].
Proof.
  induction es as [|e es IH]; intros t t' o Q N; cbn [timer_run]; [now intros [= _ <-]|].
  destruct (timer_step t e) as [t1 o1] eqn:S. destruct (timer_run t1 es) as [t2 o2] eqn:R. intros [= <- <-].
  destruct (quiet_step Q (fun a b E => N a b (or_introl E)) S) as [Q1 ->]. cbn.
  eapply IH; eauto. intros a b I. apply (N a b). now right.
Qed.

(** While a call is waiting no run is in progress. *)
Lemma due_not_running es : forall t t' o, (forall x, t_call t = Due x -> t_running t = false) ->
  timer_run t es = (t', o) -> forall x, t_call t' = Due x -> t_running t' = false.
Proof.
  induction es as [|e es IH]; intros t t' o H; cbn [timer_run]; [intros [= <- <-]; exact H|].
  destruct (timer_step t e) as [t1 o1] eqn:S. destruct (timer_run t1 es) as [t2 o2] eqn:R. intros [= <- <-].
  eapply (IH t1); [|exact R]. clear IH R. intros x D. destruct e as [now sample|now|now sample| |]; cbn [timer_step] in S.
  - apply (call_later_cases _ _ _ S).
  - destruct (t_call t) eqn:C; [injection S as <- <-; congruence| |injection S as <- <-; congruence].
    destruct (_ <=? _); injection S as <- <-; [discriminate|]. now apply (H time).
  - destruct (t_running t) eqn:Rn; [|injection S as <- <-; exact Rn].
    destruct (call_later sample now (Some now)) as [t3 o3] eqn:Cl. destruct (call_later_cases _ _ _ Cl) as (Rf & _).
    destruct o3; injection S as <- <-; [exact Rf|reflexivity].
  - destruct (t_call t) eqn:C; injection S as <- <-; cbn in *; congruence.
  - injection S as <- <-. reflexivity.
Qed.

(** ** Configuration *)

Definition fits (us : Z) : Prop := - (999999999 * day) <= us < 1000000000 * day.

Lemma parse_format us : fits us -> parse_duration (format_duration us) = Ok (Z.quot us 1000000 * 1000000).
Proof.
  intros F. unfold parse_duration, format_duration. rewrite py_int_dec. unfold timedelta_of.
  pose proof (Z.quot_rem' us 1000000) as Q. pose proof (Z.rem_bound_abs us 1000000 ltac:(discriminate)) as B.
  pose proof (Z.rem_sign_mul us 1000000 ltac:(discriminate)) as Sg. unfold fits, day in *.
  set (q := Z.quot us 1000000) in *. set (m := Z.rem us 1000000) in *. clearbody q m.
  assert (X : (- (999999999 * (24 * 60 * 60 * 1000000)) <=? q * 1000000) = true) by (apply Z.leb_le; lia).
  assert (Y : (q * 1000000 <? 1000000000 * (24 * 60 * 60 * 1000000)) = true).
  { apply Z.ltb_lt. destruct (Z.le_gt_cases us 0); [lia|]. assert (0 <= m) by nia. lia. }
  rewrite X, Y. reflexivity.
Qed.
