From Verif Require Import Prelude BytesModel CborModel StreamModel JsonModel VoucherModel PassModel RedeemModel StackModel StackSpec.
Set Implicit Arguments.

(** A computation gives [r]; the limits stay, or, if the proof is refused, the soft limit may be raised. *)
Definition limits_after (accepts : limits -> limits -> bool) {A} (r : res rexn A) (l l' : limits) : Prop :=
  l' = l \/ (r = Err RProof /\ accepts l (snd l, snd l) = true /\ l' = (snd l, snd l)).
Definition behaves (accepts : limits -> limits -> bool) {A} (r : res rexn A) (m : limits -> res rexn A * limits) : Prop :=
  forall l, possible l -> exists l', m l = (r, l') /\ limits_after accepts r l l'.

Lemma behaves_keeping accepts A (r : res rexn A) : behaves accepts r (keeping r).
Proof. intros l _. exists l. split; [reflexivity|now left]. Qed.
Lemma behaves_then accepts A B (r : res rexn A) m (k : A -> res rexn B) (mk : A -> limits -> res rexn B * limits) :
  behaves accepts r m -> (forall a, behaves accepts (k a) (mk a)) -> behaves accepts (bind r k) (then_ m mk).
Proof.
  intros M K l P. destruct (M l P) as (l1 & E & H). unfold then_. rewrite E. destruct r as [a|e]; cbn [bind].
  - destruct H as [->|(D & _)]; [|discriminate]. now apply K.
  - exists l1. split; [reflexivity|]. destruct H as [->|(D & X)]; [now left|right]. injection D as ->. auto.
Qed.
Lemma behaves_stack accepts A (r : res rexn A) : goes_back accepts -> (forall e, r = Err e -> e = RProof) ->
  behaves accepts r (less_limited_stack accepts (keeping r)).
Proof.
  intros G H [soft hard] P. unfold less_limited_stack, setrlimit, keeping, limits_after. cbn [snd fst].
  destruct (accepts (soft, hard) (hard, hard)) eqn:E; [|eauto].
  destruct r as [a|e].
  - rewrite (G _ _ P E). eauto.
  - rewrite (H e eq_refl). eauto 10.
Qed.

Section Redeem.
Variable accepts : limits -> limits -> bool.
Hypothesis G : goes_back accepts.
Variable L : library.
Variable F : Type.
Variable float_of : text -> F.
Variable float_repr : F -> text.
Variable float_zero : F -> bool.
Variable max_digits : nat.
Variable decode : bytes -> option text.
Variable depth : nat.

Lemma behaves_success basic (result : list (text * json F)) :
  behaves accepts (redeem_success basic result) (redeem_success_on accepts (L := L) basic result).
Proof.
  unfold redeem_success, redeem_success_on.
  do 7 (apply behaves_then; [apply behaves_keeping|intros ?]).
  apply behaves_then; [|intros; apply behaves_keeping].
  apply behaves_stack; [exact G|]. intros e. unfold ror. destruct (invalid_or_unblind _ _ _ _ _); congruence.
Qed.
Lemma behaves_redeem number counter tokens answer :
  behaves accepts (redeem L float_of float_repr float_zero max_digits decode depth number counter tokens answer)
    (redeem_on accepts L float_of float_repr float_zero max_digits decode depth number counter tokens answer).
Proof.
  unfold redeem, redeem_on. do 2 (apply behaves_then; [apply behaves_keeping|intros ?]).
  unfold redeem_answer, redeem_answer_on. destruct answer as [[c body]|]; [|apply behaves_keeping].
  destruct (loads float_of max_digits decode depth body) as [[]|[]]; try apply behaves_keeping.
  cbv zeta. match goal with |- context [falsy float_zero ?j] => destruct (falsy float_zero j) end; [|apply behaves_success].
  match goal with |- context [jget ?k ?d] => destruct (jget k d) as [[]|] end; try apply behaves_keeping.
  repeat match goal with |- context [if ?b then _ else _] => destruct b end; apply behaves_keeping.
Qed.

Definition answer_to (a : attempt) : res rexn (list bytes * text) :=
  redeem L float_of float_repr float_zero max_digits decode depth (at_number a) (at_counter a) (at_tokens a) (at_answer a).

Lemma redemptions_limits q : forall l rs l', possible l ->
  redemptions accepts L float_of float_repr float_zero max_digits decode depth l q = (rs, l') ->
  rs = map answer_to q /\ snd l' = snd l /\ (fst l' = fst l \/ (fst l' = snd l /\ In (Err RProof) rs)).
Proof.
  induction q as [|a q IH]; intros l rs l' P; cbn [redemptions map].
  - intros [= <- <-]. auto.
  - destruct (behaves_redeem (at_number a) (at_counter a) (at_tokens a) (at_answer a) (l := l) P) as (l1 & -> & H).
    fold (answer_to a) in *. destruct (redemptions _ _ _ _ _ _ _ _ l1 q) as [rs2 l2] eqn:E. intros [= <- <-].
    assert (P1 : possible l1).
    { destruct H as [->|(_ & _ & ->)]; [exact P|]. unfold possible, at_most. cbn. destruct (snd l); [apply Z.leb_refl|reflexivity]. }
    destruct (IH _ _ _ P1 E) as (-> & S & K). split; [reflexivity|].
    destruct H as [->|(D & A & ->)].
    + split; [exact S|]. destruct K as [K|(K & I)]; [auto|right]. split; [exact K|now right].
    + cbn [snd fst] in *. split; [exact S|]. right. split; [destruct K as [K|(K & _)]; exact K|now left].
Qed.
End Redeem.

Lemma posix_goes_back : goes_back posix.
Proof.
  intros [s|] [h|]; unfold possible, posix, at_most; cbn [fst snd]; rewrite ?Z.leb_refl; cbn [andb]; auto.
  intros -> _. reflexivity.
Qed.
