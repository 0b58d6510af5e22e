(** The remote interface: C98, C99. *)
From Verif Require Import Prelude PreludeFacts BytesModel BytesProofs PassModel PricingModel PricingSpec PricingProofs RedeemModel RedeemSpec RedeemProofs RedeemProperties
  ProtocolModel ProtocolSpec ProtocolProofs.
From Coq Require Strings.String.
Import Coq.Strings.String.StringSyntax.

(** ** Values and a method for the examples *)
Inductive val := VB (b : bytes) | VL (l : list val) | VI (z : Z).
Definition val_list (v : val) := match v with VL l => Some l | _ => None end.
Definition val_bytes (v : val) := match v with VB b => Some b | _ => None end.
(** [add_lease] of Tahoe's interface: two of its arguments and an optional one *)
Definition add_lease_schema : schema val :=
  let c := Constraint false (fun v => match v with VB _ => true | _ => false end) in
  let o := Constraint true (fun v => match v with VI _ => true | _ => false end) in
  Schema [ascii "storage_index"; ascii "renew_secret"; ascii "flag"]
    [(ascii "storage_index", c); (ascii "renew_secret", c); (ascii "flag", o)]
    [ascii "storage_index"; ascii "renew_secret"] (Some (fun v => match v with VI 0 => true | _ => false end)).
Lemma add_lease_ok : schema_ok add_lease_schema.
Proof.
  split.
  - cbn. repeat constructor; cbn; intuition discriminate.
  - intros n. cbn. split.
    + intros [<-|[<-|[]]]; eexists; (split; [eauto|reflexivity]).
    + intros (c & [[= <- <-]|[[= <- <-]|[[= <- <-]|[]]]] & O); try discriminate O; auto.
Qed.
Definition some_pass : val := VB (repeat x61 177).

(** * C98: the paid calls are Tahoe's calls with passes *)

(** Whatever the original method is and whatever is given by position or by name: the new
    method takes the passes first and then exactly what the original one takes, and gives its
    implementation the same arguments. *)
Theorem C98_passes_come_first :
  forall V as_list as_bytes (s : schema V) p args kw,
  schema_ok s -> ~ In PASSES (argumentNames s) -> ~ In PASSES (map fst (argConstraints s)) -> ~ In PASSES (map fst kw) ->
  check_all_args (add_passes as_list as_bytes s) (p :: args) kw =
  if pass_list_constraint as_list as_bytes p then option_map (cons (PASSES, p)) (check_all_args s args kw) else None.
Proof.
  intros V al ab s p args kw O N1 N2 N3.
  change (p :: args) with ([p] ++ args). unfold add_passes. rewrite add_arguments_check; try assumption; try reflexivity.
  - cbn. rewrite andb_true_r. reflexivity.
  - cbn. repeat constructor. intros [].
  - intros n [<-|[]]. exact N1.
  - intros n [<-|[]]. exact N2.
  - intros n [<-|[]]. exact N3.
Qed.
Print Assumptions C98_passes_come_first.

(** The same for any new arguments. *)
Theorem C98_new_arguments_come_first :
  forall V (s : schema V) new vs args kw,
  schema_ok s -> NoDup (map fst new) -> apart (map fst new) (argumentNames s) ->
  apart (map fst new) (map fst (argConstraints s)) -> apart (map fst new) (map fst kw) -> length vs = length new ->
  check_all_args (add_arguments s new) (vs ++ args) kw =
  if forallb (fun cv => c_accepts (snd (fst cv)) (snd cv)) (combine new vs)
  then option_map (app (combine (map fst new) vs)) (check_all_args s args kw) else None.
Proof. intros. now apply add_arguments_check. Qed.
Print Assumptions C98_new_arguments_come_first.

(** No call gets through without a list of passes of the right length. *)
Theorem C98_no_call_without_passes :
  forall V as_list as_bytes (s : schema V) args kw all,
  check_all_args (add_passes as_list as_bytes s) args kw = Some all ->
  exists v l passes, nget PASSES all = Some v /\ as_list v = Some l /\ Forall2 (fun x b => as_bytes x = Some b) l passes /\ fits passes.
Proof.
  intros V al ab s args kw all H. apply without_passes in H as (v & E & H). apply pass_list_inv in H as (l & ps & H1 & H2 & H3).
  exists v, l, ps. auto.
Qed.
Print Assumptions C98_no_call_without_passes.

(** False: that answers are checked like those of the original method.  Adding arguments loses
    what the schema says about answers; any answer is let through. *)
Theorem C98_answers_are_checked_refuted :
  exists V as_list as_bytes (s : schema V) v,
  schema_ok s /\ check_results s v = false /\ check_results (add_passes as_list as_bytes s) v = true.
Proof. exists val, val_list, val_bytes, add_lease_schema, (VI 7). split; [exact add_lease_ok|]. split; reflexivity. Qed.
Print Assumptions C98_answers_are_checked_refuted.

(** * C99: what passes can pay for can be asked for *)

(** The passes the client makes of its tokens fit the protocol exactly if there are not more
    than [2 ^ 20].  Missing: that any number of passes can be presented. *)
Theorem C99_passes_can_be_presented_partial :
  forall V (as_list : V -> option (list V)) as_bytes L message tokens passes v l,
  tokens_to_passes L message tokens = Some passes ->
  as_list v = Some l -> Forall2 (fun x b => as_bytes x = Some b) l (map pass_bytes passes) ->
  (pass_list_constraint as_list as_bytes v = true <-> Z.of_nat (length tokens) <= 2 ^ 20).
Proof.
  intros V al ab L m ts ps v l T E F. rewrite (@pass_list_ok V al ab v l _ E F). unfold fits. rewrite map_length.
  unfold tokens_to_passes in T. destruct (all_some (read_unblinded L) ts) as [us|] eqn:A; [|discriminate]. cbn [bind_o] in T.
  apply all_some_Forall2 in A, T.
  assert (L1 : length us = length ts) by (clear -A; induction A; cbn; congruence).
  assert (L2 : length ps = length us) by (clear -T; induction T; cbn; congruence).
  rewrite L2, L1. change (2 ^ 20) with 1048576. split; [tauto|]. intros B. split; [|exact B].
  intros p I. apply in_map_iff in I as (x & <- & I). clear -T I. induction T as [|u q us ps H T IH]; [destruct I|].
  destruct I as [<-|I]; [|apply IH, I]. unfold token_to_pass, make_pass in H. destruct (_ && _) eqn:B; [|discriminate].
  assert (q = Pass (b64encode (u_preimage u)) (b64encode (token_signature u m))) as -> by congruence.
  apply andb_true_iff in B as [B1 B2]. apply Nat.eqb_eq in B1, B2. unfold pass_bytes. rewrite app_length. cbn [length p_preimage p_signature].
  rewrite B1, B2. reflexivity.
Qed.
Print Assumptions C99_passes_can_be_presented_partial.

(** It is false: a share of more than a tebibyte has a price, at the default value of a pass,
    and whoever has that many passes cannot present them. *)
Theorem C99_passes_can_be_presented_refuted :
  exists size n, 0 < size /\ exact_price BYTES_PER_PASS [size] n /\
  forall V (as_list : V -> option (list V)) as_bytes L message tokens passes v l,
  tokens_to_passes L message tokens = Some passes -> Z.of_nat (length tokens) = n ->
  as_list v = Some l -> Forall2 (fun x b => as_bytes x = Some b) l (map pass_bytes passes) ->
  pass_list_constraint as_list as_bytes v = false.
Proof.
  exists (2 ^ 40 + 1), (2 ^ 20 + 1). split; [lia|]. split.
  - assert (H : 0 < BYTES_PER_PASS) by reflexivity. pose proof (exact_price_sum [2 ^ 40 + 1] H) as E. exact E.
  - intros V al ab L m ts ps v l T N E F. apply not_true_iff_false. intros B.
    apply (@C99_passes_can_be_presented_partial V al ab L m ts ps v l T E F) in B. lia.
Qed.
Print Assumptions C99_passes_can_be_presented_refuted.

(** ** Examples *)
Example C98_example :
  schema_ok add_lease_schema /\ ~ In PASSES (argumentNames add_lease_schema) /\ ~ In PASSES (map fst (argConstraints add_lease_schema)) /\
  check_all_args (add_passes val_list val_bytes add_lease_schema) [VL [some_pass; some_pass]; VB [x61]] [(ascii "renew_secret", VB [x62])]
  = Some [(PASSES, VL [some_pass; some_pass]); (ascii "storage_index", VB [x61]); (ascii "renew_secret", VB [x62])] /\
  check_all_args (add_passes val_list val_bytes add_lease_schema) [VL [VB [x61]]; VB [x61]; VB [x62]] [] = None /\
  check_all_args (add_passes val_list val_bytes add_lease_schema) [VB [x61]; VB [x62]] [] = None /\
  check_results add_lease_schema (VI 7) = false /\ check_results (add_passes val_list val_bytes add_lease_schema) (VI 7) = true.
Proof.
  split; [exact add_lease_ok|].
  split; [cbn; intuition discriminate|]. split; [cbn; intuition discriminate|]. vm_compute. repeat split.
Qed.
Example C99_example : exists passes,
  tokens_to_passes small ex_message [token_for small T2 (pre x00); token_for small T2 (pre x07)] = Some passes /\
  pass_list_constraint val_list val_bytes (VL (map (fun p => VB (pass_bytes p)) passes)) = true.
Proof.
  exists (match tokens_to_passes small ex_message [token_for small T2 (pre x00); token_for small T2 (pre x07)] with Some ps => ps | None => [] end).
  split; vm_compute; reflexivity.
Qed.
