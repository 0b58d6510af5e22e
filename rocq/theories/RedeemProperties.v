(** Properties C92-C95: redeeming vouchers and what the tokens are good for. *)
From Verif Require Import Prelude PreludeFacts BytesModel BytesProofs CborModel CborProofs StreamModel JsonModel JsonProofs VoucherModel
  PassModel ServerModel ServerSpec ClientModel ClientProofs RedeemModel RedeemSpec RedeemProofs.
From Coq Require Strings.String.
Import Coq.Strings.String.StringSyntax.

(** ** A small instance: the group of three elements *)

Definition b64val (c : byte) : option Z := find (fun n => Byte.eqb (b64char n) c) all64.
Fixpoint b64read (s : bytes) : option bytes :=
  match s with
  | [] => Some []
  | a :: b :: c :: d :: s' =>
      match b64val a, b64val b with
      | Some x, Some y =>
          if Byte.eqb c x3d then if Byte.eqb d x3d then match s' with [] => Some [zb (x * 4 + y / 16)] | _ => None end else None
          else match b64val c with
               | Some z =>
                   if Byte.eqb d x3d
                   then match s' with [] => Some [zb (x * 4 + y / 16); zb (y mod 16 * 16 + z / 4)] | _ => None end
                   else match b64val d, b64read s' with
                        | Some w, Some r => Some (zb (x * 4 + y / 16) :: zb (y mod 16 * 16 + z / 4) :: zb (z mod 4 * 64 + w) :: r)
                        | _, _ => None
                        end
               | None => None
               end
      | _, _ => None
      end
  | _ => None
  end.

Lemma b64val_sweep : forallb (fun a => match b64val (b64char a) with Some n => n =? a | None => false end) all64 = true.
Proof. vm_compute. reflexivity. Qed.
Lemma b64val_char a : 0 <= a < 64 -> b64val (b64char a) = Some a.
Proof.
  intros H. pose proof b64val_sweep as S. rewrite forallb_forall in S. specialize (S a (@in_all64 a H)). cbn beta in S.
  destruct (b64val (b64char a)) as [n|]; [|discriminate]. apply Z.eqb_eq in S. congruence.
Qed.
Lemma b64char_pad a : 0 <= a < 64 -> Byte.eqb (b64char a) x3d = false.
Proof. intros H. destruct (byte_eqb_spec (b64char a) x3d) as [E|]; [|reflexivity]. apply b64char_not_pad in E; [contradiction|exact H]. Qed.
Lemma zb_is b z : z = bz b -> zb z = b.
Proof. intros ->. apply zb_bz. Qed.

Lemma b64read_encode b : b64read (b64encode b) = Some b.
Proof.
  induction b as [|a|a b|a b c s IH] using list3_ind; [reflexivity| | |]; cbn [b64encode b64read]; b64_bounds;
    rewrite !b64val_char by (Z.to_euclidean_division_equations; lia); rewrite ?b64char_pad by (Z.to_euclidean_division_equations; lia);
    rewrite ?IH; change (Byte.eqb x3d x3d) with true; cbn iota;
    repeat f_equal; apply zb_is; Z.to_euclidean_division_equations; lia.
Qed.

Inductive tri := T0 | T1 | T2.
Definition tri_mul (a b : tri) : tri :=
  match a, b with T0, _ | _, T0 => T0 | T1, x => x | T2, T1 => T2 | T2, T2 => T1 end.
Definition tri_eqb (a b : tri) : bool :=
  match a, b with T0, T0 | T1, T1 | T2, T2 => true | _, _ => false end.
Definition tri_byte (a : tri) : byte := match a with T0 => x00 | T1 => x01 | T2 => x02 end.
Definition tri_write (a : tri) : bytes := repeat x00 31 ++ [tri_byte a].
Definition tri_read (s : bytes) : option tri := find (fun a => bytes_eqb s (tri_write a)) [T0; T1; T2].
Definition tri_hash (t : bytes) : tri := match t with x00 :: _ => T1 | _ => T2 end.
Definition tri_mac (t : bytes) (p : tri) (m : bytes) : bytes := firstn 64 (tri_byte p :: m ++ t ++ repeat x00 64).
(** The proof is the secret key itself. *)
Definition tri_verify (k : tri) (blinded signed : list tri) (public : tri) : bool :=
  tri_eqb public (tri_mul k T1) && Nat.eqb (length blinded) (length signed) &&
  forallb (fun bs => tri_eqb (snd bs) (tri_mul k (fst bs))) (combine blinded signed).
Definition tri_read_dleq (s : bytes) : option tri := tri_read (skipn 32 s).
Definition small : library :=
  {| scalar := tri; point := tri; dleq := tri; smul := tri_mul; inv := fun a => a; base_point := T1; hash_to_point := tri_hash;
     mac := tri_mac; verify := tri_verify; read_scalar := tri_read; write_point := tri_write; read_point := tri_read;
     read_dleq := tri_read_dleq; unb64 := b64read |}.

Lemma tri_eqb_true a b : tri_eqb a b = true -> a = b.
Proof. destruct a, b; cbn; congruence. Qed.

Lemma small_lawful : lawful small.
Proof.
  constructor.
  - now intros [] [] [].
  - exact b64read_encode.
  - now intros [].
  - reflexivity.
  - intros t p m. change (length (firstn 64 (tri_byte p :: m ++ t ++ repeat x00 64)) = 64%nat). rewrite firstn_length. cbn [length]. rewrite !app_length, repeat_length. lia.
Qed.

Lemma small_sound : sound_proofs small.
Proof.
  intros k bs ss pub V. cbn in V. unfold tri_verify in V. apply andb_true_iff in V as [V C]. apply andb_true_iff in V as [P Le].
  apply tri_eqb_true in P. apply Nat.eqb_eq in Le. exists k. split; [exact P|].
  revert ss Le C. induction bs as [|b bs IH]; intros [|s ss] Le C; try discriminate Le; [reflexivity|].
  cbn in C. apply andb_true_iff in C as [C1 C2]. apply tri_eqb_true in C1. cbn [map]. f_equal; [exact C1|].
  apply IH; [injection Le; auto|exact C2].
Qed.

Lemma small_generates : generates small.
Proof. intros k k' E p. destruct k, k', p; cbn in *; congruence. Qed.
Lemma small_scalars : all_scalars small.
Proof. intros s. exists (tri_write s). now destruct s. Qed.
Lemma small_invertible r : r <> T0 -> invertible small r.
Proof. intros H p. destruct r, p; cbn; congruence. Qed.
Lemma small_reaches t : reaches_all small (tri_hash t).
Proof. intros q. unfold tri_hash. destruct t as [|[] t], q; (exists T0; reflexivity) || (exists T1; reflexivity) || (exists T2; reflexivity). Qed.

(** ** C92 *)

(** A voucher is found already spent, or not yet paid, exactly when the issuer's answer is an
    object that does not claim success and gives that reason; the status code plays no role,
    and everything else that is not a success is some other error. *)
Theorem C92_refusals_mean_what_they_say :
  forall L F float_of float_repr float_zero max_digits decode depth number counter rts answer body,
  redeem_request L float_repr number counter rts = Ok body ->
  let result := redeem (F:=F) L float_of float_repr float_zero max_digits decode depth number counter rts answer in
  let reads := object_in float_of max_digits decode depth in
  (result = Err RAlreadySpent <-> refuses float_zero reads (str "double-spend") answer) /\
  (result = Err RUnpaid <-> refuses float_zero reads (str "unpaid") answer).
Proof. intros. cbv zeta. eapply redeem_meaning; eassumption. Qed.
Print Assumptions C92_refusals_mean_what_they_say.

(** Tokens are taken only from an object that claims success. *)
Theorem C92_success_is_claimed :
  forall L F float_of float_repr float_zero max_digits decode depth number counter rts answer r,
  redeem (F:=F) L float_of float_repr float_zero max_digits decode depth number counter rts answer = Ok r ->
  exists code body o, answer = Some (code, body) /\ object_in float_of max_digits decode depth body = Some o /\
    claims_success float_zero o.
Proof. intros * H. apply redeem_success_claimed in H as (c & b & o & basic & A & B & C & _). exists c, b, o. auto. Qed.
Print Assumptions C92_success_is_claimed.

(** ** C93 *)

(** A successful redemption yields, for each random token and in their order, the token for its
    preimage under one secret key, that of the public key named in the answer. *)
Theorem C93_tokens_are_signed_by_the_named_key :
  forall L F float_of float_repr float_zero max_digits decode depth number counter rts answer ts key,
  lawful L -> sound_proofs L ->
  (forall rt t r, In rt rts -> random_of L rt t r -> invertible L r) ->
  redeem (F:=F) L float_of float_repr float_zero max_digits decode depth number counter rts answer = Ok (ts, key) ->
  exists k preimages, public_key L key (smul L k (base_point L)) /\
    Forall2 (fun rt t => exists r, random_of L rt t r) rts preimages /\ ts = map (token_for L k) preimages.
Proof.
  intros * Law S Iv H. apply redeem_success_claimed in H as (c & b & o & basic & _ & _ & _ & B & H).
  assert (Iv' : Forall (fun t => invertible L (r_scalar t)) basic).
  { clear H. induction B as [|rt t rts basic Hrt B IH]; constructor.
    - eapply Iv; [left; reflexivity|exact Hrt].
    - apply IH. intros rt' t' r' I. apply Iv. right. exact I. }
  apply (@redeem_success_story L Law) in H; [|exact S|exact Iv'].
  destruct H as (k & kb & _ & Ek & Nn & Rp & ->). exists k, (map (fun t => r_preimage t) basic). split; [|split].
  - destruct (read64 L 32 kb) as [x|] eqn:E; [|contradiction]. apply read64_Some in E as (E & Lx).
    exists kb, x. apply encode_ascii_Some in Ek. auto.
  - clear - B. induction B as [|rt t rts basic H B IH]; constructor; [exists (r_scalar t); exact H|exact IH].
  - rewrite map_map. reflexivity.
Qed.
Print Assumptions C93_tokens_are_signed_by_the_named_key.

(** An issuer that does its part is understood. *)
Theorem C93_honest_issuer_is_understood :
  forall L F float_of float_repr float_zero max_digits decode depth number counter rts pairs code k proof body,
  lawful L -> decodes_ascii decode -> (2 <= depth)%nat ->
  redeem_request L float_repr number counter rts = Ok body ->
  Forall2 (fun rt tr => random_of L rt (fst tr) (snd tr)) rts pairs ->
  Forall (fun tr => invertible L (snd tr)) pairs ->
  proves L proof k pairs ->
  redeem (F:=F) L float_of float_repr float_zero max_digits decode depth number counter rts
    (Some (code, dumps_utf8 float_repr (honest_answer L F k proof pairs))) =
  Ok (map (fun tr => token_for L k (fst tr)) pairs, CborModel.ascii (b64encode (write_point L (smul L k (base_point L))))).
Proof. intros. eapply honest_redeem; eassumption. Qed.
Print Assumptions C93_honest_issuer_is_understood.

(** ** C94 *)

(** Passes made from the tokens of a redemption are accepted, all of them, by every server
    whose signing key belongs to the public key named at redemption, for the message they were
    made for. *)
Theorem C94_redeemed_tokens_are_accepted :
  forall L F float_of float_repr float_zero max_digits decode depth number counter rts answer ts key server_key message,
  lawful L -> sound_proofs L -> generates L ->
  (forall rt t r, In rt rts -> random_of L rt t r -> invertible L r) ->
  redeem (F:=F) L float_of float_repr float_zero max_digits decode depth number counter rts answer = Ok (ts, key) ->
  public_key L key (smul L server_key (base_point L)) ->
  exists passes, tokens_to_passes L message ts = Some passes /\ length passes = length rts /\
    validate_passes (signed_by L server_key) message (map pass_bytes passes) = Ok (Validation (map p_preimage passes) []).
Proof.
  intros * Law S G Iv H P. apply C93_tokens_are_signed_by_the_named_key in H as (k & pre & P' & Pre & ->); try assumption.
  assert (K : smul L k (base_point L) = smul L server_key (base_point L)).
  { destruct P as (kb & b & -> & U & _ & R). destruct P' as (kb' & b' & E & U' & _ & R').
    assert (kb = kb') as <-. { clear - E. revert kb' E. induction kb as [|x kb IH]; intros [|y kb'] E; try discriminate E; [reflexivity|].
      cbn in E. injection E as Ex E. f_equal; [apply bz_inj, Ex|apply IH, E]. }
    congruence. }
  assert (Lp : Forall (fun t => length t = 64%nat) pre).
  { clear - Pre. induction Pre as [|? ? ? ? (r & rb & _ & Lt & _)]; constructor; assumption. }
  assert (Eq : map (token_for L k) pre = map (token_for L server_key) pre).
  { apply map_ext. intros t. unfold token_for. rewrite (G k server_key K). reflexivity. }
  rewrite Eq. eexists. split; [apply passes_of_tokens; [exact Law|exact Lp]|]. split.
  - rewrite map_length. clear - Pre. induction Pre; cbn; congruence.
  - unfold validate_passes. rewrite !map_map. rewrite (@validated L Law server_key message pre 0 Lp). reflexivity.
Qed.
Print Assumptions C94_redeemed_tokens_are_accepted.

(** Presented for another message, or to a server with another key, such a pass is accepted
    exactly when the two keyed hashes agree. *)
Theorem C94_bound_to_message_and_key :
  forall L k message preimage k' message', lawful L -> length preimage = 64%nat ->
  exists p, tokens_to_passes L message [token_for L k preimage] = Some [p] /\
    (is_invalid_pass (signed_by L k') message' p = false <-> mac_under L k preimage message = mac_under L k' preimage message').
Proof.
  intros * Law H. eexists. split.
  - apply (@passes_of_tokens L Law message k [preimage]). repeat constructor. exact H.
  - unfold is_invalid_pass. cbn [p_preimage p_signature]. rewrite signed_by_eq; [|exact Law|exact H|apply (law_mac_size Law)].
    destruct (bytes_eqb_spec (mac_under L k preimage message) (mac_under L k' preimage message')); cbn; split; congruence.
Qed.
Print Assumptions C94_bound_to_message_and_key.

(** What C26 assumes of passes holds of these. *)
Theorem C94_meets_the_assumptions_of_C26 :
  forall L k (name : Z -> bytes), lawful L -> (forall z, length (name z) = 64%nat) ->
  let preimage z := b64encode (name z) in
  let sign message z := b64encode (mac_under L k (name z) message) in
  sound_passes preimage sign /\
  (forall message z, signed_by L k message (preimage z) (sign message z) = true) /\
  ((forall y z, name y = name z -> y = z) -> forall y z, preimage y = preimage z -> y = z).
Proof.
  intros L k name Law H preimage sign. split; [|split].
  - split; [intros t|intros m t]; (split; [|apply b64encode_no_space]); apply b64_88; [apply H|apply (law_mac_size Law)].
  - intros m z. unfold preimage, sign. rewrite signed_by_eq; [|exact Law|apply H|apply (law_mac_size Law)]. apply bytes_eqb_refl.
  - intros Inj y z E. apply Inj. apply b64encode_inj, E.
Qed.
Print Assumptions C94_meets_the_assumptions_of_C26.

(** ** C95 *)

(** The request holds the voucher's number, the counter and the blinded tokens, nothing else. *)
Theorem C95_what_the_issuer_reads :
  forall L F float_of (float_repr : F -> text) max_digits decode depth number counter rts body,
  decodes_ascii decode -> (2 <= depth)%nat -> (length (nat_digits counter) <= max_digits)%nat ->
  redeem_request L float_repr number counter rts = Ok body ->
  exists pairs, Forall2 (fun rt tr => random_of L rt (fst tr) (snd tr)) rts pairs /\
  object_in (F:=F) float_of max_digits decode depth body =
    Some [(str "redeemVoucher", JStr (CborModel.ascii number)); (str "redeemCounter", JInt counter);
          (str "redeemTokens", JArr (map (fun tr => JStr (CborModel.ascii (blinded_text L (fst tr) (snd tr)))) pairs))].
Proof. intros. eapply request_readable; eassumption. Qed.
Print Assumptions C95_what_the_issuer_reads.

(** The request tells nothing about the preimages: any others could have been behind it. *)
Theorem C95_any_preimages_fit :
  forall L F (float_repr : F -> text) number counter rts body preimages,
  lawful L -> all_scalars L ->
  redeem_request L float_repr number counter rts = Ok body -> length preimages = length rts ->
  Forall (fun t => length t = 64%nat /\ reaches_all L (hash_to_point L t)) preimages ->
  exists rts', Forall2 (fun rt t => exists r, random_of L rt t r) rts' preimages /\
    redeem_request L float_repr number counter rts' = Ok body.
Proof. intros * Law All R Le H. eapply rebind; eassumption. Qed.
Print Assumptions C95_any_preimages_fit.

(** Nor does it tell which of two vouchers a pass was bought with: the preimages behind two
    requests of the same size could have been exchanged.  What the passes show, the preimage and
    the keyed hash, depends on the preimage and the key alone ([token_for], C93). *)
Theorem C95_vouchers_cannot_be_told_apart :
  forall L F (float_repr : F -> text) n1 c1 rts1 b1 n2 c2 rts2 b2 ts1 ts2,
  lawful L -> all_scalars L ->
  redeem_request L float_repr n1 c1 rts1 = Ok b1 -> redeem_request L float_repr n2 c2 rts2 = Ok b2 ->
  length rts1 = length rts2 ->
  Forall2 (fun rt t => exists r, random_of L rt t r) rts1 ts1 -> Forall2 (fun rt t => exists r, random_of L rt t r) rts2 ts2 ->
  Forall (fun t => reaches_all L (hash_to_point L t)) (ts1 ++ ts2) ->
  exists rts1' rts2',
    Forall2 (fun rt t => exists r, random_of L rt t r) rts1' ts2 /\ redeem_request L float_repr n1 c1 rts1' = Ok b1 /\
    Forall2 (fun rt t => exists r, random_of L rt t r) rts2' ts1 /\ redeem_request L float_repr n2 c2 rts2' = Ok b2.
Proof.
  intros * Law All R1 R2 Le F1 F2 Re. apply Forall_app in Re as [Re1 Re2].
  assert (Ln : forall rts ts, Forall2 (fun rt t => exists r, random_of L rt t r) rts ts ->
     length ts = length rts /\ (Forall (fun t => reaches_all L (hash_to_point L t)) ts ->
       Forall (fun t => length t = 64%nat /\ reaches_all L (hash_to_point L t)) ts)).
  { induction 1 as [|rt t rts ts (r & rb & _ & Lt & _) _ [IH1 IH2]]; split; try (cbn; congruence); [constructor|].
    intros G. inversion G; subst. constructor; auto. }
  destruct (Ln _ _ F1) as [L1 G1]. destruct (Ln _ _ F2) as [L2 G2].
  destruct (C95_any_preimages_fit _ _ _ _ _ _ _ ts2 Law All R1) as (r1 & A1 & B1); [exact (eq_trans L2 (eq_sym Le))|exact (G2 Re2)|].
  destruct (C95_any_preimages_fit _ _ _ _ _ _ _ ts1 Law All R2) as (r2 & A2 & B2); [exact (eq_trans L1 Le)|exact (G1 Re1)|].
  exists r1, r2. auto.
Qed.
Print Assumptions C95_vouchers_cannot_be_told_apart.

(** ** Examples *)

Definition ex_decode (b : bytes) : option text := Some (CborModel.ascii b).
Lemma ex_decodes : decodes_ascii ex_decode.
Proof. intros b _. reflexivity. Qed.
Definition ex_float (_ : text) : unit := tt.
Definition ex_repr (_ : unit) : text := str "0.5".
Definition ex_zero (_ : unit) : bool := false.
Definition ex_redeem := redeem (F:=unit) small ex_float ex_repr ex_zero 100 ex_decode 5.
Definition pre (a : byte) : bytes := a :: repeat x41 63.
(** Two random tokens; the points their preimages hash to differ. *)
Definition ex_pairs : list (bytes * tri) := [(pre x00, T2); (pre x07, T1)].
Definition ex_rts : list bytes := map (fun tr => b64encode (fst tr ++ tri_write (snd tr))) ex_pairs.
Definition voucher_number : bytes := repeat x61 44.

Example C92_example :
  (exists body, redeem_request small ex_repr voucher_number 3 ex_rts = Ok body) /\
  ex_redeem voucher_number 3 ex_rts (Some (400, PassModel.ascii "{""success"": false, ""reason"": ""double-spend""}"%string)) = Err RAlreadySpent /\
  ex_redeem voucher_number 3 ex_rts (Some (200, PassModel.ascii "{""reason"": ""unpaid""}"%string)) = Err RUnpaid /\
  ex_redeem voucher_number 3 ex_rts (Some (500, PassModel.ascii "{""success"": true, ""reason"": ""unpaid""}"%string)) = Err ROther /\
  ex_redeem voucher_number 3 ex_rts (Some (500, PassModel.ascii "<html>unpaid</html>"%string)) = Err RUnexpected /\
  ex_redeem voucher_number 3 ex_rts None = Err RNoAnswer.
Proof. split; [eexists|repeat split]; vm_compute; reflexivity. Qed.

(** The secret key is T2, the proof (in this instance) shows it. *)
Definition ex_proof : bytes := repeat x00 32 ++ tri_write T2.
Definition ex_answer : option (Z * bytes) := Some (200, dumps_utf8 ex_repr (honest_answer small unit T2 ex_proof ex_pairs)).
Definition ex_key : text := CborModel.ascii (b64encode (tri_write T2)).
Example C93_example :
  proves small ex_proof T2 ex_pairs /\ Forall (fun tr => invertible small (snd tr)) ex_pairs /\
  Forall2 (fun rt tr => random_of small rt (fst tr) (snd tr)) ex_rts ex_pairs /\
  ex_redeem voucher_number 3 ex_rts ex_answer = Ok ([token_for small T2 (pre x00); token_for small T2 (pre x07)], ex_key) /\
  public_key small ex_key (smul small T2 (base_point small)).
Proof.
  split; [split; [reflexivity|exists T2; split; vm_compute; reflexivity]|].
  split; [repeat constructor; apply small_invertible; discriminate|].
  split; [|split; [vm_compute; reflexivity|]].
  - repeat constructor; [exists (tri_write T2)|exists (tri_write T1)]; repeat split; vm_compute; reflexivity.
  - exists (b64encode (tri_write T2)), (tri_write T2). repeat split; vm_compute; reflexivity.
Qed.

(** An answer whose signatures come from another key than the named one is refused. *)
Example C93_example_refused :
  ex_redeem voucher_number 3 ex_rts
    (Some (200, dumps_utf8 ex_repr (honest_answer small unit T1 ex_proof ex_pairs))) = Err RProof.
Proof. vm_compute. reflexivity. Qed.

Definition ex_message : bytes := PassModel.ascii "allocate_buckets abc".
Example C94_example : exists passes,
  tokens_to_passes small ex_message [token_for small T2 (pre x00); token_for small T2 (pre x07)] = Some passes /\
  validate_passes (signed_by small T2) ex_message (map pass_bytes passes) = Ok (Validation (map p_preimage passes) []) /\
  validate_passes (signed_by small T1) ex_message (map pass_bytes passes) = Ok (Validation [] [0; 1]) /\
  validate_passes (signed_by small T2) (PassModel.ascii "add_lease abc") (map pass_bytes passes) = Ok (Validation [] [0; 1]).
Proof. eexists. repeat split; vm_compute; reflexivity. Qed.

(** Other preimages with other blinding factors give the very same request. *)
Example C95_example :
  redeem_request small ex_repr voucher_number 3 ex_rts =
  redeem_request small ex_repr voucher_number 3 [b64encode (pre x01 ++ tri_write T1); b64encode (pre x02 ++ tri_write T1)] /\
  Forall (fun t => length t = 64%nat /\ reaches_all small (hash_to_point small t)) [pre x01; pre x02].
Proof. split; [vm_compute; reflexivity|]. repeat constructor; apply small_reaches. Qed.
