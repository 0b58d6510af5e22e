(** Proofs for C136: the log of redemption tells what was requested and received. *)
From Verif Require Import Prelude PreludeFacts PricingModel StoreModel ControllerModel RedeemLogModel RedeemTellSpec.
Set Implicit Arguments.

(** A part of the log that does not go on a previous part. *)
Definition fresh (l : list line) : Prop :=
  match l with LRedeeming _ :: _ | LEncountered _ _ :: _ | LRecording _ _ _ :: _ => False | _ => True end.
(** Two readings at once. *)
Definition tells (l : list line) (os : list output) : Prop :=
  fresh l /\ forall rest, fresh rest ->
    requests_told (l ++ rest) = requests_made os ++ requests_told rest /\
    credits_told (l ++ rest) = credits_made os ++ credits_told rest.

Lemma fresh_app a b : fresh a -> fresh b -> fresh (a ++ b).
Proof. destruct a; cbn [app]; auto. Qed.
Lemma tells_nil os : requests_made os = [] -> credits_made os = [] -> tells [] os.
Proof. intros A B. split; [exact I|]. intros rest F. rewrite A, B. split; reflexivity. Qed.
Lemma tells_app a b os1 os2 : tells a os1 -> tells b os2 -> tells (a ++ b) (os1 ++ os2).
Proof.
  intros [F1 H1] [F2 H2]. split; [now apply fresh_app|]. intros rest F. rewrite <- !app_assoc.
  destruct (H1 (b ++ rest) (fresh_app b rest F2 F)) as [A B]. destruct (H2 rest F) as [C D]. rewrite A, B, C, D.
  unfold requests_made, credits_made. rewrite !flat_map_app, <- !app_assoc. split; reflexivity.
Qed.
(** A line that tells nothing. *)
Lemma tells_line x l os : match x with LLoaded _ _ _ | LPersisting _ _ _ | LRecording _ _ _ | LInserting _ | LRedeeming _ | LEncountered _ _ => False | _ => True end ->
  tells l os -> tells (x :: l) os.
Proof.
  intros X [F H]. split; [destruct x; try destruct X; exact I|]. intros rest R. destruct (H rest R) as [A B].
  cbn [app]. destruct x; try destruct X; cbn [requests_told credits_told]; split; assumption.
Qed.

Lemma told_cons_fresh x l : fresh l ->
  match x with LInserting _ => False | _ => True end ->
  requests_told (x :: l) = requests_told l /\ credits_told (x :: l) = credits_told l.
Proof.
  intros F X. split.
  - destruct x; try reflexivity; destruct l as [|y l]; try reflexivity; destruct y; try reflexivity; destruct F.
  - destruct x; try reflexivity. destruct X.
Qed.

Section Tell.
Variables G deft : Z.
Variable allowed : list Z.
Variable now : Z.
Variable gen : Z -> Z -> Z -> list Z.

Lemma add_result v n k toks d r d' : with_cursor (add v n k toks now) d = (Ok r, d') ->
  log_add [LGenerating v] v k toks d = [LLoaded (lenZ r) v k] \/
  log_add [LGenerating v] v k toks d = [LGenerating v; LPersisting (lenZ r) v k].
Proof.
  unfold with_cursor, add, log_add. cbn [run]. destruct (filter _ (tokens d)) as [|x rows].
  - intros H. right. cbn [run] in H. destruct (exec_mut _ d) as [[m d1]|e]; [|discriminate]. cbn [run] in H.
    destruct (exec_muts _ d1) as [d2|e]; [|discriminate]. cbn in H. injection H as <- _. reflexivity.
  - intros [= <- _]. left. unfold lenZ. cbn [length]. now rewrite map_length.
Qed.

Lemma start_group_tells v total k c : tells (log_start_group G now gen v total k c) (fst (start_group G now gen v total k c)).
Proof.
  unfold log_start_group, start_group. destruct (k >=? G); [apply tells_nil; reflexivity|].
  destruct (token_count_for_group G total k) as [n|e]; [|apply tells_nil; reflexivity].
  assert (Q : forall e, tells (log_add [LGenerating v] v k (gen v k n) (c_db c) ++ []) [Died e]).
  { intros e. rewrite app_nil_r. unfold log_add. destruct (filter _ _).
    - apply tells_line; [exact I|]. split; [exact I|]. intros rest F. apply told_cons_fresh; [exact F|exact I].
    - split; [exact I|]. intros rest F. apply told_cons_fresh; [exact F|exact I]. }
  destruct (with_cursor (add v total k (gen v k n) now) (c_db c)) as [[toks|e] d] eqn:A; [|exact (Q e)].
  destruct (fst (with_cursor (get v) d)) as [vo|e]; [|exact (Q e)].
  destruct (state vo) as [p|f p|f] eqn:S; [|exact (Q ValueError)|exact (Q ValueError)].
  destruct (@add_result _ _ _ _ _ _ _ A) as [E|E]; rewrite E.
  - split; [exact I|]. intros rest F. split; reflexivity.
  - split; [exact I|]. intros rest F. split; reflexivity.
Qed.

Lemma redeem_tells v n c : tells (log_redeem G deft now gen v n c) (fst (redeem G deft now gen v n c)).
Proof.
  unfold log_redeem, redeem. destruct (get_voucher c v) as [[vo s]|e].
  - destruct (should_start_redemption s).
    + destruct (start_at_counter s); [|apply tells_nil; reflexivity]. apply tells_line; [exact I|]. apply start_group_tells.
    + apply tells_line; [exact I|]. apply tells_nil; reflexivity.
  - destruct e; try (apply tells_nil; reflexivity). cbv zeta. apply tells_line; [exact I|]. apply start_group_tells.
Qed.
Lemma settle_tells f a c : tells (log_settle G allowed now f a c) (snd (fst (settle G allowed now f a c))).
Proof.
  unfold log_settle, settle. cbv zeta. destruct a as [toks pk| | |e].
  - destruct (with_cursor _ (c_db c)) as [[x|e] d]; cbn [fst snd log_insert app].
    + split; [exact I|]. intros rest F. cbn [app requests_told credits_told requests_made credits_made flat_map].
      split; [reflexivity|]. destruct rest as [|[]]; try reflexivity; destruct F.
    + split; [exact I|]. intros rest F. split; reflexivity.
  - destruct (with_cursor _ (c_db c)) as [[x|e] d]; (apply tells_line; [exact I|]); apply tells_nil; reflexivity.
  - apply tells_line; [exact I|]. apply tells_nil; reflexivity.
  - apply tells_line; [exact I|]. apply tells_nil; reflexivity.
Qed.
Lemma answered_tells i a c : tells (log_answered G allowed now gen i a c) (fst (answered G allowed now gen i a c)).
Proof.
  unfold log_answered, answered. destruct (take_at i (c_flights c)) as [[f r]|]; [|apply tells_nil; reflexivity].
  assert (T := settle_tells f a (with_flights r c)).
  destruct (settle G allowed now f a (with_flights r c)) as [[b o1] c1]. cbn [fst snd] in T. destruct b.
  - assert (T2 := start_group_tells (f_voucher f) (f_total f) (f_counter f + 1) c1).
    destruct (start_group G now gen (f_voucher f) (f_total f) (f_counter f + 1) c1) as [o2 c2]. cbn [fst] in *.
    now apply tells_app.
  - cbn [fst]. rewrite <- (app_nil_r o1) at 2. apply tells_app; [exact T|].
    destruct o1 as [|[] [|]]; try (apply tells_line; [exact I|]); apply tells_nil; reflexivity.
Qed.
Lemma retry_tells vs : forall c, tells (log_retry_loop G deft now gen vs c) (fst (retry_loop G deft now gen vs c)).
Proof.
  induction vs as [|v vs IH]; intros c; cbn [log_retry_loop retry_loop]; [apply tells_nil; reflexivity|].
  destruct (memZ v _); [apply IH|]. destruct (get_voucher c v) as [[vo s]|e]; [|apply tells_nil; reflexivity].
  destruct (should_start_redemption s); [|apply IH]. assert (T := redeem_tells v None c).
  destruct (redeem G deft now gen v None c) as [o1 c1]. cbn [fst snd] in *. specialize (IH c1).
  destruct (retry_loop G deft now gen vs c1) as [o2 c2]. cbn [fst] in *. now apply tells_app.
Qed.
Lemma check_tells vs : forall c, tells (log_check_loop G deft now gen vs c) (fst (check_loop G deft now gen vs c)).
Proof.
  induction vs as [|v vs IH]; intros c; cbn [log_check_loop check_loop]; [apply tells_nil; reflexivity|].
  destruct (should_start_redemption _); [|apply tells_line; [exact I|]; apply IH].
  apply tells_line; [exact I|]. assert (T := redeem_tells (number v) None c).
  destruct (redeem G deft now gen (number v) None c) as [o1 c1]. cbn [fst snd] in *. specialize (IH c1).
  destruct (check_loop G deft now gen vs c1) as [o2 c2]. cbn [fst] in *. now apply tells_app.
Qed.
Lemma boot_tells upto c : tells (log_boot G deft now gen upto c) (fst (boot G deft now gen upto c)).
Proof.
  unfold log_boot, boot. cbv zeta. destruct (fst (with_cursor list_vouchers _)) as [vs|e]; [|apply tells_nil; reflexivity].
  destruct upto as [n|].
  - assert (T := check_tells (firstn n vs) (killed c)). destruct (check_loop _ _ _ _ _ _) as [o c1]. exact T.
  - assert (T := check_tells vs (killed c)). destruct (check_loop _ _ _ _ _ _) as [o c1]. exact T.
Qed.
Lemma wallet_tells o d : match o with OInsert _ _ _ _ _ _ => False | _ => True end -> tells (log_wallet o d) [].
Proof.
  intros O. destruct o; try destruct O; cbn [log_wallet]; try (apply tells_nil; reflexivity).
  unfold log_add. destruct (filter _ _); (split; [exact I|]); intros rest F; apply told_cons_fresh; (exact F || exact I).
Qed.
End Tell.

Section Run.
Variables G deft : Z.
Variable allowed : list Z.

Lemma step_tells c te : by_redemption te -> tells (log_step G deft allowed c te) (fst (controller_step G deft allowed c te)).
Proof.
  destruct te as [[e now] gen]. unfold by_redemption. cbn [fst log_step controller_step]. intros B.
  destruct e as [v n|i a| | |o|i a|n|n].
  - apply tells_line; [exact I|]. apply redeem_tells.
  - apply answered_tells.
  - unfold retry_redemption. destruct (c_retrying c); [apply retry_tells|apply tells_nil; reflexivity].
  - apply boot_tells.
  - apply wallet_tells. destruct o; auto.
  - destruct (take_at i (c_flights c)) as [[f r]|]; [|apply tells_nil; reflexivity].
    assert (T := settle_tells G allowed now f a (with_flights r c)).
    destruct (settle G allowed now f a (with_flights r c)) as [[b o1] c1]. exact T.
  - assert (T := retry_tells G deft now gen (firstn n (dkeys (c_error c) ++ dkeys (c_unpaid c))) c).
    destruct (retry_loop _ _ _ _ _ c) as [o1 c1]. exact T.
  - apply boot_tells.
Qed.
Lemma run_tells es : forall c, Forall by_redemption es -> tells (log_run G deft allowed c es) (fst (controller_run G deft allowed c es)).
Proof.
  induction es as [|e es IH]; intros c F; cbn [log_run controller_run]; [apply tells_nil; reflexivity|].
  inversion F as [|? ? F1 F2]; subst. assert (T := @step_tells c _ F1).
  destruct (controller_step G deft allowed c e) as [o1 c1]. cbn [fst snd] in *. specialize (IH c1 F2).
  destruct (controller_run G deft allowed c1 es) as [o2 c2]. cbn [fst] in *. now apply tells_app.
Qed.
Theorem run_told es c : Forall by_redemption es ->
  requests_told (log_run G deft allowed c es) = requests_made (fst (controller_run G deft allowed c es)) /\
  credits_told (log_run G deft allowed c es) = credits_made (fst (controller_run G deft allowed c es)).
Proof.
  intros F. destruct (@run_tells _ c F) as [_ T]. destruct (T [] I) as [A B]. rewrite !app_nil_r in *. split; assumption.
Qed.
End Run.
