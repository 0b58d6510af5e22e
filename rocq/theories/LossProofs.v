(** Redemption on a replicated wallet: proofs for C139. *)
From Verif Require Import Prelude PreludeFacts StoreModel StoreSpec StoreProofs ReplicaModel ReplicaSpec ReplicaProofs ReplicaRunProofs ReplicaStore RestSpec RetrySpec RetryProofs
  ControllerModel ControllerSpec ControllerProofs ControllerRunProofs LossModel LossSpec.
Set Implicit Arguments.

Lemma steps_cat d os1 os2 : snd (steps d (os1 ++ os2)) = snd (steps (snd (steps d os1)) os2).
Proof. apply ReplicaStore.steps_app. Qed.
Lemma steps_one d o : snd (steps d [o]) = snd (StoreModel.step d o).
Proof. cbn. now destruct (StoreModel.step d o). Qed.

(** * The calls do to the wallet what the events do *)
Section Calls.
Variables groups dflt : Z.
Variable allowed : list Z.
Variable now : Z.
Variable gen : Z -> Z -> Z -> list Z.

Lemma add_step v t k toks d : StoreModel.step d (OAdd v t k toks now) =
  match with_cursor (add v t k toks now) d with (Ok x, d') => (Ok (RTokens x), d') | (Err e, d') => (Err e, d') end.
Proof. cbn [StoreModel.step op_prog]. apply with_cursor_pmap. Qed.

Lemma group_calls_db v total k c : c_db (snd (start_group groups now gen v total k c)) = snd (steps (c_db c) (group_calls groups now gen v total k)).
Proof.
  unfold start_group, group_calls. destruct (k >=? groups); [reflexivity|]. destruct (token_count_for_group _ _ _) as [n|e]; [|reflexivity].
  rewrite steps_one, add_step. destruct (with_cursor (add _ _ _ _ _) (c_db c)) as [[toks|e] d]; [|reflexivity].
  cbn [snd]. destruct (fst (with_cursor (get v) d)) as [vo|e]; [|reflexivity]. destruct (state vo); reflexivity.
Qed.
Lemma redeem_calls_db v n c : c_db (snd (redeem groups dflt now gen v n c)) = snd (steps (c_db c) (redeem_calls groups dflt now gen v n c)).
Proof.
  unfold redeem, redeem_calls. destruct (get_voucher c v) as [[vo s]|[]]; try reflexivity; [|apply group_calls_db].
  destruct (should_start_redemption s); [|reflexivity]. destruct (start_at_counter s); [|reflexivity]. apply group_calls_db.
Qed.
Lemma settle_calls_db f a c : c_db (snd (settle groups allowed now f a c)) = snd (steps (c_db c) (settle_calls groups allowed now f a)).
Proof.
  unfold settle, settle_calls. destruct a as [toks pk| | |x]; try reflexivity; rewrite steps_one; cbn [StoreModel.step op_prog]; rewrite with_cursor_pmap;
    destruct (with_cursor _ (c_db c)) as [[u|e] d]; reflexivity.
Qed.
Lemma answer_calls_db i a c : c_db (snd (answered groups allowed now gen i a c)) = snd (steps (c_db c) (answer_calls groups allowed now gen true i a c)).
Proof.
  unfold answered, answer_calls. destruct (take_at i (c_flights c)) as [[f rest]|]; [|reflexivity].
  rewrite steps_cat. pose proof (settle_calls_db f a (with_flights rest c)) as E. destruct (settle groups allowed now f a (with_flights rest c)) as [[go o1] c1].
  cbn [fst snd andb c_db with_flights] in *. rewrite <- E. destruct go; [|reflexivity].
  rewrite <- group_calls_db. now destruct (start_group _ _ _ _ _ _ c1).
Qed.
Lemma retry_calls_db vs : forall c, c_db (snd (retry_loop groups dflt now gen vs c)) = snd (steps (c_db c) (retry_calls groups dflt now gen vs c)).
Proof.
  induction vs as [|v vs IH]; intros c; [reflexivity|]. cbn [retry_loop retry_calls]. destruct (memZ v _); [apply IH|].
  destruct (get_voucher c v) as [[vo s]|e]; [|reflexivity]. destruct (should_start_redemption s); [|apply IH].
  rewrite steps_cat, <- redeem_calls_db. destruct (redeem groups dflt now gen v None c) as [o1 c1]. cbn [snd]. rewrite <- IH.
  now destruct (retry_loop groups dflt now gen vs c1).
Qed.
Lemma check_calls_db vs : forall c, c_db (snd (check_loop groups dflt now gen vs c)) = snd (steps (c_db c) (check_calls groups dflt now gen vs c)).
Proof.
  induction vs as [|v vs IH]; intros c; [reflexivity|]. cbn [check_loop check_calls]. destruct (should_start_redemption _); [|apply IH].
  rewrite steps_cat, <- redeem_calls_db. destruct (redeem groups dflt now gen (StoreModel.number v) None c) as [o1 c1]. cbn [snd]. rewrite <- IH.
  now destruct (check_loop groups dflt now gen vs c1).
Qed.
Lemma boot_calls_db c : c_db (snd (boot groups dflt now gen None c)) = snd (steps (restart (c_db c)) (boot_calls groups dflt now gen None c)).
Proof.
  unfold boot, boot_calls. change (restart (c_db c)) with (c_db (killed c)). destruct (fst (with_cursor list_vouchers (c_db (killed c)))) as [vs|e]; [|reflexivity].
  rewrite <- check_calls_db. now destruct (check_loop groups dflt now gen vs (killed c)).
Qed.
Lemma boot_some_db n c : c_db (snd (boot groups dflt now gen (Some n) c)) = restart (snd (steps (restart (c_db c)) (boot_calls groups dflt now gen (Some n) c))).
Proof.
  unfold boot, boot_calls. change (restart (c_db c)) with (c_db (killed c)). destruct (fst (with_cursor list_vouchers (c_db (killed c)))) as [vs|e]; [|reflexivity].
  rewrite <- check_calls_db. now destruct (check_loop groups dflt now gen (firstn n vs) (killed c)).
Qed.

(** * The requests are for what the calls answer *)

(** Among the calls made one after the other there is one that answers these tokens. *)
Definition answered_by (d : db) (os : list op) (v k : Z) (toks : list Z) : Prop :=
  exists os1 t g os2, os = os1 ++ OAdd v t k g now :: os2 /\
  fst (StoreModel.step (snd (steps d os1)) (OAdd v t k g now)) = Ok (RTokens toks).
Lemma answered_left d os os' v k toks : answered_by d os v k toks -> answered_by d (os ++ os') v k toks.
Proof. intros (os1 & t & g & os2 & -> & H). exists os1, t, g, (os2 ++ os'). split; [now rewrite <- app_assoc|exact H]. Qed.
Lemma answered_right d os os' v k toks : answered_by (snd (steps d os)) os' v k toks -> answered_by d (os ++ os') v k toks.
Proof. intros (os1 & t & g & os2 & -> & H). exists (os ++ os1), t, g, os2. split; [now rewrite <- app_assoc|]. now rewrite steps_cat. Qed.

Lemma group_answered v total k c v' k' toks : In (Requested v' k' toks) (fst (start_group groups now gen v total k c)) ->
  answered_by (c_db c) (group_calls groups now gen v total k) v' k' toks.
Proof.
  unfold start_group, group_calls. destruct (k >=? groups); [intros []|]. destruct (token_count_for_group _ _ _) as [n|e]; [|intros [H|[]]; discriminate].
  destruct (with_cursor (add _ _ _ _ _) (c_db c)) as [[x|e] d] eqn:E; [|intros [H|[]]; discriminate].
  destruct (fst (with_cursor (get v) d)) as [vo|e]; [|intros [H|[]]; discriminate].
  destruct (state vo); try (intros [H|[]]; discriminate). intros [[= <- <- <-]|[]].
  exists [], total, (gen v k n), []. split; [reflexivity|]. cbn [steps snd]. rewrite add_step, E. reflexivity.
Qed.
Lemma redeem_answered v n c v' k' toks : In (Requested v' k' toks) (fst (redeem groups dflt now gen v n c)) ->
  answered_by (c_db c) (redeem_calls groups dflt now gen v n c) v' k' toks.
Proof.
  unfold redeem, redeem_calls. destruct (get_voucher c v) as [[vo s]|[]]; try (intros [H|[]]; discriminate); [|apply group_answered].
  destruct (should_start_redemption s); [|intros []]. destruct (start_at_counter s); [apply group_answered|intros [H|[]]; discriminate].
Qed.
Lemma settle_silent f a c v' k' toks : ~ In (Requested v' k' toks) (snd (fst (settle groups allowed now f a c))).
Proof.
  unfold settle. destruct a as [x pk| | |x]; try (intros []); destruct (with_cursor _ (c_db c)) as [[u|e] d]; cbn; intuition discriminate.
Qed.
Lemma answer_answered i a c v' k' toks : In (Requested v' k' toks) (fst (answered groups allowed now gen i a c)) ->
  answered_by (c_db c) (answer_calls groups allowed now gen true i a c) v' k' toks.
Proof.
  unfold answered, answer_calls. destruct (take_at i (c_flights c)) as [[f rest]|]; [|intros []].
  pose proof (settle_calls_db f a (with_flights rest c)) as E. pose proof (@settle_silent f a (with_flights rest c) v' k' toks) as Q.
  destruct (settle groups allowed now f a (with_flights rest c)) as [[go o1] c1]. cbn [fst snd andb c_db with_flights] in *.
  destruct go; [|intros H; contradiction]. pose proof (@group_answered (f_voucher f) (f_total f) (f_counter f + 1) c1 v' k' toks) as G.
  destruct (start_group _ _ _ _ _ _ c1) as [o2 c2]. cbn [fst] in *. intros H. apply in_app_iff in H as [H|H]; [contradiction|].
  apply answered_right. rewrite <- E. exact (G H).
Qed.
Lemma retry_answered vs : forall c v' k' toks, In (Requested v' k' toks) (fst (retry_loop groups dflt now gen vs c)) ->
  answered_by (c_db c) (retry_calls groups dflt now gen vs c) v' k' toks.
Proof.
  induction vs as [|v vs IH]; intros c v' k' toks; [intros []|]. cbn [retry_loop retry_calls]. destruct (memZ v _); [apply IH|].
  destruct (get_voucher c v) as [[vo s]|e]; [|intros [H|[]]; discriminate]. destruct (should_start_redemption s); [|apply IH].
  pose proof (@redeem_answered v None c v' k' toks) as R. pose proof (redeem_calls_db v None c) as E. destruct (redeem groups dflt now gen v None c) as [o1 c1].
  cbn [fst snd] in *. specialize (IH c1 v' k' toks). destruct (retry_loop groups dflt now gen vs c1) as [o2 c2]. cbn [fst] in *.
  intros H. apply in_app_iff in H as [H|H]; [now apply answered_left, R|]. apply answered_right. rewrite <- E. exact (IH H).
Qed.
Lemma check_answered vs : forall c v' k' toks, In (Requested v' k' toks) (fst (check_loop groups dflt now gen vs c)) ->
  answered_by (c_db c) (check_calls groups dflt now gen vs c) v' k' toks.
Proof.
  induction vs as [|v vs IH]; intros c v' k' toks; [intros []|]. cbn [check_loop check_calls]. destruct (should_start_redemption _); [|apply IH].
  pose proof (@redeem_answered (StoreModel.number v) None c v' k' toks) as R. pose proof (redeem_calls_db (StoreModel.number v) None c) as E. destruct (redeem groups dflt now gen (StoreModel.number v) None c) as [o1 c1].
  cbn [fst snd] in *. specialize (IH c1 v' k' toks). destruct (check_loop groups dflt now gen vs c1) as [o2 c2]. cbn [fst] in *.
  intros H. apply in_app_iff in H as [H|H]; [now apply answered_left, R|]. apply answered_right. rewrite <- E. exact (IH H).
Qed.
Lemma boot_answered upto c v' k' toks : In (Requested v' k' toks) (fst (boot groups dflt now gen upto c)) ->
  answered_by (restart (c_db c)) (boot_calls groups dflt now gen upto c) v' k' toks.
Proof.
  unfold boot, boot_calls. change (restart (c_db c)) with (c_db (killed c)). destruct (fst (with_cursor list_vouchers (c_db (killed c)))) as [vs|e]; [|intros [H|[]]; discriminate].
  destruct upto as [n|].
  - pose proof (@check_answered (firstn n vs) (killed c) v' k' toks) as R. destruct (check_loop groups dflt now gen (firstn n vs) (killed c)). exact R.
  - pose proof (@check_answered vs (killed c) v' k' toks) as R. destruct (check_loop groups dflt now gen vs (killed c)). exact R.
Qed.

(** * Stopping between two calls *)
Lemma group_calls_one v total k : (length (group_calls groups now gen v total k) <= 1)%nat.
Proof. unfold group_calls. destruct (_ >=? _); [cbn; lia|]. destruct (token_count_for_group _ _ _); cbn; lia. Qed.
Lemma redeem_calls_one v n c : (length (redeem_calls groups dflt now gen v n c) <= 1)%nat.
Proof.
  unfold redeem_calls. destruct (get_voucher c v) as [[vo s]|[]]; try (cbn; lia); [|apply group_calls_one].
  destruct (should_start_redemption s); [|cbn; lia]. destruct (start_at_counter s); [apply group_calls_one|cbn; lia].
Qed.
Lemma one_prefix A (l a b : list A) : (length l <= 1)%nat -> l = a ++ b -> a = [] \/ b = [] /\ a = l.
Proof. destruct a as [|x a]; [now left|]. intros H ->. right. rewrite app_length in H. cbn in H. destruct b; [now rewrite app_nil_r|cbn in H; lia]. Qed.
Lemma prefix_app A (a b x y : list A) : a ++ b = x ++ y -> (exists z, a = x ++ z) \/ (exists z, x = a ++ z /\ b = z ++ y).
Proof.
  revert x. induction a as [|h a IH]; intros x E; [right; now exists x|]. destruct x as [|h' x]; [left; now exists (h :: a)|].
  cbn in E. injection E as -> E. destruct (IH x E) as [(z & ->)|(z & -> & ->)]; [left|right]; exists z; auto.
Qed.
Lemma retry_prefix vs : forall c os os', retry_calls groups dflt now gen vs c = os ++ os' ->
  exists n, retry_calls groups dflt now gen (firstn n vs) c = os.
Proof.
  induction vs as [|v vs IH]; intros c os os' E.
  - exists 0%nat. cbn in *. symmetry in E. apply app_eq_nil in E as [-> _]. reflexivity.
  - cbn [retry_calls] in E. destruct (memZ v (dkeys (c_active c))) eqn:M.
    { destruct (IH c os os' E) as (n & H). exists (S n). cbn [firstn retry_calls]. now rewrite M. }
    destruct (get_voucher c v) as [[vo s]|e] eqn:G.
    2: { exists 0%nat. cbn in *. symmetry in E. apply app_eq_nil in E as [-> _]. reflexivity. }
    destruct (should_start_redemption s) eqn:Sh.
    2: { destruct (IH c os os' E) as (n & H). exists (S n). cbn [firstn retry_calls]. now rewrite M, G, Sh. }
    destruct (prefix_app _ _ _ _ E) as [(z & H)|(z & -> & H)].
    + destruct (one_prefix _ _ (redeem_calls_one v None c) H) as [->|[-> ->]]; [now exists 0%nat|]. exists 1%nat. cbn [firstn retry_calls]. rewrite M, G, Sh. apply app_nil_r.
    + destruct (IH _ _ _ H) as (n & H'). exists (S n). cbn [firstn retry_calls]. now rewrite M, G, Sh, H'.
Qed.
Lemma check_prefix vs : forall c os os', check_calls groups dflt now gen vs c = os ++ os' ->
  exists n, check_calls groups dflt now gen (firstn n vs) c = os.
Proof.
  induction vs as [|v vs IH]; intros c os os' E.
  - exists 0%nat. cbn in *. symmetry in E. apply app_eq_nil in E as [-> _]. reflexivity.
  - cbn [check_calls] in E. destruct (should_start_redemption (of_persistent (state v))) eqn:Sh.
    2: { destruct (IH c os os' E) as (n & H). exists (S n). cbn [firstn check_calls]. now rewrite Sh. }
    destruct (prefix_app _ _ _ _ E) as [(z & H)|(z & -> & H)].
    + destruct (one_prefix _ _ (redeem_calls_one (StoreModel.number v) None c) H) as [->|[-> ->]]; [now exists 0%nat|]. exists 1%nat. cbn [firstn check_calls]. rewrite Sh. apply app_nil_r.
    + destruct (IH _ _ _ H) as (n & H'). exists (S n). cbn [firstn check_calls]. now rewrite Sh, H'.
Qed.
End Calls.

Definition dies (e : event) : Prop := match e with EKillAfterAnswer _ _ | EKillInTimer _ | EKillInStart _ => True | _ => False end.
Definition begin (e : event) (d : db) : db := match e with EStart | EKillInStart _ => restart d | _ => d end.
Definition finish (e : event) (d : db) : db := match e with EKillAfterAnswer _ _ | EKillInTimer _ | EKillInStart _ => restart d | _ => d end.

(** The event is cut short by the end of the process. *)
Definition shorter (te te' : timed) : Prop :=
  let '(e, now, gen) := te in
  match e with
  | EAnswer i a => te' = (EKillAfterAnswer i a, now, gen)
  | ETimer | EKillInTimer _ => exists n, te' = (EKillInTimer n, now, gen)
  | EStart | EKillInStart _ => exists n, te' = (EKillInStart n, now, gen)
  | _ => False
  end.

Section Events.
Variables groups dflt : Z.
Variable allowed : list Z.
Notation cstep := (controller_step groups dflt allowed).
Notation crun := (controller_run groups dflt allowed).
Notation calls := (controller_calls groups dflt allowed).

Lemma step_db c te : c_db (snd (cstep c te)) = finish (fst (fst te)) (snd (steps (begin (fst (fst te)) (c_db c)) (calls c te))).
Proof.
  destruct te as [[e now] gen]. destruct e as [v n|i a| | |o|i a|n|n]; cbn [fst controller_step controller_calls begin finish].
  - apply redeem_calls_db.
  - apply answer_calls_db.
  - unfold retry_redemption. destruct (c_retrying c); [apply retry_calls_db|reflexivity].
  - apply boot_calls_db.
  - rewrite steps_one. reflexivity.
  - unfold answer_calls. destruct (take_at i (c_flights c)) as [[f rest]|]; [|reflexivity]. cbn [andb]. rewrite app_nil_r.
    pose proof (settle_calls_db groups allowed now f a (with_flights rest c)) as E. destruct (settle groups allowed now f a (with_flights rest c)) as [[go o1] c1].
    cbn [snd c_db with_flights] in *. rewrite <- E. reflexivity.
  - rewrite <- retry_calls_db. now destruct (retry_loop _ _ _ _ _ c).
  - apply boot_some_db.
Qed.

Lemma step_answered c te v k toks : In (Requested v k toks) (fst (cstep c te)) ->
  answered_by (snd (fst te)) (begin (fst (fst te)) (c_db c)) (calls c te) v k toks.
Proof.
  destruct te as [[e now] gen]. destruct e as [v' n|i a| | |o|i a|n|n]; cbn [fst snd controller_step controller_calls begin].
  - apply redeem_answered.
  - apply answer_answered.
  - unfold retry_redemption. destruct (c_retrying c); [apply retry_answered|intros []].
  - apply boot_answered.
  - intros [].
  - destruct (take_at i (c_flights c)) as [[f rest]|] eqn:T; [|intros []]. pose proof (@settle_silent groups allowed now gen f a (with_flights rest c) v k toks) as Q.
    destruct (settle groups allowed now f a (with_flights rest c)) as [[go o1] c1]. intros H. now destruct Q.
  - pose proof (@retry_answered groups dflt now gen (firstn n (dkeys (c_error c) ++ dkeys (c_unpaid c))) c v k toks) as H.
    destruct (retry_loop _ _ _ _ _ c). exact H.
  - apply boot_answered.
Qed.

Lemma settle_calls_one now f a : (length (settle_calls groups allowed now f a) <= 1)%nat.
Proof. destruct a; cbn; lia. Qed.

Lemma step_cut c te os os' : calls c te = os ++ os' ->
  os = [] \/ os = calls c te \/ exists te', shorter te te' /\ calls c te' = os.
Proof.
  destruct te as [[e now] gen]. destruct e as [v' n|i a| | |o|i a|n|n]; cbn [controller_calls shorter]; intros E.
  - destruct (one_prefix _ _ (redeem_calls_one _ _ _ _ _ _ _) E) as [->|[-> ->]]; auto.
  - unfold answer_calls in E. destruct (take_at i (c_flights c)) as [[f rest]|] eqn:T; [|left; symmetry in E; now apply app_eq_nil in E].
    destruct (prefix_app _ _ _ _ E) as [(z & H)|(z & -> & H)].
    + destruct (one_prefix _ _ (settle_calls_one now f a) H) as [->|[-> ->]]; [now left|]. right. right. eexists. split; [reflexivity|].
      cbn [controller_calls]. unfold answer_calls. rewrite T. cbn [andb]. apply app_nil_r.
    + right. assert (L : (length ((if true && fst (fst (settle groups allowed now f a (with_flights rest c))) then group_calls groups now gen (f_voucher f) (f_total f) (f_counter f + 1) else [])) <= 1)%nat).
      { destruct (_ && _); [apply group_calls_one|cbn; lia]. }
      destruct (one_prefix _ _ L H) as [->|[-> ->]].
      * right. eexists. split; [reflexivity|]. cbn [controller_calls]. unfold answer_calls. rewrite T. reflexivity.
      * left. unfold answer_calls. rewrite T. reflexivity.
  - destruct (c_retrying c); [|left; symmetry in E; now apply app_eq_nil in E]. destruct (retry_prefix _ _ _ _ _ _ _ _ E) as (n & H).
    right. right. eexists. split; [now exists n|exact H].
  - unfold boot_calls in *. destruct (fst (with_cursor list_vouchers (c_db (killed c)))) as [vs|x] eqn:Ls; [|left; symmetry in E; now apply app_eq_nil in E].
    destruct (check_prefix _ _ _ _ _ _ _ _ E) as (n & H). right. right. eexists. split; [now exists n|]. cbn [controller_calls]. unfold boot_calls. rewrite Ls. exact H.
  - destruct (@one_prefix _ [o] os os' (le_n 1) E) as [->|[-> ->]]; auto.
  - unfold answer_calls in *. destruct (take_at i (c_flights c)) as [[f rest]|]; [|left; symmetry in E; now apply app_eq_nil in E].
    cbn [andb] in *. rewrite app_nil_r in *. destruct (one_prefix _ _ (settle_calls_one now f a) E) as [->|[-> ->]]; auto.
  - destruct (retry_prefix _ _ _ _ _ _ _ _ E) as (m & H). right. right. rewrite firstn_firstn in H. eexists. split; [eexists; reflexivity|exact H].
  - unfold boot_calls in *. destruct (fst (with_cursor list_vouchers (c_db (killed c)))) as [vs|x] eqn:Ls; [|left; symmetry in E; now apply app_eq_nil in E].
    destruct (check_prefix _ _ _ _ _ _ _ _ E) as (m & H). right. right. rewrite firstn_firstn in H. eexists. split; [eexists; reflexivity|].
    cbn [controller_calls]. unfold boot_calls. rewrite Ls. exact H.
Qed.

Definition no_restart (o : op) : Prop := o <> ORestart.
Lemma group_no_restart now gen v t k : Forall no_restart (group_calls groups now gen v t k).
Proof. unfold group_calls. destruct (_ >=? _); [constructor|]. destruct (token_count_for_group _ _ _); constructor; [discriminate|constructor]. Qed.
Lemma redeem_no_restart now gen v n c : Forall no_restart (redeem_calls groups dflt now gen v n c).
Proof.
  unfold redeem_calls. destruct (get_voucher c v) as [[vo s]|[]]; try constructor; [|apply group_no_restart].
  destruct (should_start_redemption s); [|constructor]. destruct (start_at_counter s); [apply group_no_restart|constructor].
Qed.
Lemma retry_no_restart now gen vs : forall c, Forall no_restart (retry_calls groups dflt now gen vs c).
Proof.
  induction vs as [|v vs IH]; intros c; [constructor|]. cbn [retry_calls]. destruct (memZ _ _); [apply IH|]. destruct (get_voucher c v) as [[vo s]|e]; [|constructor].
  destruct (should_start_redemption s); [|apply IH]. apply Forall_app. split; [apply redeem_no_restart|apply IH].
Qed.
Lemma check_no_restart now gen vs : forall c, Forall no_restart (check_calls groups dflt now gen vs c).
Proof.
  induction vs as [|v vs IH]; intros c; [constructor|]. cbn [check_calls]. destruct (should_start_redemption _); [|apply IH].
  apply Forall_app. split; [apply redeem_no_restart|apply IH].
Qed.
Lemma calls_no_restart c te : proper te -> Forall no_restart (calls c te).
Proof.
  destruct te as [[e now] gen]. destruct e as [v' n|i a| | |o|i a|n|n]; cbn [controller_calls proper]; intros P.
  - apply redeem_no_restart.
  - unfold answer_calls. destruct (take_at i (c_flights c)) as [[f rest]|]; [|constructor]. apply Forall_app. split.
    + destruct a; cbn; constructor; try discriminate; constructor.
    + destruct (_ && _); [apply group_no_restart|constructor].
  - destruct (c_retrying c); [apply retry_no_restart|constructor].
  - unfold boot_calls. destruct (fst _); [apply check_no_restart|constructor].
  - constructor; [|constructor]. intros ->. destruct P as [[] _].
  - unfold answer_calls. destruct (take_at i (c_flights c)) as [[f rest]|]; [|constructor]. cbn [andb]. rewrite app_nil_r. destruct a; cbn; constructor; try discriminate; constructor.
  - apply retry_no_restart.
  - unfold boot_calls. destruct (fst _); [apply check_no_restart|constructor].
Qed.

Lemma crun_app c es1 es2 : snd (crun c (es1 ++ es2)) = snd (crun (snd (crun c es1)) es2) /\
  fst (crun c (es1 ++ es2)) = fst (crun c es1) ++ fst (crun (snd (crun c es1)) es2).
Proof.
  revert c. induction es1 as [|te es1 IH]; intros c; [split; reflexivity|]. cbn [app controller_run]. destruct (cstep c te) as [o c1].
  specialize (IH c1). destruct (crun c1 (es1 ++ es2)) as [o2 c2]. destruct (crun c1 es1) as [o3 c3]. cbn [fst snd] in *. destruct (crun c3 es2) as [o4 c4].
  cbn [fst snd] in *. destruct IH as [-> ->]. split; [reflexivity|]. apply app_assoc.
Qed.
Lemma crun_one c te : crun c [te] = cstep c te.
Proof. cbn. destruct (cstep c te). now rewrite app_nil_r. Qed.
End Events.

(** * The wallet's side *)
Section Wallet.
Variable text_size : mut -> Z.
Variable stream_size : list (change mut) -> Z.
Notation wstep := (wstep text_size stream_size).
Notation wrun := (wrun text_size stream_size).
Notation system := (ReplicaModel.system db mut).
Definition wdb (s : system) : db := n_db (fst s).
Definition wup (s : system) : bool := n_up (fst s).

Lemma started_up (n : node db mut) : n_up (ReplicaModel.started restart stream_size n) = true.
Proof. unfold ReplicaModel.started. match goal with |- context [take_jobs _ ?l ?m] => now destruct (take_jobs_shape restart l m) as (w & js & -> & _) end. Qed.
Lemma transaction_up b o (n : node db mut) : n_up (transaction sexec restart text_size b o n) = n_up n.
Proof.
  unfold transaction. destruct (run_body sexec (n_replicating n) b (n_db n)) as [rec [d|e]]; [|reflexivity]. destruct o; [|reflexivity].
  unfold committed, signal. cbn [n_mutations with_mutations]. destruct (n_mutations n ++ rec) as [|m ms]; [reflexivity|].
  cbn [n_observing with_mutations ReplicaModel.with_db]. destruct (n_observing n); [|reflexivity].
  unfold observed. destruct (add_events _ _ _ _) as [l' seq']. destruct (should_upload_eventstream _ _); [|reflexivity].
  match goal with |- context [queue_job restart JEvents ?m] => now destruct (queue_job_shape restart JEvents m) as (js & w & -> & _) end.
Qed.
Lemma call_step s o : no_restart o -> wup s = true -> wdb (wstep s (WCall o)) = snd (StoreModel.step (wdb s) o) /\ wup (wstep s (WCall o)) = true.
Proof.
  intros N U. destruct s as [n r]. unfold wup, wdb, ReplicaStore.wstep in *. cbn [fst wevent_event ReplicaModel.step] in *. rewrite U. cbn [fst].
  rewrite call_db, transaction_up, leaves_step by exact N. auto.
Qed.
Lemma calls_run os : Forall no_restart os -> forall s, wup s = true -> wdb (wrun s (map WCall os)) = snd (steps (wdb s) os) /\ wup (wrun s (map WCall os)) = true.
Proof.
  intros F. induction F as [|o os N F IH]; intros s U; [split; [reflexivity|exact U]|]. destruct (@call_step s o N U) as [E1 E2].
  destruct (IH _ E2) as [E3 E4]. cbn [map ReplicaStore.wrun fold_left]. change (fold_left wstep (map WCall os) (wstep s (WCall o))) with (wrun (wstep s (WCall o)) (map WCall os)).
  split; [|exact E4]. rewrite E3, E1. cbn [steps]. destruct (StoreModel.step (wdb s) o) as [x d]. cbn [snd]. now destruct (steps d os).
Qed.
Lemma replicating_step s e : replicating_event e -> wdb (wstep s e) = wdb s /\ wup (wstep s e) = wup s.
Proof.
  destruct s as [n r]. unfold wdb, wup, ReplicaStore.wstep. destruct e as [o|o| | | | |p|a|a]; cbn [replicating_event wevent_event ReplicaModel.step fst]; intros []; try contradiction.
  - destruct (n_up n) eqn:U, (n_setup n); cbn [andb negb fst]; rewrite ?started_db, ?started_up; auto.
  - destruct (n_up n) eqn:U, (n_setup n), (n_observing n); cbn [andb negb fst]; rewrite ?started_db, ?started_up; auto.
  - rewrite carry_on_db. split; [reflexivity|]. apply carry_on_flags.
  - destruct (n_work n); cbn; auto.
Qed.
Lemma replicating_run es : Forall replicating_event es -> forall s, wdb (wrun s es) = wdb s /\ wup (wrun s es) = wup s.
Proof.
  intros F. induction F as [|e es H F IH]; intros s; [auto|]. destruct (@replicating_step s e H) as [E1 E2]. destruct (IH (wstep s e)) as [E3 E4].
  cbn [ReplicaStore.wrun fold_left]. change (fold_left wstep es (wstep s e)) with (wrun (wstep s e) es). split; congruence.
Qed.
Lemma kill_step s a : wdb (wstep s (WKill a)) = wdb s /\ wup (wstep s (WKill a)) = false.
Proof. destruct s as [n r]. split; reflexivity. Qed.
Lemma open_step s : wup s = false -> wdb (wstep s WOpen) = restart (wdb s) /\ wup (wstep s WOpen) = true.
Proof. destruct s as [n r]. unfold wdb, wup, ReplicaStore.wstep. cbn [fst wevent_event ReplicaModel.step]. intros ->. split; reflexivity. Qed.
Lemma restart_twice d : restart (restart d) = restart d.
Proof. reflexivity. Qed.

(** The prefixes of a list. *)
Lemma prefix_cases A (l1 l2 p : list A) : (exists q, l1 ++ l2 = p ++ q) -> (exists q, l1 = p ++ q) \/ exists p', p = l1 ++ p' /\ exists q, l2 = p' ++ q.
Proof.
  intros (q & E). destruct (prefix_app _ _ _ _ E) as [(z & ->)|(z & -> & ->)]; [left; now exists z|right]. exists z. split; [reflexivity|now exists q].
Qed.
Lemma forall_prefix A (P : A -> Prop) p q : Forall P (p ++ q) -> Forall P p.
Proof. intros H. now apply Forall_app in H. Qed.
Lemma map_prefix A B (f : A -> B) l p q : map f l = p ++ q -> exists l1 l2, l = l1 ++ l2 /\ p = map f l1.
Proof. intros E. destruct (map_eq_app _ _ _ _ E) as (l1 & l2 & -> & <- & <-). now exists l1, l2. Qed.

Lemma rev_case A (l : list A) : l = [] \/ exists x l', l = l' ++ [x].
Proof. induction l as [|x l _] using rev_ind; [now left|right]. now exists x, l. Qed.

Section Life.
Variables groups dflt : Z.
Variable allowed : list Z.
Notation cstep := (controller_step groups dflt allowed).
Notation crun := (controller_run groups dflt allowed).
Notation calls := (controller_calls groups dflt allowed).
Notation node_life := (node_life text_size stream_size groups dflt allowed).
Notation evs := (wallet_events groups dflt allowed).

(** During one event the wallet is, up to a restart, as after some of the calls. *)
Lemma during c te before applied s p q : proper te -> Forall replicating_event before ->
  wup s = true \/ starts (fst (fst te)) -> restart (wdb s) = restart (c_db c) -> (wup s = true -> wdb s = c_db c) ->
  evs c te before applied = p ++ q ->
  exists os os', calls c te = os ++ os' /\ restart (wdb (wrun s p)) = restart (snd (steps (begin (fst (fst te)) (c_db c)) os)).
Proof.
  intros P F U R D E. pose proof (@calls_no_restart groups dflt allowed c te P) as Nr.
  assert (Alive : forall l l', map WCall (calls c te) = l ++ l' -> wup s = true -> begin (fst (fst te)) (c_db c) = c_db c ->
    exists os os', calls c te = os ++ os' /\ restart (wdb (wrun s l)) = restart (snd (steps (begin (fst (fst te)) (c_db c)) os))).
  { intros l l' El U' B. destruct (@map_prefix _ _ _ _ _ _ El) as (os & os' & Ec & ->). exists os, os'. split; [exact Ec|].
    rewrite Ec in Nr. rewrite B, (proj1 (@calls_run os (@forall_prefix _ _ _ _ Nr) s U')), (D U'). reflexivity. }
  assert (Dying : forall b l l', map WCall (calls c te) ++ [WKill b] = l ++ l' -> wup s = true -> begin (fst (fst te)) (c_db c) = c_db c ->
    exists os os', calls c te = os ++ os' /\ restart (wdb (wrun s l)) = restart (snd (steps (begin (fst (fst te)) (c_db c)) os))).
  { intros b l l' El U' B. destruct (prefix_app _ _ _ _ El) as [(z & Hz)|(z & -> & Hz)]; [exact (Alive _ _ Hz U' B)|].
    destruct (Alive (map WCall (calls c te)) [] (eq_sym (app_nil_r _)) U' B) as (os & os' & Ec & Er). exists os, os'. split; [exact Ec|]. rewrite <- Er.
    rewrite wrun_app. destruct z as [|x z]; [reflexivity|]. injection Hz as <- Hz. symmetry in Hz. apply app_eq_nil in Hz as [-> _].
    cbn [ReplicaStore.wrun fold_left]. now rewrite (proj1 (kill_step _ _)). }
  set (s2 := wstep (wstep s (WKill applied)) WOpen).
  assert (S2 : wdb s2 = restart (c_db c) /\ wup s2 = true).
  { destruct (@open_step (wstep s (WKill applied)) (proj2 (kill_step s applied))) as [E1 E2]. unfold s2. rewrite E1, (proj1 (kill_step s applied)). auto. }
  assert (Early : forall l l', WKill applied :: WOpen :: before = l ++ l' -> restart (wdb (wrun s l)) = restart (c_db c)).
  { intros l l' El. destruct l as [|x l]; [exact R|]. injection El as <- El. destruct l as [|x l]; [cbn; rewrite (proj1 (kill_step _ _)); exact R|].
    injection El as <- El. change (restart (wdb (wrun s2 l)) = restart (c_db c)). rewrite El in F.
    rewrite (proj1 (@replicating_run l (@forall_prefix _ _ _ _ F) s2)), (proj1 S2). reflexivity. }
  assert (Starting : forall l l', (WKill applied :: WOpen :: before) ++ map WCall (calls c te) = l ++ l' -> begin (fst (fst te)) (c_db c) = restart (c_db c) ->
    exists os os', calls c te = os ++ os' /\ restart (wdb (wrun s l)) = restart (snd (steps (begin (fst (fst te)) (c_db c)) os))).
  { intros l l' El B. destruct (prefix_app _ _ _ _ El) as [(z & Hz)|(z & -> & Hz)].
    - exists [], (calls c te). split; [reflexivity|]. rewrite (Early _ _ Hz), B. reflexivity.
    - destruct (@map_prefix _ _ _ _ _ _ Hz) as (os & os' & Ec & ->). exists os, os'. split; [exact Ec|]. rewrite B, wrun_app.
      change (wrun s (WKill applied :: WOpen :: before)) with (wrun s2 before). destruct (@replicating_run before F s2) as [E1 E2].
      rewrite Ec in Nr. rewrite (proj1 (@calls_run os (@forall_prefix _ _ _ _ Nr) (wrun s2 before) (eq_trans E2 (proj2 S2)))), E1, (proj1 S2). reflexivity. }
  unfold wallet_events in E. destruct te as [[e now] gen]. cbn [fst] in *.
  destruct e as [v n|i a| | |o|i a|n|n]; cbn [starts] in U; cbn [begin] in *.
  - destruct U as [U|[]]. exact (Alive _ _ E U eq_refl).
  - destruct U as [U|[]]. exact (Alive _ _ E U eq_refl).
  - destruct U as [U|[]]. exact (Alive _ _ E U eq_refl).
  - exact (Starting _ _ E eq_refl).
  - destruct U as [U|[]]. exact (Alive _ _ E U eq_refl).
  - destruct U as [U|[]]. exact (Dying _ _ _ E U eq_refl).
  - destruct U as [U|[]]. exact (Dying _ _ _ E U eq_refl).
  - assert (E' : ((WKill applied :: WOpen :: before) ++ map WCall (calls c (EKillInStart n, now, gen))) ++ [WKill applied] = p ++ q).
    { rewrite <- E. cbn [app]. now rewrite <- app_assoc. }
    destruct (prefix_app _ _ _ _ E') as [(z & Hz)|(z & -> & Hz)]; [exact (Starting _ _ Hz eq_refl)|].
    destruct (Starting _ [] (eq_sym (app_nil_r _)) eq_refl) as (os & os' & Ec & Er). exists os, os'. split; [exact Ec|]. rewrite <- Er.
    rewrite wrun_app. destruct z as [|x z]; [reflexivity|]. injection Hz as <- Hz. symmetry in Hz. apply app_eq_nil in Hz as [-> _].
    cbn [ReplicaStore.wrun fold_left]. now rewrite (proj1 (kill_step _ _)).
Qed.

(** Between two calls of an event. *)
Lemma reaches c te before applied s os os' : proper te -> Forall replicating_event before ->
  wup s = true \/ starts (fst (fst te)) -> restart (wdb s) = restart (c_db c) -> (wup s = true -> wdb s = c_db c) ->
  calls c te = os ++ os' ->
  exists p q, evs c te before applied = p ++ map WCall os' ++ q /\ wup (wrun s p) = true /\
    wdb (wrun s p) = snd (steps (begin (fst (fst te)) (c_db c)) os) /\ (q = [] /\ ~ dies (fst (fst te)) \/ q = [WKill applied]).
Proof.
  intros P F U R D E. pose proof (@calls_no_restart groups dflt allowed c te P) as Nr. rewrite E in Nr. apply forall_prefix in Nr.
  assert (Alive : wup s = true -> wup (wrun s (map WCall os)) = true /\ wdb (wrun s (map WCall os)) = snd (steps (c_db c) os)).
  { intros U'. destruct (@calls_run os Nr s U') as [E1 E2]. rewrite E1, (D U'). auto. }
  set (s2 := wstep (wstep s (WKill applied)) WOpen).
  assert (S2 : wdb s2 = restart (c_db c) /\ wup s2 = true).
  { destruct (@open_step (wstep s (WKill applied)) (proj2 (kill_step s applied))) as [E1 E2]. unfold s2. rewrite E1, (proj1 (kill_step s applied)). auto. }
  assert (Starting : wup (wrun s (WKill applied :: WOpen :: before ++ map WCall os)) = true /\
    wdb (wrun s (WKill applied :: WOpen :: before ++ map WCall os)) = snd (steps (restart (c_db c)) os)).
  { change (wrun s (WKill applied :: WOpen :: before ++ map WCall os)) with (wrun s2 (before ++ map WCall os)). rewrite wrun_app.
    destruct (@replicating_run before F s2) as [E1 E2]. destruct (@calls_run os Nr (wrun s2 before) (eq_trans E2 (proj2 S2))) as [E3 E4].
    rewrite E3, E1, (proj1 S2). auto. }
  unfold wallet_events. rewrite E, map_app. destruct te as [[e now] gen]. cbn [fst] in *.
  destruct e as [v n|i a| | |o|i a|n|n]; cbn [starts] in U; cbn [begin dies] in *.
  - destruct U as [U|[]]. destruct (Alive U). exists (map WCall os), []. rewrite app_nil_r. split; [reflexivity|]. split; [assumption|]. split; [assumption|]. left. split; [reflexivity|intros []].
  - destruct U as [U|[]]. destruct (Alive U). exists (map WCall os), []. rewrite app_nil_r. split; [reflexivity|]. split; [assumption|]. split; [assumption|]. left. split; [reflexivity|intros []].
  - destruct U as [U|[]]. destruct (Alive U). exists (map WCall os), []. rewrite app_nil_r. split; [reflexivity|]. split; [assumption|]. split; [assumption|]. left. split; [reflexivity|intros []].
  - exists (WKill applied :: WOpen :: before ++ map WCall os), []. destruct Starting. rewrite app_nil_r. split; [cbn; now rewrite <- app_assoc|]. split; [assumption|]. split; [assumption|]. left. split; [reflexivity|intros []].
  - destruct U as [U|[]]. destruct (Alive U). exists (map WCall os), []. rewrite app_nil_r. split; [reflexivity|]. split; [assumption|]. split; [assumption|]. left. split; [reflexivity|intros []].
  - destruct U as [U|[]]. destruct (Alive U). exists (map WCall os), [WKill applied]. rewrite <- app_assoc. auto.
  - destruct U as [U|[]]. destruct (Alive U). exists (map WCall os), [WKill applied]. rewrite <- app_assoc. auto.
  - exists (WKill applied :: WOpen :: before ++ map WCall os), [WKill applied]. destruct Starting. split; [cbn; now rewrite <- !app_assoc|auto].
Qed.
Lemma restart_finish e d : restart (finish e d) = restart d.
Proof. now destruct e. Qed.
Lemma after c te before applied s : proper te -> Forall replicating_event before ->
  wup s = true \/ starts (fst (fst te)) -> restart (wdb s) = restart (c_db c) -> (wup s = true -> wdb s = c_db c) ->
  restart (wdb (wrun s (evs c te before applied))) = restart (c_db (snd (cstep c te))) /\
  (wup (wrun s (evs c te before applied)) = true -> wdb (wrun s (evs c te before applied)) = c_db (snd (cstep c te))).
Proof.
  intros P F U R D. destruct (@reaches c te before applied s (calls c te) [] P F U R D (eq_sym (app_nil_r _))) as (p & q & -> & U1 & D1 & Q).
  cbn [map app]. rewrite step_db, restart_finish, wrun_app. destruct Q as [[-> Al]| -> ].
  - cbn [ReplicaStore.wrun fold_left]. rewrite D1. split; [reflexivity|]. intros _. destruct te as [[e now] gen]. cbn [fst] in *. destruct e; cbn [finish dies] in *; try reflexivity; now destruct Al.
  - cbn [ReplicaStore.wrun fold_left]. destruct (kill_step (wrun s p) applied) as [E1 E2]. change (fold_left wstep p s) with (wrun s p). rewrite E1, D1. split; [reflexivity|].
    rewrite E2. discriminate.
Qed.

(** * Whole lives *)
Definition cut (es eb : list timed) : Prop :=
  exists es1 es2, es = es1 ++ es2 /\ (eb = es1 \/ exists te te' rest, es2 = te :: rest /\ shorter te te' /\ eb = es1 ++ [te']).
Lemma cut_all es : cut es es.
Proof. exists es, []. split; [now rewrite app_nil_r|now left]. Qed.
Lemma cut_more es te eb : cut es eb -> cut (es ++ [te]) eb.
Proof.
  intros (es1 & es2 & -> & [->|(t & t' & rest & -> & Sh & ->)]).
  - exists es1, (es2 ++ [te]). split; [now rewrite <- app_assoc|now left].
  - exists es1, ((t :: rest) ++ [te]). split; [now rewrite <- app_assoc|]. right. exists t, t', (rest ++ [te]). auto.
Qed.

Notation whole es := (snd (crun new_node es)).
Lemma whole_snoc es te : whole (es ++ [te]) = snd (cstep (whole es) te).
Proof. rewrite (proj1 (crun_app groups dflt allowed new_node es [te])), crun_one. reflexivity. Qed.

Lemma life_facts es ws : node_life es ws ->
  Forall proper es /\
  restart (wdb (wrun empty_wallet ws)) = restart (c_db (whole es)) /\
  (wup (wrun empty_wallet ws) = true -> wdb (wrun empty_wallet ws) = c_db (whole es)) /\
  forall p q, ws = p ++ q -> exists eb, cut es eb /\ restart (wdb (wrun empty_wallet p)) = restart (c_db (whole eb)).
Proof.
  intros L. induction L as [|es ws te before applied L IH P F U|es ws e L IH H].
  - split; [constructor|]. split; [reflexivity|]. split; [reflexivity|]. intros p q E. symmetry in E. apply app_eq_nil in E as [-> ->].
    exists []. split; [apply cut_all|reflexivity].
  - destruct IH as (I1 & I2 & I3 & I4). set (c := whole es) in *. set (s := wrun empty_wallet ws) in *.
    destruct (@after c te before applied s P F U I2 I3) as [A1 A2]. split; [apply Forall_app; auto|].
    rewrite wrun_app, whole_snoc. split; [exact A1|]. split; [exact A2|].
    intros p q E. destruct (prefix_app _ _ _ _ E) as [(z & Hz)|(z & -> & Hz)].
    + destruct (I4 p z Hz) as (eb & C & Eb). exists eb. split; [now apply cut_more|exact Eb].
    + destruct (@during c te before applied s z q P F U I2 I3 Hz) as (os & os' & Ec & Er). rewrite wrun_app. fold s. rewrite Er.
      destruct (@step_cut groups dflt allowed c te os os' Ec) as [->|[->|(te' & Sh & Ec')]].
      * exists es. split; [apply cut_more, cut_all|]. fold c. cbn [steps snd]. destruct te as [[e now] gen]. now destruct e.
      * exists (es ++ [te]). split; [apply cut_all|]. rewrite whole_snoc. fold c. rewrite step_db, restart_finish. reflexivity.
      * exists (es ++ [te']). split; [exists es, [te]; split; [reflexivity|]; right; now exists te, te', []|].
        rewrite whole_snoc. fold c. rewrite step_db, restart_finish, Ec'.
        assert (B : begin (fst (fst te')) (c_db c) = begin (fst (fst te)) (c_db c)).
        { destruct te as [[e now] gen]. destruct e; cbn in Sh; try contradiction; first [subst te'; reflexivity | destruct Sh as [? ->]; reflexivity]. }
        now rewrite B.
  - destruct IH as (I1 & I2 & I3 & I4). destruct (@replicating_step (wrun empty_wallet ws) e H) as [E1 E2].
    split; [exact I1|]. rewrite wrun_app. cbn [ReplicaStore.wrun fold_left]. change (fold_left wstep ws empty_wallet) with (wrun empty_wallet ws). rewrite E1, E2.
    split; [exact I2|]. split; [exact I3|]. intros p q E. destruct (prefix_app _ _ _ _ E) as [(z & Hz)|(z & -> & Hz)]; [exact (I4 p z Hz)|].
    exists es. split; [apply cut_all|]. destruct z as [|x z]; [rewrite app_nil_r; exact I2|]. injection Hz as <- Hz. symmetry in Hz. apply app_eq_nil in Hz as [-> _].
    rewrite wrun_app. cbn [ReplicaStore.wrun fold_left]. change (fold_left wstep ws empty_wallet) with (wrun empty_wallet ws). rewrite E1. exact I2.
Qed.

Lemma asked_more ws ws' v k toks : RetrySpec.asked text_size stream_size ws v k toks -> RetrySpec.asked text_size stream_size (ws ++ ws') v k toks.
Proof. intros (es1 & ex & t & n & es2 & -> & H). exists es1, ex, t, n, (es2 ++ ws'). split; [now rewrite <- app_assoc|exact H]. Qed.
Lemma life_asked es ws : node_life es ws -> forall v k toks, In (Requested v k toks) (fst (crun new_node es)) -> toks <> [] ->
  RetrySpec.asked text_size stream_size ws v k toks.
Proof.
  intros L. induction L as [|es ws te before applied L IH P F U|es ws e L IH H]; intros v k toks Hi Ne.
  - destruct Hi.
  - rewrite (proj2 (crun_app groups dflt allowed new_node es [te])), crun_one in Hi. apply in_app_iff in Hi as [Hi|Hi]; [now apply asked_more, IH|].
    destruct (life_facts L) as (_ & I2 & I3 & _). set (c := whole es) in *. set (s := wrun empty_wallet ws) in *.
    destruct (step_answered _ _ _ _ _ _ _ _ Hi) as (os1 & t & g & os2 & Ec & Ea).
    destruct (@reaches c te before applied s os1 _ P F U I2 I3 Ec) as (p & q & -> & U1 & D1 & _).
    exists (ws ++ p), t, g, (snd (fst te)), (map WCall os2 ++ q). rewrite wrun_app. fold s. unfold wup, wdb in *.
    split; [cbn [map app]; now rewrite <- !app_assoc|]. split; [exact U1|]. split; [|exact Ne]. rewrite D1. exact Ea.
  - now apply asked_more, IH.
Qed.

(** * Answers *)
Lemma answers_prefix v c0 es1 es2 P : answers_about groups dflt allowed v c0 (es1 ++ es2) P -> answers_about groups dflt allowed v c0 es1 P.
Proof.
  intros H e1 i a now gen e2 out c f [E|E] R N Ev; eapply (H e1 i a now gen (e2 ++ es2)); eauto; [left|right]; rewrite E, <- app_assoc; reflexivity.
Qed.
Lemma answers_cut v es eb P : cut es eb -> answers_about groups dflt allowed v new_node es P -> answers_about groups dflt allowed v new_node eb P.
Proof.
  intros (es1 & es2 & -> & [->|(te & te' & rest & -> & Sh & ->)]) H; [exact (@answers_prefix _ _ _ _ _ H)|].
  intros e1 i a now gen e2 out c f E R N Ev.
  destruct (rev_case e2) as [->|(x & e3 & ->)].
  - assert (E' : e1 = es1 /\ (te' = (EAnswer i a, now, gen) \/ te' = (EKillAfterAnswer i a, now, gen))).
    { destruct E as [E|E]; apply app_inj_tail in E as [-> ->]; auto. }
    destruct E' as [-> E'].
    assert (T : te = (EAnswer i a, now, gen)).
    { destruct te as [[e n0] g0]. destruct e; cbn in Sh; try contradiction; first [subst te' | destruct Sh as [? ->]]; destruct E' as [E'|E']; try discriminate E'.
      injection E' as <- <- <- <-. reflexivity. }
    subst te. eapply (H es1 i a now gen rest); eauto.
  - assert (E' : es1 = e1 ++ (EAnswer i a, now, gen) :: e3 \/ es1 = e1 ++ (EKillAfterAnswer i a, now, gen) :: e3).
    { destruct E as [E|E]; [left|right]; rewrite app_comm_cons, app_assoc in E; apply app_inj_tail in E as [-> _]; reflexivity. }
    eapply (@answers_prefix v new_node es1 (te :: rest) P H e1 i a now gen e3); eauto.
Qed.

Lemma answers_app v c0 es1 es2 P : answers_about groups dflt allowed v c0 es1 P ->
  answers_about groups dflt allowed v (snd (crun c0 es1)) es2 (fun out => P (fst (crun c0 es1) ++ out)) ->
  answers_about groups dflt allowed v c0 (es1 ++ es2) P.
Proof.
  intros H1 H2 e1 i a now gen e2 out c f E R N Ev.
  assert (Q : exists te, (te = (EAnswer i a, now, gen) \/ te = (EKillAfterAnswer i a, now, gen)) /\ es1 ++ es2 = e1 ++ te :: e2).
  { destruct E as [E|E]; eexists; split; [left; reflexivity|exact E|right; reflexivity|exact E]. }
  destruct Q as (te & Et & Q). destruct (prefix_app _ _ _ _ Q) as [(z & Hz)|(z & Hz & Hz')].
  - destruct z as [|x z].
    + rewrite app_nil_r in Hz. subst e1. apply app_inv_head in Q. subst es2.
      assert (R' : crun (snd (crun c0 es1)) [] = ([], c)) by (rewrite R; reflexivity).
      assert (X : P (fst (crun c0 es1) ++ []) f a).
      { eapply (H2 [] i a now gen e2 [] c f); eauto. destruct Et as [-> | ->]; auto. }
      rewrite app_nil_r, R in X. exact X.
    + rewrite Hz, <- app_assoc in Q. apply app_inv_head in Q. cbn in Q. injection Q as -> Q.
      eapply (H1 e1 i a now gen z); eauto. destruct Et as [-> | ->]; auto.
  - subst e1. destruct (crun_app groups dflt allowed c0 es1 z) as [C1 C2]. rewrite R in C1, C2. cbn [fst snd] in C1, C2. rewrite C2.
    eapply (H2 z i a now gen e2 _ c f); eauto; [destruct Et as [-> | ->]; auto|]. rewrite C1. apply surjective_pairing.
Qed.

(** * An honest issuer *)
Lemma honest_about_not_double v es out c : lived groups dflt allowed es out c ->
  answers_about groups dflt allowed v new_node es honest_answer ->
  forall r, v_number r = v -> in_order v out -> row c r -> v_state r <> SDoubleSpend.
Proof.
  apply (run_induction (fun es out c => answers_about groups dflt allowed v new_node es honest_answer -> forall r, v_number r = v -> in_order v out -> row c r -> v_state r <> SDoubleSpend)).
  - intros _ r _ _ [].
  - clear. intros es out c [[e now] gen] o c' F P R J T E J' Hh r Nv O Hr.
    destruct (@step_shape groups dflt allowed out c e now gen o c' P J E) as (En & o1 & c1 & o2 & Sg & -> & M).
    pose proof (@inv_settling _ _ _ _ _ _ _ _ J Sg) as J1.
    destruct (@micros_new_rows _ _ _ _ _ _ _ r En M J1 Hr) as [H1|H1]; [|congruence].
    apply in_order_app in O. specialize (T (@answers_prefix _ _ _ _ _ Hh)).
    destruct Sg as [_|w _ W|i a f a0 b0 go o1 c1 He Fl Nth _ S]; [apply T; auto| |].
    { apply T; auto. unfold row in *. cbn in H1. destruct (@wallet_keeps _ _ (i_wf J) W) as [V _].
      rewrite V in H1. exact H1. }
    assert (If : In f (c_flights c)) by (rewrite Fl; apply in_or_app; right; left; reflexivity).
    assert (Ho : f_voucher f = v -> honest_answer out f a).
    { intros Ev. destruct He as [-> | ->]; eapply (Hh es i a now gen []); eauto. }
    destruct S as [a e0 u Ke Hu Na Hu1 Hu2 Ne Nu _ _|toks pk r0 d Hr0 Nr Pr N Dj Ed|r0 Hr0 Nr Pr]; unfold row in *; cbn [c_db with_flights] in *.
    + apply T; auto.
    + rewrite Ed in H1. cbn [vouchers] in H1. apply upd_voucher_in in H1. destruct H1 as [[H1 _]|(r1 & H1 & _ & ->)]; [apply T; auto|].
      cbn. destruct (_ =? _); discriminate.
    + cbn [vouchers set_vouchers] in H1. apply upd_voucher_in in H1. destruct H1 as [[H1 _]|(r1 & H1 & N1 & ->)]; [apply T; auto|].
      exfalso. cbn [v_number double_spent] in Nv. assert (Ev : f_voucher f = v) by congruence.
      specialize (Ho Ev). cbn [honest_answer] in Ho. destruct Ho as (toks & Q & Dt). apply Dt.
      destruct (i_flight J f If) as (_ & _ & Qf & _). rewrite <- Nv in O.
      destruct (i_order J r1 O H1) as (_ & _ & _ & _ & _ & _ & I7). rewrite N1 in I7. eapply I7; eauto.
Qed.

(** * After the loss *)
Lemma crun_ops es : forall c, exists os, c_db (snd (crun c es)) = snd (steps (c_db c) os).
Proof.
  induction es as [|te es IH]; intros c; [exists []; reflexivity|]. cbn [controller_run].
  pose proof (step_db groups dflt allowed c te) as E. destruct (cstep c te) as [o c1]. cbn [snd] in E. destruct (IH c1) as (os & H). destruct (crun c1 es) as [o2 c2]. cbn [snd] in *.
  assert (B : exists b, begin (fst (fst te)) (c_db c) = snd (steps (c_db c) b)).
  { destruct te as [[e now] gen]. destruct e; try (now exists []); now exists [ORestart]. }
  assert (Fi : forall d, exists b, finish (fst (fst te)) d = snd (steps d b)).
  { intros d. destruct te as [[e now] gen]. destruct e; try (now exists []); now exists [ORestart]. }
  destruct B as (b & B). destruct (Fi (snd (steps (begin (fst (fst te)) (c_db c)) (calls c te)))) as (b' & B'). rewrite H, E, B', B.
  exists (((b ++ calls c te) ++ b') ++ os). now rewrite !steps_cat.
Qed.
Lemma restart_step c c' te : restart (c_db c) = restart (c_db c') -> starts (fst (fst te)) -> cstep c te = cstep c' te.
Proof.
  intros E S. assert (K : killed c = killed c') by (unfold killed; now rewrite E).
  destruct te as [[e now] gen]. destruct e; cbn in S; try contradiction; cbn [controller_step]; unfold boot; now rewrite K.
Qed.
Definition starting (es : list timed) : Prop := match es with [] => True | te :: _ => starts (fst (fst te)) end.
Lemma restart_run c c' te es : restart (c_db c) = restart (c_db c') -> starts (fst (fst te)) -> crun c (te :: es) = crun c' (te :: es).
Proof. intros E S. cbn [controller_run]. now rewrite (@restart_step c c' te E S). Qed.
Lemma restart_runs c c' es : restart (c_db c) = restart (c_db c') -> starting es -> es <> [] -> crun c es = crun c' es.
Proof. destruct es as [|te es]; [now intros _ _ []|]. intros E S _. now apply restart_run. Qed.

Lemma answers_restart v c c' es P : restart (c_db c) = restart (c_db c') -> starting es ->
  answers_about groups dflt allowed v c es P -> answers_about groups dflt allowed v c' es P.
Proof.
  intros E S H e1 i a now gen e2 out cc f Es R N Ev. destruct e1 as [|te e1].
  - exfalso. destruct Es as [-> | ->]; exact S.
  - assert (S' : starts (fst (fst te))) by (destruct Es as [-> | ->]; exact S).
    eapply (H (te :: e1)); eauto. now rewrite (@restart_run c c' te e1 E S').
Qed.
End Life.

Hypothesis fit : sizes_fit text_size stream_size.

Lemma same_tables_restart a b : same_tables a b -> restart a = restart b.
Proof. intros (H1 & H2 & H3 & H4 & H5 & H6). unfold restart. congruence. Qed.

(** The recovered node goes on as one that was killed, not lost, at the time of
    the backup; and it sends the issuer nothing that contradicts what the lost
    node sent. *)
Lemma lost_and_recovered groups dflt allowed es ws n r :
  node_life text_size stream_size groups dflt allowed es ws ->
  wall_along text_size stream_size (@wharmless) (@empty_wallet) ws -> wrun (@empty_wallet) ws = (n, r) -> n_work n = Idle ->
  exists a eb, recover sexec r = Ok a /\ cut es eb /\ Forall proper eb /\
    restart (c_db (snd (controller_run groups dflt allowed new_node eb))) = restart a /\
    forall v k toks, In (Requested v k toks) (fst (controller_run groups dflt allowed new_node es)) -> toks <> [] ->
      behind a v k \/ RestSpec.random_tokens a v k = toks.
Proof.
  intros L H E Wk. destruct (recovered_asks fit H E Wk) as (a & b & Rc & (p & q & Ew & <-) & Sb & As).
  destruct (life_facts L) as (Pr & _ & _ & Cut). destruct (Cut p q Ew) as (eb & C & Eb). exists a, eb. split; [exact Rc|]. split; [exact C|].
  split.
  { destruct C as (es1 & es2 & -> & [->|(te & te' & rest & -> & Sh & ->)]); apply Forall_app in Pr as [P1 P2]; [exact P1|].
    apply Forall_app. split; [exact P1|]. inversion P2 as [|? ? Pt _]; subst. constructor; [|constructor].
    destruct te as [[e now] gen]. destruct e; cbn in Sh; try contradiction; first [subst te' | destruct Sh as [? ->]]; exact Pt. }
  split; [rewrite <- Eb; symmetry; exact (same_tables_restart Sb)|].
  intros v k toks Hi Ne. apply As. eapply life_asked; eauto.
Qed.

Section After.
Variables groups dflt : Z.
Variable allowed : list Z.
Notation crun := (controller_run groups dflt allowed).
Variables (a : db) (eb : list timed).
Hypothesis Heb : Forall proper eb.
Hypothesis Ha : restart (c_db (snd (crun new_node eb))) = restart a.
Variables (es2 : list timed) (out2 : list output) (c2 : ctl).
Hypothesis P2 : Forall proper es2.
Hypothesis S2 : starting es2.
Hypothesis N2 : es2 <> [].
Hypothesis R2 : crun (recovered_node a) es2 = (out2, c2).

Lemma joined_run : crun new_node (eb ++ es2) = (fst (crun new_node eb) ++ out2, c2).
Proof.
  destruct (crun_app groups dflt allowed new_node eb es2) as [C1 C2]. rewrite (surjective_pairing (crun new_node (eb ++ es2))), C1, C2.
  rewrite (@restart_runs groups dflt allowed (snd (crun new_node eb)) (recovered_node a) es2 Ha S2 N2), R2. reflexivity.
Qed.
Lemma joined_lived : lived groups dflt allowed (eb ++ es2) (fst (crun new_node eb) ++ out2) c2.
Proof. split; [apply Forall_app; auto|exact joined_run]. Qed.
Lemma joined_answers v (P : list output -> flight -> answer -> Prop) : (forall out out' f x, P out f x -> P (out' ++ out) f x) ->
  answers_about groups dflt allowed v new_node eb P -> answers_about groups dflt allowed v (recovered_node a) es2 P ->
  answers_about groups dflt allowed v new_node (eb ++ es2) P.
Proof.
  intros M H1 H2. apply answers_app; [exact H1|]. intros e1 i x now gen e2 out c f E R N Ev. apply M.
  eapply (@answers_restart groups dflt allowed v (recovered_node a) (snd (crun new_node eb)) es2 P (eq_sym Ha) S2 H2); eauto.
Qed.
End After.

Lemma honest_after groups dflt allowed v es eb a es2 out2 c2 :
  let crun := controller_run groups dflt allowed in
  Forall proper eb -> restart (c_db (snd (crun new_node eb))) = restart a -> cut es eb ->
  (forall k toks, In (Requested v k toks) (fst (crun new_node es)) -> toks <> [] -> behind a v k \/ RestSpec.random_tokens a v k = toks) ->
  (forall k toks, In (Requested v k toks) (fst (crun new_node es)) -> toks <> []) ->
  Forall proper es2 -> starting es2 -> es2 <> [] -> crun (recovered_node a) es2 = (out2, c2) ->
  is_paid groups dflt allowed v new_node es -> is_paid groups dflt allowed v (recovered_node a) es2 ->
  keeps_its_word groups dflt allowed v [] new_node es ->
  keeps_its_word groups dflt allowed v (fst (crun new_node es)) (recovered_node a) es2 ->
  answers_about groups dflt allowed v new_node (eb ++ es2) honest_answer.
Proof.
  intros crun Pb Ha C As Ne P2 S2 N2 R2 Pd1 Pd2 H1 H2. apply answers_app.
  { exact (@answers_cut groups dflt allowed v es eb _ C H1). }
  intros e1 i x now gen e2 out c f E R N Ev.
  assert (E1 : exists te e1', e1 = te :: e1').
  { destruct e1 as [|te e1']; [|now exists te, e1']. exfalso. destruct E as [-> | ->]; exact S2. }
  destruct E1 as (te & e1' & ->).
  assert (S1 : starting (te :: e1')) by (destruct E as [-> | ->]; exact S2).
  assert (R' : crun (recovered_node a) (te :: e1') = (out, c)) by (unfold crun; rewrite (@restart_run groups dflt allowed (recovered_node a) (snd (crun new_node eb)) te e1' (eq_sym Ha) S1); exact R).
  assert (Px : exists tl, es2 = (te :: e1') ++ tl) by (destruct E as [-> | ->]; eexists; reflexivity). destruct Px as (tl & Px).
  assert (P1 : Forall proper (te :: e1')) by (rewrite Px in P2; now apply Forall_app in P2).
  pose proof (H2 (te :: e1') i x now gen e2 out c f E R' N Ev) as Ho. destruct x; try exact I. cbn [honest_answer] in *.
  destruct Ho as (toks & Hi & Df). apply in_app_iff in Hi as [Hi|Hi]; [|exists toks; split; [apply in_or_app; now right|exact Df]].
  exfalso. apply Df.
  pose proof (@joined_lived groups dflt allowed a eb Pb Ha (te :: e1') out c P1 S1 ltac:(discriminate) R') as Lv.
  assert (Pd : paid groups dflt allowed v (eb ++ te :: e1')).
  { apply (@joined_answers groups dflt allowed a eb Ha (te :: e1') S1 v (fun _ _ x => x <> AUnpaid)); auto.
    - exact (@answers_cut groups dflt allowed v es eb _ C Pd1).
    - unfold is_paid in Pd2. rewrite Px in Pd2. exact (@answers_prefix groups dflt allowed v (recovered_node a) (te :: e1') tl _ Pd2). }
  destruct (lived_good Lv Pd) as [O _]. pose proof (lived_inv Lv) as J. apply nth_error_In in N.
  destruct (i_flight J f N) as (_ & Gt & _ & r & Hr & Nr & _). rewrite Ev in *. rewrite <- Nr in O. destruct (i_order J r O Hr) as (_ & Fc & _).
  specialize (Fc f N (eq_trans Ev (eq_sym Nr))).
  pose proof (Ne _ _ Hi) as Net.
  destruct (crun_ops groups dflt allowed (te :: e1') (recovered_node a)) as (os & Eo). fold crun in Eo. rewrite R' in Eo. cbn [snd c_db recovered_node] in Eo.
  assert (Hd : holds v (f_counter f) toks (c_db c)) by (rewrite Eo; apply holds_steps; [exact Net|exact (As _ _ Hi Net)]).
  destruct Hd as [(r' & Hr' & Nr' & Lt)|Hd].
  - rewrite (@row_unique _ r' r _ _ J Hr' Hr (eq_trans Nr' (eq_sym Nr))) in Lt. lia.
  - rewrite <- Hd. exact Gt.
Qed.
End Wallet.
