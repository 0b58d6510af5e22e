(** C135: what is shown and logged of vouchers and tokens does not depend on
    what the tokens are. *)
From Verif Require Import Prelude PricingModel StoreModel ControllerModel RedeemLogModel RedeemLogSpec RedeemLogProofs.
Set Implicit Arguments.

(** Two nodes go through the same history, only that the random tokens made up
    and the tokens received and used are others.  Then they send the same requests
    and store the same groups, with these other tokens. *)
Theorem C135_requests_are_alike : forall groups default allowed tau ups es1 es2,
  one_to_one tau -> one_to_one ups -> Forall2 (alike_timed tau ups) es1 es2 ->
  Forall2 (alike_output tau ups)
    (fst (controller_run groups default allowed new_node es1))
    (fst (controller_run groups default allowed new_node es2)).
Proof.
  intros groups default allowed tau ups es1 es2 Ht Hu F.
  destruct (run_renamed Ht Hu groups default allowed F new_node) as [R _]. rewrite ren_new in R. rewrite R.
  unfold ren_step. cbn [fst]. induction (fst (controller_run groups default allowed new_node es1)) as [|o os IH]; constructor;
    [apply ren_output_alike|exact IH].
Qed.
Print Assumptions C135_requests_are_alike.

(** Every voucher is shown the same. *)
Theorem C135_vouchers_are_shown_alike : forall groups default allowed tau ups es1 es2 v,
  one_to_one tau -> one_to_one ups -> Forall2 (alike_timed tau ups) es1 es2 ->
  get_voucher (snd (controller_run groups default allowed new_node es1)) v =
  get_voucher (snd (controller_run groups default allowed new_node es2)) v.
Proof.
  intros groups default allowed tau ups es1 es2 v Ht Hu F.
  destruct (run_renamed Ht Hu groups default allowed F new_node) as [R _]. rewrite ren_new in R. rewrite R.
  unfold ren_step. cbn [snd]. symmetry. apply (get_voucher_ren Ht Hu).
Qed.
Print Assumptions C135_vouchers_are_shown_alike.

(** The wallet answers every question about itself the same: the list of
    vouchers, the numbers of tokens, the latest maintenance. *)
Theorem C135_wallet_answers_alike : forall groups default allowed tau ups es1 es2 o,
  one_to_one tau -> one_to_one ups -> Forall2 (alike_timed tau ups) es1 es2 -> question o ->
  fst (step (c_db (snd (controller_run groups default allowed new_node es1))) o) =
  fst (step (c_db (snd (controller_run groups default allowed new_node es2))) o).
Proof.
  intros groups default allowed tau ups es1 es2 o Ht Hu F Q.
  destruct (run_renamed Ht Hu groups default allowed F new_node) as [R _]. rewrite ren_new in R. rewrite R.
  unfold ren_step. cbn [snd c_db ren_ctl]. symmetry. apply (question_ren Ht Hu). exact Q.
Qed.
Print Assumptions C135_wallet_answers_alike.

(** And the log is the same. *)
Theorem C135_log_shows_no_token : forall groups default allowed tau ups es1 es2,
  one_to_one tau -> one_to_one ups -> Forall2 (alike_timed tau ups) es1 es2 ->
  log_run groups default allowed new_node es1 = log_run groups default allowed new_node es2.
Proof.
  intros groups default allowed tau ups es1 es2 Ht Hu F.
  destruct (run_renamed Ht Hu groups default allowed F new_node) as [_ L]. rewrite ren_new in L. now symmetry.
Qed.
Print Assumptions C135_log_shows_no_token.

(** ** A case: one voucher redeemed in two groups, then a token used. *)
Definition rl_gen (base v counter n : Z) : list Z := map (fun i => base + 10 * counter + Z.of_nat i) (seq 0 (Z.to_nat n)).
Definition rl_history (base first : Z) : list timed :=
  map (fun e => (e, 5, rl_gen base))
    [EStart; ESubmit 7 (Some 3); EAnswer 0 AUnpaid; ETimer;
     EAnswer 0 (ASuccess [first; first + 1] 1); EAnswer 0 (ASuccess [first + 2] 1);
     EWallet (OExtract (fun l => l) 1); EWallet (ODiscard [first])].
Example C135_example_log : log_run 2 100 [1] new_node (rl_history 1000 500) =
  [LAccepting 7; LStarting 7 0 2 3; LGenerating 7; LPersisting 2 7 0; LRedeeming (V 7 3 5 (PPending 0));
   LUnpaid 7; LSuspending 7;
   LStarting 7 0 2 3; LLoaded 2 7 0; LRedeeming (V 7 3 5 (PPending 0));
   LInserting 7; LRecording 2 true 1; LGenerating 7; LPersisting 1 7 1; LRedeeming (V 7 3 5 (PPending 1));
   LInserting 7; LRecording 1 true 1].
Proof. vm_compute. reflexivity. Qed.
Example C135_example_count :
  fst (step (c_db (snd (controller_run 2 100 [1] new_node (rl_history 1000 500)))) OCount) = Ok (RNum 2).
Proof. vm_compute. reflexivity. Qed.
Example C135_example_alike :
  one_to_one (fun x => x + 234) /\ one_to_one (fun x => x + 100) /\
  Forall2 (alike_timed (fun x => x + 234) (fun x => x + 100)) (rl_history 1000 500) (rl_history 1234 600).
Proof.
  split; [intros x y; lia|]. split; [intros x y; lia|]. unfold rl_history. cbn [map].
  assert (T : forall e1 e2, alike_event (fun x => x + 234) (fun x => x + 100) e1 e2 ->
    alike_timed (fun x => x + 234) (fun x => x + 100) (e1, 5, rl_gen 1000) (e2, 5, rl_gen 1234)).
  { intros e1 e2 H. split; [exact H|]. split; [reflexivity|]. intros v k n. unfold rl_gen. rewrite map_map.
    apply map_ext. intros i. lia. }
  repeat (constructor; [apply T|]); try constructor.
  - constructor.
  - exact (alike_success (fun x => x + 100) [500; 501] 1).
  - exact (alike_success (fun x => x + 100) [502] 1).
  - constructor. reflexivity.
  - exact (alike_discard (fun x => x + 234) (fun x => x + 100) [500]).
Qed.
