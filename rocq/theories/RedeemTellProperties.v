(** C136: the log of redemption tells how many tokens were asked for and
    received. *)
From Verif Require Import Prelude PricingModel StoreModel ControllerModel RedeemLogModel RedeemTellSpec RedeemTellProofs
  RedeemLogProperties.
Set Implicit Arguments.

(** Reading the log of any history gives, in order, every request to the issuer:
    its voucher, group and number of tokens, and no other. *)
Theorem C136_log_tells_requests : forall groups default allowed c es, Forall by_redemption es ->
  requests_told (log_run groups default allowed c es) = requests_made (fst (controller_run groups default allowed c es)).
Proof. intros groups default allowed c es F. exact (proj1 (run_told groups default allowed c F)). Qed.
Print Assumptions C136_log_tells_requests.

(** And every group of tokens stored: its voucher, the number of tokens, and
    whether they can be spent, and no other. *)
Theorem C136_log_tells_credits : forall groups default allowed c es, Forall by_redemption es ->
  credits_told (log_run groups default allowed c es) = credits_made (fst (controller_run groups default allowed c es)).
Proof. intros groups default allowed c es F. exact (proj2 (run_told groups default allowed c F)). Qed.
Print Assumptions C136_log_tells_credits.

(** ** A case: the history of C135's, and one with a group that cannot be stored. *)
Example C136_example : Forall by_redemption (rl_history 1000 500) /\
  requests_told (log_run 2 100 [1] new_node (rl_history 1000 500)) = [(7, 0, 2); (7, 0, 2); (7, 1, 1)] /\
  credits_told (log_run 2 100 [1] new_node (rl_history 1000 500)) = [(7, 2, true); (7, 1, true)].
Proof. split; [repeat constructor|]. split; vm_compute; reflexivity. Qed.
Example C136_example_error :
  log_run 1 100 [1] new_node (map (fun e => (e, 5, rl_gen 1000)) [ESubmit 7 (Some 2); EAnswer 0 (ASuccess [500; 500] 1)]) =
  [LAccepting 7; LStarting 7 0 1 2; LGenerating 7; LPersisting 2 7 0; LRedeeming (V 7 2 5 (PPending 0));
   LInserting 7; LRecording 2 true 1; LEncountered 7 IntegrityError; LSuspending 7].
Proof. vm_compute. reflexivity. Qed.
