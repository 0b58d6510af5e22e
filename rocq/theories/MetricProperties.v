(** The spending metric of a storage server: C97. *)
From Verif Require Import Prelude PreludeFacts BytesModel PassModel PricingModel PricingSpec ContainerModel TahoeModel ServerModel ServerSpec ServerProofs
  ServerStateProofs ServerRequestProofs ServerProperties MetricModel MetricSpec MetricProofs.

(** * C97: the metric and the record of spent passes *)

(** The exposed histogram says of each of its bounds how many observations did not exceed it,
    how many there were and their sum. *)
Theorem C97_histogram_counts : forall xs,
  x_buckets (spending_metric xs) =
    map (fun b => (b, upto b xs)) (map Some [1; 2; 4; 8; 16; 32; 64; 128; 256; 512; 1024] ++ [None]) /\
  x_count (spending_metric xs) = Z.of_nat (length xs) /\ x_sum (spending_metric xs) = sumZ xs.
Proof. intros xs. split; [apply metric_buckets|]. split; [apply metric_count|apply metric_sum]. Qed.
Print Assumptions C97_histogram_counts.

(** A request makes one observation if it is accepted and none otherwise. *)
Theorem C97_one_observation_per_accepted_request :
  forall signed pv iv mv mut sv now room passes q r sv', 0 < pv ->
  reachable_server signed pv iv mv mut sv -> proper q ->
  serve signed pv mv now room passes q sv = (r, sv') ->
  match r with
  | Ok x => exists k, sv_metric sv' = sv_metric sv ++ [k] /\ observation signed pv sv now passes q x k
  | Err _ => sv_metric sv' = sv_metric sv
  end.
Proof.
  intros signed pv iv mv mut sv now room passes q [x|e] sv' Hv R P S.
  - destruct (@serve_observes signed pv mv Hv now room passes q sv x sv') as (k & ps & A & _ & O & _); eauto.
    eapply reachable_wf; exact R.
  - eapply serve_error; exact S.
Qed.
Print Assumptions C97_one_observation_per_accepted_request.

(** Over any history of a server: as many observations as accepted requests; their sum is not
    more than the number of passes recorded as spent.  Missing: that it is that number; this
    holds as long as no mutable share is written to. *)
Theorem C97_metric_is_the_record_partial :
  forall signed pv iv mv es os sv, 0 < pv -> (iv = 1 \/ iv = 2) -> (mv = 1 \/ mv = 2) -> Forall proper_event es ->
  server_run signed pv iv mv empty_server es = (os, sv) ->
  x_count (spending_metric (sv_metric sv)) = Z.of_nat (length (filter accepted os)) /\
  x_sum (spending_metric (sv_metric sv)) <= Z.of_nat (length (sv_spent sv)) /\
  (Forall (fun e => is_mutable_write e = false) es ->
   x_sum (spending_metric (sv_metric sv)) = Z.of_nat (length (sv_spent sv))).
Proof.
  intros signed pv iv mv es os sv Hv Hi Hm P R.
  destruct (@run_observes signed pv iv mv Hv es empty_server os sv Hi Hm empty_wf P R) as (ks & ps & A & B & C & D & E).
  cbn in A, B. rewrite metric_count, metric_sum, A, B. auto.
Qed.
Print Assumptions C97_metric_is_the_record_partial.

(** It is false in general: a write presented with more passes than it costs has all of them
    recorded and only the price observed. *)
Definition vx_over : list event := vx_history ++ [ERequest vx_soon vx_room (map vx_pass [x70; x71]) (Writev vx_si [] [] [] vx_failing_tw [])].
Theorem C97_metric_is_the_record_refuted :
  exists signed pv iv mv es os sv, 0 < pv /\ (iv = 1 \/ iv = 2) /\ (mv = 1 \/ mv = 2) /\ Forall proper_event es /\
  server_run signed pv iv mv empty_server es = (os, sv) /\
  x_sum (spending_metric (sv_metric sv)) < Z.of_nat (length (sv_spent sv)).
Proof.
  exists vx_signed, 10, 2, 2, vx_over, (fst (server_run vx_signed 10 2 2 empty_server vx_over)), (snd (server_run vx_signed 10 2 2 empty_server vx_over)).
  split; [lia|]. split; [auto|]. split; [auto|]. split.
  - repeat constructor; cbn; intuition (try discriminate; try lia).
  - split; [apply surjective_pairing|]. vm_compute. reflexivity.
Qed.
Print Assumptions C97_metric_is_the_record_refuted.

(** Four requests, the last one refused: 4, 6 and 6 passes. *)
Definition vx_more : list event := vx_history ++ [ERequest vx_soon vx_room vx_twelve vx_alloc2; ERequest vx_soon vx_room [] vx_alloc2].
Example C97_example :
  Forall proper_event vx_more /\
  let sv := snd (server_run vx_signed 10 2 2 empty_server vx_more) in
  sv_metric sv = [4; 6; 6] /\ length (sv_spent sv) = 16%nat /\
  x_count (spending_metric (sv_metric sv)) = 3 /\ x_sum (spending_metric (sv_metric sv)) = 16 /\
  firstn 4 (x_buckets (spending_metric (sv_metric sv))) = [(Some 1, 0); (Some 2, 0); (Some 4, 1); (Some 8, 3)].
Proof. split; [repeat constructor; cbn; intuition (try discriminate; try lia)|]. vm_compute. repeat split. Qed.
