(** Property theorems C133: the log of spending accounts for every token and
    shows none. *)
From Verif Require Import Prelude PreludeFacts PricingModel PricingSpec PricingProofs
  StoreModel StoreSpec StoreProofs SpendModel SpendSpec SpendProofs SpendProperties LogModel LogSpec LogProofs.

(** The model that logs does what the model that does not log does, so C21-C25
    and everything built on them are about the calls logged here. *)
Theorem C133_logging_changes_nothing :
  forall P R (to_pass : Z -> Z -> res exn P) (server : list (attempt P R) -> group P -> db -> list op * response R)
         scan message num_passes fuel d,
  option_map snd (log_call_with_passes to_pass server scan message num_passes fuel d) =
  call_with_passes to_pass server scan message num_passes fuel d.
Proof. intros. apply erase_call. apply erase_spend_all. Qed.
Print Assumptions C133_logging_changes_nothing.

Theorem C133_logging_changes_no_allocation :
  forall P (to_pass : Z -> Z -> res exn P) server scan message pass_value size sharenums fuel d,
  option_map snd (log_allocate_buckets to_pass server scan message pass_value size sharenums fuel d) =
  client_allocate_buckets to_pass server scan message pass_value size sharenums fuel d.
Proof.
  intros. unfold log_allocate_buckets, client_allocate_buckets. destruct (required_passes _ _); [|reflexivity].
  apply erase_call. apply erase_for_buckets.
Qed.
Print Assumptions C133_logging_changes_no_allocation.

(** C133: the tokens a finished call took are in three piles, spent, invalid and
    available again, and the log gives the size of each pile and of the whole. *)
Theorem C133_log_adds_up :
  forall P R (to_pass : Z -> Z -> res exn P) server scan message num_passes fuel d
         log (r : res failure R) d' tr,
  polite_server server -> fair_scan scan -> convertible to_pass message -> 0 <= num_passes ->
  fresh_reachable d ->
  log_call_with_passes to_pass server scan message num_passes fuel d = Some (log, (r, d', tr)) ->
  adds_up log tr d'.
Proof.
  intros P R to_pass server scan message num fuel d log r d' tr Hp Hs Hc Hn F E.
  exact (proj2 (@ordinary_log P R to_pass server scan message num Hp Hs Hc Hn fuel d log r d' tr F E)).
Qed.
Print Assumptions C133_log_adds_up.

Theorem C133_allocation_log_adds_up :
  forall P (to_pass : Z -> Z -> res exn P) server scan message pass_value size sharenums fuel d log r d' tr,
  polite_server server -> fair_scan scan -> convertible to_pass message -> 0 < pass_value -> 0 <= size ->
  fresh_reachable d ->
  log_allocate_buckets to_pass server scan message pass_value size sharenums fuel d = Some (log, (r, d', tr)) ->
  adds_up log tr d'.
Proof.
  intros P to_pass server scan message pv size sh fuel d log r d' tr Hp Hs Hc Hv Hz F E.
  exact (proj2 (@allocate_log P to_pass server scan message pv size sh fuel d log r d' tr Hp Hs Hc Hv Hz F E)).
Qed.
Print Assumptions C133_allocation_log_adds_up.

(** C133: the whole log can be written down from the message, the number of
    passes wanted, the answers of the server and the way the call ended. *)
Theorem C133_whole_log :
  forall P R (to_pass : Z -> Z -> res exn P) server scan message num_passes fuel d
         log (r : res failure R) d' tr,
  polite_server server -> fair_scan scan -> convertible to_pass message -> 0 <= num_passes ->
  fresh_reachable d ->
  log_call_with_passes to_pass server scan message num_passes fuel d = Some (log, (r, d', tr)) ->
  log = whole_log (pays_all num_passes) message num_passes (map snd tr) r.
Proof.
  intros P R to_pass server scan message num fuel d log r d' tr Hp Hs Hc Hn F E.
  exact (proj1 (@ordinary_log P R to_pass server scan message num Hp Hs Hc Hn fuel d log r d' tr F E)).
Qed.
Print Assumptions C133_whole_log.

Theorem C133_whole_allocation_log :
  forall P (to_pass : Z -> Z -> res exn P) server scan message pass_value size sharenums fuel d log r d' tr,
  polite_server server -> fair_scan scan -> convertible to_pass message -> 0 < pass_value -> 0 <= size ->
  fresh_reachable d ->
  log_allocate_buckets to_pass server scan message pass_value size sharenums fuel d = Some (log, (r, d', tr)) ->
  let num := Z.of_nat (length sharenums) * cdiv size pass_value in
  log = whole_log (pays_for_buckets num pass_value size) message num (map snd tr) r.
Proof.
  intros P to_pass server scan message pv size sh fuel d log r d' tr Hp Hs Hc Hv Hz F E.
  exact (proj1 (@allocate_log P to_pass server scan message pv size sh fuel d log r d' tr Hp Hs Hc Hv Hz F E)).
Qed.
Print Assumptions C133_whole_allocation_log.

(** C133: the log gives no token away.  Two calls on different wallets, with
    different tokens, passes, row orders and other tasks, leave the same log when
    they ask for the same and are answered the same. *)
Theorem C133_log_shows_no_token :
  forall P1 P2 R (to_pass1 : Z -> Z -> res exn P1) (to_pass2 : Z -> Z -> res exn P2)
         server1 server2 scan1 scan2 message num_passes fuel1 fuel2 d1 d2
         log1 log2 (r : res failure R) d1' d2' tr1 tr2,
  polite_server server1 -> polite_server server2 -> fair_scan scan1 -> fair_scan scan2 ->
  convertible to_pass1 message -> convertible to_pass2 message -> 0 <= num_passes ->
  fresh_reachable d1 -> fresh_reachable d2 ->
  log_call_with_passes to_pass1 server1 scan1 message num_passes fuel1 d1 = Some (log1, (r, d1', tr1)) ->
  log_call_with_passes to_pass2 server2 scan2 message num_passes fuel2 d2 = Some (log2, (r, d2', tr2)) ->
  map snd tr1 = map snd tr2 ->
  log1 = log2.
Proof.
  intros P1 P2 R tp1 tp2 s1 s2 sc1 sc2 m n f1 f2 d1 d2 l1 l2 r d1' d2' tr1 tr2 Hp1 Hp2 Hs1 Hs2 Hc1 Hc2 Hn F1 F2 E1 E2 A.
  rewrite (proj1 (@ordinary_log P1 R tp1 s1 sc1 m n Hp1 Hs1 Hc1 Hn f1 d1 l1 r d1' tr1 F1 E1)).
  rewrite (proj1 (@ordinary_log P2 R tp2 s2 sc2 m n Hp2 Hs2 Hc2 Hn f2 d2 l2 r d2' tr2 F2 E2)).
  now rewrite A.
Qed.
Print Assumptions C133_log_shows_no_token.

Theorem C133_allocation_log_shows_no_token :
  forall P1 P2 (to_pass1 : Z -> Z -> res exn P1) (to_pass2 : Z -> Z -> res exn P2)
         server1 server2 scan1 scan2 message pass_value size sharenums1 sharenums2 fuel1 fuel2 d1 d2
         log1 log2 r d1' d2' tr1 tr2,
  polite_server server1 -> polite_server server2 -> fair_scan scan1 -> fair_scan scan2 ->
  convertible to_pass1 message -> convertible to_pass2 message -> 0 < pass_value -> 0 <= size ->
  fresh_reachable d1 -> fresh_reachable d2 -> length sharenums1 = length sharenums2 ->
  log_allocate_buckets to_pass1 server1 scan1 message pass_value size sharenums1 fuel1 d1 = Some (log1, (r, d1', tr1)) ->
  log_allocate_buckets to_pass2 server2 scan2 message pass_value size sharenums2 fuel2 d2 = Some (log2, (r, d2', tr2)) ->
  map snd tr1 = map snd tr2 ->
  log1 = log2.
Proof.
  intros P1 P2 tp1 tp2 s1 s2 sc1 sc2 m pv size sh1 sh2 f1 f2 d1 d2 l1 l2 r d1' d2' tr1 tr2
    Hp1 Hp2 Hs1 Hs2 Hc1 Hc2 Hv Hz F1 F2 L E1 E2 A.
  rewrite (proj1 (@allocate_log P1 tp1 s1 sc1 m pv size sh1 f1 d1 l1 r d1' tr1 Hp1 Hs1 Hc1 Hv Hz F1 E1)).
  rewrite (proj1 (@allocate_log P2 tp2 s2 sc2 m pv size sh2 f2 d2 l2 r d2' tr2 Hp2 Hs2 Hc2 Hv Hz F2 E2)).
  now rewrite A, L.
Qed.
Print Assumptions C133_allocation_log_shows_no_token.

(** One of two passes is refused and replaced; the log of the call. *)
Definition lx_log : list line :=
  [CallStarted 2; GetPasses 5 2; SignatureCheckFailed 2; InvalidPasses 1 1; GetPasses 5 1; SpentPasses 2; CallSucceeded].
Example C133_example :
  option_map fst (log_call_with_passes sx_pass sx_server sx_scan 5 2 3 sx_db) = Some lx_log /\
  total says_got lx_log = 3 /\ total says_spent lx_log = 2 /\ total says_invalid lx_log = 1 /\ total says_returned lx_log = 0.
Proof. vm_compute. repeat split. Qed.
(** The same answers to a wallet with other tokens in it. *)
Definition lx_other_history : list op :=
  [OAdd 8 8 0 [201; 202; 203] 1000; OInsert 8 55 [71; 72; 73] false true 1001].
Definition lx_other_db := snd (steps empty_db lx_other_history).
Lemma lx_other_fresh : fresh_reachable lx_other_db.
Proof.
  exists lx_other_history, (fst (steps empty_db lx_other_history)). split; [|split].
  - cbn. intuition (subst; cbn; auto).
  - cbn. intuition.
  - vm_compute. reflexivity.
Qed.
Example C133_instance :
  exists log r d1 d2 tr1 tr2,
    log_call_with_passes sx_pass sx_server sx_scan 5 2 3 sx_db = Some (log, (r, d1, tr1)) /\
    log_call_with_passes sx_pass sx_lone_server sx_scan 5 2 3 lx_other_db = Some (log, (r, d2, tr2)) /\
    map snd tr1 = map snd tr2 /\ map fst tr1 <> map fst tr2 /\ adds_up log tr1 d1 /\ adds_up log tr2 d2.
Proof.
  destruct (log_call_with_passes sx_pass sx_server sx_scan 5 2 3 sx_db) as [[l1 [[r1 d1] tr1]]|] eqn:E1;
    [|vm_compute in E1; discriminate].
  destruct (log_call_with_passes sx_pass sx_lone_server sx_scan 5 2 3 lx_other_db) as [[l2 [[r2 d2] tr2]]|] eqn:E2;
    [|vm_compute in E2; discriminate].
  pose proof (@C133_log_adds_up _ _ _ _ _ _ _ _ _ _ _ _ _ sx_polite sx_fair (sx_convertible 5) (Zle_0_pos 2) sx_fresh E1) as A1.
  pose proof (@C133_log_adds_up _ _ _ _ _ _ _ _ _ _ _ _ _ sx_lone_polite sx_fair (sx_convertible 5) (Zle_0_pos 2) lx_other_fresh E2) as A2.
  exists l1, r1, d1, d2, tr1, tr2.
  vm_compute in E1. vm_compute in E2.
  injection E1 as <- <- <- <-. injection E2 as <- <- <- <-.
  split; [reflexivity|]. split; [reflexivity|]. split; [reflexivity|]. split; [vm_compute; discriminate|]. split; assumption.
Qed.
(** An allocation for which one of two buckets is made, and one that runs out of
    tokens after a refusal. *)
Example C133_allocation_example :
  option_map fst (log_allocate_buckets sx_pass (fun _ _ _ => ([], Accept ([], [(0, 70)]))) sx_scan 5 10 15 [0; 1] 1 sx_db) =
  Some [CallStarted 4; GetPasses 5 4; SpentPasses 2; ResetPasses 2; CallSucceeded].
Proof. vm_compute. reflexivity. Qed.
Example C133_out_of_tokens_example :
  option_map fst (log_call_with_passes (R := Z) sx_pass (fun _ _ _ => ([], Refuse 3 5 [0; 2])) sx_scan 5 5 3 sx_db) =
  Some [CallStarted 5; GetPasses 5 5; SignatureCheckFailed 2; InvalidPasses 1 2; ResetPasses 3; CallFailed (Raised NotEnoughTokens)].
Proof. vm_compute. reflexivity. Qed.
