(** Property theorems C21-C25: spending passes on a storage call. *)
From Verif Require Import Prelude PreludeFacts PricingModel PricingSpec PricingProofs
  StoreModel StoreSpec StoreProofs SpendModel SpendSpec SpendProofs.

(** ** A concrete wallet, redeemer and server for the examples *)

(** Five spendable tokens, two sequestered ones; nobody holds any. *)
Definition sx_history : list op :=
  [OAdd 7 7 0 [101; 102; 103] 1000;
   OInsert 7 55 [11; 12; 13; 14; 15] false true 1001;
   OInsert 7 66 [21; 22] true false 1002].
Definition sx_db := snd (steps empty_db sx_history).
Lemma sx_fresh : fresh_reachable sx_db.
Proof.
  exists sx_history, (fst (steps empty_db sx_history)). split; [|split].
  - cbn. intuition (subst; cbn; auto).
  - cbn. intuition.
  - vm_compute. reflexivity.
Qed.
(** A pass is the pair of message and token. *)
Definition sx_pass (message t : Z) : res exn (Z * Z) := Ok (message, t).
Lemma sx_convertible m : convertible sx_pass m.
Proof. intros t. eexists. reflexivity. Qed.
Definition sx_scan (n : nat) (l : list Z) : list Z := if Nat.even n then l else rev l.
Lemma sx_fair : fair_scan sx_scan.
Proof. intros n l. unfold sx_scan. destruct (Nat.even n); [reflexivity|apply Permutation_sym, Permutation_rev]. Qed.

(** Refuses the second pass of the first attempt, then accepts; while the first
    attempt is under way another task takes two tokens and spends one. *)
Definition sx_server (past : list (attempt (Z * Z) Z)) (g : group (Z * Z)) (d : db)
  : list op * response Z :=
  match past with
  | [] => ([OExtract (fun l => l) 2], Refuse 1 2 [1; 7])
  | _ => ([], Accept 99)
  end.
Lemma sx_polite : polite_server sx_server.
Proof.
  intros [|? ?] g d; cbn; [|exact I]. split; [|exact I]. split; [|exact I]. cbn. intros l. apply Permutation_refl.
Qed.
Definition sx_lone_server (past : list (attempt (Z * Z) Z)) (g : group (Z * Z)) (d : db)
  : list op * response Z := ([], snd (sx_server past g d)).
Lemma sx_lone : lone_server sx_lone_server.
Proof. intros past g d. reflexivity. Qed.
Lemma sx_lone_polite : polite_server sx_lone_server.
Proof. intros past g d. exact I. Qed.

(** ** C21 *)

(** C21: when a call ends, every token it presented is in exactly one of the
    places spent, invalid, available, and not in use; whatever the server
    answered, and whatever other tasks did with the wallet meanwhile. *)
Theorem C21_every_token_accounted :
  forall P R (to_pass : Z -> Z -> res exn P) server scan message num_passes fuel d
         (r : res failure R) d' tr,
  polite_server server -> fair_scan scan -> convertible to_pass message ->
  fresh_reachable d ->
  call_with_passes to_pass server scan message num_passes fuel d = Some (r, d', tr) ->
  forall t, taken tr t -> accounted d' t.
Proof.
  intros P R to_pass server scan message num fuel d r d' tr Hp Hs Hc F E t T.
  destruct (@spend_call_story P R to_pass server scan message num Hp Hs Hc fuel d r d' tr F E) as [(-> & _)|O].
  - now apply not_taken_nil in T.
  - exact (outcome_accounted O T).
Qed.
Print Assumptions C21_every_token_accounted.

(** C21: a call that fails for another reason than its passes passes the error on
    and leaves the wallet exactly as it was, and so does one for which there
    are not enough tokens; an allocation likewise. *)
Theorem C21_failed_calls_leave_no_trace :
  forall P R (to_pass : Z -> Z -> res exn P) server scan message num_passes fuel d e,
  (forall g d0, server [] g d0 = ([], Fail (R := R) e)) -> fair_scan scan -> convertible to_pass message ->
  fresh_reachable d ->
  call_with_passes to_pass server scan message num_passes (S fuel) d = Some (Err (Raised NotEnoughTokens), d, []) \/
  exists g, call_with_passes to_pass server scan message num_passes (S fuel) d = Some (Err (Remote e), d, [(g, Fail e)]).
Proof.
  intros P R to_pass server scan message num fuel d e Sv Hs Hc F.
  exact (@failing_call P R to_pass server scan message num (@spend_all P R) e fuel d Sv Hs Hc (proj1 (fresh_clean F))).
Qed.
Print Assumptions C21_failed_calls_leave_no_trace.
Theorem C21_failed_allocations_leave_no_trace :
  forall P (to_pass : Z -> Z -> res exn P) server scan message pass_value size sharenums fuel d e,
  (forall g d0, server [] g d0 = ([], Fail e)) -> fair_scan scan -> convertible to_pass message ->
  fresh_reachable d -> 0 < pass_value ->
  client_allocate_buckets to_pass server scan message pass_value size sharenums (S fuel) d = Some (Err (Raised NotEnoughTokens), d, []) \/
  exists g, client_allocate_buckets to_pass server scan message pass_value size sharenums (S fuel) d = Some (Err (Remote e), d, [(g, Fail e)]).
Proof.
  intros P to_pass server scan message pv size sharenums fuel d e Sv Hs Hc F Hv. unfold client_allocate_buckets.
  rewrite (required_passes_pos _ Hv).
  exact (@failing_call P _ to_pass server scan message _ (spend_for_allocate_buckets pv size) e fuel d Sv Hs Hc (proj1 (fresh_clean F))).
Qed.
Print Assumptions C21_failed_allocations_leave_no_trace.
Example C21_failed_example :
  call_with_passes sx_pass (fun _ _ _ => ([], Fail (R := Z) 4)) sx_scan 5 2 1 sx_db =
  Some (Err (Remote 4), sx_db, [([(11, (5, 11)); (12, (5, 12))], Fail 4)]) /\
  call_with_passes sx_pass (fun _ _ _ => ([], Fail (R := Z) 4)) sx_scan 5 6 1 sx_db =
  Some (Err (Raised NotEnoughTokens), sx_db, []).
Proof. vm_compute. split; reflexivity. Qed.

(** C21 for an allocation, which spends only some of the passes. *)
Theorem C21_every_token_accounted_allocate :
  forall P (to_pass : Z -> Z -> res exn P) server scan message pass_value size sharenums fuel d r d' tr,
  polite_server server -> fair_scan scan -> convertible to_pass message -> 0 < pass_value -> 0 <= size ->
  fresh_reachable d ->
  client_allocate_buckets to_pass server scan message pass_value size sharenums fuel d = Some (r, d', tr) ->
  forall t, taken tr t -> accounted d' t.
Proof.
  intros P to_pass server scan message pv size sh fuel d r d' tr Hp Hs Hc Hv Hz F E t T.
  destruct (@allocate_call_story P to_pass server scan message pv size sh fuel d r d' tr Hp Hs Hc Hv Hz F E)
    as (num & _ & [(-> & _)|O]).
  - now apply not_taken_nil in T.
  - exact (outcome_accounted O T).
Qed.
Print Assumptions C21_every_token_accounted_allocate.

(** C21: with nothing else going on, the call takes only spendable tokens that
    were not in use, leaves exactly the same tokens in use as before, and
    changes nothing about any other token or table. *)
Theorem C21_nothing_else_changes :
  forall P R (to_pass : Z -> Z -> res exn P) server scan message num_passes fuel d
         (r : res failure R) d' tr,
  lone_server server -> fair_scan scan -> convertible to_pass message ->
  fresh_reachable d ->
  call_with_passes to_pass server scan message num_passes fuel d = Some (r, d', tr) ->
  (vouchers d' = vouchers d /\ tokens d' = tokens d /\ groups d' = groups d /\ maint d' = maint d) /\
  (forall t, ~ taken tr t -> same_about t d d') /\
  (forall t, taken tr t -> stored d true t /\ ~ In t (in_use d)) /\
  (forall t, In t (in_use d') <-> In t (in_use d)).
Proof.
  intros P R to_pass server scan message num fuel d r d' tr Lone Hs Hc F E.
  assert (Hp : polite_server server) by (intros p g d0; rewrite Lone; exact I).
  exact (@call_others P R to_pass server scan message num (@spend_all P R) (fun _ g => map fst g)
           Hp Hs Hc (fun x g t H => H) (@spend_all_ok P R) fuel d r d' tr Lone F E).
Qed.
Print Assumptions C21_nothing_else_changes.

Theorem C21_nothing_else_changes_allocate :
  forall P (to_pass : Z -> Z -> res exn P) server scan message pass_value size sharenums fuel d r d' tr,
  lone_server server -> fair_scan scan -> convertible to_pass message -> 0 < pass_value -> 0 <= size ->
  fresh_reachable d ->
  client_allocate_buckets to_pass server scan message pass_value size sharenums fuel d = Some (r, d', tr) ->
  (vouchers d' = vouchers d /\ tokens d' = tokens d /\ groups d' = groups d /\ maint d' = maint d) /\
  (forall t, ~ taken tr t -> same_about t d d') /\
  (forall t, taken tr t -> stored d true t /\ ~ In t (in_use d)) /\
  (forall t, In t (in_use d') <-> In t (in_use d)).
Proof.
  intros P to_pass server scan message pv size sh fuel d r d' tr Lone Hs Hc Hv Hz F E.
  assert (Hp : polite_server server) by (intros p g d0; rewrite Lone; exact I).
  unfold client_allocate_buckets in E.
  destruct (required_passes pv (repeat size (length sh))) as [num|e] eqn:En.
  - exact (@call_others P _ to_pass server scan message num (spend_for_allocate_buckets pv size)
             (allocation_spends pv size) Hp Hs Hc (@allocation_sub P pv size) (@allocation_ok P pv size)
             fuel d r d' tr Lone F E).
  - rewrite required_passes_pos in En by exact Hv. discriminate.
Qed.
Print Assumptions C21_nothing_else_changes_allocate.

(** Finding beside C21: if the redeemer raises while turning the extracted
    tokens into passes, the call fails and all of them stay in use although no
    attempt was made. *)
Theorem C21_unconvertible_tokens_stay_in_use :
  forall P R (to_pass : Z -> Z -> res exn P) server scan message num_passes fuel d toks d1 e,
  step d (OExtract (scan 0%nat) num_passes) = (Ok (RTokens toks), d1) ->
  map_res (to_pass message) toks = Err e ->
  call_with_passes (R := R) to_pass server scan message num_passes fuel d = Some (Err (Raised e), d1, []) /\
  forall t, In t toks -> In t (in_use d1).
Proof.
  intros P R to_pass server scan message num fuel d toks d1 e E1 E2. split.
  - unfold call_with_passes, call_with_passes_with_manual_spend. rewrite get_step, E1.
    unfold tokens_to_passes. rewrite E2. reflexivity.
  - rewrite step_extract_eq in E1. destruct (_ >? _); [discriminate|]. cbv zeta in E1.
    destruct (_ <? _); [discriminate|]. destruct (exec_muts _ d) as [d'|] eqn:Em; [|discriminate].
    injection E1 as <- <-. apply ins_in_use_Ok in Em. destruct Em as (_ & _ & ->).
    intros t Ht. cbn. apply in_or_app. auto.
Qed.
Print Assumptions C21_unconvertible_tokens_stay_in_use.

(** The examples: one retry; 12 is rejected, 11 and 15 are accepted (other tasks
    hold 13, 14 in the shared case). *)
Example C21_ex_shared :
  polite_server sx_server /\ fair_scan sx_scan /\ convertible sx_pass 5 /\ fresh_reachable sx_db /\
  match call_with_passes sx_pass sx_server sx_scan 5 2 10 sx_db with
  | Some (r, d', tr) =>
      r = Ok 99 /\ map (fun a => map fst (fst a)) tr = [[11; 12]; [11; 15]] /\
      in_use d' = [13; 14] /\ available d' = [] /\ map fst (invalid d') = [12]
  | None => False
  end.
Proof.
  split; [exact sx_polite|]. split; [exact sx_fair|]. split; [apply sx_convertible|].
  split; [exact sx_fresh|]. vm_compute. auto.
Qed.
Example C21_ex_lone :
  lone_server sx_lone_server /\
  match call_with_passes sx_pass sx_lone_server sx_scan 5 2 10 sx_db with
  | Some (r, d', tr) =>
      r = Ok 99 /\ map (fun a => map fst (fst a)) tr = [[11; 12]; [11; 15]] /\
      in_use d' = [] /\ available d' = [13; 14] /\ map fst (invalid d') = [12]
  | None => False
  end.
Proof. split; [exact sx_lone|]. vm_compute. auto. Qed.
(** Running out of tokens mid-retry. *)
Example C21_ex_out_of_tokens :
  match call_with_passes sx_pass sx_lone_server sx_scan 5 5 10 sx_db with
  | Some (r, d', tr) =>
      r = Err (Raised NotEnoughTokens) /\ map (fun a => map fst (fst a)) tr = [[11; 12; 13; 14; 15]] /\
      in_use d' = [] /\ available d' = [11; 13; 14; 15] /\ map fst (invalid d') = [12]
  | None => False
  end.
Proof. vm_compute. auto. Qed.
Example C21_ex_unconvertible :
  match call_with_passes (R := Z) (fun _ t => if t =? 12 then Err ValueError else Ok t)
          (fun _ _ _ => ([], Accept 0)) sx_scan 5 2 10 sx_db with
  | Some (r, d', tr) => r = Err (Raised ValueError) /\ tr = [] /\ in_use d' = [11; 12]
  | None => False
  end.
Proof. vm_compute. auto. Qed.

(** ** C22 *)

(** C22: a successful call spends exactly the tokens of the accepted attempt; a
    failed one spends none. *)
Theorem C22_exactly_the_accepted_passes_are_spent :
  forall P R (to_pass : Z -> Z -> res exn P) server scan message num_passes fuel d
         (r : res failure R) d' tr,
  polite_server server -> fair_scan scan -> convertible to_pass message ->
  fresh_reachable d ->
  call_with_passes to_pass server scan message num_passes fuel d = Some (r, d', tr) ->
  match r with
  | Ok x => exists g, accepted tr x g /\ forall t, taken tr t -> (is_spent d' t <-> In t (map fst g))
  | Err _ => forall t, taken tr t -> ~ is_spent d' t
  end.
Proof.
  intros P R to_pass server scan message num fuel d r d' tr Hp Hs Hc F E.
  destruct (@spend_call_story P R to_pass server scan message num Hp Hs Hc fuel d r d' tr F E) as [(-> & -> & _)|O].
  - intros t T. now apply not_taken_nil in T.
  - exact (outcome_spent O).
Qed.
Print Assumptions C22_exactly_the_accepted_passes_are_spent.

(** C22 for an allocation: exactly the leading passes that pay for the buckets
    the server says it allocated. *)
Theorem C22_allocate_spends_for_new_buckets_only :
  forall P (to_pass : Z -> Z -> res exn P) server scan message pass_value size sharenums fuel d r d' tr,
  polite_server server -> fair_scan scan -> convertible to_pass message -> 0 < pass_value -> 0 <= size ->
  fresh_reachable d ->
  client_allocate_buckets to_pass server scan message pass_value size sharenums fuel d = Some (r, d', tr) ->
  match r with
  | Ok (have, buckets) =>
      exists g k, accepted tr (have, buckets) g /\
        exact_price pass_value (repeat size (length buckets)) k /\
        forall t, taken tr t -> (is_spent d' t <-> In t (map fst (firstn (Z.to_nat k) g)))
  | Err _ => forall t, taken tr t -> ~ is_spent d' t
  end.
Proof.
  intros P to_pass server scan message pv size sh fuel d r d' tr Hp Hs Hc Hv Hz F E.
  destruct (@allocate_call_story P to_pass server scan message pv size sh fuel d r d' tr Hp Hs Hc Hv Hz F E)
    as (num & _ & [(-> & -> & _)|O]).
  - intros t T. now apply not_taken_nil in T.
  - apply outcome_spent in O. destruct r as [[have buckets]|e]; [|exact O].
    destruct O as (g & A & H). unfold allocation_spends in H. cbn [snd] in H.
    rewrite required_passes_pos in H by exact Hv.
    exists g. eexists. split; [exact A|]. split; [apply exact_price_sum; exact Hv|exact H].
Qed.
Print Assumptions C22_allocate_spends_for_new_buckets_only.

(** Three shares of 3 bytes at 2 bytes a pass; the server already has one. *)
Definition sx_alloc_server (past : list (attempt (Z * Z) (list Z * dict Z))) (g : group (Z * Z)) (d : db)
  : list op * response (list Z * dict Z) :=
  ([], Accept ([8], [(9, 1)])).
Example C22_ex :
  polite_server sx_alloc_server /\
  match client_allocate_buckets sx_pass sx_alloc_server sx_scan 5 2 3 [8; 9] 3 sx_db with
  | Some (r, d', tr) =>
      r = Ok ([8], [(9, 1)]) /\ map (fun a => map fst (fst a)) tr = [[11; 12; 13; 14]] /\
      in_use d' = [] /\ available d' = [13; 14; 15] /\ map u_token (unblinded d') = [13; 14; 15; 21; 22]
  | None => False
  end.
Proof. split; [intros p g d; exact I|]. vm_compute. auto. Qed.

(** ** C23 *)

(** C23: the tokens marked invalid are exactly those presented at an index
    listed by the refusal of that attempt. *)
Theorem C23_invalid_iff_rejected :
  forall P R (to_pass : Z -> Z -> res exn P) server scan message num_passes fuel d
         (r : res failure R) d' tr,
  polite_server server -> fair_scan scan -> convertible to_pass message ->
  fresh_reachable d ->
  call_with_passes to_pass server scan message num_passes fuel d = Some (r, d', tr) ->
  forall t, taken tr t -> (is_invalid d' t <-> rejected tr t).
Proof.
  intros P R to_pass server scan message num fuel d r d' tr Hp Hs Hc F E t T.
  destruct (@spend_call_story P R to_pass server scan message num Hp Hs Hc fuel d r d' tr F E) as [(-> & _)|O].
  - now apply not_taken_nil in T.
  - exact (outcome_rejected O T).
Qed.
Print Assumptions C23_invalid_iff_rejected.

Theorem C23_invalid_iff_rejected_allocate :
  forall P (to_pass : Z -> Z -> res exn P) server scan message pass_value size sharenums fuel d r d' tr,
  polite_server server -> fair_scan scan -> convertible to_pass message -> 0 < pass_value -> 0 <= size ->
  fresh_reachable d ->
  client_allocate_buckets to_pass server scan message pass_value size sharenums fuel d = Some (r, d', tr) ->
  forall t, taken tr t -> (is_invalid d' t <-> rejected tr t).
Proof.
  intros P to_pass server scan message pv size sh fuel d r d' tr Hp Hs Hc Hv Hz F E t T.
  destruct (@allocate_call_story P to_pass server scan message pv size sh fuel d r d' tr Hp Hs Hc Hv Hz F E)
    as (num & _ & [(-> & _)|O]).
  - now apply not_taken_nil in T.
  - exact (outcome_rejected O T).
Qed.
Print Assumptions C23_invalid_iff_rejected_allocate.

(** Of the refused indices 1 and 7 only 1 was in range, and token 12 was there. *)
Example C23_ex :
  match call_with_passes sx_pass sx_server sx_scan 5 2 10 sx_db with
  | Some (r, d', tr) => rejected tr 12 /\ is_invalid d' 12 /\ taken tr 11 /\ ~ is_invalid d' 11
  | None => False
  end.
Proof.
  vm_compute. repeat split; try intuition discriminate.
  - exists [(11, (5, 11)); (12, (5, 12))], 1, 2, [1; 7], 1%nat, (5, 12). vm_compute. auto.
  - exists [(11, (5, 11)); (12, (5, 12))], (Refuse 1 2 [1; 7]), (5, 11). vm_compute. auto.
Qed.

(** ** C24 *)

Definition sx_d1 := snd (steps empty_db (sx_history ++ [OExtract (fun l => l) 1])).
Definition sx_id (m t : Z) : res exn Z := Ok t.
Lemma sx_get : get sx_id (fun l => l) 5 1 sx_db = (Ok [(11, 11)], sx_d1).
Proof. vm_compute. reflexivity. Qed.
Lemma sx_inv : invalidate_rejected_passes [(11, 11)] [3] sx_d1 = (Ok (Some [(11, 11)]), sx_d1).
Proof. vm_compute. reflexivity. Qed.
Lemma sx_expand : expand sx_id (fun l => l) 5 [(11, 11)] (1 - 1) sx_d1 = (Ok [(11, 11)], sx_d1).
Proof. vm_compute. reflexivity. Qed.
Lemma sx_stuck fuel :
  call_with_passes sx_id (fun _ _ _ => ([], @Refuse Z 0 1 [3])) (fun _ l => l) 5 1 fuel sx_db = None.
Proof.
  unfold call_with_passes, call_with_passes_with_manual_spend. rewrite sx_get.
  generalize (@nil (attempt Z Z)). induction fuel as [|fuel IH]; intros past; [reflexivity|].
  cbn [attempts steps snd]. rewrite sx_inv.
  change (1 - lenZ [(11, 11)]) with (1 - 1). rewrite sx_expand. apply IH.
Qed.

(** C24 is false of a server which names only indices that were not presented:
    no pass is invalidated, none is replaced, and the same group is presented
    again, forever. *)
Theorem C24_retry_loop_terminates_refuted :
  exists (to_pass : Z -> Z -> res exn Z) (server : list (attempt Z Z) -> group Z -> db -> list op * response Z)
         scan message num_passes d,
  lone_server server /\ fair_scan scan /\ convertible to_pass message /\ 0 <= num_passes /\ fresh_reachable d /\
  forall fuel, call_with_passes to_pass server scan message num_passes fuel d = None.
Proof.
  exists sx_id, (fun _ _ _ => ([], Refuse 0 1 [3])), (fun _ l => l), 5, 1, sx_db.
  split; [intros p g d; reflexivity|]. split; [intros n l; apply Permutation_refl|].
  split; [intros t; eexists; reflexivity|]. split; [lia|]. split; [exact sx_fresh|].
  exact sx_stuck.
Qed.
Print Assumptions C24_retry_loop_terminates_refuted.

(** C24 for servers whose refusals name at least one presented pass (missing:
    the other servers, for which it is false): the call ends, and after at most
    one attempt more than there were tokens to spare. *)
Theorem C24_retry_loop_terminates_partial :
  forall P R (to_pass : Z -> Z -> res exn P)
         (server : list (attempt P R) -> group P -> db -> list op * response R)
         scan message num_passes d n,
  honest_indices server -> lone_server server -> fair_scan scan -> convertible to_pass message ->
  0 <= num_passes -> fresh_reachable d -> available_count d n ->
  forall fuel, (n < fuel)%nat ->
  exists r d' tr, call_with_passes to_pass server scan message num_passes fuel d = Some (r, d', tr) /\
    (length tr <= S (n - Z.to_nat num_passes))%nat.
Proof.
  intros P R to_pass server scan message num d n Ho Lone Hs Hc Hn F A fuel Lt.
  assert (Hp : polite_server server) by (intros p g d0; rewrite Lone; exact I).
  exact (@call_ends_lone P R to_pass server scan message num (@spend_all P R) (fun _ g => map fst g)
           Hp Hs Hc (fun x g t H => H) (@spend_all_ok P R) d Ho Lone F Hn n A fuel Lt).
Qed.
Print Assumptions C24_retry_loop_terminates_partial.

(** C24 when other tasks use the wallet meanwhile but no new tokens arrive: the
    bound is the number of stored tokens. *)
Theorem C24_retry_loop_terminates_shared_partial :
  forall P R (to_pass : Z -> Z -> res exn P)
         (server : list (attempt P R) -> group P -> db -> list op * response R)
         scan message num_passes d,
  honest_indices server -> polite_server server ->
  (forall past g d0 o, In o (fst (server past g d0)) ->
     match o with OInsert _ _ _ _ _ _ => False | _ => True end) ->
  fair_scan scan -> convertible to_pass message -> 0 <= num_passes -> fresh_reachable d ->
  forall fuel, (length (unblinded d) < fuel)%nat ->
  exists r d' tr, call_with_passes to_pass server scan message num_passes fuel d = Some (r, d', tr) /\
    (length tr <= S (length (unblinded d)))%nat.
Proof.
  intros P R to_pass server scan message num d Ho Hp Nr Hs Hc Hn F fuel Lt.
  refine (@call_ends_shared P R to_pass server scan message num (@spend_all P R) (fun _ g => map fst g)
           Hp Hs Hc (fun x g t H => H) (@spend_all_ok P R) d Ho _ F Hn fuel Lt).
  intros past g d0 o Ho' Rc. specialize (Nr past g d0 o Ho'). destruct o; auto.
Qed.
Print Assumptions C24_retry_loop_terminates_shared_partial.

(** A server which always refuses the last pass: the five tokens last for four
    attempts of two. *)
Definition sx_greedy (past : list (attempt (Z * Z) Z)) (g : group (Z * Z)) (d : db)
  : list op * response Z := ([], Refuse 0 2 (match g with [] => [] | _ => [Z.of_nat (length g) - 1] end)).
Example C24_ex :
  honest_indices sx_greedy /\ lone_server sx_greedy /\ available_count sx_db 5 /\
  match call_with_passes sx_pass sx_greedy sx_scan 5 2 6 sx_db with
  | Some (r, d', tr) => r = Err (Raised NotEnoughTokens) /\ length tr = 4%nat /\ available d' = [11]
  | None => False
  end.
Proof.
  split; [|split; [intros p g d; reflexivity|split]].
  - intros past g d v q failed E Ne. cbn in E. destruct g as [|x g]; injection E as _ _ <-; [congruence|].
    exists (Z.of_nat (length (x :: g)) - 1). split; [left; reflexivity|]. cbn [length]. lia.
  - exists (available sx_db). split; [apply available_NoDup; apply (fresh_clean sx_fresh)|].
    split; [apply in_available|vm_compute; reflexivity].
  - vm_compute. auto.
Qed.

(** ** C25 *)

(** C25: every attempt presents exactly [num_passes] passes, made from distinct
    tokens and for this message. *)
Theorem C25_every_attempt_presents_the_right_passes :
  forall P R (to_pass : Z -> Z -> res exn P) server scan message num_passes fuel d
         (r : res failure R) d' tr,
  polite_server server -> fair_scan scan -> convertible to_pass message -> 0 <= num_passes ->
  fresh_reachable d ->
  call_with_passes to_pass server scan message num_passes fuel d = Some (r, d', tr) ->
  forall g resp, In (g, resp) tr ->
  Z.of_nat (length g) = num_passes /\ NoDup (map fst g) /\
  forall t p, In (t, p) g -> to_pass message t = Ok p.
Proof.
  intros P R to_pass server scan message num fuel d r d' tr Hp Hs Hc Hn F E g resp I.
  destruct (@spend_call_story P R to_pass server scan message num Hp Hs Hc fuel d r d' tr F E) as [(-> & _)|O].
  - destruct I.
  - destruct O as (_ & Gd & _). rewrite Forall_forall in Gd. destruct (Gd _ I) as (L & N & B).
    split; [exact (L Hn)|]. split; [exact N|]. intros t p H. rewrite Forall_forall in B. exact (B _ H).
Qed.
Print Assumptions C25_every_attempt_presents_the_right_passes.

(** C25 for an allocation, where the number is the price of all the requested
    shares. *)
Theorem C25_every_allocate_attempt_presents_the_right_passes :
  forall P (to_pass : Z -> Z -> res exn P) server scan message pass_value size sharenums fuel d r d' tr,
  polite_server server -> fair_scan scan -> convertible to_pass message -> 0 < pass_value -> 0 <= size ->
  fresh_reachable d ->
  client_allocate_buckets to_pass server scan message pass_value size sharenums fuel d = Some (r, d', tr) ->
  forall g resp, In (g, resp) tr ->
  exact_price pass_value (repeat size (length sharenums)) (Z.of_nat (length g)) /\ NoDup (map fst g) /\
  forall t p, In (t, p) g -> to_pass message t = Ok p.
Proof.
  intros P to_pass server scan message pv size sh fuel d r d' tr Hp Hs Hc Hv Hz F E g resp I.
  destruct (@allocate_call_story P to_pass server scan message pv size sh fuel d r d' tr Hp Hs Hc Hv Hz F E)
    as (num & En & [(-> & _)|O]).
  - destruct I.
  - destruct O as (_ & Gd & _). rewrite Forall_forall in Gd. destruct (Gd _ I) as (L & N & B). cbn [fst] in *.
    specialize (L (@required_repeat_nonneg pv size (length sh) num Hv Hz En)).
    split; [apply required_passes_exact; [exact Hv|]; unfold lenZ in L; rewrite L; exact En|].
    split; [exact N|]. intros t p H. rewrite Forall_forall in B. exact (B _ H).
Qed.
Print Assumptions C25_every_allocate_attempt_presents_the_right_passes.

Example C25_ex :
  match call_with_passes sx_pass sx_server sx_scan 5 2 10 sx_db with
  | Some (r, d', tr) => map fst tr = [[(11, (5, 11)); (12, (5, 12))]; [(11, (5, 11)); (15, (5, 15))]]
  | None => False
  end.
Proof. vm_compute. reflexivity. Qed.
