(** Property theorems C15-C20 and C31 (wallet part). *)
From Verif Require Import Prelude PreludeFacts PricingModel StoreModel StoreSpec StoreProofs.

(** A concrete wallet used by the examples: a voucher (7) redeemed in a
    spendable group of four tokens and in a sequestered one of two, two tokens
    handed out, one of them spent, one declared invalid. *)
Definition ex_scan (l : list Z) : list Z := rev l.
Definition ex_history : list op :=
  [OAdd 7 6 0 [101; 102; 103; 104] 1000;
   OInsert 7 55 [11; 12; 13; 14] false true 1001;
   OInsert 7 66 [21; 22] true false 1002;
   OExtract ex_scan 2; ODiscard [14]; OInvalidate 9 [11]].
Definition ex_results := fst (steps empty_db ex_history).
Definition ex_db := snd (steps empty_db ex_history).

Lemma ex_scan_perm l : Permutation (ex_scan l) l.
Proof. apply Permutation_sym, Permutation_rev. Qed.
Lemma ex_fair : forall o, In o ex_history -> fair o.
Proof. cbn. intuition (subst; cbn; auto using ex_scan_perm). Qed.
Lemma ex_reachable : reachable ex_db.
Proof. exists ex_history, ex_results. split; [exact ex_fair|]. vm_compute. reflexivity. Qed.
Lemma ex_fresh : fresh_history [] ex_history.
Proof. cbn. intuition. Qed.

Example ex_results_are :
  ex_results = [Ok (RTokens [101; 102; 103; 104]); Ok RUnit; Ok RUnit;
                Ok (RTokens [14; 13]); Ok RUnit; Ok RUnit].
Proof. vm_compute. reflexivity. Qed.
Example ex_db_is : in_use ex_db = [13] /\ available ex_db = [12].
Proof. vm_compute. auto. Qed.

(** C15: a request for [n] tokens is answered with exactly [n] distinct,
    spendable, unused tokens which are marked in use, or refused with nothing
    changed. *)
Theorem C15_extraction_exact_or_nothing :
  forall d scan n r d', reachable d -> (forall l, Permutation (scan l) l) ->
  0 <= n -> step d (OExtract scan n) = (r, d') ->
  (exists toks,
      r = Ok (RTokens toks) /\ Z.of_nat (length toks) = n /\ NoDup toks /\
      (forall t, In t toks -> stored d true t /\ ~ In t (in_use d)) /\
      (forall t, In t (in_use d') <-> In t (in_use d) \/ In t toks) /\
      same_persistent d d') \/
  (r = Err NotEnoughTokens /\ d' = d).
Proof. exact extract_exact. Qed.
Print Assumptions C15_extraction_exact_or_nothing.

(** C15: it succeeds exactly when the reported count suffices (and always
    fails beyond SQLite's integer range). *)
Theorem C15_succeeds_iff_reported_count :
  forall d scan n, reachable d -> (forall l, Permutation (scan l) l) -> 0 <= n ->
  exists m, fst (step d OCount) = Ok (RNum m) /\
    (n <= SQLITE3_INTEGER_MAX ->
     ((exists toks, fst (step d (OExtract scan n)) = Ok (RTokens toks)) <-> n <= m)) /\
    (n > SQLITE3_INTEGER_MAX -> fst (step d (OExtract scan n)) = Err NotEnoughTokens).
Proof. exact extract_iff_count. Qed.
Print Assumptions C15_succeeds_iff_reported_count.

(** C15: the reported count is the number of spendable tokens not in use. *)
Theorem C15_reported_count_is_spendable_tokens :
  forall d, reachable d ->
  exists toks, NoDup toks /\ (forall t, In t toks <-> stored d true t /\ ~ In t (in_use d)) /\
    fst (step d OCount) = Ok (RNum (Z.of_nat (length toks))).
Proof. exact count_is_available. Qed.
Print Assumptions C15_reported_count_is_spendable_tokens.

(** C15, for a nonsensical request: a negative count is not refused, it takes
    every available token (SQLite reads a negative LIMIT as none). *)
Theorem C15_negative_count_takes_everything :
  forall d scan n, reachable d -> (forall l, Permutation (scan l) l) -> n < 0 ->
  exists toks d', step d (OExtract scan n) = (Ok (RTokens toks), d') /\
    forall t, In t toks <-> stored d true t /\ ~ In t (in_use d).
Proof. exact negative_takes_all. Qed.
Print Assumptions C15_negative_count_takes_everything.

Example C15_ex :
  reachable ex_db /\ fst (step ex_db OCount) = Ok (RNum 1) /\
  fst (step ex_db (OExtract ex_scan 1)) = Ok (RTokens [12]) /\
  fst (step ex_db (OExtract ex_scan 2)) = Err NotEnoughTokens.
Proof. split; [exact ex_reachable|]. vm_compute. auto. Qed.

(** C16: tokens handed out by an extraction are not held by anyone, "held"
    being computed from the past calls and their results alone. *)
Theorem C16_no_double_handout :
  forall os scan n rs d r d' toks t,
  (forall o, In o os -> fair o) -> (forall l, Permutation (scan l) l) -> fresh_history [] os ->
  steps empty_db os = (rs, d) -> step d (OExtract scan n) = (r, d') -> r = Ok (RTokens toks) ->
  In t toks -> ~ In t (held [] os rs) /\ NoDup toks.
Proof. exact no_double_handout. Qed.
Print Assumptions C16_no_double_handout.

Example C16_ex :
  (forall o, In o ex_history -> fair o) /\ fresh_history [] ex_history /\
  held [] ex_history ex_results = [13] /\
  fst (step ex_db (OExtract ex_scan 1)) = Ok (RTokens [12]).
Proof. split; [exact ex_fair|]. split; [exact ex_fresh|]. vm_compute. auto. Qed.

(** C17: the tables follow the ledger through every history. *)
Theorem C17_ledger :
  forall os rs d, (forall o, In o os -> fair o) -> fresh_history [] os ->
  steps empty_db os = (rs, d) ->
  exists L, ledger_steps empty_ledger os rs L /\ agrees d L.
Proof. intros os rs d. apply conservation. Qed.
Print Assumptions C17_ledger.

(** C17: a token once received is, ever after, in exactly one of the five
    classes, the one the ledger says. *)
Theorem C17_exactly_one_class :
  forall os rs d t, (forall o, In o os -> fair o) -> fresh_history [] os ->
  steps empty_db os = (rs, d) ->
  forall v pk toks c s now i, nth_error os i = Some (OInsert v pk toks c s now) ->
  (exists a, nth_error rs i = Some (Ok a)) -> In t toks ->
  exists k, (forall L, ledger_steps empty_ledger os rs L -> L t = Some k) /\
    match k with
    | Available => stored d true t /\ ~ stored d false t /\ ~ In t (in_use d) /\ ~ In t (map fst (invalid d))
    | InUse => stored d true t /\ ~ stored d false t /\ In t (in_use d) /\ ~ In t (map fst (invalid d))
    | Sequestered => stored d false t /\ ~ stored d true t /\ ~ In t (in_use d) /\ ~ In t (map fst (invalid d))
    | Spent => ~ In t (map u_token (unblinded d)) /\ ~ In t (in_use d) /\ ~ In t (map fst (invalid d))
    | Invalid => ~ In t (map u_token (unblinded d)) /\ ~ In t (in_use d) /\ In t (map fst (invalid d))
    end.
Proof. exact conservation_classes. Qed.
Print Assumptions C17_exactly_one_class.

Example C17_ex :
  nth_error ex_history 1 = Some (OInsert 7 55 [11; 12; 13; 14] false true 1001) /\
  nth_error ex_results 1 = Some (Ok RUnit) /\
  steps empty_db ex_history = (ex_results, ex_db) /\
  map u_token (unblinded ex_db) = [12; 13; 21; 22] /\ map fst (invalid ex_db) = [11].
Proof. vm_compute. auto. Qed.

(** C17: without the freshness hypothesis the classes are not exclusive: a
    token text declared invalid and then received again is both invalid and
    spendable (and disappears at the next invalidation of any other token). *)
Theorem C17_reissued_invalid_token_is_in_two_classes :
  exists os rs d t, (forall o, In o os -> fair o) /\ steps empty_db os = (rs, d) /\
    stored d true t /\ In t (map fst (invalid d)) /\
    exists d', step d (OInvalidate 1 [99]) = (Ok RUnit, d') /\ ~ stored d' true t.
Proof.
  exists [OAdd 7 1 0 [101] 1; OInvalidate 0 [5]; OInsert 7 2 [5] true true 3]. do 2 eexists. exists 5.
  split; [cbn; intuition (subst; exact I)|]. split; [vm_compute; reflexivity|].
  split; [exists 1, 7, 2; split; left; reflexivity|]. split; [left; reflexivity|].
  eexists. split; [vm_compute; reflexivity|]. intros (g & v & pk & [] & _).
Qed.
Print Assumptions C17_reissued_invalid_token_is_in_two_classes.

(** C18: discarded or invalidated tokens are not handed out by any later
    extraction, unless received again. *)
Theorem C18_spent_and_invalid_never_come_back :
  forall d toks o r d1 os rs d2 scan n got d3 t,
  reachable d -> (o = ODiscard toks \/ exists reason, o = OInvalidate reason toks) ->
  step d o = (Ok r, d1) ->
  (forall o, In o os -> fair o) -> (forall l, Permutation (scan l) l) ->
  steps d1 os = (rs, d2) -> ~ reinserted t os ->
  step d2 (OExtract scan n) = (Ok (RTokens got), d3) ->
  In t toks -> ~ In t got.
Proof. exact never_back. Qed.
Print Assumptions C18_spent_and_invalid_never_come_back.

Example C18_ex :
  reachable ex_db /\
  exists d1 d2 d3, step ex_db (ODiscard [13]) = (Ok RUnit, d1) /\
    steps d1 [OReset [13]; ORestart] = ([Ok RUnit; Ok RUnit], d2) /\
    ~ reinserted 13 [OReset [13]; ORestart] /\
    step d2 (OExtract ex_scan 1) = (Ok (RTokens [12]), d3).
Proof.
  split; [exact ex_reachable|]. do 3 eexists. repeat split; try (vm_compute; reflexivity).
  intros (v & pk & ts & c & s & now & [H|[H|[]]] & _); discriminate.
Qed.

(** C19: a call that raises leaves every table, persistent or temporary, as it
    was. *)
Theorem C19_failed_call_changes_nothing :
  forall d o e d', step d o = (Err e, d') -> d' = d.
Proof. exact op_raises_unchanged. Qed.
Print Assumptions C19_failed_call_changes_nothing.

(** C19: whenever the process dies inside a call, at any statement, the next
    start sees what it would have seen without the call. *)
Theorem C19_crash_leaves_previous_state :
  forall d os rs d1 o c q w,
  steps d os = (rs, d1) -> stmt_steps (d1, Running (op_prog o) d1) (c, Running q w) ->
  restart c = restart (snd (steps d os)).
Proof. exact crash_in_history. Qed.
Print Assumptions C19_crash_leaves_previous_state.

(** C19: statement-by-statement execution ends, and only in the outcome used
    by the other theorems. *)
Theorem C19_statement_execution_outcome :
  forall d o c r, o <> ORestart ->
  stmt_steps (d, Running (op_prog o) d) (c, Done r) -> step d o = (r, c).
Proof. exact op_outcome. Qed.
Print Assumptions C19_statement_execution_outcome.
Theorem C19_statement_execution_completes :
  forall d o, o <> ORestart ->
  stmt_steps (d, Running (op_prog o) d) (snd (step d o), Done (fst (step d o))).
Proof. exact op_completes. Qed.
Print Assumptions C19_statement_execution_completes.

(** A redemption insert that dies after the second of its three token rows. *)
Example C19_ex :
  (exists q w, stmt_steps (ex_db, Running (op_prog (OInsert 7 55 [31; 32; 33] true true 5)) ex_db)
                          (ex_db, Running q w) /\
     map u_token (unblinded w) = [12; 13; 21; 22; 31; 32] /\ length (groups w) = 3%nat) /\
  step ex_db (OInsert 7 55 [31; 13; 33] true true 5) = (Err IntegrityError, ex_db).
Proof.
  split; [|vm_compute; reflexivity].
  do 2 eexists. split.
  - cbn [op_prog pmap insert_unblinded_tokens_for_voucher].
    eapply ss_step; [apply st_mut; vm_compute; reflexivity|].
    eapply ss_step; [apply st_mut; vm_compute; reflexivity|].
    eapply ss_step; [apply st_query|].
    eapply ss_step; [vm_compute; eapply st_many; vm_compute; reflexivity|].
    eapply ss_step; [eapply st_many; vm_compute; reflexivity|].
    apply ss_refl.
  - vm_compute. auto.
Qed.

(** C20: a restart keeps the persistent tables and frees the tokens in use. *)
Theorem C20_restart_releases_in_use :
  forall d, reachable d ->
  exists r d', step d ORestart = (r, d') /\ same_persistent d d' /\ in_use d' = [] /\
    (forall t, stored d' true t <-> stored d true t) /\
    (forall t, In t (in_use d) -> stored d' true t).
Proof. exact restart_releases. Qed.
Print Assumptions C20_restart_releases_in_use.

Example C20_ex : in_use ex_db = [13] /\ available (snd (step ex_db ORestart)) = [12; 13].
Proof. vm_compute. auto. Qed.

(** C31 (wallet part): tokens inserted as not spendable are never handed out
    and never counted, whatever happens later. *)
Theorem C31_sequestered_never_spent :
  forall d v pk toks completed now r d1 os rs d2 scan n got d3 t,
  reachable d -> step d (OInsert v pk toks completed false now) = (Ok r, d1) ->
  (forall o, In o os -> fair o) -> (forall l, Permutation (scan l) l) ->
  steps d1 os = (rs, d2) -> In t toks -> ~ reinserted t os ->
  (step d2 (OExtract scan n) = (Ok (RTokens got), d3) -> ~ In t got) /\
  exists avail, fst (step d2 OCount) = Ok (RNum (Z.of_nat (length avail))) /\
    NoDup avail /\ ~ In t avail /\
    (forall u, In u avail <-> stored d2 true u /\ ~ In u (in_use d2)).
Proof. exact sequestered_never_spent. Qed.
Print Assumptions C31_sequestered_never_spent.

Example C31_ex :
  exists d1, step ex_db (OInsert 7 66 [31; 32] true false 5) = (Ok RUnit, d1) /\
    fst (step d1 OCount) = Ok (RNum 1) /\
    fst (step d1 (OExtract ex_scan 1)) = Ok (RTokens [12]).
Proof. eexists. vm_compute. auto. Qed.
