(** Property theorems C107 and C108: servers that answer anything. *)
From Coq Require Strings.String. Import Coq.Strings.String.StringSyntax.
From Verif Require Import Prelude PreludeFacts BytesModel BytesProofs PassModel PricingModel PricingSpec PricingProofs
  ContainerModel StoreModel StoreSpec StoreProofs SpendModel SpendSpec SpendProofs SpendProperties ClientModel
  WireModel WireSpec WireProofs.

(** The name of the interface of a ZKAPAuthorizer storage server. *)
Definition our_interface : bytes := ascii "RIPrivacyPassAuthorizedStorageServer.tahoe.privatestorage.io".
Lemma with_ours A (f : res refusal A) : with_rref our_interface f = f.
Proof. unfold with_rref. change our_interface with expected_interface. now rewrite bytes_eqb_refl. Qed.
Lemma paid_ours P R d f : @paid_with_rref P R our_interface d f = f.
Proof. unfold paid_with_rref. change our_interface with expected_interface. now rewrite bytes_eqb_refl. Qed.

(** The server may send any Python value, and leaves the wallet alone. *)
Definition any_remote {P R} (server : remote P R) : Prop :=
  (forall past g d, fst (server past g d) = []) /\
  (forall past g d v, snd (server past g d) = Accept v -> proper v).

(** ** C107 *)

(** C107 for the free calls whose answers are checked: a well-formed answer is
    returned as it is, any other raises ValueError.  (Missing: [slot_readv], for
    which it is false.) *)
Theorem C107_answers_are_checked_partial :
  forall v, proper v ->
  ((has_type version_type v -> wire_get_version our_interface (Some v) = Ok v) /\
   (~ has_type version_type v -> wire_get_version our_interface (Some v) = Err ValueErr)) /\
  ((has_type buckets_type v -> wire_get_buckets our_interface (Some v) = Ok v) /\
   (~ has_type buckets_type v -> wire_get_buckets our_interface (Some v) = Err ValueErr)) /\
  ((has_type stats_type v -> wire_stat_shares our_interface (Some v) = Ok v) /\
   (~ has_type stats_type v -> wire_stat_shares our_interface (Some v) = Err ValueErr)).
Proof.
  intros v Pv. unfold wire_get_version, wire_get_buckets, wire_stat_shares. rewrite !with_ours. cbn [call_remote bind].
  repeat apply conj; intros H.
  - exact (@check_well_typed check_version version_type v (fun w => @check_version_spec v w Pv) H).
  - exact (@check_ill_typed check_version version_type v (fun w => @check_version_spec v w Pv) (@check_version_err v) H).
  - exact (@check_well_typed check_buckets buckets_type v (fun w => @check_buckets_spec v w Pv) H).
  - exact (@check_ill_typed check_buckets buckets_type v (fun w => @check_buckets_spec v w Pv) (@check_buckets_err v) H).
  - exact (@check_well_typed check_stats stats_type v (fun w => @check_stats_spec v w Pv) H).
  - exact (@check_ill_typed check_stats stats_type v (fun w => @check_stats_spec v w Pv) (@check_stats_err v) H).
Qed.
Print Assumptions C107_answers_are_checked_partial.

Definition wx_stats : pyval :=
  PList [PDict [(PInt 0, PStat (Some (PInt 7)) (Some (PInt 100))); (PInt 3, PStat (Some (PInt 9)) None)]].
Example C107_ex_checked :
  proper wx_stats /\ has_type stats_type wx_stats /\ ~ has_type buckets_type wx_stats /\
  wire_stat_shares our_interface (Some wx_stats) = Ok wx_stats /\
  wire_stat_shares our_interface (Some (PList [PDict [(PText [48], PNone)]])) = Err ValueErr /\
  wire_get_buckets our_interface (Some (PDict [(PBytes [], PObject 1)])) = Err ValueErr.
Proof.
  assert (D : forall m n : Z, m <> n -> ~ same_key (PInt m) (PInt n)).
  { intros m n H [[= E]|(k & A & B)]; [auto|]. inversion A; inversion B; congruence. }
  split; [|split; [|split; [|split; [|split]]]].
  - cbn. repeat split; auto. repeat constructor. apply D. lia.
  - exists [PDict [(PInt 0, PStat (Some (PInt 7)) (Some (PInt 100))); (PInt 3, PStat (Some (PInt 9)) None)]].
    split; [reflexivity|]. intros x [<-|[]]. eexists. split; [reflexivity|].
    intros k y [[= <- <-]|[[= <- <-]|[]]]; cbn; split; eauto using means_int.
  - intros (items & E & _). discriminate.
  - reflexivity.
  - reflexivity.
  - reflexivity.
Qed.

(** C107: a call through a reference to anything but a ZKAPAuthorizer storage
    server is refused before anything is sent or any token taken. *)
Theorem C107_wrong_reference_is_refused :
  forall name, name <> our_interface ->
  (forall answer,
     wire_get_version name answer = Err IncorrectReference /\
     wire_get_buckets name answer = Err IncorrectReference /\
     wire_stat_shares name answer = Err IncorrectReference /\
     wire_advise_corrupt_share name answer = Err IncorrectReference /\
     wire_slot_readv name answer = Err IncorrectReference) /\
  (forall P (to_pass : Z -> Z -> res exn P) scan message pass_value fuel d,
     (forall sizes_answer server,
        wire_add_lease to_pass scan message pass_value name sizes_answer server fuel d
        = Some (Err (failure_of IncorrectReference), d, [])) /\
     (forall now stats_answer tw server,
        wire_writev to_pass scan message pass_value name now stats_answer tw server fuel d
        = Some (Err (failure_of IncorrectReference), d, [])) /\
     (forall sharenums size server,
        wire_allocate to_pass scan message pass_value name sharenums size server fuel d
        = Some (Err (failure_of IncorrectReference), d, []))).
Proof.
  intros name N.
  assert (E : bytes_eqb name expected_interface = false) by (destruct (bytes_eqb_spec name expected_interface); [contradiction|reflexivity]).
  split.
  - intros answer. unfold wire_get_version, wire_get_buckets, wire_stat_shares, wire_advise_corrupt_share,
      wire_slot_readv, with_rref. rewrite E. auto.
  - intros. unfold wire_add_lease, wire_writev, wire_allocate, paid_with_rref. rewrite E. auto.
Qed.
Print Assumptions C107_wrong_reference_is_refused.
Example C107_ex_reference :
  ascii "RIStorageServer.tahoe.allmydata.com" <> our_interface /\
  wire_get_version (ascii "RIStorageServer.tahoe.allmydata.com") (Some (PDict [])) = Err IncorrectReference /\
  wire_get_version our_interface (Some (PDict [])) = Ok (PDict []).
Proof. split; [discriminate|]. split; vm_compute; reflexivity. Qed.

(** C107: if the answer about the sizes of shares is malformed, or missing, the
    call for which they were wanted raises and takes no token; so it does if the
    answer is not about exactly one storage index. *)
Theorem C107_malformed_estimates_cost_nothing :
  forall P (to_pass : Z -> Z -> res exn P) scan message pass_value fuel d answer,
  (forall v, answer = Some v -> proper v) ->
  (~ (exists v, answer = Some v /\ has_type sizes_type v) -> forall server,
     exists e, wire_add_lease to_pass scan message pass_value our_interface answer server fuel d
               = Some (Err (Remote e), d, [])) /\
  (forall tw now server k w,
     In (k, w) tw -> tw_data w <> [] ->
     ~ (exists x, answer = Some (PList [x]) /\ has_type (TDict TInt TStat) x /\ readable_stats now tw x) ->
     exists e, wire_writev to_pass scan message pass_value our_interface now answer tw server fuel d
               = Some (Err (Remote e), d, [])).
Proof.
  intros P to_pass scan message pv fuel d answer Pv. split.
  - intros N server. unfold wire_add_lease. rewrite paid_ours. unfold wire_lease_price.
    destruct answer as [v|]; cbn [call_remote bind]; [|eexists; reflexivity].
    rewrite (@check_ill_typed check_sizes sizes_type v (fun w => @check_sizes_spec v w (Pv v eq_refl)) (@check_sizes_err v)).
    + eexists; reflexivity.
    + intros T. apply N. eauto.
  - intros tw now server k w Hk Hw N. unfold wire_writev. rewrite paid_ours. unfold wire_write_price.
    assert (L : lenZ (get_write_sharenums tw) >? 0 = true).
    { unfold get_write_sharenums, lenZ. rewrite map_length.
      assert (I : In (k, w) (filter (fun '(_, v) => nonempty (tw_data v)) tw)).
      { apply filter_In. split; [exact Hk|]. destruct (tw_data w); [contradiction|reflexivity]. }
      destruct (filter _ tw); [destruct I|]. cbn. lia. }
    rewrite L. destruct answer as [v|]; cbn [call_remote bind]; [|eexists; reflexivity].
    pose proof (fun w => @check_stats_spec v w (Pv v eq_refl)) as C. pose proof (@check_stats_err v) as Ce.
    destruct (check_stats v) as [x|e]; [|eexists; reflexivity].
    destruct (proj1 (C x) eq_refl) as [-> T].
    destruct v; try (eexists; reflexivity). destruct l as [|x [|y l]]; try (eexists; reflexivity).
    + destruct x; try (eexists; reflexivity). destruct (wire_current_sizes now (get_write_sharenums tw) items) as [cs|] eqn:Ec; [|eexists; reflexivity].
      cbn [bind]. destruct (int_sizes cs) as [cur|] eqn:Ei; [|eexists; reflexivity].
      exfalso. apply N. eexists. split; [reflexivity|]. split; [destruct T as (l & [= <-] & T); apply T; now left|].
      exact (@current_sizes_readable now tw items cs cur Ec Ei).
    + destruct x; eexists; reflexivity.
Qed.
Print Assumptions C107_malformed_estimates_cost_nothing.
Example C107_ex_estimates :
  wire_add_lease sx_pass sx_scan 5 2 our_interface (Some (PDict [(PInt 0, PText [49])]))
    (fun _ _ _ => ([], Accept PNone)) 3 sx_db = Some (Err (Remote 1), sx_db, []).
Proof. vm_compute. reflexivity. Qed.

(** C107: a write returns only well-formed results that the server sent; when it
    raises, for instance because the answer was malformed, no token is spent and
    every token it took is accounted for. *)
Theorem C107_writes_return_well_formed_results :
  forall P (to_pass : Z -> Z -> res exn P) scan message pass_value now stats_answer tw server fuel d r d' tr,
  any_remote server -> fair_scan scan -> convertible to_pass message -> fresh_reachable d ->
  wire_writev to_pass scan message pass_value our_interface now stats_answer tw server fuel d = Some (r, d', tr) ->
  match r with
  | Ok w => has_type writev_type w /\ exists past g d0, snd (server past g d0) = Accept w
  | Err _ => forall t, taken tr t -> ~ is_spent d' t /\ accounted d' t
  end.
Proof.
  intros P to_pass scan message pv now sa tw server fuel d r d' tr (Lo & Pr) Hs Hc F E.
  unfold wire_writev in E. rewrite paid_ours in E.
  destruct (wire_write_price pv now sa tw) as [n|f].
  2: { injection E as <- <- <-. intros t T. now apply not_taken_nil in T. }
  assert (Hl : lone_server (remotely check_writev server)) by now apply remotely_lone.
  assert (Hp : polite_server (remotely check_writev server)) by (intros p g d0; rewrite Hl; exact I).
  destruct r as [w|f].
  - destruct (call_result _ _ _ _ _ _ _ E) as (past & g & d0 & H).
    unfold remotely in H. pose proof (Pr past g d0) as Pv. destruct (server past g d0) as [os resp] eqn:Es.
    cbn [snd] in *. destruct resp as [v|vd q fl|e]; cbn [checked] in H; try discriminate.
    specialize (Pv v eq_refl). destruct (check_writev v) as [x|e] eqn:Ec; [|discriminate]. injection H as ->.
    apply check_writev_spec in Ec; [|exact Pv]. destruct Ec as [-> T]. split; [exact T|].
    exists past, g, d0. now rewrite Es.
  - intros t T. split.
    + exact (C22_exactly_the_accepted_passes_are_spent _ _ _ _ _ _ _ _ _ _ _ _ Hp Hs Hc F E t T).
    + exact (C21_every_token_accounted _ _ _ _ _ _ _ _ _ _ _ _ Hp Hs Hc F E t T).
Qed.
Print Assumptions C107_writes_return_well_formed_results.

(** C107: a malformed answer to a write raises ValueError, and the wallet is then
    exactly as before the call. *)
Theorem C107_malformed_write_answers_raise :
  forall P (to_pass : Z -> Z -> res exn P) scan message pass_value now stats_answer tw server fuel d,
  (forall g d0, exists v, server [] g d0 = ([], Accept v) /\ proper v /\ ~ has_type writev_type v) ->
  fair_scan scan -> convertible to_pass message -> fresh_reachable d ->
  exists r tr,
  wire_writev to_pass scan message pass_value our_interface now stats_answer tw server (S fuel) d = Some (r, d, tr) /\
  (tr <> [] -> r = Err (Remote (code ValueErr)) /\ exists g, map fst tr = [g]) /\
  (tr = [] -> r = Err (Raised NotEnoughTokens) \/ wire_write_price pass_value now stats_answer tw = Err (match r with Err f => f | Ok _ => Raised OtherError end)).
Proof.
  intros P to_pass scan message pv now sa tw server fuel d Sv Hs Hc F. unfold wire_writev. rewrite paid_ours.
  destruct (wire_write_price pv now sa tw) as [n|f].
  2: { exists (Err f), []. split; [reflexivity|]. split; [congruence|]. intros _. now right. }
  assert (Sv' : forall g d0, remotely check_writev server [] g d0 = ([], Fail (code ValueErr))).
  { intros g d0. unfold remotely. destruct (Sv g d0) as (v & -> & Pv & T). cbn [checked].
    now rewrite (@check_ill_typed check_writev writev_type v (fun w => @check_writev_spec v w Pv) (@check_writev_err v) T). }
  destruct (C21_failed_calls_leave_no_trace _ _ to_pass _ scan message n fuel d _ Sv' Hs Hc F) as [E|(g & E)]; rewrite E.
  - eexists _, _. split; [reflexivity|]. split; [congruence|]. intros _. now left.
  - eexists _, _. split; [reflexivity|]. split; [|discriminate]. intros _. split; [reflexivity|]. now exists g.
Qed.
Print Assumptions C107_malformed_write_answers_raise.

(** Writing three bytes to a share the server has not, at 2 bytes a pass. *)
Definition wx_tw : tw_vectors := [(0, TW [] [(0, ascii "abc")] None)].
Definition wx_none : pyval := PList [PDict []].
Definition wx_good : pyval := PTuple [PBool true; PDict [(PInt 0, PList [PBytes (ascii "old")])]].
Definition wx_bad : pyval := PTuple [PBool true; PDict [(PInt 0, PBytes (ascii "old"))]].
Example C107_ex_malformed : proper wx_bad /\ ~ has_type writev_type wx_bad.
Proof.
  split; [cbn; repeat split; repeat constructor|]. intros T.
  assert (P : proper wx_bad) by (cbn; repeat split; repeat constructor).
  pose proof (proj2 (@check_writev_spec wx_bad wx_bad P) (conj eq_refl T)) as E. vm_compute in E. discriminate.
Qed.
Example C107_ex_writev :
  match wire_writev sx_pass sx_scan 5 2 our_interface 0 (Some wx_none) wx_tw (fun _ _ _ => ([], Accept wx_good)) 3 sx_db with
  | Some (r, d', tr) => r = Ok wx_good /\ available d' = [13; 14; 15]
  | None => False
  end /\
  match wire_writev sx_pass sx_scan 5 2 our_interface 0 (Some wx_none) wx_tw (fun _ _ _ => ([], Accept wx_bad)) 3 sx_db with
  | Some (r, d', tr) => r = Err (Remote 1) /\ available d' = [11; 12; 13; 14; 15] /\ in_use d' = []
  | None => False
  end.
Proof. vm_compute. auto. Qed.

(** C107: prices computed from well-formed answers are those of the figures in
    them, so that what is proved about calls to a server of this project applies. *)
Theorem C107_honest_answers_are_used :
  (forall pass_value sizes, dict_wf sizes ->
     wire_lease_price pass_value (Some (PDict (map (fun ks => (PInt (fst ks), PInt (snd ks))) sizes))) =
     match client_lease_price pass_value sizes with Ok n => Ok n | Err _ => Err (Raised ZeroDivisionError) end) /\
  (forall pass_value now stats tw, dict_wf stats ->
     wire_write_price pass_value now
       (Some (PList [PDict (map (fun ks => (PInt (fst ks),
          PStat (Some (PInt (size (snd ks)))) (Some (PInt (lease_expiration (snd ks)))))) stats)])) tw =
     match client_write_price pass_value stats now tw with Ok n => Ok n | Err _ => Err (Raised ZeroDivisionError) end).
Proof.
  split.
  - exact (fun pv sizes => @wire_lease_price_honest pv sizes).
  - exact (fun pv now stats tw => @wire_write_price_honest pv now stats tw).
Qed.
Print Assumptions C107_honest_answers_are_used.
(** A size that is no number, for a share to be written, and a lease without an expiration. *)
Example C107_ex_sizes :
  (exists e, wire_writev sx_pass sx_scan 5 2 our_interface 0 (Some (PList [PDict [(PInt 0, PStat (Some (PText [49])) (Some (PInt 10)))]])) wx_tw
    (fun _ _ _ => ([], Accept PNone)) 3 sx_db = Some (Err (Remote e), sx_db, [])) /\
  (exists e, wire_writev sx_pass sx_scan 5 2 our_interface 0 (Some (PList [PDict [(PInt 0, PStat (Some (PInt 1)) None)]])) wx_tw
    (fun _ _ _ => ([], Accept PNone)) 3 sx_db = Some (Err (Remote e), sx_db, [])).
Proof. split; eexists; vm_compute; reflexivity. Qed.
Example C107_ex_honest :
  wire_lease_price 2 (Some (PDict [(PInt 0, PInt 5); (PInt 4, PInt 6)])) = Ok 6 /\
  wire_write_price 2 0 (Some (PList [PDict [(PInt 0, PStat (Some (PInt 1)) (Some (PInt 10)))]])) wx_tw = Ok 1.
Proof. vm_compute. auto. Qed.

(** C107 is false of reading a slot: whatever the server answers is returned. *)
Theorem C107_slot_readv_refuted :
  exists v, proper v /\ ~ has_type readv_type v /\ wire_slot_readv our_interface (Some v) = Ok v.
Proof.
  exists (PInt 3). split; [exact I|]. split; [|reflexivity]. intros (items & E & _). discriminate.
Qed.
Print Assumptions C107_slot_readv_refuted.

(** C107 is false of an allocation: anything with two elements of which the
    second has a length is returned as the result, and paid for. *)
Theorem C107_allocate_refuted :
  exists v a b, proper v /\ a = PText [97] /\ b = PText [98] /\
  match wire_allocate sx_pass sx_scan 5 2 our_interface [0; 1] 2 (fun _ _ _ => ([], Accept v)) 3 sx_db with
  | Some (r, d', tr) => r = Ok (a, b) /\ available d' = [12; 13; 14; 15] /\ is_spent d' 11
  | None => False
  end.
Proof.
  exists (PText [97; 98]), (PText [97]), (PText [98]). split; [exact I|]. split; [reflexivity|]. split; [reflexivity|].
  vm_compute. repeat split; intuition discriminate.
Qed.
Print Assumptions C107_allocate_refuted.

(** ** C108 *)

(** C108 for an allocation: whatever the server answers, at most the price of
    the requested shares is spent. *)
Theorem C108_allocate_costs_at_most_its_price :
  forall P (to_pass : Z -> Z -> res exn P) scan message pass_value sharenums size server fuel d r d' tr n,
  any_remote server -> fair_scan scan -> convertible to_pass message -> fresh_reachable d ->
  0 < pass_value -> 0 <= size ->
  wire_allocate to_pass scan message pass_value our_interface sharenums size server fuel d = Some (r, d', tr) ->
  exact_price pass_value (repeat size (length sharenums)) n ->
  costs_at_most d d' n.
Proof.
  intros P to_pass scan message pv sh size server fuel d r d' tr n (Lo & _) Hs Hc F Hv Hz E X.
  unfold wire_allocate in E. rewrite paid_ours, required_passes_pos in E by exact Hv.
  rewrite (exact_price_unique X (exact_price_sum (repeat size (length sh)) Hv)).
  eapply call_costs with (spends := fun x g =>
    match py_len (snd x) with Ok n => allocation_spends pv size ([], repeat (0, 0) n) g | Err _ => [] end);
    try exact E; try eassumption.
  - now apply remotely_lone.
  - intros x g t. apply wire_allocation_sub.
  - apply wire_allocation_ok.
  - rewrite <- (exact_price_unique X (exact_price_sum (repeat size (length sh)) Hv)).
    eapply exact_price_nonneg; [exact Hv| |exact X]. intros s Hin. apply repeat_spec in Hin. lia.
Qed.
Print Assumptions C108_allocate_costs_at_most_its_price.

(** Two shares of 2 bytes cost two passes even if the server claims seven
    buckets. *)
Example C108_ex_allocate :
  match wire_allocate sx_pass sx_scan 5 2 our_interface [0; 1] 2
          (fun _ _ _ => ([], Accept (PTuple [PSet []; PBytes (ascii "buckets")]))) 3 sx_db with
  | Some (r, d', tr) => available d' = [13; 14; 15]
  | None => False
  end.
Proof. vm_compute. reflexivity. Qed.

(** C108 for leases, if the sizes the server reports are not negative: at most
    their price is spent.  (Missing: negative sizes, for which it is false.) *)
Theorem C108_lease_costs_at_most_its_price_partial :
  forall P (to_pass : Z -> Z -> res exn P) scan message pass_value v sizes server fuel d r d' tr n,
  any_remote server -> fair_scan scan -> convertible to_pass message -> fresh_reachable d ->
  0 < pass_value -> proper v -> sizes_reported v sizes -> (forall s, In s sizes -> 0 <= s) ->
  wire_add_lease to_pass scan message pass_value our_interface (Some v) server fuel d = Some (r, d', tr) ->
  exact_price pass_value sizes n ->
  costs_at_most d d' n.
Proof.
  intros P to_pass scan message pv v sizes server fuel d r d' tr n (Lo & _) Hs Hc F Hv Pv Sr Sp E X.
  assert (Hn : 0 <= n) by (eapply exact_price_nonneg; eauto).
  unfold wire_add_lease in E. rewrite paid_ours in E.
  destruct (wire_lease_price pv (Some v)) as [m|f] eqn:Ep.
  - assert (T : has_type sizes_type v).
    { unfold wire_lease_price in Ep. cbn [call_remote bind] in Ep.
      pose proof (fun w => @check_sizes_spec v w Pv) as C.
      destruct (check_sizes v) as [w|e]; [|discriminate]. apply (proj1 (C w) eq_refl). }
    rewrite (@wire_lease_price_spec pv v sizes n Hv Pv T Sr X) in Ep. injection Ep as <-.
    unfold call_with_passes in E. eapply call_costs with (spends := fun _ g => map fst g); try exact E; try eassumption.
    + now apply remotely_lone.
    + intros x g t H. exact H.
    + apply spend_all_ok.
  - injection E as <- <- <-. intros l N H. destruct l as [|t l]; [cbn; lia|].
    exfalso. destruct (H t (or_introl eq_refl)) as [A [B _]]. contradiction.
Qed.
Print Assumptions C108_lease_costs_at_most_its_price_partial.
Example C108_ex_lease :
  sizes_reported (PDict [(PInt 0, PInt 3)]) [3] /\ exact_price 2 [3] 2 /\
  match wire_add_lease sx_pass sx_scan 5 2 our_interface (Some (PDict [(PInt 0, PInt 3)]))
          (fun _ _ _ => ([], Accept PNone)) 3 sx_db with
  | Some (r, d', tr) => r = Ok tt /\ available d' = [13; 14; 15]
  | None => False
  end.
Proof.
  split; [eexists; split; [reflexivity|]; repeat constructor|].
  split; [|vm_compute; auto].
  change 2 with (2 + 0) at 2. apply exact_price_cons; [|constructor]. split; [lia|]. intros m H. lia.
Qed.

(** C108 for writes, if the sizes the server reports are not negative: at most
    the price of writing to shares that do not exist yet is spent.  (Missing:
    negative sizes, for which it is false.) *)
Theorem C108_write_costs_at_most_a_fresh_write_partial :
  forall P (to_pass : Z -> Z -> res exn P) scan message pass_value now v tw after server fuel d r d' tr,
  any_remote server -> fair_scan scan -> convertible to_pass message -> fresh_reachable d ->
  0 < pass_value -> proper v -> no_negative_size v -> dict_wf tw ->
  wire_writev to_pass scan message pass_value our_interface now (Some v) tw server fuel d = Some (r, d', tr) ->
  written (fun _ => 0) tw after ->
  costs_at_most d d' (total_price pass_value (dkeys tw) after).
Proof.
  intros P to_pass scan message pv now v tw after server fuel d r d' tr (Lo & _) Hs Hc F Hv Pv Nn Wt E Wr.
  unfold wire_writev in E. rewrite paid_ours in E.
  destruct (wire_write_price pv now (Some v) tw) as [n|f] eqn:Ep.
  - destruct (wire_write_price_bound _ Hv Pv Wt Nn Ep Wr) as [H0 H1].
    assert (C : costs_at_most d d' n).
    { unfold call_with_passes in E. eapply call_costs with (spends := fun _ g => map fst g); try exact E; try eassumption.
      + now apply remotely_lone.
      + intros x g t H. exact H.
      + apply spend_all_ok. }
    intros l N H. specialize (C l N H). lia.
  - injection E as <- <- <-. intros l N H. destruct l as [|t l].
    + apply total_price_nonneg; [exact Hv|]. intros k. pose proof (written_ge k Wr) as X. exact X.
    + exfalso. destruct (H t (or_introl eq_refl)) as [A [B _]]. contradiction.
Qed.
Print Assumptions C108_write_costs_at_most_a_fresh_write_partial.
Example C108_ex_write :
  no_negative_size wx_stats /\
  match wire_writev sx_pass sx_scan 5 2 our_interface 0 (Some (PList [PDict [(PInt 0, PStat (Some (PInt 1)) (Some (PInt 10)))]]))
          wx_tw (fun _ _ _ => ([], Accept wx_good)) 3 sx_db with
  | Some (r, d', tr) => r = Ok wx_good /\ available d' = [12; 13; 14; 15]
  | None => False
  end.
Proof.
  split; [|vm_compute; auto].
  intros l items k s e n E1 E2 E3 E4. injection E1 as <-. destruct E2 as [E2|[]]. injection E2 as <-.
  destruct E3 as [E3|[E3|[]]]; injection E3 as _ <- _; inversion E4; lia.
Qed.

(** C108 is false of leases: a server which reports one share of size minus the
    value of a pass, and then accepts anything, gets every token there is, of any
    wallet. *)
Theorem C108_lease_refuted :
  forall P (to_pass : Z -> Z -> res exn P) scan message pass_value fuel d,
  fair_scan scan -> convertible to_pass message -> fresh_reachable d -> 0 < pass_value ->
  exists answer server d' tr,
  proper answer /\ any_remote server /\
  wire_add_lease to_pass scan message pass_value our_interface (Some answer) server (S fuel) d = Some (Ok tt, d', tr) /\
  costs_everything d d'.
Proof.
  intros P to_pass scan message pv fuel d Hs Hc F Hv.
  set (answer := PDict [(PInt 0, PInt (- pv))]).
  set (server := (fun _ _ _ => ([], Accept PNone)) : remote P unit).
  assert (Ep : wire_lease_price pv (Some answer) = Ok (-1)).
  { unfold wire_lease_price, answer. cbn [call_remote bind check_sizes known_items is_int as_int andb assign map snd int_value].
    change (int_value (PInt (- pv))) with (- pv).
    rewrite required_passes_pos by exact Hv. cbn [map sumZ]. unfold cdiv. rewrite Z.opp_involutive, Z.div_same by lia.
    reflexivity. }
  destruct (@call_takes_everything P unit to_pass (remotely (fun _ => Ok tt) server) scan message (-1) fuel d tt)
    as (d' & tr & E & C); try assumption; try (unfold SQLITE3_INTEGER_MAX; lia); try (intros past g d0; reflexivity).
  exists answer, server, d', tr. split.
  { cbn. repeat split; auto. repeat constructor. }
  split; [split; [reflexivity|intros past g d0 v [= <-]; exact I]|].
  split; [|exact C]. unfold wire_add_lease. rewrite paid_ours, Ep. exact E.
Qed.
Print Assumptions C108_lease_refuted.

(** C108 is false of writes: a server which reports that the share about to be
    written has a negative size gets every token there is, of any wallet that is
    not empty, for a write of one byte. *)
Theorem C108_write_refuted :
  forall P (to_pass : Z -> Z -> res exn P) scan message pass_value now fuel d n,
  fair_scan scan -> convertible to_pass message -> fresh_reachable d -> 0 < pass_value ->
  available_count d n -> (0 < n)%nat -> Z.of_nat n <= SQLITE3_INTEGER_MAX ->
  exists answer server r d' tr,
  proper answer /\ any_remote server /\
  wire_writev to_pass scan message pass_value our_interface now (Some answer)
    [(0, TW [] [(0, ascii "x")] None)] server (S fuel) d = Some (Ok r, d', tr) /\
  costs_everything d d'.
Proof.
  intros P to_pass scan message pv now fuel d n Hs Hc F Hv (toks & Nd & Iff & Len) Hn Hm.
  assert (La : lenZ (available d) = Z.of_nat n).
  { unfold lenZ. rewrite <- Len. f_equal. apply Permutation_length, NoDup_Permutation;
      [apply available_NoDup, (fresh_clean F)|exact Nd|]. intros t. rewrite in_available, Iff. tauto. }
  set (tw := [(0, TW [] [(0, ascii "x")] None)]).
  set (s := - ((Z.of_nat n - 1) * pv)).
  set (e := Z.max 0 now + 1).
  set (answer := PList [PDict [(PInt 0, PStat (Some (PInt s)) (Some (PInt e)))]]).
  set (result := PTuple [PBool true; PDict []]).
  set (server := (fun _ _ _ => ([], Accept result)) : remote P pyval).
  assert (Ep : wire_write_price pv now (Some answer) tw = Ok (Z.of_nat n)).
  { change answer with (PList [PDict (map (fun ks => (PInt (fst ks), py_stat (snd ks))) [(0, ShareStat s e)])]).
    rewrite wire_write_price_honest by (repeat constructor; auto).
    unfold client_write_price, tw. cbn [get_write_sharenums filter nonempty tw_data map fst].
    change (lenZ [0] >? 0) with true. cbn iota.
    cbn [filter snd lease_expiration fst].
    assert (A : e * hz >? now = true) by (unfold hz, e; lia).
    rewrite A. change (memZ 0 [0]) with true. cbn [andb map fst snd size].
    unfold get_required_new_passes_for_mutable_write, updated_sizes. cbn [fold_left tw_data tw_new_length].
    change (get_implied_data_length [(0, ascii "x")] None) with 1.
    change (dget_or 0 0 [(0, s)]) with s.
    assert (B : 1 >? s = true) by (unfold s; nia). rewrite B.
    cbn [dset Z.eqb]. unfold dvalues. cbn [map snd]. rewrite !required_passes_pos by exact Hv. cbn [bind map sumZ].
    assert (C1 : cdiv 1 pv = 1).
    { unfold cdiv. change (- (1)) with (-1).
      rewrite <- (Z.div_unique (-1) pv (-1) (pv - 1)); lia. }
    assert (C2 : cdiv s pv = - (Z.of_nat n - 1)).
    { unfold cdiv, s. rewrite Z.opp_involutive, Z.div_mul by lia. reflexivity. }
    rewrite C1, C2. f_equal. lia. }
  destruct (@call_takes_everything P pyval to_pass (remotely check_writev server) scan message (Z.of_nat n) fuel d result)
    as (d' & tr & E & C); try assumption; try (right; lia); try (intros past g d0; reflexivity).
  exists answer, server, result, d', tr. split.
  { cbn. repeat split; auto. repeat constructor. }
  split.
  { split; [reflexivity|]. intros past g d0 v [= <-]. cbn. repeat split; auto. constructor. }
  split; [|exact C]. unfold wire_writev. rewrite paid_ours. fold tw. rewrite Ep. exact E.
Qed.
Print Assumptions C108_write_refuted.

(** Both on a wallet of five tokens; and a server refusing every pass it is shown
    makes the client mark all of them invalid for a call whose price is one. *)
Example C108_ex_refuted :
  available_count sx_db 5 /\
  match wire_add_lease sx_pass sx_scan 5 2 our_interface (Some (PDict [(PInt 0, PInt (-2))]))
          (fun _ _ _ => ([], Accept PNone)) 3 sx_db with
  | Some (r, d', tr) => r = Ok tt /\ available d' = [] /\ is_spent d' 15
  | None => False
  end /\
  match wire_add_lease sx_pass sx_scan 5 2 our_interface (Some (PDict [(PInt 0, PInt 1)]))
          (fun _ _ _ => ([], Refuse 0 1 [0])) 9 sx_db with
  | Some (r, d', tr) => available d' = [] /\ length tr = 5%nat /\ length (invalid d') = 5%nat
  | None => False
  end.
Proof.
  split; [|vm_compute; repeat split; intuition discriminate].
  exists (available sx_db). split; [apply available_NoDup; apply (fresh_clean sx_fresh)|].
  split; [intros t; apply in_available|reflexivity].
Qed.
