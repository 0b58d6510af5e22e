(** C109: calls made at the same time do not disturb each other.
    C110: what all calls together cost, and when there are enough passes. *)
From Verif Require Import Prelude PricingModel PricingSpec PricingProofs StoreModel StoreSpec StoreProofs
  SpendModel SpendSpec SpendProofs SpendProperties ConcurrentModel ConcurrentSpec ConcurrentProofs.

(** ** A concrete history, used by the examples *)

(** The wallet of SpendProperties with two batches of passes; two calls are made,
    an allocation and another, then a third.  The second call's server rejects
    its first pass, the allocation gets one bucket out of two, the third call is
    still waiting and passes 31 and 32 are received meanwhile. *)
Definition cx_start : system (Z * Z) := System sx_db [].
Definition cx_id (l : list Z) : list Z := l.
Definition cx_events : list event :=
  [ Start cx_id (Call 5 2 (SpendForBuckets 2 2));
    Start (@rev Z) (Call 6 1 SpendAll);
    Answer cx_id 1 (Refuse 0 1 [0]);
    Other (OInsert 7 77 [31; 32] true true 1003);
    Answer cx_id 0 (Accept ([], [(7, 70)]));
    Start cx_id (Call 8 2 SpendAll);
    Answer cx_id 1 (Accept ([], []));
    Answer cx_id 1 (Fail 3) ].
Definition cx_end := run sx_pass cx_start cx_events.
Lemma cx_starts : starts cx_start.
Proof. split; [exact sx_fresh|]. split; reflexivity. Qed.
Lemma cx_may : may_run sx_pass cx_start cx_events.
Proof.
  assert (R : forall l : list Z, Permutation (rev l) l) by (intros; apply Permutation_sym, Permutation_rev).
  assert (J : forall l : list Z, Permutation (cx_id l) l) by (intros; reflexivity).
  cbn [cx_events may_run may_happen c_kind]. split; [split; [exact J|lia]|]. split; [auto|]. split; [exact J|].
  split; [|repeat split; auto].
  vm_compute. intros x X. split; [|intuition congruence].
  intros (t & Ht & Pt). destruct Ht as [<-|[<-|[]]]; destruct Pt as [(g & p & E & Y)|(g & r & p & Y & Y')]; cbn in *;
    try (injection E as <-); repeat (destruct Y as [Y|Y]; [try (injection Y as <- <-); try (cbn in Y'; intuition congruence); intuition congruence|]); try contradiction; intuition congruence.
Qed.
Definition cx_task (i : nat) : option (option (res failure result) * list Z) :=
  match nth_error (s_tasks cx_end) i with
  | Some (Task _ _ (Waiting g)) => Some (None, map fst g)
  | Some (Task _ _ (Done r)) => Some (Some r, [])
  | None => None
  end.
Example cx_outcome :
  cx_task 0 = Some (Some (Ok ([], [(7, 70)])), []) /\
  cx_task 1 = Some (Some (Ok ([], [])), []) /\
  cx_task 2 = Some (None, [12; 14]) /\
  map u_token (unblinded (s_db cx_end)) = [12; 14; 21; 22; 31; 32] /\
  in_use (s_db cx_end) = [12; 14] /\ map fst (invalid (s_db cx_end)) = [15] /\
  received sx_pass cx_start cx_events = 2.
Proof. vm_compute. repeat split. Qed.

Section Properties.
Variable P : Type.
Variable to_pass : Z -> Z -> res exn P.
Implicit Types (s : system P) (t : task P).

(** C109: at any moment, whatever calls were made and however the servers
    answered in whatever order: no pass is held by two calls, or twice by one;
    and each call waits with as many passes as it asked for, made from its tokens
    for its own message. *)
Theorem C109_no_pass_is_shared : forall s es,
  (forall m, convertible to_pass m) -> starts s -> may_run to_pass s es ->
  let s' := run to_pass s es in
  (forall i j t1 t2 x, nth_error (s_tasks s') i = Some t1 -> nth_error (s_tasks s') j = Some t2 ->
     holds t1 x -> holds t2 x -> i = j) /\
  (forall t g, In t (s_tasks s') -> t_phase t = Waiting g ->
     NoDup (map fst g) /\ (0 <= c_num (t_call t) -> lenZ g = c_num (t_call t)) /\
     forall x p, In (x, p) g -> to_pass (c_message (t_call t)) x = Ok p).
Proof.
  intros s es Cv S M. cbv zeta. destruct (@story P to_pass Cv s es S M) as [I T]. split.
  - intros i j t1 t2 x. apply hold_share. apply (i_nodup I).
  - intros t g H E. rewrite Forall_forall in T. destruct (T t H) as (_ & _ & K). rewrite E in K.
    destruct K as (L & N & B). split; [exact N|]. split; [exact L|]. intros x p X. rewrite Forall_forall in B.
    exact (B _ X).
Qed.

(** C109: at any moment each pass presented so far is in exactly the place its
    answers say: gone if it paid for a call, invalid if a server rejected it, in
    use while a call waits with it, and otherwise free for the next call. *)
Theorem C109_every_pass_is_where_it_should_be : forall s es x,
  (forall m, convertible to_pass m) -> starts s -> may_run to_pass s es ->
  let s' := run to_pass s es in
  some (@presented P) (s_tasks s') x ->
  (is_spent (s_db s') x <-> some (@paid_with P) (s_tasks s') x) /\
  (is_invalid (s_db s') x <-> some (@rejected_by P) (s_tasks s') x) /\
  (In x (in_use (s_db s')) <-> some (@holds P) (s_tasks s') x) /\
  (is_available (s_db s') x <->
     ~ some (@paid_with P) (s_tasks s') x /\ ~ some (@rejected_by P) (s_tasks s') x /\
     ~ some (@holds P) (s_tasks s') x).
Proof.
  intros s es x Cv S M. cbv zeta. intros Pr. destruct (@story P to_pass Cv s es S M) as [I T].
  set (s' := run to_pass s es) in *.
  assert (Hold : In x (in_use (s_db s')) <-> some (@holds P) (s_tasks s') x).
  { rewrite (i_use I), in_concat. split.
    - intros (l & H & X). apply in_map_iff in H. destruct H as (t & <- & H). exists t. split; [exact H|].
      now apply holds_list.
    - intros (t & H & X). exists (held_list t). split; [now apply in_map|now apply holds_list]. }
  assert (Gone : some (@paid_with P) (s_tasks s') x \/ some (@rejected_by P) (s_tasks s') x ->
     ~ In x (map u_token (unblinded (s_db s')))).
  { destruct (i_bills I) as (bs & F & _ & _ & G). intros H. apply G.
    clear - F H. induction F as [|t b ts bs Hb F IH]; [destruct H as [(t & [] & _)|(t & [] & _)]|].
    cbn [concat]. apply in_or_app.
    assert (Hd : forall Q, some Q (t :: ts) x -> Q t x \/ some Q ts x).
    { intros Q (t0 & [<-|X] & q); [now left|right; now exists t0]. }
    destruct H as [H|H]; apply Hd in H; destruct H as [H|H]; try (left; apply Hb; tauto); right; apply IH; auto. }
  assert (Dec : some (@rejected_by P) (s_tasks s') x \/ some (@paid_with P) (s_tasks s') x \/
     (~ some (@rejected_by P) (s_tasks s') x /\ ~ some (@paid_with P) (s_tasks s') x)).
  { destruct (i_bills I) as (bs & F & _ & _ & _). clear - F.
    induction F as [|t b ts bs Hb F IH].
    - right. right. split; intros (t & [] & _).
    - destruct (in_dec Z.eq_dec x b) as [X|X].
      + apply Hb in X. destruct X as [X|X]; [left|right; left]; exists t; split; auto; now left.
      + destruct IH as [(t0 & H & q)|[(t0 & H & q)|[N1 N2]]].
        * left. exists t0. split; [now right|exact q].
        * right. left. exists t0. split; [now right|exact q].
        * right. right. rewrite (Hb x) in X.
          split; intros (t0 & [<-|H] & q); [tauto|apply N1; now exists t0|tauto|apply N2; now exists t0]. }
  assert (Hs : some (@holds P) (s_tasks s') x -> In x (map u_token (unblinded (s_db s')))).
  { rewrite <- Hold. intros H. apply stored_in with true. now apply (i_wf I). }
  pose proof (i_rejected I (x := x)) as Rj. pose proof (i_paid I (x := x)) as Pd.
  pose proof (i_rest I Pr) as Rs. pose proof (i_clean I x) as Cl.
  assert (Si : stored (s_db s') true x -> In x (map u_token (unblinded (s_db s')))) by apply stored_in.
  unfold is_spent, is_invalid, is_available. rewrite Hold. tauto.
Qed.

(** C109: no pass is charged twice: of all calls at most one paid with it or had
    it rejected, never both; and then no call holds it any more. *)
Theorem C109_no_pass_is_charged_twice : forall s es i j t1 t2 x,
  (forall m, convertible to_pass m) -> starts s -> may_run to_pass s es ->
  let s' := run to_pass s es in
  nth_error (s_tasks s') i = Some t1 -> nth_error (s_tasks s') j = Some t2 ->
  paid_with t1 x \/ rejected_by t1 x ->
  (paid_with t2 x \/ rejected_by t2 x -> i = j) /\ ~ (paid_with t1 x /\ rejected_by t2 x) /\ ~ holds t2 x.
Proof.
  intros s es i j t1 t2 x Cv S M. cbv zeta. intros E1 E2 C1.
  destruct (@story P to_pass Cv s es S M) as [I T]. set (s' := run to_pass s es) in *.
  destruct (i_bills I) as (bs & F & N & _ & G).
  destruct (@forall2_nth P _ _ _ _ _ F E1) as (b1 & B1 & H1). destruct (@forall2_nth P _ _ _ _ _ F E2) as (b2 & B2 & H2).
  assert (X1 : In x b1) by (apply H1; tauto).
  split; [|split].
  - intros C2. eapply concat_share; eauto. apply H2; tauto.
  - intros [Q1 Q2]. apply nth_error_In in E1, E2. apply (i_paid I (x := x)); [now exists t1|].
    apply (i_rejected I). now exists t2.
  - intros Hd. apply (G x).
    + apply in_concat. exists b1. split; [now apply nth_error_In in B1|exact X1].
    + apply stored_in with true. apply (i_wf I). apply (i_use I). apply in_concat. exists (held_list t2).
      split; [apply in_map; now apply nth_error_In in E2|now apply holds_list].
Qed.

(** C109: passes no call presented are still there. *)
Theorem C109_other_passes_are_left_alone : forall s es b x,
  (forall m, convertible to_pass m) -> starts s -> may_run to_pass s es ->
  let s' := run to_pass s es in
  stored (s_db s) b x -> ~ some (@presented P) (s_tasks s') x ->
  stored (s_db s') b x /\ ~ In x (in_use (s_db s')) /\ ~ In x (map fst (invalid (s_db s'))).
Proof.
  intros s es b x Cv S M. cbv zeta. intros Hs Np. destruct (@story P to_pass Cv s es S M) as [I T].
  pose proof (i_else I Hs Np) as St. split; [exact St|]. split.
  - intros U. apply (i_use I) in U. apply in_concat in U. destruct U as (l & H & X). apply in_map_iff in H.
    destruct H as (t & <- & H). apply Np. exists t. split; [exact H|]. left. now apply holds_list.
  - apply (i_clean I). now apply stored_in with b.
Qed.

(** C109: the calls are those of C21-C25: whatever one call can do according to
    the model of those properties, it can do as part of the system, after any
    other calls. *)
Theorem C109_single_calls_are_included : forall server scan c fuel d r d' tr ts,
  call_with_passes_with_manual_spend to_pass server scan (c_message c) (c_num c) (@on_success P (c_kind c)) fuel d
    = Some (r, d', tr) ->
  exists es, run to_pass (System d ts) (Start (scan 0%nat) c :: es) = System d' (ts ++ [Task c tr (Done r)]).
Proof. intros. now apply call_runs with (server := server) (fuel := fuel). Qed.

(** C110: the wallet falls by exactly what the calls paid and what the servers
    rejected, each pass counted once: with [b] listing for each call the passes
    it paid with or had rejected, the number of passes left plus the lengths of
    these lists is the number at the beginning plus the number received. *)
Theorem C110_the_books_balance : forall s es n0 n1,
  (forall m, convertible to_pass m) -> starts s -> may_run to_pass s es ->
  let s' := run to_pass s es in
  (exists l0, lists l0 (fun x => exists b, stored (s_db s) b x) /\ lenZ l0 = n0) ->
  (exists l1, lists l1 (fun x => exists b, stored (s_db s') b x) /\ lenZ l1 = n1) ->
  exists bs, Forall2 (fun t b => lists b (fun x => paid_with t x \/ rejected_by t x)) (s_tasks s') bs /\
    n1 + sumZ (map (@lenZ Z) bs) = n0 + received to_pass s es.
Proof.
  intros s es n0 n1 Cv S M. cbv zeta. destruct (@story P to_pass Cv s es S M) as [I T].
  set (s' := run to_pass s es) in *. intros (l0 & L0 & <-) (l1 & L1 & <-).
  destruct (@inv_init P to_pass s S) as [I0 _].
  assert (Len : forall d l, wf d -> lists l (fun x => exists b, stored d b x) -> lenZ l = lenZ (unblinded d)).
  { intros d l W [N H]. unfold lenZ. f_equal. rewrite <- (map_length u_token). apply Permutation_length.
    apply NoDup_Permutation; [exact N|apply W|]. intros x. rewrite H. split.
    - intros (b & X). now apply stored_in with b.
    - intros X. now apply in_stored. }
  rewrite (Len _ _ (i_wf I0) L0), (Len _ _ (i_wf I) L1).
  destruct (i_bills I) as (bs & F & N & Cnt & _). exists bs. split.
  - clear - F N. induction F as [|t b ts bs Hb F IH]; constructor.
    + cbn [concat] in N. apply NoDup_app_inv in N. split; [tauto|]. intros x. rewrite (Hb x). tauto.
    + apply IH. cbn [concat] in N. apply NoDup_app_inv in N. tauto.
  - rewrite <- Cnt. f_equal. clear. unfold lenZ. induction bs as [|b bs IH]; [reflexivity|].
    cbn [map concat]. rewrite app_length. unfold sumZ in *. cbn [fold_right]. lia.
Qed.

(** C110: a call that ended well paid exactly its price: as many passes as it
    asked for, or for an allocation the price of the buckets in fact allocated, if
    that is less. *)
Theorem C110_price_of_a_call : forall s es t r n,
  (forall m, convertible to_pass m) -> starts s -> may_run to_pass s es ->
  In t (s_tasks (run to_pass s es)) -> t_phase t = Done (Ok r) -> 0 <= c_num (t_call t) ->
  match c_kind (t_call t) with
  | SpendAll => n = c_num (t_call t)
  | SpendForBuckets pv size => exists k, exact_price pv (repeat size (length (snd r))) k /\
      n = Z.max 0 (Z.min k (c_num (t_call t)))
  end ->
  exists l, lists l (paid_with t) /\ lenZ l = n.
Proof.
  intros s es t r n Cv S M H E Nn Hn. destruct (@story P to_pass Cv s es S M) as [I T].
  rewrite Forall_forall in T. destruct (T t H) as (K & F & A). rewrite E in A. destruct A as (g & A).
  assert (G : good_group to_pass (t_call t) g).
  { destruct A as (past & Ep). rewrite Forall_forall in F. apply (F (g, Accept r)). rewrite Ep. apply in_elt. }
  destruct G as (L & N & _). specialize (L Nn).
  exists (spends (c_kind (t_call t)) r g). split.
  - split; [now apply spends_nodup|]. intros x. rewrite <- (@owes_spends P to_pass Cv) by exact K. unfold paid_with. split.
    + intros O. exists r, g. auto.
    + intros (r0 & g0 & E0 & (p0 & A0) & O). rewrite E in E0. injection E0 as <-. destruct A as (p & A).
      rewrite A0 in A. apply app_inj_tail in A. destruct A as [_ [= <-]]. exact O.
  - destruct (c_kind (t_call t)) as [|pv size]; cbn [spends].
    + subst n. rewrite <- L. unfold lenZ. now rewrite map_length.
    + destruct Hn as (k & Ek & ->). unfold allocation_spends. rewrite required_passes_pos by exact K.
      rewrite (exact_price_unique Ek (exact_price_sum _ K)).
      set (k0 := sumZ _). unfold lenZ in *. rewrite map_length, firstn_length. lia.
Qed.

(** C110: if the wallet begins with at least as many spendable passes as all
    calls together ask for plus as many as the servers reject, then no call fails
    for lack of passes, in whatever order things happen. *)
Theorem C110_enough_for_all : forall s es spendable bad,
  (forall m, convertible to_pass m) -> starts s -> may_run to_pass s es ->
  (forall scan c, In (Start scan c) es -> 0 <= c_num c) ->
  let s' := run to_pass s es in
  lists spendable (stored (s_db s) true) -> lenZ spendable < 2 ^ 63 ->
  lists bad (some (@rejected_by P) (s_tasks s')) ->
  asked_for (s_tasks s') + lenZ bad <= lenZ spendable ->
  forall t, In t (s_tasks s') -> ~ ran_short t.
Proof.
  intros s es sp bad Cv S M Pos. cbv zeta. intros [N H] L B Le t Ht.
  apply (@enough_for_all P to_pass Cv s es sp bad); auto.
  - intros x. apply H.
  - change SQLITE3_INTEGER_MAX with (2 ^ 63 - 1). lia.
Qed.
End Properties.

(** Calls 1 and 2 both presented pass 14 after call 0 gave 12 back; 15 was
    rejected when call 1 presented it; 11 paid for call 0. *)
Example C109_ex :
  (forall m, convertible sx_pass m) /\ starts cx_start /\ may_run sx_pass cx_start cx_events /\
  some (@presented _) (s_tasks cx_end) 11 /\ some (@paid_with _) (s_tasks cx_end) 11 /\
  some (@rejected_by _) (s_tasks cx_end) 15 /\ some (@holds _) (s_tasks cx_end) 12 /\
  stored (s_db cx_start) false 21 /\ ~ some (@presented _) (s_tasks cx_end) 21.
Proof.
  split; [apply sx_convertible|]. split; [apply cx_starts|]. split; [apply cx_may|].
  unfold some. vm_compute.
  split; [|split; [|split; [|split; [|split]]]].
  - eexists. split; [left; reflexivity|]. right. do 3 eexists. split; [left; reflexivity|]. left. reflexivity.
  - eexists. split; [left; reflexivity|]. do 2 eexists. split; [reflexivity|].
    split; [exists []; reflexivity|]. exists 1, 0%nat. eexists. split; [|split; [reflexivity|reflexivity]].
    apply (exact_price_cons 2 2 1 [] 0); [|constructor]. split; [lia|intros m X; lia].
  - eexists. split; [right; left; reflexivity|]. do 4 eexists. exists 0%nat. eexists.
    split; [left; reflexivity|]. split; [reflexivity|]. left. reflexivity.
  - eexists. split; [right; right; left; reflexivity|]. do 2 eexists. split; [reflexivity|]. left. reflexivity.
  - do 3 eexists. split; [do 5 right; left; reflexivity|]. right. left. reflexivity.
  - intros (t & Ht & Pt). destruct Ht as [<-|[<-|[<-|[]]]]; destruct Pt as [(g & p & E & Y)|(g & r & p & Y & Y')]; cbn in *;
    try (injection E as <-); repeat (destruct Y as [Y|Y]; [try (injection Y as <- <-);
      try (cbn in Y'; intuition congruence); intuition congruence|]); try contradiction; intuition congruence.
Qed.

Print Assumptions C109_no_pass_is_shared.
Print Assumptions C109_every_pass_is_where_it_should_be.
Print Assumptions C109_no_pass_is_charged_twice.
Print Assumptions C109_other_passes_are_left_alone.
Print Assumptions C109_single_calls_are_included.
Print Assumptions C110_the_books_balance.
Print Assumptions C110_price_of_a_call.
Print Assumptions C110_enough_for_all.

(** The first five events ask for three of the five passes and one is rejected. *)
Definition cx_early := firstn 5 cx_events.
Example C110_ex :
  starts cx_start /\ may_run sx_pass cx_start cx_early /\
  (forall scan c, In (Start scan c) cx_early -> 0 <= c_num c) /\
  lists [11; 12; 13; 14; 15] (stored (s_db cx_start) true) /\
  lists [15] (some (@rejected_by _) (s_tasks (run sx_pass cx_start cx_early))) /\
  asked_for (s_tasks (run sx_pass cx_start cx_early)) + lenZ [15] <= lenZ [11; 12; 13; 14; 15].
Proof.
  split; [apply cx_starts|]. split.
  { destruct cx_may as (M1 & M2 & M3 & M4 & M5 & _).
    exact (conj M1 (conj M2 (conj M3 (conj M4 (conj M5 I))))). }
  split. { intros scan c. cbn. intros X. repeat (destruct X as [X|X]; [try discriminate; injection X as _ <-; cbn; lia|]). contradiction. }
  split; [|split].
  - split; [repeat constructor; cbn; intuition discriminate|]. intros x. unfold stored. vm_compute. split.
    + intros X. do 3 eexists. split; [|left; reflexivity].
      repeat (destruct X as [<-|X]; [auto 10|]). contradiction.
    + intros (g & v & pk & X & Y). destruct Y as [Y|[Y|[]]]; [|discriminate]. injection Y as <- _ _.
      repeat (destruct X as [X|X]; [try discriminate; injection X as <-; auto 10|]). contradiction.
  - split; [repeat constructor; cbn; tauto|]. intros x. unfold some. vm_compute. split.
    + intros [<-|[]]. eexists. split; [right; left; reflexivity|]. do 4 eexists. exists 0%nat. eexists.
      split; [left; reflexivity|]. split; [reflexivity|]. left. reflexivity.
    + intros (t & Ht & (g & v & q & f & i & p & X & Y & Z0)).
      destruct Ht as [<-|[<-|[]]]; cbn in X; destruct X as [X|[]]; try discriminate.
      injection X as <- <- <- <-. destruct i as [|[|i]]; cbn in Y; try discriminate. injection Y as <- <-. auto.
  - vm_compute. discriminate.
Qed.

(** One pass fewer is not enough: with five passes, six asked for. *)
Example C110_sharp :
  starts cx_start /\
  let s' := run sx_pass cx_start [Start cx_id (Call 5 3 SpendAll); Start cx_id (Call 6 3 SpendAll)] in
  asked_for (s_tasks s') = 6 /\ exists t, In t (s_tasks s') /\ ran_short t.
Proof.
  split; [apply cx_starts|]. vm_compute. split; [reflexivity|]. eexists. split; [right; left; reflexivity|]. reflexivity.
Qed.
