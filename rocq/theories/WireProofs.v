(** Proofs for C107 and C108. *)
From Verif Require Import Prelude PreludeFacts BytesModel BytesProofs PassModel PricingModel PricingSpec PricingProofs
  ContainerModel StoreModel StoreSpec StoreProofs SpendModel SpendSpec SpendProofs SpendProperties ClientModel WireModel WireSpec.
Set Implicit Arguments.

(** ** Checks *)
Lemma as_int_spec v n : as_int v = Some n <-> means_int v n.
Proof.
  split.
  - destruct v; cbn; try discriminate; [|intros [= <-]; constructor].
    destruct b; intros [= <-]; constructor.
  - intros []; reflexivity.
Qed.
Lemma is_int_spec v : is_int v = true <-> exists n, means_int v n.
Proof.
  unfold is_int. destruct (as_int v) as [n|] eqn:E.
  - split; [|reflexivity]. intros _. exists n. now apply as_int_spec.
  - split; [discriminate|]. intros (n & H). apply as_int_spec in H. congruence.
Qed.
Lemma is_bytes_spec v : is_bytes v = true <-> exists s, v = PBytes s.
Proof.
  split; [destruct v; try discriminate; eauto|]. intros (s & ->). reflexivity.
Qed.
Lemma is_stat_spec v : is_stat v = true <-> exists a b, v = PStat a b.
Proof.
  split; [destruct v; try discriminate; eauto|]. intros (a & b & ->). reflexivity.
Qed.
Lemma means_int_value v n : means_int v n -> int_value v = n.
Proof. intros []; reflexivity. Qed.

Lemma key_eqb_same a b : key_eqb a b = true -> same_key a b.
Proof.
  unfold key_eqb. destruct (as_int a) as [m|] eqn:Ea, (as_int b) as [n|] eqn:Eb.
  - intros H. apply Z.eqb_eq in H. subst n. right. exists m. split; now apply as_int_spec.
  - destruct a, b; try discriminate.
  - destruct a, b; try discriminate.
  - destruct a, b; try discriminate. intros H.
    destruct (bytes_eqb_spec s s0); [left; congruence|discriminate].
Qed.

Lemma assign_new k v d : (forall x, In x d -> ~ same_key (fst x) k) -> assign k v d = d ++ [(k, v)].
Proof.
  induction d as [|[k' v'] d IH]; intros H; cbn [assign app]; [reflexivity|].
  destruct (key_eqb k k') eqn:E.
  - exfalso. apply key_eqb_same in E. apply (H (k', v')); [now left|]. cbn.
    destruct E as [->|(n & A & B)]; [now left|]. right. eauto.
  - rewrite IH; [reflexivity|]. intros x Hx. apply H. now right.
Qed.

Notation distinct := (ForallOrdPairs (fun a b : pyval * pyval => ~ same_key (fst a) (fst b))).
Lemma distinct_app l m : distinct (l ++ m) ->
  forall x y, In x l -> In y m -> ~ same_key (fst x) (fst y).
Proof.
  induction l as [|a l IH]; cbn [app]; intros H x y []; inversion_clear H; intros Hy.
  - subst a. rewrite Forall_forall in H1. apply H1. apply in_or_app. now right.
  - eapply IH; eauto.
Qed.

Lemma known_items_spec okay items : forall known, distinct (known ++ items) ->
  known_items okay items known =
  if forallb (fun kv => okay (fst kv) (snd kv)) items then Ok (known ++ items) else Err ValueErr.
Proof.
  induction items as [|[k v] items IH]; intros known D; cbn [known_items forallb fst snd].
  - now rewrite app_nil_r.
  - destruct (okay k v); cbn [andb]; [|reflexivity].
    rewrite assign_new.
    + rewrite IH; rewrite <- app_assoc; [reflexivity|exact D].
    + intros x Hx. change k with (fst (k, v)). eapply distinct_app; eauto. now left.
Qed.

Lemma known_dict okay items known : distinct items ->
  (known_items okay items [] = Ok known <->
   known = items /\ forall k v, In (k, v) items -> okay k v = true).
Proof.
  intros D. rewrite known_items_spec by exact D. cbn [app].
  destruct (forallb _ items) eqn:E.
  - rewrite forallb_forall in E. split.
    + intros [= <-]. split; [reflexivity|]. intros k v H. exact (E _ H).
    + now intros [-> _].
  - split; [discriminate|]. intros [_ H]. exfalso. apply Bool.diff_true_false. rewrite <- E. symmetry.
    apply forallb_forall. intros [k v] Hx. apply H. exact Hx.
Qed.
Lemma known_items_err okay items known e : known_items okay items known = Err e -> e = ValueErr.
Proof.
  revert known. induction items as [|[k v] items IH]; intros known; cbn [known_items]; [discriminate|].
  destruct (okay k v); [apply IH|]. now intros [= <-].
Qed.

Lemma known_data_spec items : forall known, distinct (known ++ items) ->
  known_data items known =
  if forallb (fun kv => is_int (fst kv) && match snd kv with PList l => forallb is_bytes l | _ => false end) items
  then Ok (known ++ items) else Err ValueErr.
Proof.
  induction items as [|[k v] items IH]; intros known D; cbn [known_data forallb fst snd].
  - now rewrite app_nil_r.
  - destruct v; try (rewrite andb_false_r; reflexivity).
    destruct (is_int k && forallb is_bytes l); cbn [andb]; [|reflexivity].
    rewrite assign_new.
    + rewrite IH; rewrite <- app_assoc; [reflexivity|exact D].
    + intros x Hx. change k with (fst (k, PList l)). eapply distinct_app; eauto. now left.
Qed.

Lemma proper_In l : fold_right (fun x rest => proper x /\ rest) True l -> forall x, In x l -> proper x.
Proof. induction l as [|a l IH]; cbn; [contradiction|]. intros [H1 H2] x [<-|H]; auto. Qed.

Lemma dict_check okay tk tv (check : pyval -> res refusal pyval) :
  (forall v, check v = match v with
     | PDict items => known <- known_items okay items [] ;; Ok (PDict known)
     | _ => Err ValueErr end) ->
  (forall k x, okay k x = true <-> has_type tk k /\ has_type tv x) ->
  forall v w, proper v -> (check v = Ok w <-> w = v /\ has_type (TDict tk tv) v).
Proof.
  intros C O v w Pv. rewrite C. cbn [has_type]. destruct v.
  9: { destruct Pv as [D _]. split.
       - destruct (known_items okay items []) as [known|e] eqn:E; cbn [bind]; [|discriminate].
         intros [= <-]. apply known_dict in E; [|exact D]. destruct E as [-> H].
         split; [reflexivity|]. exists items. split; [reflexivity|]. intros k x Hx. apply O, H, Hx.
       - intros (-> & items' & [= <-] & H).
         assert (E : known_items okay items [] = Ok items).
         { apply known_dict; [exact D|]. split; [reflexivity|]. intros k x Hx. apply O, H, Hx. }
         rewrite E. reflexivity. }
  all: split; [discriminate|intros (_ & items' & E & _); discriminate].
Qed.

Lemma check_version_spec v w : proper v -> (check_version v = Ok w <-> w = v /\ has_type version_type v).
Proof.
  apply dict_check with (okay := fun k _ => is_bytes k); [intros []; reflexivity|].
  intros k x. cbn [has_type]. rewrite is_bytes_spec. tauto.
Qed.
Lemma check_buckets_spec v w : proper v -> (check_buckets v = Ok w <-> w = v /\ has_type buckets_type v).
Proof.
  apply dict_check with (okay := fun k _ => is_int k); [intros []; reflexivity|].
  intros k x. cbn [has_type]. rewrite is_int_spec. tauto.
Qed.
Lemma check_sizes_spec v w : proper v -> (check_sizes v = Ok w <-> w = v /\ has_type sizes_type v).
Proof.
  apply dict_check with (okay := fun k s => is_int k && is_int s); [intros []; reflexivity|].
  intros k x. cbn [has_type]. rewrite andb_true_iff, !is_int_spec. tauto.
Qed.
Definition check_stat_dict (v : pyval) : res refusal pyval :=
  match v with
  | PDict items => known <- known_items (fun k s => is_int k && is_stat s) items [] ;; Ok (PDict known)
  | _ => Err ValueErr
  end.
Lemma check_stat_dict_spec v w : proper v -> (check_stat_dict v = Ok w <-> w = v /\ has_type (TDict TInt TStat) v).
Proof.
  apply dict_check with (okay := fun k s => is_int k && is_stat s); [intros []; reflexivity|].
  intros k x. cbn [has_type]. rewrite andb_true_iff, is_int_spec, is_stat_spec. tauto.
Qed.
Lemma known_stats_cons v rest : known_stats (v :: rest) =
  (known <- check_stat_dict v ;; others <- known_stats rest ;; Ok (known :: others)).
Proof.
  destruct v; try reflexivity. cbn [known_stats check_stat_dict].
  destruct (known_items _ items []); reflexivity.
Qed.
Lemma known_stats_spec l : (forall x, In x l -> proper x) -> forall m,
  (known_stats l = Ok m <-> m = l /\ forall x, In x l -> has_type (TDict TInt TStat) x).
Proof.
  induction l as [|v l IH]; intros Pv m.
  - cbn [known_stats]. split; [intros [= <-]; split; [reflexivity|contradiction]|intros [-> _]; reflexivity].
  - rewrite known_stats_cons. split.
    + destruct (check_stat_dict v) as [w|e] eqn:E; cbn [bind]; [|discriminate].
      apply check_stat_dict_spec in E; [|apply Pv; now left]. destruct E as [-> T].
      assert (Pl : forall x, In x l -> proper x) by (intros x Hx; apply Pv; now right).
      pose proof (IH Pl) as K. destruct (known_stats l) as [ws|e]; cbn [bind]; [|discriminate].
      destruct (proj1 (K ws) eq_refl) as [-> Ts].
      intros [= <-]. split; [reflexivity|]. intros x [<-|Hx]; auto.
    + intros [-> T].
      assert (E1 : check_stat_dict v = Ok v).
      { apply check_stat_dict_spec; [apply Pv; now left|]. split; [reflexivity|]. apply T. now left. }
      assert (E2 : known_stats l = Ok l).
      { apply IH; [intros x Hx; apply Pv; now right|]. split; [reflexivity|]. intros x Hx. apply T. now right. }
      rewrite E1, E2. reflexivity.
Qed.
Lemma check_stats_spec v w : proper v -> (check_stats v = Ok w <-> w = v /\ has_type stats_type v).
Proof.
  intros Pv. unfold check_stats, stats_type. cbn [has_type]. destruct v.
  6: { assert (Pl := proper_In l Pv). split.
       - destruct (known_stats l) as [m|e] eqn:E; cbn [bind]; [|discriminate].
         apply known_stats_spec in E; [|exact Pl]. destruct E as [-> T]. intros [= <-].
         split; [reflexivity|]. exists l. split; [reflexivity|exact T].
       - intros (-> & l' & [= <-] & T).
         assert (E : known_stats l = Ok l) by (apply known_stats_spec; auto). rewrite E. reflexivity. }
  all: split; [discriminate|intros (_ & l' & E & _); discriminate].
Qed.
Lemma data_item v :
  match v with PList l => forallb is_bytes l | _ => false end = true <-> has_type (TList TBytes) v.
Proof.
  cbn [has_type]. destruct v; try (split; [discriminate|intros (l' & E & _); discriminate]).
  rewrite forallb_forall. split.
  - intros H. exists l. split; [reflexivity|]. intros x Hx. apply is_bytes_spec, H, Hx.
  - intros (l' & [= <-] & H) x Hx. apply is_bytes_spec, H, Hx.
Qed.
Lemma check_writev_pair a b : check_writev (PTuple [a; b]) =
  match a, b with
  | PBool okay, PDict data_v => known <- known_data data_v [] ;; Ok (PTuple [PBool okay; PDict known])
  | _, _ => Err ValueErr
  end.
Proof. destruct a; reflexivity. Qed.
Lemma check_writev_spec v w : proper v -> (check_writev v = Ok w <-> w = v /\ has_type writev_type v).
Proof.
  intros Pv. unfold writev_type. cbn [has_type]. destruct v.
  7: { destruct l as [|a [|b [|c l]]].
    3: { rewrite check_writev_pair. destruct a; try (split; [discriminate|
           intros (_ & a' & b' & [= <- <-] & (x & X) & _); discriminate]).
         destruct b; try (split; [discriminate|
           intros (_ & a' & b' & [= <- <-] & _ & (x & X & _)); discriminate]).
         destruct Pv as (_ & (D & _) & _). rewrite known_data_spec by exact D. cbn [app].
         match goal with |- context [forallb ?f items] => destruct (forallb f items) eqn:E end; cbn [bind].
         - rewrite forallb_forall in E. split.
           + intros [= <-]. split; [reflexivity|]. exists (PBool b0), (PDict items).
             split; [reflexivity|]. split; [eauto|]. exists items. split; [reflexivity|].
             intros k x Hx. apply E in Hx. cbn [fst snd] in Hx. apply andb_prop in Hx. destruct Hx as [A B].
             split; [now apply is_int_spec|now apply data_item in B].
           + now intros [-> _].
         - split; [discriminate|]. intros (_ & a' & b' & [= <- <-] & _ & (items' & [= <-] & H)).
           exfalso. apply Bool.diff_true_false. rewrite <- E. symmetry. apply forallb_forall.
           intros [k x] Hx. destruct (H k x Hx) as [A B]. apply andb_true_intro. split; [now apply is_int_spec|].
           now apply data_item. }
    1: split; [discriminate|intros (_ & a' & b' & E & _); discriminate].
    1: split; [destruct a; discriminate|intros (_ & a' & b' & E & _); discriminate].
    split; [destruct a; try discriminate; destruct b; discriminate|intros (_ & a' & b' & E & _); discriminate]. }
  all: split; [discriminate|intros (_ & a' & b' & E & _); discriminate].
Qed.

(** A check that fails raises ValueError. *)
Lemma dict_check_err okay v e (check : pyval -> res refusal pyval) :
  (forall v, check v = match v with
     | PDict items => known <- known_items okay items [] ;; Ok (PDict known)
     | _ => Err ValueErr end) -> check v = Err e -> e = ValueErr.
Proof.
  intros C. rewrite C. destruct v; try (now intros [= <-]).
  destruct (known_items okay items []) eqn:E; cbn [bind]; [discriminate|].
  intros [= <-]. now apply known_items_err in E.
Qed.

Lemma known_stats_err l e : known_stats l = Err e -> e = ValueErr.
Proof.
  revert e. induction l as [|v l IH]; intros e; [discriminate|]. rewrite known_stats_cons.
  destruct (check_stat_dict v) as [w|x] eqn:E; cbn [bind].
  - destruct (known_stats l) as [ws|x]; cbn [bind]; [discriminate|]. intros [= <-]. now apply IH.
  - intros [= <-]. eapply dict_check_err with (check := check_stat_dict); [|exact E]. intros []; reflexivity.
Qed.
Lemma check_stats_err v e : check_stats v = Err e -> e = ValueErr.
Proof.
  destruct v; try (now intros [= <-]). cbn [check_stats].
  destruct (known_stats l) eqn:E; cbn [bind]; [discriminate|]. intros [= <-]. now apply known_stats_err in E.
Qed.
Lemma check_sizes_err v e : check_sizes v = Err e -> e = ValueErr.
Proof. apply dict_check_err with (okay := fun k s => is_int k && is_int s). intros []; reflexivity. Qed.
Lemma check_version_err v e : check_version v = Err e -> e = ValueErr.
Proof. apply dict_check_err with (okay := fun k s => is_bytes k). intros []; reflexivity. Qed.
Lemma check_buckets_err v e : check_buckets v = Err e -> e = ValueErr.
Proof. apply dict_check_err with (okay := fun k s => is_int k). intros []; reflexivity. Qed.

Lemma known_data_err items known e : known_data items known = Err e -> e = ValueErr.
Proof.
  revert known. induction items as [|[k v] items IH]; intros known; cbn [known_data]; [discriminate|].
  destruct v; try (now intros [= <-]). destruct (is_int k && forallb is_bytes l); [apply IH|now intros [= <-]].
Qed.
Lemma check_writev_err v e : check_writev v = Err e -> e = ValueErr.
Proof.
  destruct v; try (now intros [= <-]). cbn [check_writev].
  destruct l as [|a [|b [|c l]]]; try (now intros [= <-]); destruct a; try (now intros [= <-]); destruct b; try (now intros [= <-]).
  destruct (known_data _ _) eqn:E; cbn [bind]; [discriminate|]. intros [= <-]. exact (known_data_err _ _ E).
Qed.

(** An ill-typed answer makes the call raise ValueError. *)
Lemma check_ill_typed (check : pyval -> res refusal pyval) t v :
  (forall w, check v = Ok w <-> w = v /\ has_type t v) ->
  (forall e, check v = Err e -> e = ValueErr) ->
  ~ has_type t v -> check v = Err ValueErr.
Proof.
  intros S Er N. destruct (check v) as [w|e] eqn:E.
  - exfalso. apply N. destruct (proj1 (S w) eq_refl) as [_ H]. exact H.
  - now rewrite (Er e eq_refl).
Qed.
Lemma check_well_typed (check : pyval -> res refusal pyval) t v :
  (forall w, check v = Ok w <-> w = v /\ has_type t v) -> has_type t v -> check v = Ok v.
Proof. intros S T. apply S. auto. Qed.

(** ** Prices *)
Lemma wire_lease_price_spec pv v sizes n : 0 < pv -> proper v -> has_type sizes_type v ->
  sizes_reported v sizes -> exact_price pv sizes n -> wire_lease_price pv (Some v) = Ok n.
Proof.
  intros Hv Pv T (items & -> & F) X. unfold wire_lease_price. cbn [call_remote bind].
  rewrite (proj2 (@check_sizes_spec (PDict items) (PDict items) Pv) (conj eq_refl T)).
  assert (M : map (fun ks => int_value (snd ks)) items = sizes).
  { clear - F. induction F as [|kx m items sizes H F IH]; cbn [map]; [reflexivity|].
    f_equal; [now apply means_int_value|exact IH]. }
  rewrite M, required_passes_pos by exact Hv.
  f_equal. eapply exact_price_unique; [|exact X]. now apply exact_price_sum.
Qed.

Lemma exact_price_nonneg pv sizes n : 0 < pv -> (forall s, In s sizes -> 0 <= s) -> exact_price pv sizes n -> 0 <= n.
Proof.
  intros Hv Ps X. rewrite (exact_price_unique X (exact_price_sum sizes Hv)). apply sumZ_nonneg.
  intros x Hx. apply in_map_iff in Hx. destruct Hx as (s & <- & Hs). apply cdiv_nonneg; auto.
Qed.

Lemma sumZ_le A (f g : A -> Z) l : (forall x, In x l -> f x <= g x) -> sumZ (map f l) <= sumZ (map g l).
Proof.
  induction l as [|x l IH]; intros H; cbn [map sumZ]; [lia|].
  pose proof (H x (or_introl eq_refl)). assert (sumZ (map f l) <= sumZ (map g l)) by (apply IH; intros y Hy; apply H; now right).
  lia.
Qed.

(** Growing reported shares that are not negative costs at most writing to none. *)
Lemma fresh_write_bound v cur tw n g : 0 < v -> dict_wf cur -> dict_wf tw ->
  (forall s, In s (dvalues cur) -> 0 <= s) ->
  get_required_new_passes_for_mutable_write v cur tw = Ok n ->
  written (fun _ => 0) tw g -> n <= total_price v (dkeys tw) g.
Proof.
  intros Hv W Wt Ps E Wr.
  set (f := fun k => dget_or 0 k cur).
  assert (R : represents cur f) by (split; auto).
  assert (Pf : forall k, 0 <= f k).
  { intros k; unfold f, dget_or. destruct (dget k cur) as [s|] eqn:D; [|lia].
    apply Ps. apply dget_Some_In in D. change s with (snd (k, s)). apply in_map. exact D. }
  destruct (written_exists f tw) as [h Wh].
  set (extra := filter (fun k => negb (memZ k (dkeys tw))) (dkeys cur)).
  rewrite mutable_price_growth with (f := f) (g := h) (ks := dkeys tw ++ extra) in E; auto.
  - injection E as <-. rewrite map_app, sumZ_app.
    assert (Z0 : sumZ (map (fun k => cdiv (h k) v - cdiv (f k) v) extra) = 0).
    { assert (Q : forall k, In k extra -> h k = f k).
      { intros k Hk. apply filter_In in Hk. destruct Hk as [_ Hk]. apply negb_true_iff, memZ_false in Hk.
        specialize (Wh k). apply dget_None in Hk. rewrite Hk in Wh. exact Wh. }
      clear - Q. induction extra as [|k l IH]; cbn [map sumZ]; [reflexivity|].
      rewrite IH by (intros; apply Q; now right). rewrite Q by now left. lia. }
    rewrite Z0, Z.add_0_r. unfold total_price. apply sumZ_le. intros k Hk.
    assert (Hle : h k <= Z.max (f k) (g k)).
    { specialize (Wh k). specialize (Wr k). destruct (dget k tw) as [w|].
      - destruct Wh as (e & We & ->). destruct Wr as (e' & We' & ->).
        rewrite <- (write_end_unique We We'). specialize (Pf k). lia.
      - rewrite Wh. specialize (Pf k). lia. }
    assert (0 <= g k) by (pose proof (written_ge k Wr) as X; cbv beta in X; lia).
    pose proof (cdiv_nonneg Hv (Pf k)). pose proof (@cdiv_nonneg v (g k) Hv ltac:(assumption)).
    pose proof (cdiv_mono Hv Hle).
    destruct (Z.max_spec (f k) (g k)) as [[_ M]|[_ M]]; rewrite M in *; lia.
  - apply NoDup_app_intro; [exact Wt|apply NoDup_filter; exact W|].
    intros k H1 H2. apply filter_In in H2. destruct H2 as [_ H2]. apply negb_true_iff, memZ_false in H2. contradiction.
  - intros k Hk. apply in_or_app. destruct (memZ_spec k (dkeys tw)) as [H|H]; [now left|].
    right. apply filter_In. split; [exact Hk|]. apply negb_true_iff, memZ_false, H.
  - intros k Hk. apply in_or_app. now left.
Qed.

Lemma current_sizes_from now ws items : forall cs, wire_current_sizes now ws items = Ok cs ->
  forall k s, In (k, s) cs -> exists k0 e, In (k0, PStat (Some s) e) items /\ int_value k0 = k.
Proof.
  induction items as [|[k0 v] items IH]; cbn [wire_current_sizes].
  - intros cs [= <-] k s [].
  - intros cs. destruct v; try discriminate.
    destruct (attribute lease_expiration) as [e|]; cbn [bind]; [|discriminate].
    destruct (later e now) as [act|]; cbn [bind]; [|discriminate].
    destruct (act && memZ (int_value k0) ws).
    + destruct size as [s0|]; cbn [attribute bind]; [|discriminate].
      destruct (wire_current_sizes now ws items) as [others|] eqn:E; cbn [bind]; [|discriminate].
      intros [= <-] k s [[= <- <-]|H].
      * eexists. eexists. split; [now left|reflexivity].
      * destruct (IH others eq_refl k s H) as (k1 & e1 & H1 & H2). eexists. eexists. split; [right; exact H1|exact H2].
    + intros E k s H. destruct (IH cs E k s H) as (k1 & e1 & H1 & H2). eexists. eexists. split; [right; exact H1|exact H2].
Qed.

Lemma current_sizes_wf now ws items : distinct items -> (forall k x, In (k, x) items -> exists n, means_int k n) ->
  forall cs, wire_current_sizes now ws items = Ok cs -> NoDup (map fst cs).
Proof.
  intros D K. induction D as [|[k0 v] items F D IH]; cbn [wire_current_sizes].
  - intros cs [= <-]. constructor.
  - assert (K' : forall k x, In (k, x) items -> exists n, means_int k n) by (intros k x H; apply (K k x); now right).
    intros cs. destruct v; try discriminate.
    destruct (attribute lease_expiration) as [e|]; cbn [bind]; [|discriminate].
    destruct (later e now) as [act|]; cbn [bind]; [|discriminate].
    destruct (act && memZ (int_value k0) ws); [|now apply IH].
    destruct size as [s0|]; cbn [attribute bind]; [|discriminate].
    destruct (wire_current_sizes now ws items) as [others|] eqn:E; cbn [bind]; [|discriminate].
    intros [= <-]. cbn [map fst]. constructor; [|now apply IH].
    intros H. apply in_map_iff in H. destruct H as ([k1 s1] & E1 & H1). cbn [fst] in E1.
    destruct (current_sizes_from _ _ _ E _ _ H1) as (k2 & e2 & H2 & E2).
    rewrite Forall_forall in F. apply (F _ H2). cbn [fst].
    destruct (K k0 _ (or_introl eq_refl)) as (m & M0). destruct (K' _ _ H2) as (m' & M2).
    right. exists m. split; [exact M0|]. apply means_int_value in M0. pose proof (means_int_value M2). congruence.
Qed.

Lemma int_sizes_spec cs : forall cur, int_sizes cs = Ok cur ->
  dkeys cur = map fst cs /\ forall s, In s (dvalues cur) -> exists k v, In (k, v) cs /\ means_int v s.
Proof.
  induction cs as [|[k v] cs IH]; cbn [int_sizes]; intros cur.
  - intros [= <-]. split; [reflexivity|intros s []].
  - destruct (as_int v) as [n|] eqn:En; [|discriminate]. destruct (int_sizes cs) as [others|]; cbn [bind]; [|discriminate].
    intros [= <-]. destruct (IH others eq_refl) as [IK IV]. split; [cbn; now f_equal|].
    intros s [<-|H].
    + exists k, v. split; [now left|]. now apply as_int_spec.
    + destruct (IV s H) as (k' & v' & H1 & H2). exists k', v'. split; [now right|exact H2].
Qed.

Lemma current_sizes_readable now tw items : forall cs cur,
  wire_current_sizes now (get_write_sharenums tw) items = Ok cs -> int_sizes cs = Ok cur -> readable_stats now tw (PDict items).
Proof.
  intros cs cur Ec Ei items' k s e [= <-] I. revert cs cur Ec Ei. induction items as [|[k0 v0] items IH]; [destruct I|].
  intros cs cur Ec Ei. cbn [wire_current_sizes] in Ec. destruct v0 as [| | | | | | | | |s0 e0|]; try discriminate Ec.
  destruct e0 as [ev|]; cbn [attribute bind] in Ec; [|discriminate]. unfold later in Ec.
  destruct (as_int ev) as [en|] eqn:En; cbn [bind] in Ec; [|discriminate]. apply as_int_spec in En.
  destruct I as [X|I].
  - injection X as -> -> <-. exists ev, en. split; [reflexivity|]. split; [exact En|]. intros m w Hn Hk Hw Hd.
    assert (M : memZ (int_value k) (get_write_sharenums tw) = true).
    { rewrite (means_int_value Hk). destruct (memZ_spec m (get_write_sharenums tw)) as [|N]; [reflexivity|]. destruct N.
      unfold get_write_sharenums. apply in_map_iff. exists (m, w). split; [reflexivity|]. apply filter_In. split; [exact Hw|].
      destruct (tw_data w); [contradiction|reflexivity]. }
    rewrite M, andb_true_r in Ec. destruct (Z.gtb_spec (en * hz) now); [|lia].
    destruct s as [sv|]; cbn [attribute bind] in Ec; [|discriminate].
    destruct (wire_current_sizes now _ items) as [others|]; cbn [bind] in Ec; [|discriminate]. injection Ec as <-. cbn [int_sizes] in Ei.
    destruct (as_int sv) as [sn|] eqn:Es; [|discriminate]. exists sv, sn. split; [reflexivity|]. now apply as_int_spec.
  - destruct ((en * hz >? now) && memZ (int_value k0) (get_write_sharenums tw)).
    + destruct s0 as [sv|]; cbn [attribute bind] in Ec; [|discriminate].
      destruct (wire_current_sizes now _ items) as [others|]; cbn [bind] in Ec; [|discriminate]. injection Ec as <-. cbn [int_sizes] in Ei.
      destruct (as_int sv); [|discriminate]. destruct (int_sizes others) as [cur'|] eqn:Eo; cbn [bind] in Ei; [|discriminate].
      exact (IH I others cur' eq_refl Eo).
    + exact (IH I cs cur Ec Ei).
Qed.

Lemma total_price_nonneg v ks g : 0 < v -> (forall k, 0 <= g k) -> 0 <= total_price v ks g.
Proof.
  intros Hv Hg. apply sumZ_nonneg. intros x Hx. apply in_map_iff in Hx. destruct Hx as (k & <- & _).
  apply cdiv_nonneg; auto.
Qed.

Lemma wire_write_price_bound pv now v tw n g : 0 < pv -> proper v -> dict_wf tw -> no_negative_size v ->
  wire_write_price pv now (Some v) tw = Ok n -> written (fun _ => 0) tw g ->
  0 <= n <= total_price pv (dkeys tw) g.
Proof.
  intros Hv Pv Wt Nn E Wr. assert (G : forall k, 0 <= g k) by (intros k; pose proof (written_ge k Wr) as X; cbv beta in X; lia).
  unfold wire_write_price in E. destruct (lenZ _ >? 0).
  2: { injection E as <-. pose proof (@total_price_nonneg pv (dkeys tw) g Hv G). lia. }
  cbn [call_remote bind] in E. pose proof (fun w => @check_stats_spec v w Pv) as C.
  destruct (check_stats v) as [w|e]; [|discriminate].
  destruct (proj1 (C w) eq_refl) as [-> T].
  destruct v; try discriminate E. destruct l as [|x l]; try discriminate E.
  destruct x; try discriminate E. destruct l; try discriminate E.
  destruct (wire_current_sizes now (get_write_sharenums tw) items) as [cs|] eqn:Ec; cbn [bind] in E; [|discriminate].
  destruct (int_sizes cs) as [cur|] eqn:Ei; [|discriminate].
  destruct (get_required_new_passes_for_mutable_write pv cur tw) as [m|] eqn:Er; [|discriminate].
  injection E as ->. destruct Pv as ((D & _) & _).
  assert (K : forall k x, In (k, x) items -> exists n, means_int k n).
  { intros k x H. destruct T as (l & [= <-] & T). destruct (T _ (or_introl eq_refl)) as (it & [= <-] & T').
    exact (proj1 (T' _ _ H)). }
  destruct (int_sizes_spec _ Ei) as [Kd Vd].
  assert (Wc : dict_wf cur) by (unfold dict_wf; rewrite Kd; eapply current_sizes_wf; eauto).
  assert (Vn : forall s, In s (dvalues cur) -> 0 <= s).
  { intros s Hs. destruct (Vd s Hs) as (k & x & H1 & H2).
    destruct (current_sizes_from _ _ _ Ec _ _ H1) as (k0 & e & H3 & _).
    eapply Nn; [reflexivity|now left|exact H3|exact H2]. }
  split; [exact (mutable_price_nonneg Hv Wc Wt Vn Er)|]. eapply fresh_write_bound; eauto.
Qed.

(** ** Calls *)
Lemma remotely_polite P R (check : pyval -> res refusal R) (server : remote P R) :
  (forall past g d, polite_run (map fst g) d (fst (server past g d))) -> polite_server (remotely check server).
Proof. intros H past g d. specialize (H past g d). unfold remotely. destruct (server past g d). exact H. Qed.
Lemma remotely_lone P R (check : pyval -> res refusal R) (server : remote P R) :
  (forall past g d, fst (server past g d) = []) -> lone_server (remotely check server).
Proof. intros H past g d. specialize (H past g d). unfold remotely. destruct (server past g d). exact H. Qed.

Lemma call_costs P R (to_pass : Z -> Z -> res exn P) server scan message num on_success
  (spends : R -> group P -> list Z) fuel d r d' tr :
  lone_server server -> fair_scan scan -> convertible to_pass message ->
  (forall x g t, In t (spends x g) -> In t (map fst g)) -> success_ok on_success spends ->
  0 <= num -> fresh_reachable d ->
  call_with_passes_with_manual_spend to_pass server scan message num on_success fuel d = Some (r, d', tr) ->
  costs_at_most d d' num.
Proof.
  intros Lone Hs Hc Sub Sok Hn F E l N H.
  assert (Hp : polite_server server) by (intros p g d0; rewrite Lone; exact I).
  destruct (@call_others P R to_pass server scan message num on_success spends Hp Hs Hc Sub Sok fuel d r d' tr Lone F E)
    as (_ & Un & _).
  assert (Tk : forall t, In t l -> ~ ~ taken tr t).
  { intros t Ht X. destruct (H t Ht) as [S1 [S2 _]]. destruct (Un t X) as (St & _).
    destruct (fresh_clean F) as [W _]. apply (@in_stored d t W) in S1. destruct S1 as (b & S1).
    apply S2. apply stored_in with b. now apply St. }
  destruct (@call_story P R to_pass server scan message num on_success spends Hp Hs Hc Sub Sok fuel d r d' tr F E)
    as [(-> & _)|O].
  - destruct l as [|t l]; [cbn; lia|]. exfalso. apply (Tk t); [now left|]. apply not_taken_nil.
  - pose proof (outcome_spent O) as Sp. destruct r as [x|e].
    + destruct Sp as (g & (past & A) & Sp).
      assert (Hg : In (g, Accept x) tr) by (rewrite A; apply in_or_app; right; now left).
      destruct O as (_ & Gd & _). rewrite Forall_forall in Gd. destruct (Gd _ Hg) as (L & _).
      specialize (L Hn). cbn [fst] in L. rewrite <- L. unfold lenZ. rewrite <- (map_length fst g). apply inj_le.
      apply NoDup_incl_length; [exact N|]. intros t Ht.
      destruct (in_dec Z.eq_dec t (map fst g)) as [Y|Y]; [exact Y|]. exfalso.
      apply (Tk t Ht). intros T. apply Y. apply (Sub x). apply Sp; [exact T|]. exact (proj2 (H t Ht)).
    + destruct l as [|t l]; [cbn; lia|]. exfalso. apply (Tk t); [now left|]. intros T.
      apply (Sp t T). exact (proj2 (H t (or_introl eq_refl))).
Qed.

Lemma wire_allocation_ok P pv size :
  @success_ok P (pyval * pyval) (wire_spend_for_allocate pv size)
    (fun x g => match py_len (snd x) with Ok n => allocation_spends pv size ([], repeat (0, 0) n) g | Err _ => [] end).
Proof.
  intros x g d W N. unfold wire_spend_for_allocate. destruct (py_len (snd x)) as [n|e].
  - apply allocation_ok; assumption.
  - right. eauto.
Qed.
Lemma wire_allocation_sub P pv size (x : pyval * pyval) (g : group P) t :
  In t (match py_len (snd x) with Ok n => allocation_spends pv size ([], repeat (0, 0) n) g | Err _ => [] end) ->
  In t (map fst g).
Proof. destruct (py_len (snd x)); [apply allocation_sub|intros []]. Qed.

(** ** A call that takes every token *)
Lemma get_everything P (to_pass : Z -> Z -> res exn P) sc message n d : wf d -> (forall l, Permutation (sc l) l) ->
  convertible to_pass message -> n <= SQLITE3_INTEGER_MAX -> n < 0 \/ n = lenZ (available d) ->
  exists g, get to_pass sc message n d = (Ok g, set_in_use (in_use d ++ map fst g) d) /\
    forall t, In t (available d) -> In t (map fst g).
Proof.
  intros W Sc Cv Hm Hn. rewrite get_step.
  assert (L2 : n <= lenZ (available d)) by (unfold lenZ in *; lia).
  destruct (@extract_success sc n d W Sc Hm L2) as (toks & E & N & A & Len & All). rewrite E.
  destruct (@tokens_to_passes_ok P to_pass message toks Cv) as (ps & Ep & F & B). rewrite Ep.
  exists (combine toks ps). rewrite F. split; [reflexivity|].
  destruct Hn as [Hn|Hn]; [auto|].
  assert (H0 : 0 <= n) by (unfold lenZ in Hn; lia). specialize (Len H0).
  assert (I : incl (available d) toks).
  { apply NoDup_length_incl; [exact N| |intros t; apply A]. unfold lenZ in *. lia. }
  exact I.
Qed.

Lemma call_takes_everything P R (to_pass : Z -> Z -> res exn P) server scan message n fuel d (x : R) :
  lone_server server -> (forall past g d, snd (server past g d) = Accept x) ->
  fair_scan scan -> convertible to_pass message -> fresh_reachable d ->
  n <= SQLITE3_INTEGER_MAX -> n < 0 \/ n = lenZ (available d) ->
  exists d' tr, call_with_passes to_pass server scan message n (S fuel) d = Some (Ok x, d', tr) /\
    costs_everything d d'.
Proof.
  intros Lone Acc Hs Hc F Hm Hn. destruct (fresh_clean F) as [W C].
  destruct (@get_everything P to_pass (scan 0%nat) message n d W (Hs 0%nat) Hc Hm Hn) as (g & Eg & All).
  assert (Hp : polite_server server) by (intros p g0 d0; rewrite Lone; exact I).
  destruct (@get_cases P to_pass (scan 0%nat) message n d W (Hs 0%nat) Hc) as [Eq|(g' & Eq & N & A & _ & _)];
    rewrite Eg in Eq; [discriminate|]. injection Eq as <-.
  assert (E : exists d', call_with_passes to_pass server scan message n (S fuel) d
     = Some (Ok x, d', [(g, Accept x)])).
  { unfold call_with_passes, call_with_passes_with_manual_spend. rewrite Eg. cbn [attempts].
    set (d1 := set_in_use _ _). pose proof (Acc [] g d1) as Ac. pose proof (Lone [] g d1) as Lo.
    destruct (server [] g d1) as [os resp]. cbn [fst snd] in Ac, Lo. subst os resp.
    cbn [steps snd app]. unfold spend_all. rewrite mark_spent_eq; [eexists; reflexivity|].
    assert (H0 : held_ok (@nil (Z * P)) d) by (split; auto; [constructor|intros ? []]).
    pose proof (extend_facts g H0 N A) as K. cbn [app] in K. apply K. }
  destruct E as (d' & E). exists d', [(g, Accept x)]. split; [exact E|].
  pose proof (C22_exactly_the_accepted_passes_are_spent P R to_pass server scan message n (S fuel) d (Ok x) d' _
     Hp Hs Hc F E) as (g2 & (past & A2) & Sp).
  intros t (S1 & S2 & S3). assert (Tg : In t (map fst g)) by (apply All, in_available; auto).
  apply Sp.
  - apply in_map_iff in Tg. destruct Tg as ([t' p] & <- & Hg). exists g, (Accept x), p. split; [now left|exact Hg].
  - destruct past as [|a past]; [|destruct past; discriminate]. injection A2 as <-. exact Tg.
Qed.

(** ** Honest answers *)
Lemma int_keys_distinct A (f : A -> pyval) (d : dict A) : dict_wf d ->
  distinct (map (fun ks => (PInt (fst ks), f (snd ks))) d).
Proof.
  unfold dict_wf, dkeys. induction d as [|[k a] d IH]; cbn [map fst snd]; intros N; constructor; inversion_clear N.
  - apply Forall_forall. intros x Hx. apply in_map_iff in Hx. destruct Hx as ([k' a'] & <- & Hd).
    cbn [fst snd]. intros K. apply H. assert (k = k').
    { destruct K as [[= ->]|(n & H1 & H2)]; [reflexivity|]. inversion H1; inversion H2; congruence. }
    subst k'. change k with (fst (k, a')). now apply in_map.
  - now apply IH.
Qed.

Lemma known_all okay items : distinct items -> (forall k v, In (k, v) items -> okay k v = true) ->
  known_items okay items [] = Ok items.
Proof. intros D H. apply known_dict; auto. Qed.

Lemma wire_lease_price_honest pv sizes : dict_wf sizes ->
  wire_lease_price pv (Some (PDict (map (fun ks => (PInt (fst ks), PInt (snd ks))) sizes))) =
  match client_lease_price pv sizes with Ok n => Ok n | Err _ => Err (Raised ZeroDivisionError) end.
Proof.
  intros W. unfold wire_lease_price. cbn [call_remote bind check_sizes].
  rewrite known_all.
  - cbn [bind]. unfold client_lease_price. rewrite map_map. reflexivity.
  - exact (@int_keys_distinct Z PInt sizes W).
  - intros k v H. apply in_map_iff in H. destruct H as (x & [= <- <-] & _). reflexivity.
Qed.

Definition py_stat (s : share_stat) : pyval := PStat (Some (PInt (size s))) (Some (PInt (lease_expiration s))).
Lemma current_sizes_honest now ws stats :
  (sizes <- wire_current_sizes now ws (map (fun ks => (PInt (fst ks), py_stat (snd ks))) stats) ;; int_sizes sizes)
  = Ok (map (fun ns => (fst ns, size (snd ns)))
         (filter (fun ns => (lease_expiration (snd ns) * hz >? now) && memZ (fst ns) ws) stats)).
Proof.
  induction stats as [|[k s] stats IH]; [reflexivity|].
  cbn [map filter fst snd wire_current_sizes py_stat attribute bind later as_int int_value].
  change (int_value (PInt k)) with k.
  destruct ((lease_expiration s * hz >? now) && memZ k ws); [|exact IH].
  destruct (wire_current_sizes now ws _) as [cs|]; cbn [bind] in *; [|discriminate].
  cbn [int_sizes as_int]. rewrite IH. reflexivity.
Qed.
Lemma wire_write_price_honest pv now stats tw : dict_wf stats ->
  wire_write_price pv now (Some (PList [PDict (map (fun ks => (PInt (fst ks), py_stat (snd ks))) stats)])) tw =
  match client_write_price pv stats now tw with Ok n => Ok n | Err _ => Err (Raised ZeroDivisionError) end.
Proof.
  intros W. unfold wire_write_price, client_write_price. destruct (lenZ _ >? 0); [|reflexivity].
  cbn [call_remote bind check_stats]. rewrite known_stats_cons. cbn [check_stat_dict].
  rewrite known_all.
  - cbn [bind known_stats]. rewrite current_sizes_honest. reflexivity.
  - exact (@int_keys_distinct _ py_stat stats W).
  - intros k v H. apply in_map_iff in H. destruct H as (x & [= <- <-] & _). reflexivity.
Qed.

(** ** Where a result comes from *)
Lemma attempts_result P R (to_pass : Z -> Z -> res exn P) server scan message num on_success fuel :
  forall past g d (x : R) d' tr,
  attempts to_pass server scan message num on_success fuel past g d = Some (Ok x, d', tr) ->
  exists past' g' d0, snd (server past' g' d0) = Accept x.
Proof.
  induction fuel as [|fuel IH]; intros past g d x d' tr; cbn [attempts]; [discriminate|].
  destruct (server past g d) as [os resp] eqn:Es.
  assert (G : forall f g0 d0, give_up (R := R) f g0 d0 (past ++ [(g, resp)]) <> Some (Ok x, d', tr)).
  { intros f g0 d0. unfold give_up. destruct (reset g0 d0) as [[]]; discriminate. }
  destruct resp as [r|v q failed|e].
  - destruct (on_success r g _) as [[u|e] d2].
    + intros [= -> _ _]. exists past, g, d. now rewrite Es.
    + intros E. now apply G in E.
  - destruct (invalidate_rejected_passes g failed _) as [[[okay|]|e] d2]; try (intros E; now apply G in E).
    destruct (expand to_pass _ message okay _ d2) as [[g'|e] d3]; [apply IH|intros E; now apply G in E].
  - intros E. now apply G in E.
Qed.
Lemma call_result P R (to_pass : Z -> Z -> res exn P) server scan message num fuel d (x : R) d' tr :
  call_with_passes to_pass server scan message num fuel d = Some (Ok x, d', tr) ->
  exists past' g' d0, snd (server past' g' d0) = Accept x.
Proof.
  unfold call_with_passes, call_with_passes_with_manual_spend.
  destruct (get to_pass _ message num d) as [[g|e] d1]; [apply attempts_result|discriminate].
Qed.
