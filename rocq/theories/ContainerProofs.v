(** Lemmas about [ContainerModel]: sizes read back from written containers and
    directory listings. *)
From Verif Require Import Prelude PreludeFacts BytesModel BytesProofs PassModel ContainerModel.
Set Implicit Arguments.

Lemma pack_s_length w s : length (pack_s w s) = w.
Proof. unfold pack_s. rewrite firstn_length, app_length, repeat_length. lia. Qed.

Lemma immutable_header v n data leases :
  firstn 12 (immutable_file v n data leases)
  = be 4 v ++ be 4 (Z.of_nat (length data)) ++ be 4 n.
Proof.
  unfold immutable_file.
  replace (be 4 v ++ be 4 (Z.of_nat (length data)) ++ be 4 n ++ data ++ leases)
    with ((be 4 v ++ be 4 (Z.of_nat (length data)) ++ be 4 n) ++ data ++ leases)
    by (rewrite <- !app_assoc; reflexivity).
  apply firstn_app_exact. rewrite !app_length, !be_length. reflexivity.
Qed.

Lemma immutable_size v n data leases :
  v = 1 \/ v = 2 -> 0 <= n < 2 ^ 32 -> Z.of_nat (length leases) = 72 * n ->
  get_storage_index_share_size (immutable_file v n data leases) = Ok (Z.of_nat (length data)).
Proof.
  intros V N L. unfold get_storage_index_share_size. rewrite immutable_header.
  rewrite !app_length, !be_length. cbn [negb Nat.eqb Nat.add].
  rewrite firstn_app_exact by apply be_length.
  rewrite app_assoc, skipn_app_exact by (rewrite app_length, !be_length; reflexivity).
  rewrite !unbe_be_small by (change (256 ^ Z.of_nat 4) with (2 ^ 32); lia).
  replace ((v =? 1) || (v =? 2)) with true by lia. f_equal.
  unfold immutable_file. rewrite !app_length, !be_length. lia.
Qed.

Lemma immutable_unknown_version file :
  ~ (unbe (firstn 4 file) = 1 \/ unbe (firstn 4 file) = 2) ->
  exists e, get_storage_index_share_size file = Err e.
Proof.
  intros V. unfold get_storage_index_share_size. rewrite firstn_firstn. cbn [Nat.min].
  destruct (negb _); [eauto|].
  replace ((unbe (firstn 4 file) =? 1) || (unbe (firstn 4 file) =? 2)) with false by lia. eauto.
Qed.

Lemma mutable_magic_length v : length (mutable_magic v) = 32%nat.
Proof. unfold mutable_magic. destruct (v =? 1); reflexivity. Qed.

Lemma mutable_size v nodeid we off slots data rest :
  Z.of_nat (length data) < 2 ^ 64 ->
  get_slot_share_size (mutable_file v nodeid we off slots data rest) = Ok (Z.of_nat (length data)).
Proof.
  intros H. unfold get_slot_share_size, mutable_file.
  set (a := mutable_magic v ++ pack_s 20 nodeid ++ pack_s 32 we).
  set (l := be 8 (Z.of_nat (length data))).
  set (z := be 8 off ++ _).
  replace (mutable_magic v ++ pack_s 20 nodeid ++ pack_s 32 we ++ l ++ z) with ((a ++ l) ++ z)
    by (unfold a; rewrite <- !app_assoc; reflexivity).
  assert (La : length a = 84%nat)
    by (unfold a; rewrite !app_length, mutable_magic_length, !pack_s_length; reflexivity).
  assert (Ll : length l = 8%nat) by (unfold l; apply be_length).
  rewrite firstn_app_exact by (rewrite app_length, La, Ll; reflexivity).
  unfold last_bytes. rewrite app_length, La, Ll. cbn [Nat.add Nat.sub].
  rewrite skipn_app_exact by exact La. rewrite Ll, Nat.eqb_refl. unfold l.
  rewrite unbe_be_small; [reflexivity|]. change (256 ^ Z.of_nat 8) with (2 ^ 64). lia.
Qed.

Lemma get_stat_immutable name leases' v n data leases :
  v = 1 \/ v = 2 -> (20 <= length data + length leases)%nat ->
  get_stat (Entry name (immutable_file v n data leases) leases') = Ok stat_bucket.
Proof.
  intros V L. unfold get_stat. cbn [e_file].
  assert (F : (32 <= length (immutable_file v n data leases))%nat).
  { unfold immutable_file. rewrite !app_length, !be_length. lia. }
  rewrite firstn_length, Nat.min_l by exact F. change (Nat.ltb 32 32) with false. cbn iota.
  unfold immutable_header_ok. rewrite firstn_firstn. cbn [Nat.min].
  unfold immutable_file. rewrite firstn_app_exact by apply be_length.
  rewrite unbe_be_small by (change (256 ^ Z.of_nat 4) with (2 ^ 32); lia).
  replace ((v =? 1) || (v =? 2)) with true by lia. reflexivity.
Qed.

Lemma immutable_header_magic v rest : immutable_header_ok (firstn 32 (mutable_magic v ++ rest)) = false.
Proof.
  rewrite firstn_app_exact by apply mutable_magic_length.
  unfold immutable_header_ok, mutable_magic. reflexivity.
Qed.

Lemma get_stat_mutable name leases' v nodeid we off slots data rest :
  v = 1 \/ v = 2 ->
  get_stat (Entry name (mutable_file v nodeid we off slots data rest) leases') = Ok stat_slot.
Proof.
  intros V. unfold get_stat. cbn [e_file]. unfold mutable_file. rewrite immutable_header_magic.
  rewrite firstn_app_exact by apply mutable_magic_length. rewrite mutable_magic_length.
  change (Nat.ltb 32 32) with false. cbn iota. unfold mutable_header_ok.
  rewrite firstn_all2 by (rewrite mutable_magic_length; lia).
  destruct V as [-> | ->]; reflexivity.
Qed.

(** ** Listing *)

Lemma share_stats_uniform sharenums st info paths :
  (forall n e, In (n, e) paths -> wanted sharenums n = true -> st e = Ok (info e)) ->
  share_stats_loop (Some st) paths sharenums
  = Ok (map (fun '(n, e) => (n, info e)) (filter (fun '(n, _) => wanted sharenums n) paths)).
Proof.
  induction paths as [|[n e] paths IH]; intros H; cbn; [reflexivity|].
  assert (IH' := IH (fun n' e' I => H n' e' (or_intror I))).
  destruct (wanted sharenums n) eqn:W; [|exact IH'].
  rewrite (H n e (or_introl eq_refl) W). cbn. rewrite IH'. reflexivity.
Qed.

Lemma get_share_stats_uniform sharenums st info dir :
  (forall n e, In (n, e) (get_all_share_paths dir) ->
     get_stat e = Ok st /\ (wanted sharenums n = true -> st e = Ok (info e))) ->
  get_share_stats dir sharenums
  = Ok (map (fun '(n, e) => (n, info e))
          (filter (fun '(n, _) => wanted sharenums n) (get_all_share_paths dir))).
Proof.
  unfold get_share_stats. destruct (get_all_share_paths dir) as [|[n e] paths]; intros H; [reflexivity|].
  rewrite <- (share_stats_uniform sharenums st) by (intros n' e' I; apply (H n' e' I)).
  cbn [share_stats_loop]. destruct (H n e (or_introl eq_refl)) as [-> _]. reflexivity.
Qed.

Lemma numeric_entries_In n e contents :
  In (n, e) (numeric_entries contents) <-> In e contents /\ py_int (e_name e) = Some n.
Proof.
  induction contents as [|c contents IH]; cbn; [tauto|].
  destruct (py_int (e_name c)) eqn:P; cbn; rewrite IH; split.
  - intros [[= -> ->]|[I E]]; auto.
  - intros [[->|I] E]; [left; congruence|auto].
  - intros [I E]; auto.
  - intros [[->|I] E]; [congruence|auto].
Qed.

(** Text with a character that is neither digit, sign, underscore nor blank is
    not a number. *)
Definition int_char (c : byte) : bool :=
  is_digit c || Byte.eqb c x5f || Byte.eqb c x2d || Byte.eqb c x2b || is_space c.

Lemma int_digits_bad s : forall acc b c, In c s -> int_char c = false -> int_digits b acc s = None.
Proof.
  induction s as [|x s IH]; intros acc b c I C; [destruct I|]. cbn. destruct I as [->|I].
  - unfold int_char in C. apply orb_false_iff in C. destruct C as [C _].
    apply orb_false_iff in C. destruct C as [C _]. apply orb_false_iff in C. destruct C as [C _].
    apply orb_false_iff in C. destruct C as [-> ->]. reflexivity.
  - destruct (is_digit x); [eapply IH; eauto|].
    destruct (Byte.eqb x x5f && b); [eapply IH; eauto|reflexivity].
Qed.

Lemma lstrip_keeps c s : In c s -> is_space c = false -> In c (lstrip s).
Proof.
  induction s as [|x s IH]; intros I C; [destruct I|]. cbn. destruct (is_space x) eqn:E; [|exact I].
  destruct I as [->|I]; [congruence|auto].
Qed.

Lemma strip_keeps c s : In c s -> is_space c = false -> In c (strip s).
Proof.
  intros I C. unfold strip. apply in_rev. rewrite rev_involutive.
  apply lstrip_keeps; [|exact C]. apply -> in_rev. apply lstrip_keeps; assumption.
Qed.

Lemma py_int_bad s c : In c s -> int_char c = false -> py_int s = None.
Proof.
  intros I C. unfold py_int.
  assert (S : is_space c = false) by (unfold int_char in C; apply orb_false_iff in C; apply C).
  pose proof (strip_keeps _ _ I S) as I'. destruct (strip s) as [|x t]; [destruct I'|].
  assert (T : x <> c -> In c t) by (destruct I'; [congruence|auto]).
  assert (Hm : Byte.eqb x x2d = true -> x <> c).
  { destruct (byte_eqb_spec x x2d) as [->|]; [|discriminate]. intros _ <-. discriminate C. }
  assert (Hp : Byte.eqb x x2b = true -> x <> c).
  { destruct (byte_eqb_spec x x2b) as [->|]; [|discriminate]. intros _ <-. discriminate C. }
  destruct (Byte.eqb x x2d); [rewrite (int_digits_bad _ _ _ _ (T (Hm eq_refl)) C); reflexivity|].
  destruct (Byte.eqb x x2b); [rewrite (int_digits_bad _ _ _ _ (T (Hp eq_refl)) C); reflexivity|].
  apply (int_digits_bad _ _ _ _ I' C).
Qed.

Lemma numeric_entries_nodup contents :
  (forall e e' n, In e contents -> In e' contents -> py_int (e_name e) = Some n ->
     py_int (e_name e') = Some n -> e_name e = e_name e') ->
  NoDup (map e_name contents) -> NoDup (map fst (numeric_entries contents)).
Proof.
  induction contents as [|c contents IH]; intros C N; cbn; [constructor|].
  inversion N as [|? ? N1 N2]; subst.
  assert (IH' : NoDup (map fst (numeric_entries contents))).
  { apply IH; [|exact N2]. intros e e' n I I'. apply C; right; assumption. }
  destruct (py_int (e_name c)) as [n|] eqn:P; [|exact IH']. cbn. constructor; [|exact IH'].
  intros I. apply in_map_iff in I. destruct I as [[n' e] [E I]]. cbn in E. subst n'.
  apply numeric_entries_In in I. destruct I as [I E]. apply N1. apply in_map_iff. exists e. split; [|exact I].
  symmetry. eapply C; eauto; [left; reflexivity|right; exact I].
Qed.
