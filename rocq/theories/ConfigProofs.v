(** Lemmas for C103 to C105. *)
From Verif Require Import Prelude BytesModel BytesProofs PassModel ConfigModel ConfigSpec.
Set Implicit Arguments.

Lemma is_space_blank b : is_space b = true <-> blank b.
Proof.
  unfold is_space, blank. rewrite orb_true_iff, !andb_true_iff, !Z.leb_le. lia.
Qed.
Lemma comma_not_blank : ~ blank x2c.
Proof. unfold blank. change (bz x2c) with 44. lia. Qed.
Lemma blanks_no_comma s : blanks s -> ~ In x2c s.
Proof. intros B I. apply comma_not_blank, B, I. Qed.

Lemma lstrip_blanks a s : blanks a -> lstrip (a ++ s) = lstrip s.
Proof.
  induction a as [|c a IH]; intros B; [reflexivity|]. cbn.
  rewrite (proj2 (is_space_blank c) (B c (or_introl eq_refl))). apply IH. intros b I. apply B. right. exact I.
Qed.
Lemma blanks_rev s : blanks s -> blanks (rev s).
Proof. intros B b I. apply B. apply in_rev. exact I. Qed.
Lemma lstrip_all a : blanks a -> lstrip a = [].
Proof. intros B. rewrite <- (app_nil_r a), lstrip_blanks by exact B. reflexivity. Qed.

(** Neither end of it is blank. *)
Definition trim (s : bytes) : Prop := s = [] \/ exists c m d, (s = [c] \/ s = c :: m ++ [d]) /\ ~ blank c /\ (s = [c] \/ ~ blank d).

Lemma lstrip_start c s : ~ blank c -> lstrip (c :: s) = c :: s.
Proof.
  intros N. cbn. destruct (is_space c) eqn:E; [|reflexivity]. exfalso. apply N, is_space_blank. exact E.
Qed.
Lemma lstrip_trim w : trim w -> lstrip w = w.
Proof.
  intros [->|(c & m & d & [->| ->] & N & _)]; [reflexivity|apply lstrip_start; exact N..].
Qed.
Lemma trim_rev w : trim w -> trim (rev w).
Proof.
  intros [->|(c & m & d & [->| ->] & N & X)]; [left; reflexivity|right; exists c, [], c; cbn; auto|].
  right. destruct X as [X|X].
  - destruct m; discriminate X.
  - exists d, (rev m), c. cbn. rewrite rev_app_distr. cbn. auto.
Qed.
Lemma strip_padded w v : trim w -> padded w v -> strip v = w.
Proof.
  intros T (a & b & Ba & Bb & ->). unfold strip. rewrite lstrip_blanks by exact Ba.
  destruct w as [|c w].
  - cbn [app]. rewrite (lstrip_all Bb). reflexivity.
  - assert (Nc : ~ blank c) by (destruct T as [T|(x & m & d & [T|T] & N & _)]; [discriminate|injection T as -> ->; exact N..]).
    rewrite <- app_comm_cons, lstrip_start by exact Nc. rewrite app_comm_cons, rev_app_distr.
    rewrite lstrip_blanks by (apply blanks_rev; exact Bb). rewrite lstrip_trim by (apply trim_rev; exact T). apply rev_involutive.
Qed.

Lemma word_trim w : word w -> trim w.
Proof.
  intros W. destruct w as [|c w]; [left; reflexivity|]. right.
  destruct (@exists_last _ (c :: w) ltac:(discriminate)) as (m & d & E). destruct m as [|c' m].
  - cbn in E. injection E as -> ->. exists d, [], d. split; [auto|]. split; [apply W; left; reflexivity|auto].
  - cbn in E. injection E as <- E. exists c, m, d. rewrite E. split; [auto|]. split; [apply W; left; reflexivity|].
    right. apply W. right. rewrite E. apply in_or_app. right. left. reflexivity.
Qed.
Lemma word_no_comma w : word w -> ~ In x2c w.
Proof. intros W I. apply W in I. tauto. Qed.
Lemma padded_no_comma w v : word w -> padded w v -> ~ In x2c v.
Proof.
  intros W (a & b & Ba & Bb & ->) I. apply in_app_or in I as [I|I]; [exact (blanks_no_comma Ba I)|].
  apply in_app_or in I as [I|I]; [exact (word_no_comma W I)|exact (blanks_no_comma Bb I)].
Qed.

(** ** Lists *)

Lemma split_list (item : bytes -> bytes -> Prop) ws v :
  (forall w u, In w ws -> item w u -> ~ In x2c u) -> comma_list item ws v -> Forall2 item ws (split_on x2c v).
Proof.
  intros N H. induction H as [w v I|w v ws t I H IH].
  - rewrite split_on_nosep by (apply (N w); [left; reflexivity|exact I]). auto.
  - cbn [app]. rewrite split_on_app by (apply (N w); [left; reflexivity|exact I]). constructor; [exact I|].
    apply IH. intros w' u J. apply N. right. exact J.
Qed.

Lemma strip_list ws v : (forall w, In w ws -> word w) -> comma_list padded ws v -> map strip (split_on x2c v) = ws.
Proof.
  intros W H. apply split_list in H; [|intros w u I; apply padded_no_comma; auto].
  induction H as [|w u ws us P H IH]; [reflexivity|]. cbn. f_equal.
  - apply strip_padded; [apply word_trim, W; left; reflexivity|exact P].
  - apply IH. intros w' I. apply W. right. exact I.
Qed.

Lemma plain_list ws v : (forall w, In w ws -> word w) -> comma_list eq ws v -> split_on x2c v = ws.
Proof.
  intros W H. apply split_list in H; [|intros w u I <-; apply word_no_comma; auto].
  induction H as [|w u ws us <- H IH]; [reflexivity|]. f_equal. apply IH. intros w' I. apply W. right. exact I.
Qed.

Lemma plain_chars ws v : (forall w, In w ws -> word w) -> comma_list eq ws v -> forall b, In b v -> ~ blank b.
Proof.
  intros W H. induction H as [w v <-|w v ws t <- H IH]; intros b I.
  - apply (W w); [left; reflexivity|exact I].
  - apply in_app_or in I as [I|I]; [apply (W w); [left; reflexivity|exact I]|].
    destruct I as [<-|I]; [exact comma_not_blank|]. apply IH; [|exact I]. intros w' J. apply W. right. exact J.
Qed.

Lemma free_trim v : (forall b, In b v -> ~ blank b) -> trim v.
Proof.
  intros W. destruct v as [|c w]; [left; reflexivity|]. right.
  destruct (@exists_last _ (c :: w) ltac:(discriminate)) as (m & d & E). destruct m as [|c' m].
  - cbn in E. injection E as -> ->. exists d, [], d. split; [auto|]. split; [apply W; left; reflexivity|auto].
  - cbn in E. injection E as <- E. exists c, m, d. rewrite E. split; [auto|]. split; [apply W; left; reflexivity|].
    right. apply W. right. rewrite E. apply in_or_app. right. left. reflexivity.
Qed.

Lemma existsb_In x l : existsb (bytes_eqb x) l = true <-> In x l.
Proof.
  rewrite existsb_exists. split.
  - intros (y & I & E). destruct (bytes_eqb_spec x y); [subst; exact I|discriminate].
  - intros I. exists x. split; [exact I|apply bytes_eqb_refl].
Qed.

(** ** Numbers *)
Lemma is_digit_digit b : is_digit b = true <-> digit b.
Proof. unfold is_digit, digit. rewrite andb_true_iff, !Z.leb_le. tauto. Qed.
Lemma int_digits_chars s : forall a acc n, int_digits a acc s = Some n ->
  (forall b, In b s -> digit b \/ b = x5f) /\ (a = false -> exists b, In b s /\ digit b).
Proof.
  induction s as [|c s IH]; intros a acc n H; cbn [int_digits] in H.
  - split; [intros b []|]. intros ->. discriminate.
  - destruct (is_digit c) eqn:D.
    + apply is_digit_digit in D. apply IH in H as [H _]. split; [intros b [<-|J]; auto|]. intros _. exists c. split; [now left|exact D].
    + destruct (Byte.eqb c x5f && a) eqn:E; [|discriminate]. apply andb_true_iff in E as [E ->]. apply Byte.byte_dec_bl in E. subst c.
      apply IH in H as [H _]. split; [intros b [<-|J]; auto|discriminate].
Qed.
Lemma lstrip_split s : exists a, s = a ++ lstrip s /\ blanks a.
Proof.
  induction s as [|c s (a & E & B)]; [exists []; split; [reflexivity|intros b []]|]. cbn [lstrip]. destruct (is_space c) eqn:S.
  - exists (c :: a). cbn. rewrite <- E. split; [reflexivity|]. intros b [<-|J]; [|exact (B b J)].
    unfold is_space in S. apply orb_true_iff in S. unfold blank. rewrite !andb_true_iff, !Z.leb_le in S. exact S.
  - exists []. split; [reflexivity|intros b []].
Qed.
Lemma strip_chars s b : In b s -> blank b \/ In b (strip s).
Proof.
  intros J. unfold strip. destruct (lstrip_split s) as (a & E & B). rewrite E in J. apply in_app_or in J as [J|J]; [left; exact (B b J)|].
  apply in_rev in J. destruct (lstrip_split (rev (lstrip s))) as (a' & E' & B'). rewrite E' in J. apply in_app_or in J as [J|J]; [left; exact (B' b J)|].
  right. now apply -> in_rev.
Qed.
Lemma lstrip_incl s b : In b (lstrip s) -> In b s.
Proof. induction s as [|c s IH]; cbn; [auto|]. destruct (is_space c); [right; auto|auto]. Qed.
Lemma strip_incl s b : In b (strip s) -> In b s.
Proof. unfold strip. intros J. apply in_rev, lstrip_incl in J. apply in_rev in J. now apply lstrip_incl. Qed.
Lemma py_int_not_a_number v : not_a_number v -> py_int v = None.
Proof.
  intros N. destruct (py_int v) as [n|] eqn:E; [exfalso|reflexivity].
  assert (X : (forall b, In b (strip v) -> digit b \/ b = x5f \/ b = x2b \/ b = x2d) /\ exists b, In b (strip v) /\ digit b).
  { unfold py_int in E. destruct (strip v) as [|c s]; [discriminate|].
    destruct (Byte.eqb c x2d) eqn:M; [|destruct (Byte.eqb c x2b) eqn:P].
    - apply Byte.byte_dec_bl in M. subst c. destruct (int_digits false 0 s) as [k|] eqn:I; [|discriminate]. apply int_digits_chars in I as [A B].
      split; [intros b [<-|J]; [auto|destruct (A b J); auto]|]. destruct (B eq_refl) as (b & J & D). exists b. split; [now right|exact D].
    - apply Byte.byte_dec_bl in P. subst c. apply int_digits_chars in E as [A B].
      split; [intros b [<-|J]; [auto|destruct (A b J); auto]|]. destruct (B eq_refl) as (b & J & D). exists b. split; [now right|exact D].
    - apply int_digits_chars in E as [A B]. split; [intros b J; destruct (A b J); auto|exact (B eq_refl)]. }
  destruct X as [A (d & Jd & D)]. destruct N as [(b & J & N1 & N2 & N3 & N4 & N5)|N].
  - apply strip_chars in J as [J|J]; [contradiction|]. apply A in J. tauto.
  - exact (N d (strip_incl _ _ Jd) D).
Qed.
