(** Lemmas about [BytesModel]. *)
From Verif Require Import Prelude BytesModel.
From Coq Require Import ZifyNat ZifyN.
Ltac Zify.zify_post_hook ::= Z.div_mod_to_equations.
Set Implicit Arguments.

Lemma bz_range b : 0 <= bz b < 256.
Proof. unfold bz. pose proof (Byte.to_N_bounded b). lia. Qed.

Lemma zb_bz b : zb (bz b) = b.
Proof.
  unfold zb. rewrite Z.mod_small by apply bz_range. unfold bz. rewrite N2Z.id, Byte.of_to_N. reflexivity.
Qed.

Lemma bz_zb z : bz (zb z) = z mod 256.
Proof.
  unfold bz, zb. destruct (Byte.of_N (Z.to_N (z mod 256))) as [b|] eqn:E.
  - apply Byte.to_of_N in E. rewrite E. pose proof (Z.mod_pos_bound z 256). lia.
  - exfalso. apply Byte.of_N_None_iff in E. pose proof (Z.mod_pos_bound z 256). lia.
Qed.

Lemma bz_inj a b : bz a = bz b -> a = b.
Proof. intros H. rewrite <- (zb_bz a), <- (zb_bz b), H. reflexivity. Qed.

Lemma byte_eqb_spec a b : reflect (a = b) (Byte.eqb a b).
Proof. destruct (Byte.eqb a b) eqn:E; constructor; [now apply Byte.byte_dec_bl|]. intros ->.
  rewrite (Byte.byte_dec_lb eq_refl) in E; discriminate. Qed.

Lemma bytes_eqb_spec a : forall b, reflect (a = b) (bytes_eqb a b).
Proof.
  induction a as [|x a IH]; intros [|y b]; cbn; try (constructor; congruence).
  destruct (byte_eqb_spec x y) as [->|N]; cbn; [|constructor; congruence].
  destruct (IH b) as [->|N]; constructor; congruence.
Qed.

Lemma bytes_eqb_refl a : bytes_eqb a a = true.
Proof. destruct (bytes_eqb_spec a a); congruence. Qed.

Lemma be_length w : forall n, length (be w n) = w.
Proof. induction w as [|w IH]; intros n; cbn; [reflexivity|]. rewrite app_length, IH. cbn. lia. Qed.

Lemma unbe_app a b : unbe (a ++ [b]) = unbe a * 256 + bz b.
Proof. unfold unbe. rewrite fold_left_app. reflexivity. Qed.

Lemma unbe_be w : forall n, unbe (be w n) = n mod 256 ^ Z.of_nat w.
Proof.
  induction w as [|w IH]; intros n; cbn [be].
  - cbn. rewrite Z.mod_1_r. reflexivity.
  - rewrite unbe_app, IH, bz_zb.
    replace (Z.of_nat (S w)) with (Z.succ (Z.of_nat w)) by lia.
    rewrite Z.pow_succ_r by lia.
    assert (0 < 256 ^ Z.of_nat w) by (apply Z.pow_pos_nonneg; lia).
    rewrite Z.rem_mul_r by lia. lia.
Qed.

Lemma unbe_be_small w n : 0 <= n < 256 ^ Z.of_nat w -> unbe (be w n) = n.
Proof. intros H. rewrite unbe_be. apply Z.mod_small, H. Qed.

Lemma firstn_app_exact A (a b : list A) n : length a = n -> firstn n (a ++ b) = a.
Proof. intros <-. rewrite firstn_app, Nat.sub_diag, firstn_all. cbn. apply app_nil_r. Qed.

Lemma skipn_app_exact A (a b : list A) n : length a = n -> skipn n (a ++ b) = b.
Proof. intros <-. rewrite skipn_app, Nat.sub_diag, skipn_all. reflexivity. Qed.

(** ** Decimal *)

Lemma bz_digit n : 0 <= n < 10 -> bz (digit n) = 48 + n.
Proof. intros H. unfold digit. rewrite bz_zb, Z.mod_small; lia. Qed.

Lemma is_digit_digit n : 0 <= n < 10 -> is_digit (digit n) = true.
Proof. intros H. unfold is_digit. rewrite bz_digit by exact H. lia. Qed.

Fixpoint digits_value (acc : Z) (s : bytes) : Z :=
  match s with [] => acc | c :: s' => digits_value (acc * 10 + (bz c - 48)) s' end.

Lemma int_digits_all s : forall acc b, forallb is_digit s = true -> s <> [] ->
  int_digits b acc s = Some (digits_value acc s).
Proof.
  induction s as [|c s IH]; intros acc b F N; [congruence|]. cbn in F. apply andb_true_iff in F.
  destruct F as [F1 F2]. cbn. rewrite F1. destruct s as [|c' s]; [reflexivity|]. apply IH; congruence.
Qed.

Lemma dec_loop_digits fuel : forall n acc, 0 <= n -> forallb is_digit acc = true ->
  forallb is_digit (dec_loop fuel n acc) = true.
Proof.
  induction fuel as [|f IH]; intros n acc Hn F; cbn; [exact F|].
  destruct (Z.ltb_spec n 10); cbn.
  - rewrite is_digit_digit by lia. exact F.
  - apply IH; [lia|]. cbn. rewrite is_digit_digit by lia. exact F.
Qed.

Lemma dec_loop_value fuel : forall n acc, 0 <= n < 2 ^ Z.of_nat fuel ->
  digits_value 0 (dec_loop fuel n acc) = digits_value n acc.
Proof.
  induction fuel as [|f IH]; intros n acc Hn.
  - cbn. cbn in Hn. replace n with 0 by lia. reflexivity.
  - cbn [dec_loop]. destruct (Z.ltb_spec n 10).
    + cbn. rewrite bz_digit by lia. f_equal. lia.
    + rewrite IH.
      * cbn. rewrite bz_digit by lia. f_equal. lia.
      * replace (Z.of_nat (S f)) with (Z.succ (Z.of_nat f)) in Hn by lia.
        rewrite Z.pow_succ_r in Hn by lia. lia.
Qed.

Lemma dec_loop_nonempty f n acc : acc <> [] \/ f <> O -> dec_loop f n acc <> [].
Proof.
  revert n acc; induction f as [|f IH]; intros n acc [H|H]; cbn; try congruence;
  destruct (n <? 10); try congruence; apply IH; left; congruence.
Qed.

Lemma is_digit_not_space c : is_digit c = true -> is_space c = false.
Proof. unfold is_digit, is_space. lia. Qed.

Lemma lstrip_digits c s : is_space c = false -> lstrip (c :: s) = c :: s.
Proof. cbn. intros ->. reflexivity. Qed.

Lemma strip_nospace s : (forall c, In c s -> is_space c = false) -> strip s = s.
Proof.
  intros H. unfold strip. destruct s as [|c s]; [reflexivity|].
  rewrite lstrip_digits by (apply H; left; reflexivity).
  destruct (rev (c :: s)) as [|c' s'] eqn:E.
  - apply (f_equal (@rev byte)) in E. rewrite rev_involutive in E. discriminate.
  - rewrite lstrip_digits; [rewrite <- E; apply rev_involutive|].
    apply H. apply in_rev. rewrite E. left; reflexivity.
Qed.

Lemma log2_fuel n : 0 <= n -> n < 2 ^ Z.of_nat (S (Z.to_nat (Z.log2 n))).
Proof.
  intros H. destruct (Z.eq_dec n 0) as [->|Hn]; [reflexivity|].
  pose proof (Z.log2_spec n ltac:(lia)). pose proof (Z.log2_nonneg n).
  replace (Z.of_nat (S (Z.to_nat (Z.log2 n)))) with (Z.succ (Z.log2 n)) by lia. lia.
Qed.

Lemma is_digit_not_sign c : is_digit c = true -> Byte.eqb c x2d = false /\ Byte.eqb c x2b = false.
Proof.
  intros H. split; destruct (byte_eqb_spec c x2d), (byte_eqb_spec c x2b); subst; auto; discriminate.
Qed.

(** [int(str(n)) == n] *)
Lemma py_int_dec n : py_int (dec n) = Some n.
Proof.
  unfold dec. destruct (Z.ltb_spec n 0).
  - set (ds := dec_loop _ _ _).
    assert (D : forallb is_digit ds = true) by (apply dec_loop_digits; [lia|reflexivity]).
    assert (N : ds <> []) by (apply dec_loop_nonempty; right; discriminate).
    unfold py_int. rewrite strip_nospace.
    + cbn [Byte.eqb]. change (Byte.eqb x2d x2d) with true. cbn iota.
      rewrite int_digits_all by assumption. unfold ds. rewrite dec_loop_value.
      * cbn. f_equal. lia.
      * split; [lia|]. apply log2_fuel. lia.
    + rewrite forallb_forall in D. intros c [<-|I]; [reflexivity|]. apply is_digit_not_space; auto.
  - set (ds := dec_loop _ _ _).
    assert (D : forallb is_digit ds = true) by (apply dec_loop_digits; [lia|reflexivity]).
    assert (N : ds <> []) by (apply dec_loop_nonempty; right; discriminate).
    assert (V : digits_value 0 ds = n).
    { unfold ds. rewrite dec_loop_value; [reflexivity|]. split; [lia|]. apply log2_fuel. lia. }
    unfold py_int. rewrite strip_nospace.
    + destruct ds as [|c s]; [congruence|]. pose proof D as D'. cbn in D'. apply andb_true_iff in D'.
      destruct (is_digit_not_sign _ (proj1 D')) as [-> ->].
      rewrite int_digits_all by assumption. rewrite V. reflexivity.
    + rewrite forallb_forall in D. intros c I. apply is_digit_not_space; auto.
Qed.

Lemma dec_inj a b : dec a = dec b -> a = b.
Proof. intros H. pose proof (py_int_dec a) as E. rewrite H, py_int_dec in E. congruence. Qed.

(** ** Splitting *)

Lemma split_on_nosep sep s : ~ In sep s -> split_on sep s = [s].
Proof.
  induction s as [|c s IH]; intros H; [reflexivity|]. cbn.
  destruct (byte_eqb_spec c sep) as [->|N]; [exfalso; apply H; left; reflexivity|].
  rewrite IH; [reflexivity|]. intros I. apply H. right. exact I.
Qed.

Lemma split_on_app sep s t : ~ In sep s -> split_on sep (s ++ sep :: t) = s :: split_on sep t.
Proof.
  induction s as [|c s IH]; intros H.
  - cbn. destruct (byte_eqb_spec sep sep); congruence.
  - cbn. destruct (byte_eqb_spec c sep) as [->|N]; [exfalso; apply H; left; reflexivity|].
    rewrite IH; [reflexivity|]. intros I. apply H. right. exact I.
Qed.

Lemma split_on_parts sep s : forall w, In w (split_on sep s) -> ~ In sep w.
Proof.
  induction s as [|c s IH]; cbn.
  - intros w [<-|[]] [].
  - destruct (byte_eqb_spec c sep) as [->|N].
    + intros w [<-|I]; [intros []|auto].
    + destruct (split_on sep s) as [|w' ws].
      * intros w [<-|[]] [E|[]]. congruence.
      * intros w [<-|I].
        -- intros [E|E]; [congruence|]. exact (IH w' (or_introl eq_refl) E).
        -- apply IH. right. exact I.
Qed.

Lemma split_on_two sep s a b : split_on sep s = [a; b] -> s = a ++ sep :: b.
Proof.
  assert (G : forall s, exists w ws, split_on sep s = w :: ws /\
              s = fold_left (fun acc x => acc ++ sep :: x) ws w).
  { clear. induction s as [|c s (w & ws & E & F)]; cbn; [exists [], []; auto|].
    destruct (byte_eqb_spec c sep) as [->|N].
    - rewrite E. exists [], (w :: ws). split; [reflexivity|]. cbn. rewrite F at 1. clear.
      assert (G : forall w0, sep :: fold_left (fun acc x => acc ++ sep :: x) ws w0
              = fold_left (fun acc x => acc ++ sep :: x) ws (sep :: w0)).
      { induction ws as [|x ws IH]; intros w0; cbn; [reflexivity|]. rewrite IH. reflexivity. }
      apply G.
    - rewrite E. exists (c :: w), ws. split; [reflexivity|]. rewrite F at 1. clear.
      assert (G : forall w0, c :: fold_left (fun acc x => acc ++ sep :: x) ws w0
              = fold_left (fun acc x => acc ++ sep :: x) ws (c :: w0)).
      { induction ws as [|x ws IH]; intros w0; cbn; [reflexivity|]. rewrite IH. reflexivity. }
      apply G. }
  destruct (G s) as (w & ws & E & F). rewrite E. intros [= -> ->]. exact F.
Qed.

(** ** Base64 *)

Definition all64 : list Z := map Z.of_nat (seq 0 64).

Lemma b64char_sweep :
  forallb (fun a => forallb (fun b => if a =? b then true else negb (Byte.eqb (b64char a) (b64char b))) all64) all64 = true.
Proof. vm_compute. reflexivity. Qed.

Lemma in_all64 n : 0 <= n < 64 -> In n all64.
Proof.
  intros H. unfold all64. apply in_map_iff. exists (Z.to_nat n). split; [lia|]. apply in_seq. lia.
Qed.

Lemma b64char_inj a b : 0 <= a < 64 -> 0 <= b < 64 -> b64char a = b64char b -> a = b.
Proof.
  intros Ha Hb E. pose proof b64char_sweep as S. rewrite forallb_forall in S.
  specialize (S a (in_all64 Ha)). rewrite forallb_forall in S. specialize (S b (in_all64 Hb)).
  destruct (Z.eqb_spec a b); [assumption|]. rewrite E in S.
  destruct (byte_eqb_spec (b64char b) (b64char b)); [discriminate|congruence].
Qed.

Lemma b64char_not_pad_sweep : forallb (fun a => negb (Byte.eqb (b64char a) x3d)) all64 = true.
Proof. vm_compute. reflexivity. Qed.

Lemma b64char_not_pad a : 0 <= a < 64 -> b64char a <> x3d.
Proof.
  intros Ha E. pose proof b64char_not_pad_sweep as S. rewrite forallb_forall in S.
  specialize (S a (in_all64 Ha)). rewrite E in S. discriminate.
Qed.

Lemma list3_ind A (Q : list A -> Prop) :
  Q [] -> (forall a, Q [a]) -> (forall a b, Q [a; b]) ->
  (forall a b c s, Q s -> Q (a :: b :: c :: s)) -> forall s, Q s.
Proof.
  intros H0 H1 H2 H3. fix IH 1. intros [|a [|b [|c s]]]; [exact H0|apply H1|apply H2|].
  apply H3. apply IH.
Qed.

Ltac b64_bounds :=
  repeat match goal with
  | b : byte |- _ => lazymatch goal with
     | _ : 0 <= bz b < 256 |- _ => fail
     | _ => pose proof (bz_range b) end
  end.
Ltac b64_step E :=
  injection E; clear E; intros;
  repeat match goal with
  | H : b64char ?x = b64char ?y |- _ => apply b64char_inj in H; [|lia|lia]
  | H : b64char ?x = x3d |- _ => exfalso; revert H; apply b64char_not_pad; lia
  | H : x3d = b64char ?x |- _ => exfalso; symmetry in H; revert H; apply b64char_not_pad; lia
  end.

Lemma b64encode_inj : forall s t, b64encode s = b64encode t -> s = t.
Proof.
  intros s. induction s as [|a|a b|a b c s IH] using list3_ind; intros t E;
  destruct t as [|a' [|b' [|c' t]]]; cbn [b64encode] in E; try discriminate E; b64_bounds;
  try reflexivity; b64_step E;
  try (repeat f_equal; try (apply bz_inj; lia); auto; fail).
Qed.
