(** UTF-8 and CBOR round trips. *)
From Verif Require Import Prelude PreludeFacts BytesModel BytesProofs CborModel.
Set Implicit Arguments.

Lemma text_eqb_spec a : forall b, reflect (a = b) (text_eqb a b).
Proof.
  induction a as [|x a IH]; destruct b as [|y b]; cbn; try (constructor; congruence).
  destruct (Z.eqb_spec x y) as [->|N]; cbn; [|constructor; congruence].
  destruct (IH b) as [->|N]; constructor; congruence.
Qed.

Lemma text_eqb_refl a : text_eqb a a = true.
Proof. destruct (text_eqb_spec a a); congruence. Qed.

Lemma startswith_app p s : startswith p (p ++ s) = true.
Proof. induction p; cbn; [reflexivity|]. rewrite Z.eqb_refl. exact IHp. Qed.

Lemma startswith_spec p : forall s, startswith p s = true <-> exists t, s = p ++ t.
Proof.
  induction p as [|x p IH]; intros s; cbn.
  - split; [intros _; exists s; reflexivity|reflexivity].
  - destruct s as [|y s]; [split; [discriminate|intros [t E]; discriminate E]|].
    rewrite andb_true_iff, Z.eqb_eq, IH. split.
    + intros [-> [t ->]]. exists t. reflexivity.
    + intros [t E]. injection E as -> ->. split; [reflexivity|exists t; reflexivity].
Qed.

(** ** UTF-8 *)

Lemma bz_zb_small z : 0 <= z < 256 -> bz (zb z) = z.
Proof. intros H. rewrite bz_zb. apply Z.mod_small; lia. Qed.

Lemma utf8_char_decode c s : is_scalar c = true ->
  utf8_decode (utf8_char c ++ s) = option_map (cons c) (utf8_decode s).
Proof.
  unfold is_scalar. intros H.
  assert (R : 0 <= c < 55296 \/ 57344 <= c < 1114112) by lia. clear H.
  unfold utf8_char.
  destruct (Z.ltb_spec c 128) as [L|L].
  { cbn [app utf8_decode]. rewrite bz_zb_small by lia.
    destruct (Z.ltb_spec c 128); [reflexivity|lia]. }
  pose proof (Z.div_mod c 64 ltac:(lia)) as D0. pose proof (Z.mod_pos_bound c 64 ltac:(lia)) as B0.
  destruct (Z.ltb_spec c 2048) as [L2|L2].
  { cbn [app utf8_decode]. unfold is_cont, cont.
    assert (2 <= c / 64 < 32) by lia.
    rewrite !bz_zb_small by lia.
    replace (192 + c / 64 <? 128) with false by lia.
    replace ((194 <=? 192 + c / 64) && (192 + c / 64 <? 224)) with true by lia.
    replace ((128 <=? 128 + c mod 64) && (128 + c mod 64 <? 192)) with true by lia.
    f_equal. f_equal. lia. }
  pose proof (Z.div_mod (c / 64) 64 ltac:(lia)) as D1. pose proof (Z.mod_pos_bound (c / 64) 64 ltac:(lia)) as B1.
  assert (Q : c / 64 / 64 = c / 4096) by (rewrite Z.div_div by lia; reflexivity).
  rewrite Q in D1.
  destruct (Z.ltb_spec c 65536) as [L3|L3].
  { cbn [app utf8_decode]. unfold is_cont, cont.
    assert (0 <= c / 4096 < 16) by lia.
    rewrite !bz_zb_small by lia.
    replace (224 + c / 4096 <? 128) with false by lia.
    replace ((194 <=? 224 + c / 4096) && (224 + c / 4096 <? 224)) with false by lia.
    replace ((224 <=? 224 + c / 4096) && (224 + c / 4096 <? 240)) with true by lia.
    replace ((224 + c / 4096 - 224) * 4096 + (128 + c / 64 mod 64 - 128) * 64 + (128 + c mod 64 - 128)) with c by lia.
    cbv zeta.
    match goal with |- (if ?b then _ else _) = _ => replace b with true end; [reflexivity|].
    unfold is_scalar. lia. }
  pose proof (Z.div_mod (c / 4096) 64 ltac:(lia)) as D2. pose proof (Z.mod_pos_bound (c / 4096) 64 ltac:(lia)) as B2.
  assert (Q2 : c / 4096 / 64 = c / 262144) by (rewrite Z.div_div by lia; reflexivity).
  rewrite Q2 in D2.
  cbn [app utf8_decode]. unfold is_cont, cont.
  assert (0 <= c / 262144 < 5) by lia.
  rewrite !bz_zb_small by lia.
  replace (240 + c / 262144 <? 128) with false by lia.
  replace ((194 <=? 240 + c / 262144) && (240 + c / 262144 <? 224)) with false by lia.
  replace ((224 <=? 240 + c / 262144) && (240 + c / 262144 <? 240)) with false by lia.
  replace ((240 <=? 240 + c / 262144) && (240 + c / 262144 <? 245)) with true by lia.
  replace ((240 + c / 262144 - 240) * 262144 + (128 + c / 4096 mod 64 - 128) * 4096 +
           (128 + c / 64 mod 64 - 128) * 64 + (128 + c mod 64 - 128)) with c by lia.
  cbv zeta.
  match goal with |- (if ?b then _ else _) = _ => replace b with true end; [reflexivity|].
  unfold is_scalar. lia.
Qed.

Theorem utf8_round s : forall u, utf8_encode s = Some u -> utf8_decode u = Some s.
Proof.
  induction s as [|c s IH]; intros u E; cbn in E.
  - injection E as <-. reflexivity.
  - destruct (is_scalar c) eqn:C; [|discriminate E].
    destruct (utf8_encode s) as [v|] eqn:V; [|discriminate E]. injection E as <-.
    rewrite utf8_char_decode by exact C. rewrite (IH v eq_refl). reflexivity.
Qed.

Lemma utf8_encode_ok s : forallb is_scalar s = true <-> exists u, utf8_encode s = Some u.
Proof.
  induction s as [|c s IH]; cbn; [split; eauto|].
  destruct (is_scalar c); cbn; [|split; [discriminate|intros [u E]; discriminate E]].
  rewrite IH. split; intros [u E].
  - rewrite E. cbn. eauto.
  - destruct (utf8_encode s); [eauto|discriminate E].
Qed.

Lemma ascii_encode s : (forall b, In b s -> bz b < 128) -> utf8_encode (ascii s) = Some s.
Proof.
  induction s as [|b s IH]; intros H; [reflexivity|]. cbn [ascii map utf8_encode].
  fold (ascii s). pose proof (bz_range b). pose proof (H b (or_introl eq_refl)) as L.
  replace (is_scalar (bz b)) with true by (unfold is_scalar; lia).
  rewrite IH by (intros x X; apply H; right; exact X). cbn. unfold utf8_char.
  replace (bz b <? 128) with true by lia. rewrite zb_bz. reflexivity.
Qed.

Lemma utf8_decode_ascii s : (forall b, In b s -> bz b < 128) -> utf8_decode s = Some (ascii s).
Proof. intros H. apply utf8_round, ascii_encode, H. Qed.

(** ** Heads *)

Lemma take_bytes_app a s : take_bytes (lenN a) (a ++ s) = Some (a, s).
Proof.
  unfold take_bytes, lenN. rewrite app_length, Nat2Z.id.
  replace (Z.of_nat (length a) <=? Z.of_nat (length a + length s)) with true by lia.
  rewrite firstn_app_exact, skipn_app_exact by reflexivity. reflexivity.
Qed.

Lemma take_be w n s : take_bytes (Z.of_nat w) (be w n ++ s) = Some (be w n, s).
Proof.
  pose proof (take_bytes_app (be w n) s) as H. unfold lenN in H. rewrite be_length in H. exact H.
Qed.

Lemma head_cases major n h : 0 <= major < 8 -> 0 <= n -> head major n = Some h ->
  n < two64 /\ exists b s, h = b :: s /\ bz b / 32 = major /\
    (forall rest, read_head (h ++ rest) = Some (bz b, n, rest)) /\
    (n < 24 -> bz b = major * 32 + n).
Proof.
  intros M N. unfold head.
  assert (R : forall k, 0 <= k < 32 -> bz (zb (major * 32 + k)) = major * 32 + k /\
                          (major * 32 + k) / 32 = major /\ (major * 32 + k) mod 32 = k).
  { intros k K. rewrite bz_zb_small by lia.
    pose proof (Z.div_mod (major * 32 + k) 32 ltac:(lia)).
    pose proof (Z.mod_pos_bound (major * 32 + k) 32 ltac:(lia)). lia. }
  destruct (Z.ltb_spec n 24) as [L|L].
  { intros E. injection E as <-. destruct (R n ltac:(lia)) as (R1 & R2 & R3).
    split; [unfold two64; lia|]. exists (zb (major * 32 + n)), []. split; [reflexivity|].
    rewrite R1. split; [exact R2|]. split; [|reflexivity].
    intros rest. cbn [app]. unfold read_head. rewrite R1, R3.
    replace (n <? 24) with true by lia. reflexivity. }
  assert (G : forall k w, 24 <= k <= 27 -> 
      (k = 24 /\ w = 1%nat \/ k = 25 /\ w = 2%nat \/ k = 26 /\ w = 4%nat \/ k = 27 /\ w = 8%nat) ->
      n < 256 ^ Z.of_nat w -> 
      Some (zb (major * 32 + k) :: be w n) = Some h ->
      exists b s, h = b :: s /\ bz b / 32 = major /\
    (forall rest, read_head (h ++ rest) = Some (bz b, n, rest)) /\
    (n < 24 -> bz b = major * 32 + n)).
  { intros k w K W B E. injection E as <-. destruct (R k ltac:(lia)) as (R1 & R2 & R3).
    exists (zb (major * 32 + k)), (be w n). split; [reflexivity|]. rewrite R1. split; [exact R2|].
    split; [|lia]. intros rest. cbn [app]. unfold read_head. rewrite R1, R3.
    assert (U : unbe (be w n) = n) by (apply unbe_be_small; lia).
    pose proof (take_be w n rest) as T.
    destruct W as [[-> ->]|[[-> ->]|[[-> ->]|[-> ->]]]]; cbn [Z.ltb Z.eqb Z.compare Pos.compare Pos.compare_cont Pos.eqb];
      cbn [Z.of_nat Pos.of_succ_nat Pos.succ] in T; rewrite T, U; reflexivity. }
  destruct (Z.ltb_spec n 256) as [L1|L1].
  { intros E. split; [unfold two64; lia|]. apply (G 24 1%nat); [lia|lia|cbn; lia|exact E]. }
  destruct (Z.ltb_spec n 65536) as [L2|L2].
  { intros E. split; [unfold two64; lia|]. apply (G 25 2%nat); [lia|lia|cbn; lia|exact E]. }
  destruct (Z.ltb_spec n 4294967296) as [L3|L3].
  { intros E. split; [unfold two64; lia|]. apply (G 26 4%nat); [lia|lia|cbn; lia|exact E]. }
  destruct (Z.ltb_spec n two64) as [L4|L4]; [|discriminate].
  intros E. split; [exact L4|]. apply (G 27 8%nat); [lia|lia|exact L4|exact E].
Qed.

Lemma head_ok major n : 0 <= n -> (exists h, head major n = Some h) <-> n < two64.
Proof.
  intros N. unfold head. assert (T : two64 = 18446744073709551616) by reflexivity.
  destruct (Z.ltb_spec n 24); [split; [lia|eauto]|].
  destruct (Z.ltb_spec n 256); [split; [lia|eauto]|].
  destruct (Z.ltb_spec n 65536); [split; [lia|eauto]|].
  destruct (Z.ltb_spec n 4294967296); [split; [lia|eauto]|].
  destruct (Z.ltb_spec n two64); [split; [lia|eauto]|].
  split; [intros [h E]; discriminate E|lia].
Qed.

(** ** Dates *)

Lemma digits_length w : forall n, length (digits w n) = w.
Proof. induction w; intros n; cbn; [reflexivity|]. rewrite app_length, IHw. cbn. lia. Qed.

Lemma digits_digits w : forall n, forallb is_digit (digits w n) = true.
Proof.
  induction w; intros n; cbn; [reflexivity|]. rewrite forallb_app, IHw. cbn.
  rewrite is_digit_digit; [reflexivity|]. pose proof (Z.mod_pos_bound n 10). lia.
Qed.

Lemma digits_value_app a : forall b acc, digits_value acc (a ++ b) = digits_value (digits_value acc a) b.
Proof. induction a; intros b acc; cbn; [reflexivity|apply IHa]. Qed.

Lemma digits_number w : forall n acc, 0 <= n < 10 ^ Z.of_nat w ->
  digits_value acc (digits w n) = acc * 10 ^ Z.of_nat w + n.
Proof.
  induction w as [|w IH]; intros n acc H.
  - cbn in *. lia.
  - cbn [digits]. rewrite digits_value_app. cbn [digits_value].
    rewrite Nat2Z.inj_succ, Z.pow_succ_r in * by lia.
    assert (0 <= n / 10 < 10 ^ Z.of_nat w).
    { split; [apply Z.div_pos; lia|apply Z.div_lt_upper_bound; lia]. }
    rewrite IH by assumption. pose proof (Z.mod_pos_bound n 10 ltac:(lia)). rewrite bz_digit by lia.
    pose proof (Z.div_mod n 10 ltac:(lia)). nia.
Qed.

Lemma take_digits_app w n s : w <> O -> 0 <= n < 10 ^ Z.of_nat w ->
  take_digits w (digits w n ++ s) = Some (n, s).
Proof.
  intros W H. unfold take_digits. rewrite firstn_app_exact, skipn_app_exact by apply digits_length.
  rewrite digits_length, Nat.eqb_refl, digits_digits. cbn [andb].
  rewrite int_digits_all; [|apply digits_digits|].
  - rewrite digits_number by exact H. reflexivity.
  - intros E. pose proof (digits_length w n) as L. rewrite E in L. cbn in L. congruence.
Qed.

Lemma take_char_app c s : take_char c (c :: s) = Some s.
Proof. cbn. destruct (byte_eqb_spec c c); congruence. Qed.

Lemma parse_isoformat d : date_ok d = true -> parse_date (isoformat d) = Some d.
Proof.
  intros K. pose proof K as H. unfold date_ok in H.
  assert (D : days_in_month (d_year d) (d_month d) <= 31).
  { unfold days_in_month. destruct (_ =? 2); [destruct (is_leap _); lia|]. destruct (memZ _ _); lia. }
  destruct d as [y mo da h mi se us]. cbn [d_year d_month d_day d_hour d_minute d_second d_micro] in *.
  unfold parse_date, isoformat. cbn [d_year d_month d_day d_hour d_minute d_second d_micro].
  cbn [app].
  repeat (rewrite take_digits_app by (first [discriminate | cbn; lia]); rewrite take_char_app).
  rewrite take_digits_app by (first [discriminate | cbn; lia]).
  destruct (Z.eqb_spec us 0) as [->|U].
  - cbn [app]. replace (take_char x2e [x5a]) with (@None bytes) by reflexivity.
    rewrite take_char_app. rewrite K. reflexivity.
  - cbn [app]. rewrite take_char_app.
    rewrite take_digits_app by (first [discriminate | cbn; lia]).
    rewrite take_char_app. rewrite K. reflexivity.
Qed.

Lemma digits_ascii w : forall n b, In b (digits w n) -> bz b < 128.
Proof.
  intros n b H. assert (G : is_digit b = true).
  { pose proof (digits_digits w n) as F. rewrite forallb_forall in F. apply F, H. }
  unfold is_digit in G. lia.
Qed.

Lemma isoformat_ascii d b : In b (isoformat d) -> bz b < 128.
Proof.
  unfold isoformat. intros H.
  repeat (apply in_app_or in H; destruct H as [H|H];
    [first [apply digits_ascii in H; exact H
           | cbn in H; destruct H as [<-|[]]; reflexivity
           | idtac]|]).
  - destruct (d_micro d =? 0); [destruct H|]. destruct H as [<-|H]; [reflexivity|].
    apply digits_ascii in H. exact H.
  - cbn in H. destruct H as [<-|[]]. reflexivity.
Qed.

(** ** Values *)

Section CvalInd.
Variable P : cval -> Prop.
Hypothesis Hint : forall n, P (CInt n).
Hypothesis Hbytes : forall s, P (CBytes s).
Hypothesis Htext : forall s, P (CText s).
Hypothesis Harr : forall l, Forall P l -> P (CArr l).
Hypothesis Hmap : forall l, Forall (fun kv => P (fst kv) /\ P (snd kv)) l -> P (CMap l).
Hypothesis Hbool : forall b, P (CBool b).
Hypothesis Hnull : P CNull.
Hypothesis Hfloat : forall n, P (CFloat n).
Hypothesis Hdate : forall d, P (CDate d).

Fixpoint cval_ind' (v : cval) : P v :=
  match v with
  | CInt n => Hint n
  | CBytes s => Hbytes s
  | CText s => Htext s
  | CArr l => Harr ((fix all l := match l return Forall P l with
                                  | [] => Forall_nil _
                                  | x :: l' => Forall_cons x (cval_ind' x) (all l') end) l)
  | CMap l => Hmap ((fix all l := match l return Forall (fun kv => P (fst kv) /\ P (snd kv)) l with
                                  | [] => Forall_nil _
                                  | kv :: l' => Forall_cons kv (conj (cval_ind' (fst kv)) (cval_ind' (snd kv))) (all l') end) l)
  | CBool b => Hbool b
  | CNull => Hnull
  | CFloat n => Hfloat n
  | CDate d => Hdate d
  end.
End CvalInd.

Fixpoint encode_all (l : list cval) : option bytes :=
  match l with [] => Some [] | x :: l' => oapp (encode x) (encode_all l') end.
Fixpoint flatten (l : list (cval * cval)) : list cval :=
  match l with [] => [] | (k, x) :: l' => k :: x :: flatten l' end.

Lemma encode_arr l : encode (CArr l) = oapp (head 4 (lenN l)) (encode_all l).
Proof. cbn [encode]. f_equal. Qed.
Lemma encode_map l : encode (CMap l) = oapp (head 5 (lenN l)) (encode_all (flatten l)).
Proof.
  cbn [encode]. f_equal. induction l as [|[k x] l IH]; [reflexivity|]. cbn. rewrite IH. reflexivity.
Qed.

Lemma pairs_flatten l : pairs (flatten l) = Some l.
Proof. induction l as [|[k x] l IH]; [reflexivity|]. cbn. rewrite IH. reflexivity. Qed.
Lemma flatten_length l : length (flatten l) = (2 * length l)%nat.
Proof. induction l as [|[k x] l IH]; [reflexivity|]. cbn. rewrite IH. lia. Qed.

(** The values Python can hold: real dates, floats of 64 bits, one NaN. *)
Fixpoint plain (v : cval) : Prop :=
  match v with
  | CArr l => (fix all l := match l with [] => True | x :: l' => plain x /\ all l' end) l
  | CMap l => (fix all l := match l with [] => True | kv :: l' => (plain (fst kv) /\ plain (snd kv)) /\ all l' end) l
  | CFloat n => 0 <= n < two64 /\ (is_nan n = true -> n = nan_bits)
  | CDate d => date_ok d = true
  | _ => True
  end.
Lemma plain_arr l : plain (CArr l) <-> Forall plain l.
Proof.
  cbn [plain]. induction l as [|x l IH]; [split; constructor|]. rewrite IH. split.
  - intros [A B]. constructor; assumption.
  - intros H. inversion H; subst. split; assumption.
Qed.
Lemma plain_map l : plain (CMap l) <-> Forall plain (flatten l).
Proof.
  cbn [plain]. induction l as [|[k x] l IH]; [split; constructor|]. rewrite IH. cbn [fst snd flatten]. split.
  - intros [[A B] C]. constructor; [assumption|]. constructor; assumption.
  - intros H. inversion H as [|? ? A B]; subst. inversion B; subst. repeat split; assumption.
Qed.

Fixpoint weight (v : cval) : nat :=
  (match v with
  | CArr l => 2 + (fix all l := match l with [] => 0 | x :: l' => weight x + all l' end) l
  | CMap l => 2 + (fix all l := match l with [] => 0 | kv :: l' => weight (fst kv) + (weight (snd kv) + all l') end) l
  | _ => 2
  end)%nat.
Fixpoint weights (l : list cval) : nat :=
  (match l with [] => 0 | x :: l' => weight x + weights l' end)%nat.
Lemma weight_arr l : weight (CArr l) = (2 + weights l)%nat.
Proof. reflexivity. Qed.
Lemma weight_map l : weight (CMap l) = (2 + weights (flatten l))%nat.
Proof.
  cbn [weight]. f_equal. induction l as [|[k x] l IH]; [reflexivity|]. cbn [flatten weights fst snd]. rewrite <- IH. reflexivity.
Qed.
Lemma weight_pos v : (2 <= weight v)%nat.
Proof. destruct v; cbn; lia. Qed.

Lemma oapp_Some a b r : oapp a b = Some r -> exists x y, a = Some x /\ b = Some y /\ r = x ++ y.
Proof. destruct a, b; cbn; intros E; try discriminate E. injection E as <-. eauto. Qed.

Lemma int_bytes_value n : 0 < n -> unbe (int_bytes n) = n.
Proof.
  intros N. unfold int_bytes. apply unbe_be_small. split; [lia|].
  rewrite Z2Nat.id by (apply Z.div_pos; [pose proof (Z.log2_nonneg n); lia|lia]).
  replace 256 with (2 ^ 8) by reflexivity. rewrite <- Z.pow_mul_r; [|lia|apply Z.div_pos; [pose proof (Z.log2_nonneg n); lia|lia]].
  pose proof (Z.log2_spec n N) as [_ L]. eapply Z.lt_le_trans; [exact L|].
  apply Z.pow_le_mono_r; [lia|].
  pose proof (Z.div_mod (Z.log2 n + 8) 8 ltac:(lia)). pose proof (Z.mod_pos_bound (Z.log2 n + 8) 8 ltac:(lia)). lia.
Qed.

Lemma lenN_nonneg A (l : list A) : 0 <= lenN l.
Proof. unfold lenN. lia. Qed.

Lemma encode_nonempty v s : encode v = Some s -> s <> [].
Proof.
  assert (H : forall m n h, 0 <= m < 8 -> 0 <= n -> head m n = Some h -> h <> []).
  { intros m n h M N E. destruct (head_cases M N E) as (_ & b & t & -> & _). discriminate. }
  assert (G : forall m A (l : list A) b r, 0 <= m < 8 -> oapp (head m (lenN l)) b = Some r -> r <> []).
  { intros m A l b r M E. apply oapp_Some in E as (x & y & E1 & E2 & ->).
    apply H in E1; [|exact M|apply lenN_nonneg]. destruct x; [congruence|discriminate]. }
  destruct v; intros E.
  - cbn [encode] in E. destruct ((0 <=? n) && (n <? two64)) eqn:C1; [eapply H; [| |exact E]; lia|].
    destruct ((n <? 0) && (- two64 <=? n)) eqn:C2; [eapply H; [| |exact E]; lia|].
    destruct (0 <=? n); apply oapp_Some in E as (x & y & E1 & E2 & ->); injection E1 as <-; discriminate.
  - cbn [encode] in E. eapply G; [|exact E]; lia.
  - cbn [encode] in E. destruct (utf8_encode s0); [|discriminate E]. eapply G; [|exact E]; lia.
  - rewrite encode_arr in E. eapply G; [|exact E]; lia.
  - rewrite encode_map in E. eapply G; [|exact E]; lia.
  - cbn [encode] in E. injection E as <-. discriminate.
  - cbn [encode] in E. injection E as <-. discriminate.
  - cbn [encode] in E. destruct (is_nan bits); [injection E as <-; discriminate|].
    destruct (bits =? inf_bits); [injection E as <-; discriminate|].
    destruct (bits =? neg_inf_bits); injection E as <-; discriminate.
  - cbn [encode] in E. apply oapp_Some in E as (x & y & E1 & E2 & ->); injection E1 as <-; discriminate.
Qed.

Lemma weight_le v : forall s, encode v = Some s -> (weight v <= 2 * length s)%nat.
Proof.
  induction v using cval_ind'; intros s' E.
  all: try (cbn [weight]; apply encode_nonempty in E; destruct s'; [congruence|cbn; lia]).
  - rewrite encode_arr in E. rewrite weight_arr. apply oapp_Some in E as (x & y & E1 & E2 & ->).
    apply head_cases in E1 as (_ & b & t & -> & _); [|lia|apply lenN_nonneg].
    assert (G : (weights l <= 2 * length y)%nat); [|cbn; rewrite !app_length; lia].
    clear t b. revert y E2. induction H as [|v l A F IH]; intros y E2; cbn in *; [lia|].
    apply oapp_Some in E2 as (p & q & E3 & E4 & ->). rewrite app_length.
    specialize (A _ E3). specialize (IH _ E4). lia.
  - rewrite encode_map in E. rewrite weight_map. apply oapp_Some in E as (x & y & E1 & E2 & ->).
    apply head_cases in E1 as (_ & b & t & -> & _); [|lia|apply lenN_nonneg].
    assert (G : (weights (flatten l) <= 2 * length y)%nat); [|cbn; rewrite !app_length; lia].
    clear t b. revert y E2. induction H as [|[k v] l [A B] F IH]; intros y E2; cbn in *; [lia|].
    apply oapp_Some in E2 as (p & q & E3 & E4 & ->). apply oapp_Some in E4 as (r & t & E5 & E6 & ->).
    rewrite !app_length. specialize (A _ E3). specialize (B _ E5). specialize (IH _ E6). lia.
Qed.

Definition decodes (v : cval) : Prop :=
  plain v -> forall s rest fuel, encode v = Some s -> (weight v <= fuel)%nat ->
  decode fuel (s ++ rest) = Some (v, rest).

Lemma decode_items_all l : Forall decodes l -> Forall plain l -> forall s rest fuel,
  encode_all l = Some s -> (1 + weights l <= fuel)%nat ->
  decode_items fuel (lenN l) (s ++ rest) = Some (l, rest).
Proof.
  intros D P. induction D as [|v l A F IH]; intros s rest fuel E W.
  - destruct fuel; [cbn in W; lia|]. cbn in E. injection E as <-. reflexivity.
  - inversion P as [|? ? P1 P2]; subst. cbn [encode_all] in E.
    apply oapp_Some in E as (p & q & E1 & E2 & ->). cbn [weights] in W. pose proof (weight_pos v).
    destruct fuel as [|f]; [lia|]. cbn [decode_items].
    replace (lenN (v :: l) <=? 0) with false by (unfold lenN; cbn [length]; lia).
    rewrite <- app_assoc, (A P1 p (q ++ rest) f E1) by lia.
    replace (lenN (v :: l) - 1) with (lenN l) by (unfold lenN; cbn [length]; lia).
    rewrite (IH P2 q rest f E2) by lia. reflexivity.
Qed.

Lemma decode_half f a b rest :
  decode (S f) ([xf9; a; b] ++ rest) =
  let n := unbe [a; b] in
  if n =? 32256 then Some (CFloat nan_bits, rest)
  else if n =? 31744 then Some (CFloat inf_bits, rest)
  else if n =? 64512 then Some (CFloat neg_inf_bits, rest) else None.
Proof.
  cbn [decode app]. unfold read_head. change (bz xf9) with 249.
  change (249 mod 32) with 25. cbn [Z.ltb Z.eqb Z.compare Pos.compare Pos.compare_cont Pos.eqb].
  change (a :: b :: rest) with ([a; b] ++ rest). change 2 with (lenN [a; b]). rewrite take_bytes_app.
  reflexivity.
Qed.

Lemma encode_decode v : decodes v.
Proof.
  induction v using cval_ind'; intros P s' rest fuel E W.
  all: destruct fuel as [|f]; [pose proof (weight_pos CNull); cbn in W; lia|].
  - cbn [encode] in E. destruct ((0 <=? n) && (n <? two64)) eqn:C1.
    { apply head_cases in E as (_ & b & t & -> & B & R & _); [|lia|lia].
      cbn [decode]. rewrite R, B. reflexivity. }
    destruct ((n <? 0) && (- two64 <=? n)) eqn:C2.
    { apply head_cases in E as (_ & b & t & -> & B & R & _); [|lia|lia].
      cbn [decode]. rewrite R, B. cbn [Z.eqb Pos.eqb]. repeat f_equal. lia. }
    destruct f as [|f]; [cbn in W; lia|].
    assert (T : 0 < two64) by reflexivity.
    destruct (Z.leb_spec 0 n) as [L|L]; apply oapp_Some in E as (x & y & E1 & E2 & ->); injection E1 as <-;
      apply oapp_Some in E2 as (h & z & E3 & E4 & ->); injection E4 as <-;
      (apply head_cases in E3 as (_ & b & t & -> & B & R & _); [|lia|apply lenN_nonneg]).
    + change (decode (S (S f)) (([xc2] ++ (b :: t) ++ int_bytes n) ++ rest) = Some (CInt n, rest)).
      cbn [decode app]. unfold read_head at 1. change (bz xc2) with 194. cbn -[decode int_bytes read_head Z.div lenN app].
      cbn [decode]. rewrite <- app_assoc.
      change ((b :: (t ++ (int_bytes n ++ rest)))) with ((b :: t) ++ (int_bytes n ++ rest)). rewrite R, B.
      cbn [Z.eqb Pos.eqb]. rewrite take_bytes_app. change (194 mod 32) with 2. cbn [Z.eqb Pos.eqb].
      rewrite int_bytes_value by lia. reflexivity.
    + set (m := - n - 1) in *.
      change (decode (S (S f)) (([xc3] ++ (b :: t) ++ int_bytes m) ++ rest) = Some (CInt n, rest)).
      cbn [decode app]. unfold read_head at 1. change (bz xc3) with 195. cbn -[decode int_bytes read_head Z.div lenN app].
      cbn [decode]. rewrite <- app_assoc.
      change ((b :: (t ++ (int_bytes m ++ rest)))) with ((b :: t) ++ (int_bytes m ++ rest)). rewrite R, B.
      cbn [Z.eqb Pos.eqb]. rewrite take_bytes_app. change (195 mod 32) with 3. cbn [Z.eqb Pos.eqb].
      rewrite int_bytes_value by lia. replace (- m - 1) with n by (subst m; lia). reflexivity.
  - cbn [encode] in E. apply oapp_Some in E as (h & z & E1 & E2 & ->). injection E2 as <-.
    apply head_cases in E1 as (_ & b & t & -> & B & R & _); [|lia|apply lenN_nonneg].
    cbn [decode]. rewrite <- app_assoc, R, B. cbn [Z.eqb Pos.eqb]. rewrite take_bytes_app. reflexivity.
  - cbn [encode] in E. destruct (utf8_encode s) as [u|] eqn:U; [|discriminate E].
    apply oapp_Some in E as (h & z & E1 & E2 & ->). injection E2 as <-.
    apply head_cases in E1 as (_ & b & t & -> & B & R & _); [|lia|apply lenN_nonneg].
    cbn [decode]. rewrite <- app_assoc, R, B. cbn [Z.eqb Pos.eqb]. rewrite take_bytes_app.
    rewrite (utf8_round _ U). reflexivity.
  - rewrite encode_arr in E. apply oapp_Some in E as (h & z & E1 & E2 & ->).
    apply head_cases in E1 as (_ & b & t & -> & B & R & _); [|lia|apply lenN_nonneg].
    cbn [decode]. rewrite <- app_assoc, R, B. cbn [Z.eqb Pos.eqb].
    rewrite weight_arr in W. apply plain_arr in P.
    rewrite (decode_items_all H P rest (fuel:=f) E2) by lia. reflexivity.
  - rewrite encode_map in E. apply oapp_Some in E as (h & z & E1 & E2 & ->).
    apply head_cases in E1 as (_ & b & t & -> & B & R & _); [|lia|apply lenN_nonneg].
    cbn [decode]. rewrite <- app_assoc, R, B. cbn [Z.eqb Pos.eqb].
    rewrite weight_map in W. apply plain_map in P.
    assert (F : Forall decodes (flatten l)).
    { clear -H. induction H as [|[k x] l [A B] F IH]; cbn; [constructor|]. constructor; [exact A|]. constructor; [exact B|exact IH]. }
    replace (2 * lenN l) with (lenN (flatten l)) by (unfold lenN; rewrite flatten_length; lia).
    rewrite (decode_items_all F P rest (fuel:=f) E2) by lia. rewrite pairs_flatten. reflexivity.
  - cbn [encode] in E. injection E as <-. destruct b; reflexivity.
  - cbn [encode] in E. injection E as <-. reflexivity.
  - cbn [encode] in E. destruct P as [P1 P2]. destruct (is_nan n) eqn:N.
    { injection E as <-. rewrite (P2 eq_refl), decode_half. reflexivity. }
    destruct (Z.eqb_spec n inf_bits) as [->|N1]; [injection E as <-; rewrite decode_half; reflexivity|].
    destruct (Z.eqb_spec n neg_inf_bits) as [->|N2]; [injection E as <-; rewrite decode_half; reflexivity|].
    assert (E' : s' = xfb :: be 8 n) by congruence. subst s'. clear E.
    cbn [decode app]. unfold read_head. change (bz xfb) with 251.
    change (251 mod 32) with 27. cbn [Z.ltb Z.eqb Z.compare Pos.compare Pos.compare_cont Pos.eqb].
    assert (T : take_bytes 8 (be 8 n ++ rest) = Some (be 8 n, rest)) by exact (take_be 8 n rest).
    rewrite T.
    rewrite unbe_be_small by (change (256 ^ Z.of_nat 8) with two64; lia). reflexivity.
  - cbn [encode] in E. apply oapp_Some in E as (x & y & E1 & E2 & ->). injection E1 as <-.
    apply oapp_Some in E2 as (h & z & E3 & E4 & ->). injection E4 as <-.
    apply head_cases in E3 as (_ & b & t & -> & B & R & _); [|lia|apply lenN_nonneg].
    destruct f as [|f]; [cbn in W; lia|].
    cbn [decode app]. unfold read_head at 1. change (bz xc0) with 192. cbn -[decode isoformat read_head Z.div lenN app].
    cbn [decode]. rewrite <- app_assoc.
    change (b :: (t ++ (isoformat d ++ rest))) with ((b :: t) ++ (isoformat d ++ rest)). rewrite R, B.
    cbn [Z.eqb Pos.eqb]. rewrite take_bytes_app. change (192 mod 32) with 0. cbn [Z.eqb].
    rewrite utf8_decode_ascii by (intros ? X; exact (isoformat_ascii X)).
    rewrite ascii_encode by (intros ? X; exact (isoformat_ascii X)).
    cbn in P. rewrite parse_isoformat by exact P. reflexivity.
Qed.

Theorem load_encode v s rest : plain v -> encode v = Some s -> load (s ++ rest) = Some v.
Proof.
  intros P E. unfold load. rewrite (@encode_decode v P s rest _ E); [reflexivity|].
  apply weight_le in E. rewrite app_length. lia.
Qed.
