(** Proofs about the HTTP interface. *)
From Verif Require Import Prelude PreludeFacts BytesModel BytesProofs CborModel CborProofs StreamModel
  PricingModel PricingSpec PricingProofs DateModel JsonModel JsonProofs VoucherModel VoucherSpec VoucherProofs HttpModel HttpSpec.
From Coq Require Strings.String.
Import Coq.Strings.String.StringSyntax.
Set Implicit Arguments.

(** ** Authorization *)

Lemma join_cons x l : l <> [] -> join_spaces (x :: l) = x ++ x20 :: join_spaces l.
Proof. destruct l; [contradiction|reflexivity]. Qed.
Lemma join_split s : forall h t, split_spaces s = (h, t) -> join_spaces (h :: t) = s.
Proof.
  induction s as [|c s IH]; intros h t; cbn [split_spaces]; [intros [= <- <-]; reflexivity|].
  destruct (split_spaces s) as [h' t'] eqn:E. specialize (IH _ _ eq_refl). destruct (byte_eqb_spec c x20) as [->|N]; intros [= <- <-].
  - rewrite join_cons by discriminate. now rewrite IH.
  - destruct t' as [|x t']; [cbn in *; now rewrite IH|]. rewrite join_cons in IH |- * by discriminate. now rewrite <- IH.
Qed.
Lemma split_app a b : ~ In x20 a -> split_spaces (a ++ x20 :: b) = (a, fst (split_spaces b) :: snd (split_spaces b)).
Proof.
  induction a as [|c a IH]; intros N; cbn [app split_spaces].
  - destruct (split_spaces b). reflexivity.
  - rewrite IH by (intros I; apply N; now right). destruct (byte_eqb_spec c x20) as [->|]; [exfalso; apply N; now left|reflexivity].
Qed.
Lemma split_head s : forall h t, split_spaces s = (h, t) -> s = h ++ match t with [] => [] | _ => x20 :: join_spaces t end.
Proof.
  intros h t E. apply join_split in E. rewrite <- E. destruct t; cbn; [now rewrite app_nil_r|reflexivity].
Qed.

Lemma lower_spells a : forall b, lower a = b -> (forall c, In c b -> ~ 65 <= bz c <= 90) -> spells a b.
Proof.
  induction a as [|x a IH]; intros b E U; cbn in E; subst b; constructor.
  - unfold same_letter, lower_byte. destruct ((65 <=? bz x) && (bz x <=? 90)) eqn:B; [|auto].
    right. rewrite bz_zb, Z.mod_small by lia. lia.
  - apply IH; [reflexivity|]. intros c I. apply U. now right.
Qed.
Lemma spells_lower a b : spells a b -> (forall c, In c b -> ~ 65 <= bz c <= 90) -> lower a = b.
Proof.
  induction 1 as [|x y a b S H IH]; intros U; [reflexivity|]. cbn. f_equal; [|apply IH; intros c I; apply U; now right].
  unfold lower_byte. destruct S as [->|[S1 S2]].
  - destruct ((65 <=? bz y) && (bz y <=? 90)) eqn:B; [|reflexivity]. exfalso. apply (U y); [now left|lia].
  - destruct ((65 <=? bz x) && (bz x <=? 90)) eqn:B; [|lia]. rewrite <- S2. apply zb_bz.
Qed.
Lemma scheme_lower c : In c scheme -> ~ 65 <= bz c <= 90 /\ c <> x20.
Proof.
  assert (H : forallb (fun c => negb ((65 <=? bz c) && (bz c <=? 90)) && negb (Byte.eqb c x20)) scheme = true) by reflexivity.
  rewrite forallb_forall in H. intros I. apply H in I. apply andb_true_iff in I as [A B]. split; [lia|].
  intros ->. discriminate B.
Qed.
Lemma no_space_in_scheme a : lower a = scheme -> ~ In x20 a.
Proof.
  intros E I. apply (in_map lower_byte) in I. fold (lower a) in I. rewrite E in I. apply scheme_lower in I. now apply I.
Qed.

Lemma authorized_last secret headers : authorized secret headers = true <->
  let header := last headers [] in
  header <> [] /\ lower (fst (split_spaces header)) = scheme /\ secret = join_spaces (snd (split_spaces header)).
Proof.
  unfold authorized. cbv zeta. destruct (last headers []) as [|c s]; [split; [discriminate|intros [H _]; contradiction]|].
  destruct (split_spaces (c :: s)) as [h t]. cbn [fst snd]. unfold token_accepted. rewrite andb_true_iff.
  destruct (bytes_eqb_spec (lower h) scheme), (bytes_eqb_spec secret (join_spaces t)); intuition (congruence || discriminate).
Qed.

Lemma authorized_spec secret headers : secret <> [] ->
  authorized secret headers = true <-> exists before header, headers = before ++ [header] /\ opens secret header.
Proof.
  intros NS. rewrite authorized_last. cbv zeta. split.
  - intros (N & L & J). destruct headers as [|h0 hs _] using rev_ind; [contradiction|]. rewrite last_last in *.
    exists hs, h0. split; [reflexivity|]. destruct (split_spaces h0) as [h t] eqn:E. cbn [fst snd] in *. exists h. split.
    + apply lower_spells; [exact L|]. intros c I. now apply scheme_lower.
    + apply split_head in E. rewrite E. destruct t as [|x t]; [cbn in J; congruence|]. now rewrite J.
  - intros (before & header & -> & name & Sp & ->). rewrite last_last.
    assert (L : lower name = scheme) by (apply spells_lower; [exact Sp|intros c I; now apply scheme_lower]).
    split; [destruct name; discriminate|]. rewrite split_app by now apply no_space_in_scheme. cbn [fst snd]. split; [exact L|].
    destruct (split_spaces secret) as [h t] eqn:Es. cbn [fst snd]. apply join_split in Es. now rewrite Es.
Qed.

(** ** The price *)

Lemma digits_value_upper ds : forall acc, 0 <= acc -> forallb is_digit ds = true ->
  digits_value acc ds < (acc + 1) * 10 ^ Z.of_nat (length ds).
Proof.
  induction ds as [|d ds IH]; intros acc A D; cbn [length digits_value]; [cbn; lia|].
  cbn in D. apply andb_true_iff in D as [D1 D2]. unfold is_digit in D1.
  specialize (IH (acc * 10 + (bz d - 48)) ltac:(lia) D2). rewrite Nat2Z.inj_succ, Z.pow_succ_r by lia.
  assert (P : 0 < 10 ^ Z.of_nat (length ds)) by (apply Z.pow_pos_nonneg; lia).
  assert ((acc * 10 + (bz d - 48) + 1) * 10 ^ Z.of_nat (length ds) <= (acc + 1) * 10 * 10 ^ Z.of_nat (length ds)) by (apply Z.mul_le_mono_nonneg_r; lia).
  lia.
Qed.

Section Resources.
Variable F : Type.
Variable float_of : text -> F.
Variable float_repr : F -> text.
Variable is_one : F -> bool.
Variable max_digits : nat.
Variable decode : bytes -> option text.
Variable depth : nat.
Notation loads := (loads float_of max_digits decode depth).
Notation calculate_price := (calculate_price float_of float_repr is_one max_digits decode depth).
Notation put_voucher := (put_voucher float_of max_digits decode depth).

Lemma equals_one_spec (j : json F) : equals_one is_one j = true <-> means_one is_one j.
Proof.
  unfold means_one. split.
  - destruct j; cbn; try discriminate; intros H.
    + destruct b; [auto|discriminate].
    + left. f_equal. lia.
    + right. right. eauto.
  - intros [-> | [-> | (f & -> & H)]]; cbn; auto.
Qed.
Lemma size_of_spec (j : json F) n : size_of j = Some n <-> means_size j n.
Proof.
  split.
  - destruct j; cbn; try discriminate.
    + intros [= <-]. destruct b; constructor.
    + destruct (Z.leb_spec 0 n0); [|discriminate]. intros [= <-]. now constructor.
  - intros [m Hm| |]; cbn; try reflexivity. destruct (Z.leb_spec 0 m); [reflexivity|lia].
Qed.
Lemma all_sizes_spec (l : list (json F)) : forall ns, all_sizes l = Some ns <-> Forall2 (means_size (F := F)) l ns.
Proof.
  induction l as [|j l IH]; intros ns; cbn [all_sizes].
  - split; [intros [= <-]; constructor|]. intros H. inversion H. reflexivity.
  - split.
    + destruct (size_of j) as [n|] eqn:E; [|discriminate]. destruct (all_sizes l) as [ns'|]; [|discriminate]. intros [= <-].
      constructor; [now apply size_of_spec|]. now apply IH.
    + intros H. inversion H as [|? n ? ns' H1 H2]; subst. apply size_of_spec in H1. rewrite H1. apply IH in H2. now rewrite H2.
Qed.

Lemma price_ok needed total pass_value sizes : 0 < needed -> 0 < pass_value -> 0 <= total ->
  calculate needed total pass_value sizes = Ok (price_of needed total pass_value sizes).
Proof.
  intros N P T. rewrite calculate_pos by assumption. unfold price_of, file_price. do 2 f_equal.
  apply map_ext. intros s. rewrite Z.max_r by exact T. reflexivity.
Qed.

Lemma too_long_spec n : (1 <= max_digits)%nat -> too_long max_digits n = false <-> Z.abs n < 10 ^ Z.of_nat max_digits.
Proof.
  intros M. unfold too_long. rewrite Nat.ltb_ge. change (dec (Z.abs n)) with (nat_digits n). split.
  - intros L. destruct (@whole_digits n [] I) as (_ & D & _ & V). rewrite <- V.
    pose proof (@digits_value_upper (nat_digits n) 0 (Z.le_refl 0) D) as U.
    eapply Z.lt_le_trans; [exact U|]. rewrite Z.mul_1_l. apply Z.pow_le_mono_r; lia.
  - intros L. now apply nat_digits_few.
Qed.

Section Endpoint.
Variables needed total pass_value period : Z.
Hypothesis Hm : (1 <= max_digits)%nat.
Hypothesis Hn : 0 < needed.
Hypothesis Hp : 0 < pass_value.
Hypothesis Ht : 0 <= total.
Notation fits n := (Z.abs n < 10 ^ Z.of_nat max_digits).
Definition price_body (price : Z) : bytes := dumps_utf8 float_repr (JObj [(str "price", JInt price); (str "period", JInt period)]).

Lemma wrong_type_spec types : wrong_content_type types (str "application/json") = false <-> hd_error types = Some (str "application/json").
Proof.
  destruct types as [|c l]; cbn [wrong_content_type hd_error]; [split; discriminate|]. rewrite negb_false_iff.
  destruct (text_eqb_spec c (str "application/json")); split; congruence.
Qed.

(** Everything the endpoint may do *)
Lemma endpoint types body :
  let r := calculate_price needed total pass_value period types body in
  if wrong_content_type types (str "application/json") then exists e, r = Response 400 e
  else match loads body with
       | Err TooDeep => r = Crash
       | Err BadJson => exists e, r = Response 400 e
       | Ok j =>
           (exists sizes, asks_price is_one j sizes /\
              let price := price_of needed total pass_value sizes in
              (fits price /\ fits period -> r = Response 200 (price_body price)) /\
              (~ (fits price /\ fits period) -> r = Crash)) \/
           (~ (exists sizes, asks_price is_one j sizes)) /\ exists e, r = Response 400 e
       end.
Proof.
  cbv zeta. unfold HttpModel.calculate_price. destruct (wrong_content_type types _); [eauto|].
  destruct (loads body) as [j|[|]] eqn:E; [|eauto|reflexivity].
  assert (NO : forall e, (~ exists d, j = JObj d) -> (exists sizes, asks_price is_one j sizes /\
              let price := price_of needed total pass_value sizes in
              (fits price /\ fits period -> Response 400 e = Response 200 (price_body price)) /\
              (~ (fits price /\ fits period) -> Response 400 e = Crash)) \/
           (~ (exists sizes, asks_price is_one j sizes)) /\ exists e', Response 400 e = Response 400 e').
  { intros e N. right. split; [|eauto]. intros (sizes & d & v & l & -> & _). apply N. eauto. }
  destruct j as [|b|n|f|s|l|d]; try (apply NO; intros (d' & X); discriminate X). clear NO.
  destruct (jget (str "version") d) as [version|] eqn:Ev.
  2: { right. split; [|eauto]. intros (sizes & d' & v & l & [= <-] & X & _). congruence. }
  destruct (jget (str "sizes") d) as [sz|] eqn:Es.
  2: { right. split; [|eauto]. intros (sizes & d' & v & l & [= <-] & _ & _ & X & _). congruence. }
  destruct (equals_one is_one version) eqn:V; cbn [negb].
  2: { right. split; [|eauto]. intros (sizes & d' & v & l & [= <-] & X & O & _). apply equals_one_spec in O. congruence. }
  destruct (sizes_of sz) as [ns|] eqn:S.
  2: { right. split; [|eauto]. intros (sizes & d' & v & l & [= <-] & _ & _ & X & O). rewrite X in Es. injection Es as <-. apply all_sizes_spec in O.
       cbn [sizes_of] in S. congruence. }
  left. exists ns. destruct sz as [| | | | |l|]; try discriminate S. cbn [sizes_of] in S. split.
  - exists d, version, l. split; [reflexivity|]. split; [exact Ev|]. split; [now apply equals_one_spec|]. split; [exact Es|]. now apply all_sizes_spec.
  - rewrite price_ok by assumption. set (price := price_of needed total pass_value ns). split.
    + intros [A B]. apply too_long_spec in A; [|exact Hm]. apply too_long_spec in B; [|exact Hm]. now rewrite A, B.
    + intros N. destruct (too_long max_digits price || too_long max_digits period) eqn:T; [reflexivity|]. exfalso. apply N.
      apply orb_false_iff in T as [A B]. split; now apply too_long_spec.
Qed.

Lemma means_size_unique (j : json F) a b : means_size j a -> means_size j b -> a = b.
Proof. intros [n H| |] G; inversion G; reflexivity. Qed.
Lemma asks_price_unique j a b : asks_price is_one j a -> asks_price is_one j b -> a = b.
Proof.
  intros (d & v & l & -> & _ & _ & E & A) (d' & v' & l' & [= <-] & _ & _ & E' & B). rewrite E in E'. injection E' as <-.
  clear E. revert b B. induction A as [|x n l ns X A IH]; intros b B; inversion B; subst; [reflexivity|]. f_equal; [now apply (@means_size_unique x)|now apply IH].
Qed.

Lemma price_answered types body price_bytes :
  calculate_price needed total pass_value period types body = Response 200 price_bytes <->
  hd_error types = Some (str "application/json") /\
  exists j sizes, loads body = Ok j /\ asks_price is_one j sizes /\
    let price := price_of needed total pass_value sizes in
    fits price /\ fits period /\ price_bytes = price_body price.
Proof.
  pose proof (endpoint types body) as X. cbv zeta in X |- *.
  destruct (wrong_content_type types (str "application/json")) eqn:W.
  { destruct X as [e X]. rewrite X. split; [discriminate|]. intros [T _]. apply wrong_type_spec in T. congruence. }
  apply wrong_type_spec in W. destruct (loads body) as [j|[|]] eqn:E.
  2: { destruct X as [e ->]. split; [discriminate|]. intros (_ & j & s & [=] & _). }
  2: { rewrite X. split; [discriminate|]. intros (_ & j & s & [=] & _). }
  destruct X as [(sizes & A & Y & N) | (N & e & ->)].
  - split.
    + intros R. split; [exact W|]. exists j, sizes. split; [reflexivity|]. split; [exact A|].
      assert (D : fits (price_of needed total pass_value sizes) /\ fits period \/ ~ (fits (price_of needed total pass_value sizes) /\ fits period)) by lia.
      destruct D as [D|D]; [|rewrite (N D) in R; discriminate R]. rewrite (Y D) in R. injection R as <-. intuition.
    + intros (_ & j' & s' & [= <-] & A' & P & Q & ->). rewrite (@asks_price_unique _ _ _ A' A) in *. apply Y. auto.
  - split; [discriminate|]. intros (_ & j' & s' & [= <-] & A' & _). exfalso. eauto.
Qed.

Lemma price_refused types body :
  match calculate_price needed total pass_value period types body with
  | Response code _ => code = 200 \/ code = 400
  | Crash => hd_error types = Some (str "application/json") /\
      (loads body = Err TooDeep \/ exists j sizes, loads body = Ok j /\ asks_price is_one j sizes /\
         ~ (fits (price_of needed total pass_value sizes) /\ fits period))
  end.
Proof.
  pose proof (endpoint types body) as X. cbv zeta in X.
  destruct (wrong_content_type types (str "application/json")) eqn:W; [destruct X as [e ->]; auto|].
  apply wrong_type_spec in W. destruct (loads body) as [j|[|]] eqn:E; [|destruct X as [e ->]; auto|rewrite X; auto].
  destruct X as [(sizes & A & Y & N) | (N & e & ->)]; [|auto].
  assert (D : fits (price_of needed total pass_value sizes) /\ fits period \/ ~ (fits (price_of needed total pass_value sizes) /\ fits period)) by lia.
  destruct D as [D|D]; [rewrite (Y D); auto|rewrite (N D)]. split; [exact W|]. right. exists j, sizes. auto.
Qed.
End Endpoint.

(** A body that opens more lists than the reader can follow *)
Lemma value_deep n : forall d t, (d < n)%nat -> value float_of max_digits d (repeat 91 n ++ t) = Err TooDeep.
Proof.
  induction n as [|n IH]; intros d t L; [lia|]. cbn [repeat app]. destruct d as [|d]; [reflexivity|].
  specialize (IH d t ltac:(lia)). destruct n as [|n]; [lia|]. cbn [value]. change (91 =? 34) with false. change (91 =? 123) with false. change (91 =? 91) with true. cbn iota.
  cbn [repeat app skip_ws]. change (is_ws 91) with false. cbn iota. change (91 =? 93) with false. cbn iota. cbn [repeat app] in IH.
  cbn [items]. rewrite IH. reflexivity.
Qed.
Lemma loads_deep : decodes_ascii decode -> loads (repeat x5b (S depth)) = Err TooDeep.
Proof.
  intros D. unfold JsonModel.loads. rewrite D.
  - assert (E : ascii (repeat x5b (S depth)) = repeat 91 (S depth) ++ []).
    { rewrite app_nil_r. unfold ascii. induction (S depth) as [|m IH]; [reflexivity|]. cbn. f_equal. exact IH. }
    rewrite E. unfold loads_text. assert (W : skip_ws (repeat 91 (S depth) ++ []) = repeat 91 (S depth) ++ []) by reflexivity.
    rewrite W, value_deep by lia. reflexivity.
  - intros c I. apply repeat_spec in I. subst c. cbn. lia.
Qed.

(** ** Vouchers *)

Lemma put_spec body :
  (exists b, put_voucher body = Ok (Redeem b) /\ loads body = Ok (JObj [(str "voucher", JStr (ascii b))]) /\ all_ascii b /\ is_syntactic_voucher (F := F) (JStr (ascii b)) = true) \/
  put_voucher body = Ok Refuse /\ forall s, loads body = Ok (JObj [(str "voucher", JStr s)]) -> is_syntactic_voucher (F := F) (JStr s) = false.
Proof.
  unfold HttpModel.put_voucher. destruct (loads body) as [j|]; [|right; split; [reflexivity|discriminate]].
  destruct j as [|b|n|f|s|l|d]; try (right; split; [reflexivity|discriminate]).
  destruct d as [|[k v] [|]]; try (right; split; [reflexivity|discriminate]).
  destruct (text_eqb_spec k (str "voucher")) as [->|N]; [|right; split; [reflexivity|congruence]].
  destruct (is_syntactic_voucher v) eqn:S; [|right; split; [reflexivity|congruence]].
  destruct v as [| | | |s| |]; try discriminate S. left. cbn [is_syntactic_voucher] in S.
  destruct (Nat.eqb (length s) 44) eqn:L; [|discriminate]. destruct (encode_ascii s) as [b|] eqn:E; [|discriminate].
  pose proof E as E'. apply encode_ascii_all in E' as [A B]. exists b. split; [reflexivity|]. rewrite B. split; [reflexivity|]. split; [exact A|].
  cbn [is_syntactic_voucher]. rewrite L, E. exact S.
Qed.
End Resources.

(** ** Base64 *)

Lemma a2b_data data : forall quad left pads rest,
  0 <= quad < 4 -> (forall c, In c data -> b64value c <> None /\ bz c <> 61) -> data <> [] \/ pads = 0 ->
  exists left', a2b quad left pads (data ++ rest) = None <-> a2b ((quad + Z.of_nat (length data)) mod 4) left' 0 rest = None.
Proof.
  induction data as [|c data IH]; intros quad left pads rest Q D P.
  - exists left. cbn [app length]. rewrite Z.add_0_r, Z.mod_small by lia. destruct P as [P| ->]; [contradiction|reflexivity].
  - assert (D' : forall c, In c data -> b64value c <> None /\ bz c <> 61) by (intros x I; apply D; now right).
    destruct (D c ltac:(now left)) as [V E]. cbn [app a2b]. destruct (Z.eqb_spec (bz c) 61); [contradiction|].
    destruct (b64value c) as [v|]; [|contradiction]. clear V.
    assert (G : forall q l, 0 <= q < 4 -> q = (quad + 1) mod 4 ->
      exists left', a2b q l 0 (data ++ rest) = None <-> a2b ((quad + Z.of_nat (length (c :: data))) mod 4) left' 0 rest = None).
    { intros q l Hq ->. destruct (IH ((quad + 1) mod 4) l 0 rest Hq D' (or_intror eq_refl)) as [l' H]. exists l'. rewrite H.
      rewrite Z.add_mod_idemp_l by lia. cbn [length]. rewrite Nat2Z.inj_succ. replace (quad + 1 + Z.of_nat (length data)) with (quad + Z.succ (Z.of_nat (length data))) by lia. reflexivity. }
    assert (O : forall (o : option bytes) x, option_map (cons x) o = None <-> o = None) by (intros [o|] x; cbn; split; congruence).
    destruct (Z.eqb_spec quad 0) as [->|]; [apply G; [lia|reflexivity]|].
    destruct (Z.eqb_spec quad 1) as [->|]; [destruct (G 2 (v mod 16)) as [l' H]; [lia|reflexivity|exists l'; rewrite O; exact H]|].
    destruct (Z.eqb_spec quad 2) as [->|]; [destruct (G 3 (v mod 4)) as [l' H]; [lia|reflexivity|exists l'; rewrite O; exact H]|].
    assert (quad = 3) by lia. subst quad. destruct (G 0 0) as [l' H]; [lia|reflexivity|exists l'; rewrite O; exact H].
Qed.

Lemma altchars_value c : urlsafe_char c = true -> b64value (from_altchars c) <> None /\ bz (from_altchars c) <> 61.
Proof. destruct c; intros H; try discriminate H; (split; [discriminate|intros X; discriminate X]). Qed.

Lemma validator_spec s : b64decode_validator s = true <->
  exists data rest, s = data ++ rest /\ (forall c, In c data -> urlsafe_char c = true) /\
    In rest [[]; [x3d]; [x3d; x3d]; [x0a]; [x3d; x0a]; [x3d; x3d; x0a]].
Proof.
  induction s as [|c s IH]; cbn [b64decode_validator].
  - split; [|reflexivity]. intros _. exists [], []. split; [reflexivity|]. split; [intros c []|now left].
  - destruct (urlsafe_char c) eqn:U.
    + rewrite IH. split.
      * intros (data & rest & -> & D & R). exists (c :: data), rest. split; [reflexivity|]. split; [|exact R]. intros x [<-|I]; [exact U|now apply D].
      * intros ([|x data] & rest & E & D & R).
        -- cbn [app] in E. subst rest. exfalso. cbn in R. repeat (destruct R as [R|R]; [try discriminate R; injection R; intros; subst; discriminate U|]). destruct R.
        -- injection E as <- ->. exists data, rest. split; [reflexivity|]. split; [|exact R]. intros y I. apply D. now right.
    + split.
      * intros H. apply existsb_exists in H as (rest & I & E). destruct (bytes_eqb_spec (c :: s) rest) as [<-|]; [|discriminate].
        exists [], (c :: s). split; [reflexivity|]. split; [intros x []|right; exact I].
      * intros ([|x data] & rest & E & D & R).
        -- cbn [app] in E. subst rest. apply existsb_exists. exists (c :: s). split; [|apply bytes_eqb_refl]. destruct R as [R|R]; [discriminate R|exact R].
        -- injection E as <- ->. specialize (D c (or_introl eq_refl)). congruence.
Qed.

Lemma decodes_spec s : length s = 44%nat ->
  urlsafe_b64decode s <> None <->
  exists data pad, s = data ++ pad /\ (forall c, In c data -> urlsafe_char c = true) /\ (pad = [] \/ pad = [x3d] \/ pad = [x3d; x3d]).
Proof.
  intros L. unfold urlsafe_b64decode.
  assert (R : forall data rest, s = data ++ rest -> (forall c, In c data -> urlsafe_char c = true) ->
    exists left', a2b 0 0 0 (map from_altchars s) = None <-> a2b ((44 - Z.of_nat (length rest)) mod 4) left' 0 (map from_altchars rest) = None).
  { intros data rest -> D. rewrite map_app. destruct (@a2b_data (map from_altchars data) 0 0 0 (map from_altchars rest)) as [l H]; [lia| |now right|].
    - intros c I. apply in_map_iff in I as (x & <- & I). now apply altchars_value, D.
    - exists l. rewrite H. rewrite map_length. rewrite app_length in L. replace (0 + Z.of_nat (length data)) with (44 - Z.of_nat (length rest)) by lia. reflexivity. }
  split.
  - destruct (b64decode_validator s) eqn:V; [|contradiction]. apply validator_spec in V as (data & rest & E & D & I). intros N.
    destruct (R data rest E D) as [l X]. destruct I as [<-|[<-|[<-|[<-|[<-|[<-|[]]]]]]]; try (exfalso; apply N, X; reflexivity); exists data; eexists; (split; [exact E|split; [exact D|auto]]).
  - intros (data & pad & E & D & P). assert (V : b64decode_validator s = true) by (apply validator_spec; exists data, pad; split; [exact E|split; [exact D|cbn; intuition]]).
    rewrite V. destruct (R data pad E D) as [l X]. rewrite X. destruct P as [-> | [-> | ->]]; discriminate.
Qed.

Lemma urlsafe_char_spec c : urlsafe_char c = true <-> urlsafe (bz c).
Proof. unfold urlsafe_char, urlsafe. rewrite !orb_true_iff, !andb_true_iff. lia. Qed.

Lemma encode_of_codes s : (forall c, In c s -> 0 <= c < 128) -> encode_ascii s = Some (map zb s).
Proof.
  intros H. assert (E : s = ascii (map zb s)).
  { unfold ascii. rewrite map_map. rewrite <- (map_id s) at 1. apply map_ext_in. intros c I. rewrite bz_zb, Z.mod_small; [reflexivity|]. specialize (H c I). lia. }
  rewrite E at 1. apply encode_ascii_ok. intros b I. apply in_map_iff in I as (c & <- & I). apply H in I. rewrite bz_zb, Z.mod_small; lia.
Qed.

Lemma syntactic_spec F s : is_syntactic_voucher (F := F) (JStr s) = true <-> voucher_text s.
Proof.
  cbn [is_syntactic_voucher]. unfold voucher_text. destruct (Nat.eqb_spec (length s) 44) as [L|L]; [|split; [discriminate|intros [X _]; contradiction]].
  split.
  - destruct (encode_ascii s) as [b|] eqn:E; [|discriminate]. apply encode_ascii_all in E as [A <-]. intros H.
    assert (N : urlsafe_b64decode b <> None) by (destruct (urlsafe_b64decode b); [discriminate|discriminate H]).
    assert (Lb : length b = 44%nat) by (unfold ascii in L; now rewrite map_length in L).
    apply decodes_spec in N as (data & pad & -> & D & P); [|exact Lb]. split; [exact L|]. exists (ascii data), (ascii pad).
    split; [apply ascii_app|]. split.
    + intros c I. apply in_map_iff in I as (x & <- & I). now apply urlsafe_char_spec, D.
    + destruct P as [-> | [-> | ->]]; auto.
  - intros (_ & data & pad & -> & D & P).
    assert (C : forall c, In c (data ++ pad) -> 0 <= c < 128).
    { intros c I. apply in_app_or in I as [I|I]; [apply D in I; unfold urlsafe in I; lia|]. destruct P as [-> | [-> | ->]]; cbn in I; intuition lia. }
    rewrite encode_of_codes by exact C.
    assert (N : urlsafe_b64decode (map zb (data ++ pad)) <> None).
    { apply decodes_spec; [now rewrite map_length|]. exists (map zb data), (map zb pad). split; [apply map_app|]. split.
      - intros c I. apply in_map_iff in I as (x & <- & I). apply urlsafe_char_spec. assert (X : 0 <= x < 128) by (apply C, in_or_app; now left). rewrite bz_zb, Z.mod_small by lia. now apply D.


      - destruct P as [-> | [-> | ->]]; auto. }
    destruct (urlsafe_b64decode (map zb (data ++ pad))); [reflexivity|contradiction].
Qed.

(** ** Setting up replication *)
Section Replication.
Variables W R : Type.
Variable reader : W -> R.
Variable danger_rw : W -> text.
Variable danger_ro : R -> text.
Variable parse_rw : text -> option W.
Variable parse_ro : text -> option R.
Variable digested : W -> text.
Notation setup_step := (setup_step reader danger_rw danger_ro parse_rw parse_ro digested).
Notation setup_run := (setup_run reader danger_rw danger_ro parse_rw parse_ro digested).

Definition setup_inv (s : setup) : Prop :=
  match config s with
  | None => codes 201 (answers s) = []
  | Some c => busy s = None /\ exists w client, c = danger_rw w /\ codes 201 (answers s) = [(client, (201, Some (danger_ro (reader w))))]
  end.

Lemma codes_app code l m : codes code (l ++ m) = codes code l ++ codes code m.
Proof. apply filter_app. Qed.
Lemma codes_other code l client c cap : c <> code -> codes code (l ++ [(client, (c, cap))]) = codes code l.
Proof. intros N. rewrite codes_app. cbn. destruct (Z.eqb_spec c code); [contradiction|]. apply app_nil_r. Qed.

Lemma ask_setup_config client s : config (ask_setup danger_ro parse_rw parse_ro digested client s) = config s.
Proof.
  unfold ask_setup. destruct (busy s); [reflexivity|]. destruct (config s) as [c|] eqn:C; [|reflexivity].
  destruct (parse_rw c) as [w|]; [|exact C]. destruct (parse_ro (digested w)); exact C.
Qed.
Lemma setup_step_inv s e : setup_inv s -> setup_inv (setup_step s e).
Proof.
  unfold setup_inv. destruct e as [client|r|]; cbn [HttpModel.setup_step].
  - intros H. rewrite ask_setup_config. unfold ask_setup. destruct (busy s) as [k|] eqn:B.
    + destruct (config s) as [c|]; [destruct H as [H _]; discriminate H|]. cbn [answers answer]. rewrite codes_other by discriminate. exact H.
    + destruct (config s) as [c|]; [|exact H]. destruct H as (_ & w & cl & -> & H).
      destruct (parse_rw (danger_rw w)) as [w'|]; [destruct (parse_ro (digested w')) as [r|]|];
        (split; [exact B|exists w, cl; split; [reflexivity|]]); cbn [answers answer]; rewrite codes_other by discriminate; exact H.
  - intros H. unfold directory_made. destruct (busy s) as [k|] eqn:B; [|rewrite B; exact H].
    destruct (config s) as [c|] eqn:C; [destruct H as [H _]; discriminate H|].
    destruct r as [w|]; cbn [config answer answers busy].
    + split; [reflexivity|]. exists w, k. split; [reflexivity|]. rewrite codes_app, H. reflexivity.
    + rewrite codes_other by discriminate. exact H.
  - cbn [config answers busy]. destruct (config s); [|auto]. intros (_ & H). auto.
Qed.
Lemma setup_steps_inv es : forall s, setup_inv s -> setup_inv (fold_left setup_step es s).
Proof. induction es as [|e es IH]; intros s H; [exact H|]. cbn [fold_left]. apply IH. now apply setup_step_inv. Qed.

Lemma setup_step_keeps s e c : setup_inv s -> config s = Some c -> config (setup_step s e) = Some c.
Proof.
  unfold setup_inv. intros H C. rewrite C in H. destruct H as [B _]. destruct e as [client|r|]; cbn [HttpModel.setup_step].
  - rewrite ask_setup_config. exact C.
  - unfold directory_made. rewrite B. exact C.
  - exact C.
Qed.
Lemma setup_steps_keep es c : forall s, setup_inv s -> config s = Some c -> config (fold_left setup_step es s) = Some c.
Proof.
  induction es as [|e es IH]; intros s H C; [exact C|]. cbn [fold_left]. apply IH; [now apply setup_step_inv|now apply setup_step_keeps].
Qed.

Lemma no_conflict es : (forall w, parse_ro (digested w) = None) -> forall s, codes 409 (answers s) = [] -> codes 409 (answers (fold_left setup_step es s)) = [].
Proof.
  intros P. induction es as [|e es IH]; intros s H; [exact H|]. cbn [fold_left]. apply IH. destruct e as [client|r|]; cbn [HttpModel.setup_step].
  - unfold ask_setup. destruct (busy s); [cbn [answers answer]; now rewrite codes_other by discriminate|].
    destruct (config s) as [c|]; [|exact H]. destruct (parse_rw c) as [w|]; [rewrite P|]; cbn [answers answer]; now rewrite codes_other by discriminate.
  - unfold directory_made. destruct (busy s); [|exact H]. destruct r; cbn [answers answer]; now rewrite codes_other by discriminate.
  - exact H.
Qed.
End Replication.
