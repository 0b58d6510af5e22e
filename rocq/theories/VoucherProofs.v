(** Proofs about vouchers and their stored forms. *)
From Verif Require Import Prelude PreludeFacts BytesModel BytesProofs CborModel CborProofs StreamModel
  DateModel DateProofs JsonModel JsonProofs VoucherModel VoucherSpec.
From Verif Require StoreModel StoreSpec StoreProofs ControllerProofs.
From Coq Require Strings.String.
Import Coq.Strings.String.StringSyntax.
Set Implicit Arguments.

(** ** Texts *)

Lemma decode_ascii_ok s : all_ascii s -> decode_ascii s = Some (ascii s).
Proof. intros H. unfold decode_ascii. rewrite (proj2 (forallb_forall _ _)); [reflexivity|]. intros b I. apply H in I. lia. Qed.
Lemma encode_ascii_ok s : all_ascii s -> encode_ascii (ascii s) = Some s.
Proof.
  intros H. unfold encode_ascii, ascii. rewrite (proj2 (forallb_forall _ _)).
  - rewrite map_map. f_equal. rewrite <- (map_id s) at 2. apply map_ext. apply zb_bz.
  - intros c I. apply in_map_iff in I as (b & <- & I). apply H in I. pose proof (bz_range b). lia.
Qed.
Lemma encode_ascii_all s b : encode_ascii s = Some b -> all_ascii b /\ ascii b = s.
Proof.
  unfold encode_ascii. destruct (forallb _ s) eqn:E; [|discriminate]. rewrite forallb_forall in E. intros [= <-]. split.
  - intros x I. apply in_map_iff in I as (c & <- & I). apply E in I. rewrite bz_zb, Z.mod_small; lia.
  - unfold ascii. rewrite map_map. rewrite <- (map_id s) at 2. apply map_ext_in. intros c I. apply E in I. rewrite bz_zb, Z.mod_small; lia.
Qed.

Lemma stamp_text_all_ascii sep t : bz sep < 128 -> all_ascii (stamp_text sep t).
Proof. intros H b I. exact (@stamp_text_ascii sep t b H I). Qed.

Lemma parse_datetime_text sep t : bz sep < 128 -> stamp_ok t = true -> parse_datetime sep (ascii (stamp_text sep t)) = Ok t.
Proof.
  intros S H. unfold parse_datetime. rewrite encode_ascii_ok by now apply stamp_text_all_ascii. cbn [or_err bind].
  now rewrite parse_stamp_text.
Qed.
Lemma parse_isoformat t : stamp_ok t = true -> parse_datetime x54 (isoformat t) = Ok t.
Proof. apply parse_datetime_text. reflexivity. Qed.

(** ** Numbers *)

Lemma digits_value_lower ds : forall acc, 0 <= acc -> forallb is_digit ds = true ->
  acc * 10 ^ Z.of_nat (length ds) <= digits_value acc ds.
Proof.
  induction ds as [|d ds IH]; intros acc A D; cbn [length digits_value]; [cbn; lia|].
  cbn in D. apply andb_true_iff in D as [D1 D2]. unfold is_digit in D1.
  specialize (IH (acc * 10 + (bz d - 48))). rewrite Nat2Z.inj_succ, Z.pow_succ_r by lia.
  assert (0 < 10 ^ Z.of_nat (length ds)) by (apply Z.pow_pos_nonneg; lia).
  assert (acc * 10 * 10 ^ Z.of_nat (length ds) <= (acc * 10 + (bz d - 48)) * 10 ^ Z.of_nat (length ds)) by (apply Z.mul_le_mono_nonneg_r; lia).
  specialize (IH ltac:(lia) D2). lia.
Qed.

Lemma nat_digits_few n k : (1 <= k)%nat -> Z.abs n < 10 ^ Z.of_nat k -> (length (nat_digits n) <= k)%nat.
Proof.
  intros K H. destruct (Z.eq_dec n 0) as [->|N]; [exact K|].
  destruct (whole_digits n [] I) as (_ & D & _ & V). unfold nat_digits, dec in *. destruct (Z.ltb_spec (Z.abs n) 0); [lia|].
  destruct (@dec_loop_head (Datatypes.S (Z.to_nat (Z.log2 (Z.abs n)))) (Z.abs n) []) as (c & t & E & C & Dc).
  { split; [lia|]. apply log2_fuel. lia. }
  rewrite E in *. cbn [digits_value forallb] in *. apply andb_true_iff in D as [_ D]. unfold is_digit in Dc.
  pose proof (@digits_value_lower t (0 * 10 + (bz c - 48)) ltac:(lia) D) as L. rewrite V in L.
  assert (P : 0 < 10 ^ Z.of_nat (length t)) by (apply Z.pow_pos_nonneg; lia).
  assert (Q : 10 ^ Z.of_nat (length t) <= (0 * 10 + (bz c - 48)) * 10 ^ Z.of_nat (length t)).
  { rewrite <- (Z.mul_1_l (10 ^ Z.of_nat (length t))) at 1. apply Z.mul_le_mono_nonneg_r; lia. }
  assert (R : 10 ^ Z.of_nat (length t) < 10 ^ Z.of_nat k) by lia. apply Z.pow_lt_mono_r_iff in R; cbn [length]; lia.
Qed.

(** ** Strings *)

Lemma ascii_string_ok s : all_ascii s -> string_ok (ascii s) = true.
Proof.
  intros H. unfold string_ok. apply andb_true_iff. split.
  - apply forallb_forall. intros c I. unfold ascii in I. apply in_map_iff in I as (b & <- & I). apply H in I. pose proof (bz_range b). unfold char_ok. lia.
  - induction s as [|a s IH]; [reflexivity|]. cbn [ascii map no_pairs]. apply andb_true_iff. split.
    + destruct s as [|b s]; [reflexivity|]. cbn [map]. assert (Ha : bz a < 128) by (apply H; now left). unfold is_high. lia.
    + apply IH. intros b I. apply H. now right.
Qed.
Lemma details_ok s : code_points s -> no_surrogate_pair s -> string_ok s = true.
Proof.
  intros C P. unfold string_ok. apply andb_true_iff. split.
  - apply forallb_forall. intros c I. apply C in I. unfold char_ok. lia.
  - clear C. induction s as [|a s IH]; [reflexivity|]. cbn [no_pairs]. apply andb_true_iff. split.
    + destruct s as [|b s]; [reflexivity|]. specialize (P [] s a b eq_refl). unfold is_high, is_low. lia.
    + apply IH. intros x y u w ->. apply (P (a :: x) y u w). reflexivity.
Qed.

(** ** What is read is valid *)
Lemma bind_ok {E A B} (r : res E A) (k : A -> res E B) y : bind r k = Ok y -> exists x, r = Ok x /\ k x = Ok y.
Proof. destruct r as [x|e]; cbn; [eauto|discriminate]. Qed.
Lemma check_aware_ok t u : check_aware t = Ok u -> aware t = true.
Proof. unfold check_aware. now destruct (aware t). Qed.
Lemma check_above_ok b n u : check_above b n = Ok u -> b < n.
Proof. unfold check_above. destruct (Z.ltb_spec b n); [auto|discriminate]. Qed.

Lemma int_digits_nonneg s : forall b acc n, 0 <= acc -> forallb is_digit s = true -> int_digits b acc s = Some n -> 0 <= n.
Proof.
  intros b acc n A D H. destruct s as [|d s]; [cbn in H; destruct b; [injection H as <-; exact A|discriminate H]|].
  rewrite int_digits_all in H by (first [assumption|discriminate]). apply (f_equal (fun o => match o with Some x => x | None => 0 end)) in H.
  pose proof (@digits_value_lower (d :: s) acc A D). assert (0 < 10 ^ Z.of_nat (length (d :: s))) by (apply Z.pow_pos_nonneg; lia).
  assert (0 <= acc * 10 ^ Z.of_nat (length (d :: s))) by (apply Z.mul_nonneg_nonneg; lia). rewrite <- H. eapply Z.le_trans; eassumption.
Qed.
Lemma take_digits_nonneg w s n r : take_digits w s = Some (n, r) -> 0 <= n.
Proof.
  unfold take_digits. destruct (_ && _) eqn:E; [|discriminate]. apply andb_true_iff in E as [_ E].
  destruct (int_digits false 0 (firstn w s)) eqn:D; [|discriminate]. cbn. intros [= <- _]. eapply int_digits_nonneg; [|exact E|exact D]. lia.
Qed.
Lemma parse_offset_range s m : parse_offset s = Some (Some m) -> -1440 < m < 1440.
Proof.
  unfold parse_offset. destruct s as [|c s]; [discriminate|].
  destruct (Byte.eqb c x5a); [destruct s; [|discriminate]; intros [= <-]; lia|].
  destruct (Byte.eqb c x2b || Byte.eqb c x2d); [|discriminate].
  destruct (take_digits 2 s) as [[h s1]|] eqn:E1; [|discriminate]. destruct (take_char x3a s1) as [s2|]; [|discriminate].
  destruct (take_digits 2 s2) as [[mi s3]|] eqn:E2; [|discriminate]. apply take_digits_nonneg in E1, E2.
  destruct ((24 <=? h) || (60 <=? mi)) eqn:B; [discriminate|]. destruct s3; [|discriminate].
  destruct (Byte.eqb c x2b); [intros [= <-]; lia|]. destruct (h * 60 + mi =? 0); [discriminate|]. intros [= <-]. lia.
Qed.
Lemma parse_stamp_ok sep b t : parse_stamp sep b = Some t -> stamp_ok t = true.
Proof.
  unfold parse_stamp.
  destruct (take_digits 4 b) as [[y b1]|]; [|discriminate]. destruct (take_char x2d b1) as [b2|]; [|discriminate].
  destruct (take_digits 2 b2) as [[mo b3]|]; [|discriminate]. destruct (take_char x2d b3) as [b4|]; [|discriminate].
  destruct (take_digits 2 b4) as [[da b5]|]; [|discriminate]. destruct (take_char sep b5) as [b6|]; [|discriminate].
  destruct (take_digits 2 b6) as [[h b7]|]; [|discriminate]. destruct (take_char x3a b7) as [b8|]; [|discriminate].
  destruct (take_digits 2 b8) as [[mi b9]|]; [|discriminate]. destruct (take_char x3a b9) as [b10|]; [|discriminate].
  destruct (take_digits 2 b10) as [[se b11]|]; [|discriminate].
  destruct (match take_char x2e b11 with Some s' => take_digits 6 s' | None => Some (0, b11) end) as [[us b12]|]; [|discriminate].
  destruct (parse_offset b12) as [o|] eqn:O; [|discriminate]. cbv zeta. destruct (date_ok _) eqn:D; [|discriminate]. intros [= <-].
  unfold stamp_ok. cbn [s_date s_offset]. rewrite D. destruct o as [m|]; [|reflexivity]. apply parse_offset_range in O. lia.
Qed.
Lemma parse_datetime_ok sep s t : parse_datetime sep s = Ok t -> stamp_ok t = true.
Proof.
  unfold parse_datetime. intros H. apply bind_ok in H as (b & _ & H). destruct (parse_stamp sep b) eqn:E; [|discriminate H].
  injection H as <-. now apply parse_stamp_ok in E.
Qed.
(** ** JSON *)
Section Json.
Variable F : Type.
Variable float_of : text -> F.
Variable float_repr : F -> text.
Variable max_digits : nat.
Variable decode : bytes -> option text.
Hypothesis some_digits : (1 <= max_digits)%nat.
Hypothesis ascii_decoded : decodes_ascii decode.
Notation to_json := (to_json float_repr).
Notation from_json := (from_json float_of max_digits decode).
Notation writable := (@writable F max_digits).

Definition keys_ok (keys : list text) : bool :=
  forallb string_ok keys && (fix nodup (l : list text) : bool := match l with [] => true | k :: l' => negb (existsb (text_eqb k) l') && nodup l' end) keys.

Lemma keys_ok_spec keys : keys_ok keys = true -> NoDup keys /\ forall k, In k keys -> string_ok k = true.
Proof.
  unfold keys_ok. intros H. apply andb_true_iff in H as [A B]. rewrite forallb_forall in A. split; [|exact A]. clear A.
  induction keys as [|k l IH]; [constructor|]. apply andb_true_iff in B as [B1 B2]. constructor; [|now apply IH].
  intros I. apply negb_true_iff in B1. assert (X : existsb (text_eqb k) l = true) by (apply existsb_exists; exists k; split; [exact I|apply text_eqb_refl]). congruence.
Qed.

Lemma writable_object l : keys_ok (map fst l) = true -> (forall kv, In kv l -> writable (snd kv)) -> writable (JObj l).
Proof.
  intros K W. apply keys_ok_spec in K as [N K]. apply writable_obj. split; [exact N|]. apply Forall_forall. intros kv I.
  split; [apply K; now apply in_map|now apply W].
Qed.

Lemma isoformat_writable t : writable (JStr (isoformat t)).
Proof. apply ascii_string_ok. now apply stamp_text_all_ascii. Qed.
Lemma int_writable n : Z.abs n < 10 ^ Z.of_nat max_digits -> writable (JInt n).
Proof. intros H. now apply nat_digits_few. Qed.

Lemma state_writable v : printable max_digits v -> plain_details v -> writable (state_json F (state v)).
Proof.
  intros [_ P] D. unfold plain_details in D. destruct (state v) as [c|t c|t n|t|t|t m]; cbn [state_json];
    (apply writable_object; [vm_compute; reflexivity|]);
    intros kv I; repeat (destruct I as [<-|I]; [cbn [snd]|]); try destruct I; try match goal with |- writable (JStr (isoformat _)) => apply isoformat_writable | |- writable (JInt _) => apply int_writable; exact P end;
    try (vm_compute; reflexivity).
  apply details_ok; apply D.
Qed.
Lemma state_depth s : depth_of (state_json F s) = 1%nat.
Proof. now destruct s. Qed.

Lemma voucher_writable v j : printable max_digits v -> plain_details v -> all_ascii (number v) -> to_json_v1 F v = Ok j -> writable j /\ depth_of j = 2%nat.
Proof.
  intros P D A. unfold to_json_v1. rewrite decode_ascii_ok by exact A. cbn [or_err bind]. intros [= <-]. split.
  - apply writable_object; [vm_compute; reflexivity|].
    intros kv I. repeat (destruct I as [<-|I]; [cbn [snd]|]); try destruct I.
    + now apply ascii_string_ok.
    + apply int_writable, P.
    + destruct (created v); [apply isoformat_writable|exact Logic.I].
    + now apply state_writable.
    + apply int_writable. replace (Z.abs 1) with (10 ^ 0) by reflexivity. apply Z.pow_lt_mono_r; lia.
  - cbn [depth_of snd]. rewrite state_depth. destruct (created v); reflexivity.
Qed.

Lemma state_back s : valid_state s -> exists d, state_json F s = JObj d /\ state_of_json d = Ok s.
Proof.
  assert (T : forall t, moment t -> time_of (JStr (isoformat t) : json F) = Ok t) by (intros t [Ht _]; now apply parse_isoformat).
  assert (A : forall t, moment t -> check_aware t = Ok tt) by (intros t [_ Ha]; unfold check_aware; now rewrite Ha).
  assert (C : forall c, 0 <= c -> check_above (-1) c = Ok tt) by (intros c Hc; unfold check_above; destruct (Z.ltb_spec (-1) c); [reflexivity|lia]).
  destruct s as [c|t c|t n|t|t|t m]; cbn [valid_state state_json]; intros V; eexists; (split; [reflexivity|]).
  - cbn -[make_pending]. unfold make_pending. now rewrite C.
  - destruct V as [V1 V2]. cbn -[make_redeeming time_of isoformat]. rewrite T by exact V1. cbn -[make_redeeming]. unfold make_redeeming. now rewrite A, C.
  - cbn -[make_redeemed time_of isoformat]. rewrite T by exact V. cbn -[make_redeemed]. unfold make_redeemed. now rewrite A.
  - cbn -[make_double_spend time_of isoformat]. rewrite T by exact V. cbn -[make_double_spend]. unfold make_double_spend. now rewrite A.
  - cbn -[make_unpaid time_of isoformat]. rewrite T by exact V. cbn -[make_unpaid]. unfold make_unpaid. now rewrite A.
  - cbn -[make_error time_of isoformat]. rewrite T by exact V. cbn -[make_error]. unfold make_error. now rewrite A.
Qed.

Lemma make_voucher_ok v : valid_voucher v -> make_voucher (number v) (expected_tokens v) (created v) (state v) = Ok v.
Proof.
  destruct v as [n e c s]. intros (L & E & C & _). cbn [number expected_tokens created state] in *. unfold make_voucher, check_base64_bytes.
  rewrite L. cbn [Nat.eqb bind]. unfold check_above. destruct (Z.ltb_spec 0 e); [|lia]. cbn [bind].
  destruct c as [t|]; [|reflexivity]. destruct (C t eq_refl) as [_ H']. unfold check_aware. now rewrite H'.
Qed.

Lemma json_roundtrip v depth : valid_voucher v -> all_ascii (number v) -> printable max_digits v -> plain_details v -> (2 <= depth)%nat ->
  exists b, to_json v = Ok b /\ from_json depth b = Ok v.
Proof.
  intros V A P D Dp. pose proof V as (L & E & C & S).
  destruct (to_json_v1 F v) as [j|e] eqn:J; [|unfold to_json_v1 in J; rewrite decode_ascii_ok in J by exact A; discriminate].
  destruct (voucher_writable P D A J) as [W Dj].
  exists (dumps_utf8 float_repr j). split; [unfold VoucherModel.to_json; now rewrite J|].
  unfold VoucherModel.from_json. rewrite loads_dumps; [|exact ascii_decoded|exact W|lia].
  unfold to_json_v1 in J. rewrite decode_ascii_ok in J by exact A. cbn [or_err bind] in J. injection J as <-.
  destruct (@state_back (state v) S) as (d & -> & Sd).
  assert (Cb : match (match created v with None => JNull | Some t => JStr (isoformat t) end : json F) with
               | JNull => Ok None | c => t <- time_of c ;; Ok (Some t) end = Ok (created v)).
  { destruct (created v) as [t|]; [|reflexivity]. cbn [time_of]. destruct (C t eq_refl). now rewrite parse_isoformat. }
  unfold field. cbn -[from_json_v1 isoformat]. unfold from_json_v1, field. cbn -[state_of_json make_voucher isoformat encode_ascii time_of].
  rewrite Sd. cbn -[make_voucher isoformat encode_ascii time_of]. rewrite encode_ascii_ok by exact A. cbn -[make_voucher isoformat time_of].
  revert Cb. destruct (created v) as [t|] eqn:Ec; cbn -[make_voucher isoformat time_of]; intros Cb; rewrite ?Cb; cbn -[make_voucher isoformat time_of].
  - rewrite <- Ec. now apply make_voucher_ok.
  - rewrite <- Ec. now apply make_voucher_ok.
Qed.

End Json.

Section Reading.
Variable F : Type.
Variable float_of : text -> F.
Variable max_digits : nat.
Variable decode : bytes -> option text.
Notation from_json := (from_json float_of max_digits decode).

Lemma time_of_ok (j : json F) t : time_of j = Ok t -> stamp_ok t = true.
Proof. destruct j; try discriminate. apply parse_datetime_ok. Qed.

Ltac binds H := repeat match type of H with bind _ _ = Ok _ => let x := fresh "x" in let E := fresh "E" in apply bind_ok in H as (x & E & H) end.
Ltac facts := repeat match goal with
  | E : check_aware _ = Ok _ |- _ => apply check_aware_ok in E
  | E : check_above _ _ = Ok _ |- _ => apply check_above_ok in E
  | E : time_of _ = Ok _ |- _ => apply time_of_ok in E
  end.

Lemma state_of_json_valid (d : list (text * json F)) s : state_of_json d = Ok s -> valid_state s.
Proof.
  unfold state_of_json. intros H. apply bind_ok in H as (name & _ & H).
  destruct (is_text name "pending"); [unfold make_pending in H; binds H; injection H as <-; facts; cbn; lia|].
  destruct (is_text name "redeeming"); [unfold make_redeeming in H; binds H; injection H as <-; facts; cbn; unfold moment; repeat split; auto; lia|].
  destruct (is_text name "double-spend"); [unfold make_double_spend in H; binds H; injection H as <-; facts; cbn; split; auto|].
  destruct (is_text name "redeemed"); [unfold make_redeemed in H; binds H; injection H as <-; facts; cbn; split; auto|].
  destruct (is_text name "unpaid"); [unfold make_unpaid in H; binds H; injection H as <-; facts; cbn; split; auto|].
  destruct (is_text name "error"); [unfold make_error in H; binds H; injection H as <-; facts; cbn; split; auto|discriminate].
Qed.

Lemma make_voucher_valid n e c s v : make_voucher n e c s = Ok v -> valid_state s -> (forall t, c = Some t -> stamp_ok t = true) ->
  v = Voucher n e c s /\ valid_voucher v.
Proof.
  unfold make_voucher, check_base64_bytes. intros H S C. destruct (Nat.eqb_spec (length n) 44); [|discriminate]. cbn [bind] in H. binds H. injection H as <-.
  facts. split; [reflexivity|]. split; [assumption|]. split; [exact E|]. split; [|exact S]. cbn [created]. intros t Ht. subst c. split; [now apply C|]. now facts.
Qed.

Lemma from_json_valid depth b v : from_json depth b = Ok v -> valid_voucher v /\ all_ascii (number v).
Proof.
  unfold VoucherModel.from_json. destruct (loads _ _ _ _ _) as [[| | | | | |d]|[|]]; try discriminate. intros H.
  apply bind_ok in H as (version & _ & H). destruct (is_version_1 version); [|discriminate]. unfold from_json_v1 in H. binds H.
  assert (Vs : valid_state x0) by (destruct x; try discriminate E0; now apply state_of_json_valid in E0).
  assert (Ct : forall t, x7 = Some t -> stamp_ok t = true).
  { intros t ->. destruct x6; try discriminate E7; apply bind_ok in E7 as (t' & E7 & [= ->]); now apply time_of_ok in E7. }
  destruct (@make_voucher_valid _ _ _ _ _ H Vs Ct) as [-> V]. split; [exact V|]. cbn [number].
  destruct (encode_ascii x2) as [y|] eqn:En; [|discriminate E5]. injection E5 as <-. now apply encode_ascii_all in En.
Qed.
End Reading.

(** ** Rows *)

Section Row.
Variable number_text : Z -> text.
Variable time : Z -> stamp.
Variable public_key : sqlv.
Hypothesis numbers : number_texts number_text.
Hypothesis times : clock_times time.

Lemma sql_time_back t : exists s, sql_time (time t) = STxt s /\ parse_datetime x20 s = Ok (time t).
Proof. eexists. split; [reflexivity|]. apply parse_datetime_text; [reflexivity|]. apply (times t). Qed.
Lemma time_aware t : check_aware (time t) = Ok tt.
Proof. unfold check_aware. destruct (times t) as [_ ->]. reflexivity. Qed.

Definition number_bytes (n : Z) : bytes := map zb (number_text n).
Lemma number_back n : encode_ascii (number_text n) = Some (number_bytes n) /\ length (number_bytes n) = 44%nat /\ ascii (number_bytes n) = number_text n.
Proof.
  destruct (numbers n) as [L C]. unfold number_bytes. rewrite map_length.
  assert (E : encode_ascii (number_text n) = Some (map zb (number_text n))).
  { unfold encode_ascii. rewrite (proj2 (forallb_forall _ _)); [reflexivity|]. intros c I. apply C in I. lia. }
  split; [exact E|]. split; [exact L|]. now apply encode_ascii_all in E.
Qed.

(** Reading the columns is reading the row. *)
Lemma columns_read r :
  match StoreModel.from_row r with
  | Ok a => exists v, from_row (columns number_text time public_key r) = Ok v /\ same_voucher number_text time a v
  | Err _ => exists e, from_row (columns number_text time public_key r) = Err e
  end.
Proof.
  destruct r as [n c e s f k q m]. unfold StoreModel.from_row, columns. cbn [StoreModel.v_number StoreModel.v_created StoreModel.v_expected StoreModel.v_state
    StoreModel.v_finished StoreModel.v_token_count StoreModel.v_sequestered StoreModel.v_counter].
  destruct (number_back n) as (En & Ln & An). unfold from_row. cbn [text_of bind number_of].
  destruct (sql_time_back c) as (cs & -> & Pc). cbn [text_of bind]. rewrite En. cbn [or_err bind]. rewrite Pc. cbn [bind].
  assert (M : forall st, (e <=? 0 = true -> exists x, make_voucher (number_bytes n) e (Some (time c)) st = Err x) /\
     (e <=? 0 = false -> make_voucher (number_bytes n) e (Some (time c)) st = Ok (Voucher (number_bytes n) e (Some (time c)) st))).
  { intros st. unfold make_voucher, check_base64_bytes. rewrite Ln. cbn [Nat.eqb bind]. unfold check_above. destruct (Z.ltb_spec 0 e), (Z.leb_spec e 0); try lia; cbn [bind].
    - split; [discriminate|]. intros _. now rewrite time_aware.
    - split; [eauto|discriminate]. }
  destruct s; cbn [state_name].
  - change (state_from_row _ _ _ _ _) with (c <- number_of VAssertion (SInt m) ;; make_pending c). cbn [number_of bind].
    unfold make_pending, check_above. destruct (Z.ltb_spec m 0), (Z.ltb_spec (-1) m); try lia; cbn [bind]; [eauto|].
    destruct (M (Pending m)) as [M1 M2]. destruct (e <=? 0); [now apply M1|]. rewrite M2 by reflexivity. eexists. split; [reflexivity|].
    repeat split. cbn. exact An.
  - change (state_from_row _ _ _ _ _) with (t <- text_of VAssertion (opt_time time f) ;; t <- parse_datetime x20 t ;; make_double_spend t).
    destruct f as [f|]; cbn [opt_time]; [|cbn; eauto]. destruct (sql_time_back f) as (fs & -> & Pf). cbn [text_of bind]. rewrite Pf. cbn [bind].
    unfold make_double_spend. rewrite time_aware. cbn [bind]. destruct (M (DoubleSpend (time f))) as [M1 M2]. destruct (e <=? 0); [now apply M1|].
    rewrite M2 by reflexivity. eexists. split; [reflexivity|]. repeat split. cbn. exact An.
  - change (state_from_row _ _ _ _ _) with (c <- number_of VAssertion (opt_int k) ;; t <- text_of VType (opt_time time f) ;; t <- parse_datetime x20 t ;; make_redeemed t c).
    destruct k as [k|]; cbn [opt_int number_of bind]; [|eauto].
    destruct f as [f|]; cbn [opt_time]; [|cbn; eauto]. destruct (sql_time_back f) as (fs & -> & Pf). cbn [text_of bind]. rewrite Pf. cbn [bind].
    unfold make_redeemed. rewrite time_aware. cbn [bind]. destruct (M (Redeemed (time f) k)) as [M1 M2]. destruct (e <=? 0); [now apply M1|].
    rewrite M2 by reflexivity. eexists. split; [reflexivity|]. repeat split. cbn. exact An.
Qed.
End Row.

(** ** Histories of the store *)
Section History.
Import StoreModel StoreSpec StoreProofs ControllerProofs.

Definition fits (m : mut) : Prop := match m with InsVoucherIgnore _ e _ => 0 < e | _ => True end.
Fixpoint fitting {A} (p : prog A) : Prop :=
  match p with
  | Ret _ | Raise _ => True
  | Mut _ m k => fits m /\ forall n, fitting (k n)
  | Many _ ms k => Forall fits ms /\ fitting k
  | Qry k => forall d, fitting (k d)
  end.

Definition all_readable (d : db) : Prop := forall r, In r (vouchers d) -> readable r.

Lemma exec_mut_readable m d n d' : fits m -> all_readable d -> exec_mut m d = Ok (n, d') -> all_readable d'.
Proof.
  intros Fm R. destruct m; cbn [exec_mut];
    repeat match goal with |- context [if ?b then _ else _] => destruct b end; try discriminate; intros [= <- <-]; try exact R; intros r I; cbn in I.
  - apply in_app_or in I as [I|[<-|[]]]; [now apply R|]. cbn in Fm. repeat split; cbn; try lia; congruence.
  - apply in_map_iff in I as (r0 & <- & I). apply R in I. destruct (_ =? _); [|exact I]. destruct I as (A & B & C & D).
    repeat split; cbn; try lia; congruence.
  - apply in_map_iff in I as (r0 & <- & I). apply R in I. destruct (_ && _); [|exact I]. destruct I as (A & B & C & D).
    repeat split; cbn; try lia; congruence.
Qed.
Lemma exec_muts_readable ms : forall d d', Forall fits ms -> all_readable d -> exec_muts ms d = Ok d' -> all_readable d'.
Proof.
  induction ms as [|m ms IH]; intros d d' Fm R; cbn; [now intros [= <-]|]. inversion Fm; subst.
  destruct (exec_mut m d) as [[n d1]|e] eqn:E; cbn; [|discriminate]. intros H. eapply IH; [eassumption| |exact H]. eapply exec_mut_readable; eassumption.
Qed.
Lemma run_readable A (p : prog A) : forall d r d' rec, fitting p -> all_readable d -> run p d = (r, d', rec) -> all_readable d'.
Proof.
  induction p as [a|e|i m k IH|i ms k IH|k IH]; intros d r d' rec U R; cbn.
  - now intros [= _ <- _].
  - now intros [= _ <- _].
  - destruct U as [Um Uk]. destruct (exec_mut m d) as [[n d1]|e] eqn:E; [|now intros [= _ <- _]].
    destruct (run (k n) d1) as [[r2 d2] rec2] eqn:Rn. intros [= <- <- _]. eapply IH; [apply Uk| |exact Rn]. eapply exec_mut_readable; eassumption.
  - destruct U as [Um Uk]. destruct (exec_muts ms d) as [d1|e] eqn:E; [|now intros [= _ <- _]].
    destruct (run k d1) as [[r2 d2] rec2] eqn:Rn. intros [= <- <- _]. eapply IH; [apply Uk| |exact Rn]. eapply exec_muts_readable; eassumption.
  - intros Rn. eapply IH; [apply U|exact R|exact Rn].
Qed.
Lemma fitting_pmap A B (f : A -> B) p : fitting p -> fitting (pmap f p).
Proof. induction p; cbn; intuition. Qed.

Definition positive_add (o : op) : Prop := match o with OAdd _ e _ _ _ => 0 < e | _ => True end.

Ltac free := apply Forall_forall; intros ? Hm; apply in_map_iff in Hm as (? & <- & _); exact I.
Lemma fitting_op o : positive_add o -> fitting (op_prog o).
Proof.
  intros P. destruct o; cbn [op_prog]; try apply fitting_pmap.
  - unfold add. cbn. intros d. destruct (filter _ _); cbn; [|exact I]. split; [exact P|]. intros _. split; [free|exact I].
  - unfold insert_unblinded_tokens_for_voucher. cbn [fitting]. split; [exact I|]. intros g. split; [exact I|]. intros n.
    destruct (n =? 0); cbn [fitting]; [exact I|]. intros d. destruct (filter _ _) as [|r rs]; cbn [fitting]; [exact I|].
    split; [free|cbn; auto].
  - unfold mark_voucher_double_spent. cbn. split; [exact I|]. intros n. destruct (n =? 0); cbn; auto.
  - unfold get_unblinded_tokens. destruct (_ >? _); cbn; auto. intros d.
    repeat match goal with |- context [if ?b then _ else _] => destruct b end; cbn; auto. split; [free|auto].
  - unfold discard_unblinded_tokens. cbn. repeat split; auto; free.
  - unfold invalidate_unblinded_tokens. cbn. repeat split; auto; free.
  - unfold reset_unblinded_tokens. cbn. repeat split; auto; free.
  - unfold get. cbn. intros d. destruct (filter _ _) as [|r rs]; cbn; auto. destruct (StoreModel.from_row r); cbn; auto.
  - unfold list_vouchers. cbn. intros d. destruct (map_res _ _); cbn; auto.
  - cbn. auto.
  - cbn. auto.
  - cbn. auto.
  - unfold maint_observe. destruct (PricingModel.required_passes _ _); [|exact I]. destruct rowid; cbn; auto.
  - unfold maint_finish. destruct rowid; cbn; auto.
  - cbn. auto.
  - exact I.
Qed.
Lemma step_readable o d r d' : positive_add o -> all_readable d -> step d o = (r, d') -> all_readable d'.
Proof.
  intros P R S. destruct o; cbn [step] in S;
  try (injection S as <- <-; exact R);
  unfold with_cursor in S;
  match type of S with context [run ?p d] => destruct (run p d) as [[[a|e] d1] rec] eqn:Rn end;
  injection S as <- <-; try exact R; exact (@run_readable _ _ _ _ _ _ (fitting_op _ P) R Rn).
Qed.
Lemma steps_readable os : forall d rs d', Forall positive_add os -> all_readable d -> steps d os = (rs, d') -> all_readable d'.
Proof.
  induction os as [|o os IH]; intros d rs d' P R; cbn; [now intros [= _ <-]|]. inversion P; subst.
  destruct (step d o) as [r d1] eqn:E. destruct (steps d1 os) as [rs' d2] eqn:E2. intros [= _ <-].
  eapply IH; [eassumption| |exact E2]. eapply step_readable; eassumption.
Qed.
End History.

(** ** Order of times *)

Lemma text_compare_app a b : forall x y, length a = length b ->
  text_compare (a ++ x) (b ++ y) = match text_compare a b with Eq => text_compare x y | c => c end.
Proof.
  revert b. induction a as [|c a IH]; intros [|d b] x y L; try discriminate L; [reflexivity|]. cbn.
  destruct (c ?= d); [|reflexivity|reflexivity]. apply IH. now injection L.
Qed.
Lemma digit_order a b : 0 <= a < 10 -> 0 <= b < 10 -> (bz (digit a) ?= bz (digit b)) = (a ?= b).
Proof. intros A B. rewrite !bz_digit by assumption. destruct (Z.compare_spec a b), (Z.compare_spec (48 + a) (48 + b)); try lia; reflexivity. Qed.
Lemma digits_order w : forall a b, 0 <= a < 10 ^ Z.of_nat w -> 0 <= b < 10 ^ Z.of_nat w ->
  text_compare (ascii (digits w a)) (ascii (digits w b)) = (a ?= b).
Proof.
  induction w as [|w IH]; intros a b A B.
  - cbn in A, B. replace a with b by lia. cbn. now rewrite Z.compare_refl.
  - rewrite Nat2Z.inj_succ, Z.pow_succ_r in A, B by lia. cbn [digits]. unfold ascii. rewrite !map_app. cbn [map].
    rewrite text_compare_app by now rewrite !map_length, !digits_length.
    fold (ascii (digits w (a / 10))) (ascii (digits w (b / 10))).
    pose proof (Z.mod_pos_bound a 10 ltac:(lia)). pose proof (Z.mod_pos_bound b 10 ltac:(lia)).
    pose proof (Z.div_mod a 10 ltac:(lia)). pose proof (Z.div_mod b 10 ltac:(lia)).
    rewrite IH; [|split; [apply Z.div_pos; lia|apply Z.div_lt_upper_bound; lia]|split; [apply Z.div_pos; lia|apply Z.div_lt_upper_bound; lia]].
    cbn [text_compare]. rewrite digit_order by assumption.
    destruct (Z.compare_spec (a / 10) (b / 10)).
    + destruct (Z.compare_spec (a mod 10) (b mod 10)), (Z.compare_spec a b); try lia; reflexivity.
    + destruct (Z.compare_spec a b); try lia; reflexivity.
    + destruct (Z.compare_spec a b); try lia; reflexivity.
Qed.
Lemma text_compare_refl a : text_compare a a = Eq.
Proof. induction a as [|x a IH]; [reflexivity|]. cbn. now rewrite Z.compare_refl. Qed.

Lemma field_order w a b x y : 0 <= a < 10 ^ Z.of_nat w -> 0 <= b < 10 ^ Z.of_nat w ->
  text_compare (ascii (digits w a) ++ x) (ascii (digits w b) ++ y) = then_by a b (text_compare x y).
Proof.
  intros A B. rewrite text_compare_app by (unfold ascii; now rewrite !map_length, !digits_length). now rewrite digits_order.
Qed.
Lemma cons_order c x y : text_compare (c :: x) (c :: y) = text_compare x y.
Proof. cbn. now rewrite Z.compare_refl. Qed.

Lemma ascii_app a b : ascii (a ++ b) = ascii a ++ ascii b.
Proof. apply map_app. Qed.

Lemma stamp_order sep a b : stamp_ok a = true -> stamp_ok b = true -> s_offset a = Some 0 -> s_offset b = Some 0 ->
  text_compare (ascii (stamp_text sep a)) (ascii (stamp_text sep b)) = date_order (s_date a) (s_date b).
Proof.
  destruct a as [[y mo da h mi se us] o], b as [[y' mo' da' h' mi' se' us'] o']. unfold stamp_ok. cbn [s_date s_offset]. intros Ka Kb -> ->.
  apply andb_true_iff in Ka as [Ka _]. apply andb_true_iff in Kb as [Kb _]. unfold date_ok in Ka, Kb.
  assert (D : forall y m, days_in_month y m <= 31).
  { intros yy mm. unfold days_in_month. destruct (_ =? 2); [destruct (is_leap _); lia|]. destruct (memZ _ _); lia. }
  pose proof (D y mo). pose proof (D y' mo'). clear D.
  cbn [d_year d_month d_day d_hour d_minute d_second d_micro] in *. unfold date_order, stamp_text.
  cbn [s_date s_offset d_year d_month d_day d_hour d_minute d_second d_micro]. rewrite !ascii_app.
  change (ascii [x2d]) with [45]. change (ascii [x3a]) with [58]. change (ascii [sep]) with [bz sep]. cbn [app].
  rewrite field_order by (cbn; lia). rewrite cons_order, field_order by (cbn; lia). rewrite cons_order, field_order by (cbn; lia).
  rewrite cons_order, field_order by (cbn; lia). rewrite cons_order, field_order by (cbn; lia). rewrite cons_order, field_order by (cbn; lia).
  do 6 f_equal. destruct (Z.eqb_spec us 0) as [->|N], (Z.eqb_spec us' 0) as [->|N'].
  - apply text_compare_refl.
  - cbn [ascii map app]. cbn. destruct us'; try lia; reflexivity.
  - cbn. destruct us; try lia; reflexivity.
  - cbn [ascii map app]. rewrite cons_order. fold (ascii (digits 6 us)) (ascii (digits 6 us')). rewrite field_order by (cbn; lia). unfold then_by.
    destruct (us ?= us'); [apply text_compare_refl|reflexivity|reflexivity].
Qed.

Lemma time_file_back t : stamp_ok t = true -> read_time_file (time_file t) = Ok t.
Proof.
  intros H. unfold read_time_file, time_file. rewrite decode_ascii_ok by now apply stamp_text_all_ascii. cbn [or_err bind]. now apply parse_isoformat.
Qed.
