(** Vouchers and times in their stored forms: C59, C82-C84. *)
From Verif Require Import Prelude PreludeFacts BytesModel BytesProofs CborModel StreamModel DateModel DateProofs JsonModel JsonProofs
  VoucherModel VoucherSpec VoucherProofs.
From Verif Require PassModel StoreModel StoreSpec StoreProofs ControllerProofs StreamSpec StreamProofs.
From Coq Require Strings.String.
Import Coq.Strings.String.StringSyntax.

(** ** C59 *)

Section Json.
Variable F : Type.
Variable float_of : text -> F.
Variable float_repr : F -> text.
Variable max_digits : nat.
Variable decode : bytes -> option text.

(** Every voucher whose number is ASCII, in every state, survives being written as JSON and
    read, but for details of an error with a surrogate pair written as two characters. *)
Theorem C59_json_roundtrip_partial : forall depth v,
  (1 <= max_digits)%nat -> decodes_ascii decode -> (2 <= depth)%nat ->
  valid_voucher v -> all_ascii (number v) -> printable max_digits v -> plain_details v ->
  exists b, to_json float_repr v = Ok b /\ from_json float_of max_digits decode depth b = Ok v.
Proof. intros depth v M D Dp V A P Pl. now apply json_roundtrip. Qed.

(** Hence different vouchers have different JSON forms. *)
Theorem C59_json_injective : forall v w b,
  (1 <= max_digits)%nat -> decodes_ascii decode ->
  valid_voucher v -> all_ascii (number v) -> printable max_digits v -> plain_details v ->
  valid_voucher w -> all_ascii (number w) -> printable max_digits w -> plain_details w ->
  to_json float_repr v = Ok b -> to_json float_repr w = Ok b -> v = w.
Proof.
  intros v w b M D V A P Pl V' A' P' Pl' E E'.
  destruct (C59_json_roundtrip_partial 2 v M D (Nat.le_refl _) V A P Pl) as (x & Ex & Rx).
  destruct (C59_json_roundtrip_partial 2 w M D (Nat.le_refl _) V' A' P' Pl') as (y & Ey & Ry).
  rewrite E in Ex. rewrite E' in Ey. injection Ex as <-. injection Ey as <-. congruence.
Qed.

(** ** C84: what is read from JSON has been checked *)

Theorem C84_json_checked_partial : forall depth b v,
  from_json float_of max_digits decode depth b = Ok v -> valid_voucher v /\ all_ascii (number v).
Proof. intros depth b v. apply from_json_valid. Qed.
End Json.
Print Assumptions C59_json_roundtrip_partial.
Print Assumptions C59_json_injective.
Print Assumptions C84_json_checked_partial.

Definition ascii_only (b : bytes) : option text := Some (ascii b).
Lemma ascii_only_decodes : decodes_ascii ascii_only.
Proof. intros b _. reflexivity. Qed.

Definition some_time : stamp := Stamp (Date 2021 12 31 23 59 59 999999) (Some 0).
Definition other_time : stamp := Stamp (Date 2022 1 1 0 0 0 0) (Some (-90)).
Definition sample_number : bytes := PassModel.ascii "NXlb3RcNRhr_ww3ZZpKzWtgdVJpxoXkbqhDEgQ5tnXo=".

Definition sample (s : vstate) : voucher := Voucher sample_number 100 (Some some_time) s.
Example C59_states : Forall (fun s => valid_voucher (sample s) /\ printable 4300 (sample s) /\ plain_details (sample s))
  [Pending 3; Redeeming other_time 0; Redeemed other_time 100; DoubleSpend other_time; Unpaid some_time;
   Error other_time (str "what ""is"" this?" ++ [10; 128512; 55357])].
Proof.
  assert (M1 : moment some_time) by (split; reflexivity). assert (M2 : moment other_time) by (split; reflexivity).
  assert (B : Z.abs 100 < 10 ^ Z.of_nat 4300) by (apply (Z.lt_le_trans _ (10 ^ 3)); [reflexivity|apply Z.pow_le_mono_r; lia]).
  assert (B3 : forall n, 0 <= n <= 100 -> Z.abs n < 10 ^ Z.of_nat 4300) by (intros n Hn; apply (Z.le_lt_trans _ (Z.abs 100)); [clear B; lia|exact B]).
  assert (G : forall s, valid_state s -> match s with Pending n | Redeeming _ n | Redeemed _ n => 0 <= n <= 100 | _ => True end ->
    match s with Error _ d => code_points d /\ no_surrogate_pair d | _ => True end ->
    valid_voucher (sample s) /\ printable 4300 (sample s) /\ plain_details (sample s)).
  { intros s V N D. split; [|split; [|exact D]].
    - split; [reflexivity|]. split; [reflexivity|]. split; [|exact V]. intros t [= <-]. exact M1.
    - split; [exact B|]. cbn [state sample]. destruct s; try exact I; now apply B3. }
  clear B B3.
  apply Forall_cons; [apply G; cbn; lia|]. apply Forall_cons; [apply G; cbn; [split; [exact M2|lia]|lia|exact I]|].
  apply Forall_cons; [apply G; cbn; [exact M2|lia|exact I]|]. apply Forall_cons; [apply G; cbn; [exact M2|exact I|exact I]|].
  apply Forall_cons; [apply G; cbn; [exact M1|exact I|exact I]|]. apply Forall_cons; [|apply Forall_nil].
  apply G; [exact M2|exact I|]. clear G. split.
  - intros c I. vm_compute in I. repeat (destruct I as [<-|I]; [lia|]). destruct I.
  - assert (H : no_pairs (str "what ""is"" this?" ++ [10; 128512; 55357]) = true) by (vm_compute; reflexivity).
    intros a b u w E. rewrite E in H. clear E. induction a as [|x a IH].
    + cbn [app no_pairs] in H. apply andb_true_iff in H as [H _]. unfold is_high, is_low in H. lia.
    + cbn [app no_pairs] in H. apply andb_true_iff in H as [_ H]. now apply IH.
Qed.
Example C59_bytes : to_json (F := unit) (fun _ => []) (sample (Redeemed other_time 100)) =
  Ok (PassModel.ascii "{""number"": ""NXlb3RcNRhr_ww3ZZpKzWtgdVJpxoXkbqhDEgQ5tnXo="", ""expected-tokens"": 100, ""created"": ""2021-12-31T23:59:59.999999+00:00"", ""state"": {""name"": ""redeemed"", ""finished"": ""2022-01-01T00:00:00-01:30"", ""token-count"": 100}, ""version"": 1}").
Proof. vm_compute. reflexivity. Qed.

(** A high and a low surrogate next to each other come back as one character. *)
Theorem C59_surrogates_refuted : exists v w b,
  valid_voucher v /\ all_ascii (number v) /\ printable 4300 v /\ v <> w /\
  to_json (F := unit) (fun _ => []) v = Ok b /\ from_json (fun _ => tt) 4300 ascii_only 2 b = Ok w.
Proof.
  exists (sample (Error some_time [55357; 56832])), (sample (Error some_time [128512])).
  destruct (to_json (F := unit) (fun _ => []) (sample (Error some_time [55357; 56832]))) as [b|e] eqn:E; [|vm_compute in E; discriminate E].
  exists b. assert (M1 : moment some_time) by (split; reflexivity).
  assert (B : Z.abs 100 < 10 ^ Z.of_nat 4300) by (apply (Z.lt_le_trans _ (10 ^ 3)); [reflexivity|apply Z.pow_le_mono_r; lia]).
  split. { repeat split; try reflexivity. - injection H as <-. exact (proj1 M1). - injection H as <-. exact (proj2 M1). }
  split. { intros c I. vm_compute in I. repeat (destruct I as [<-|I]; [reflexivity|]). destruct I. }
  split; [split; [exact B|exact I]|]. split; [discriminate|]. split; [reflexivity|].
  assert (X : match to_json (F := unit) (fun _ => []) (sample (Error some_time [55357; 56832])) with
              | Ok b => match from_json (fun _ => tt) 4300 ascii_only 2 b with Ok w => match state w with Error t d => text_eqb d [128512] | _ => false end | _ => false end | _ => false end = true)
    by (vm_compute; reflexivity).
  rewrite E in X. clear X. vm_compute in E. injection E as <-. vm_compute. reflexivity.
Qed.
Print Assumptions C59_surrogates_refuted.

(** ** C84, the part that does not hold *)

Definition is_base64_character (b : byte) : bool :=
  let c := bz b in
  ((65 <=? c) && (c <=? 90)) || ((97 <=? c) && (c <=? 122)) || ((48 <=? c) && (c <=? 57)) || (c =? 45) || (c =? 95) || (c =? 61).

(** The number of a voucher read from JSON may be any 44 ASCII characters. *)
Theorem C84_base64_refuted : exists b v,
  from_json (F := unit) (fun _ => tt) 4300 ascii_only 2 b = Ok v /\ exists c, In c (number v) /\ is_base64_character c = false.
Proof.
  exists (PassModel.ascii "{""number"": ""  NOT A VOUCHER, JUST 44 CHARACTERS OF TEXT!"", ""expected-tokens"": 1, ""created"": null, ""state"": {""name"": ""pending"", ""counter"": 0}, ""version"": ""1""}").
  eexists. split; [vm_compute; reflexivity|]. exists x20. split; [left; reflexivity|reflexivity].
Qed.
Print Assumptions C84_base64_refuted.

Example C84_checked : from_json (F := unit) (fun _ => tt) 4300 ascii_only 2
  (PassModel.ascii "{""number"": ""NXlb3RcNRhr_ww3ZZpKzWtgdVJpxoXkbqhDEgQ5tnXo="", ""expected-tokens"": 0, ""created"": null, ""state"": {""name"": ""pending"", ""counter"": 0}, ""version"": 1}") = Err VValue /\
  from_json (F := unit) (fun _ => tt) 4300 ascii_only 2
  (PassModel.ascii "{""number"": ""NXlb3RcNRhr_ww3ZZpKzWtgdVJpxoXkbqhDEgQ5tnXo="", ""expected-tokens"": 5, ""created"": ""2021-12-31T23:59:59"", ""state"": {""name"": ""pending"", ""counter"": 0}, ""version"": 1}") = Err VType /\
  from_json (F := unit) (fun _ => tt) 4300 ascii_only 2
  (PassModel.ascii "{""number"": ""NXlb3RcNRhr_ww3ZZpKzWtgdVJpxoXkbqhDEgQ5tnXo="", ""expected-tokens"": 5, ""created"": null, ""state"": {""name"": ""pending"", ""counter"": 0}, ""version"": 2}") = Err VAttribute.
Proof. vm_compute. repeat split; reflexivity. Qed.

(** ** C82 *)

Section Rows.
Import StoreModel.
Variable number_text : Z -> text.
Variable time : Z -> stamp.
Variable public_key : sqlv.

(** The columns of a row say what the row says: reading them succeeds whenever the row can be
    read, with the same voucher, and fails otherwise. *)
Theorem C82_columns_read : forall r, number_texts number_text -> clock_times time ->
  match StoreModel.from_row r with
  | Ok a => exists v, VoucherModel.from_row (columns number_text time public_key r) = Ok v /\ same_voucher number_text time a v
  | Err _ => exists e, VoucherModel.from_row (columns number_text time public_key r) = Err e
  end.
Proof. intros r N T. now apply columns_read. Qed.

(** After any history of calls that adds vouchers expecting at least one token, the columns of
    every voucher are read, with the number, the expected tokens and the time they were added
    with, the counter, the count of tokens and the time of the end. *)
Theorem C82_vouchers_read_back : forall os rs d r, number_texts number_text -> clock_times time ->
  steps empty_db os = (rs, d) -> (forall v e c toks now, In (OAdd v e c toks now) os -> 0 < e) -> In r (vouchers d) ->
  exists v, VoucherModel.from_row (columns number_text time public_key r) = Ok v /\
    valid_voucher v /\
    ascii (VoucherModel.number v) = number_text (v_number r) /\
    VoucherModel.expected_tokens v = v_expected r /\
    VoucherModel.created v = Some (time (v_created r)) /\
    match v_state r with
    | SPending => VoucherModel.state v = VoucherModel.Pending (v_counter r)
    | SRedeemed => exists f n, v_finished r = Some f /\ v_token_count r = Some n /\ VoucherModel.state v = VoucherModel.Redeemed (time f) n
    | SDoubleSpend => exists f, v_finished r = Some f /\ VoucherModel.state v = VoucherModel.DoubleSpend (time f)
    end.
Proof.
  intros os rs d r N T S P I.
  assert (R : ControllerProofs.readable r).
  { assert (A : all_readable d); [|now apply A]. apply (fun P => @steps_readable os empty_db rs d P); [|intros ? []|exact S]. apply Forall_forall. intros o Io.
    destruct o; cbn; try exact Logic.I. eapply P, Io. }
  pose proof (columns_read public_key N T r) as C. rewrite (ControllerProofs.from_row_readable R) in C.
  destruct C as (v & E & A1 & A2 & A3 & A4). cbn [StoreModel.number StoreModel.expected_tokens StoreModel.created StoreModel.state] in *.
  destruct R as (R1 & R2 & R3 & R4).
  exists v. split; [exact E|].
  assert (Vs : valid_state (VoucherModel.state v) /\ match v_state r with
    | SPending => VoucherModel.state v = VoucherModel.Pending (v_counter r)
    | SRedeemed => exists f n, v_finished r = Some f /\ v_token_count r = Some n /\ VoucherModel.state v = VoucherModel.Redeemed (time f) n
    | SDoubleSpend => exists f, v_finished r = Some f /\ VoucherModel.state v = VoucherModel.DoubleSpend (time f)
    end).
  { unfold ControllerProofs.pst in A4. destruct (v_state r); cbn [same_state] in A4; rewrite A4.
    - split; [exact R2|reflexivity].
    - destruct (v_finished r) as [f|]; [|exfalso; apply R3; congruence]. split; [apply T|]. exists f. auto.
    - destruct (v_finished r) as [f|]; [|exfalso; apply R3; congruence]. destruct (v_token_count r) as [n|]; [|exfalso; apply R4; congruence].
      split; [apply T|]. exists f, n. auto. }
  destruct Vs as [Vs Sh]. split.
  { split; [|split; [rewrite A2; exact R1|split; [|exact Vs]]].
    - apply (f_equal (@length Z)) in A1. unfold ascii in A1. rewrite map_length in A1. rewrite A1. apply N.
    - intros t Ht. rewrite A3 in Ht. injection Ht as <-. apply T. }
  auto.
Qed.
End Rows.
Print Assumptions C82_columns_read.
Print Assumptions C82_vouchers_read_back.

Example C82_instance :
  let text_of n := repeat 65 43 ++ [97 + n mod 26] in
  let time t := Stamp (Date 2022 1 1 0 0 (t mod 60) 0) (Some 0) in
  number_texts text_of /\ clock_times time /\
  exists rs d r, StoreModel.steps StoreModel.empty_db
      [StoreModel.OAdd 1 3 0 [11; 12] 5; StoreModel.OInsert 1 9 [21; 22; 23] true true 8] = (rs, d) /\
    StoreModel.vouchers d = [r] /\
    VoucherModel.from_row (columns text_of time SNull r) =
      Ok (VoucherModel.Voucher (repeat "A"%byte 43 ++ ["b"%byte]) 3 (Some (time 5)) (VoucherModel.Redeemed (time 8) 3)).
Proof.
  split; [|split].
  - intros n. split; [reflexivity|]. intros c I. apply in_app_or in I as [I|[<-|[]]]; [apply repeat_spec in I; lia|].
    pose proof (Z.mod_pos_bound n 26). lia.
  - intros t. pose proof (Z.mod_pos_bound t 60). split; [|reflexivity]. unfold stamp_ok, date_ok. cbn. lia.
  - set (out := StoreModel.steps StoreModel.empty_db
      [StoreModel.OAdd 1 3 0 [11; 12] 5; StoreModel.OInsert 1 9 [21; 22; 23] true true 8]).
    exists (fst out), (snd out), (StoreModel.VR 1 5 3 StoreModel.SRedeemed (Some 8) (Some 3) 0 1).
    split; [vm_compute; reflexivity|]. split; vm_compute; reflexivity.
Qed.

(** ** C83 *)

(** A time survives the database and the file of the last maintenance run, and among times in
    UTC the database sorts the earlier before the later. *)
Theorem C83_times_kept : forall t, moment t ->
  (exists s, sql_time t = STxt s /\ parse_datetime x20 s = Ok t) /\ read_time_file (time_file t) = Ok t.
Proof.
  intros t [H _]. split; [|now apply time_file_back]. eexists. split; [reflexivity|]. now apply parse_datetime_text.
Qed.
Theorem C83_times_sorted : forall a b, moment a -> moment b -> s_offset a = Some 0 -> s_offset b = Some 0 ->
  exists x y, sql_time a = STxt x /\ sql_time b = STxt y /\ text_compare x y = date_order (s_date a) (s_date b).
Proof. intros a b [Ha _] [Hb _] Oa Ob. eexists; eexists. split; [reflexivity|]. split; [reflexivity|]. now apply stamp_order. Qed.
(** These are all dates of the calendar in all timezones less than a day from UTC. *)
Theorem C83_moments_are_all_times : forall t,
  moment t <-> StreamSpec.calendar_date (s_date t) /\ exists m, s_offset t = Some m /\ -1440 < m < 1440.
Proof.
  intros [d o]. pose proof (StreamProofs.date_ok_iff d) as D.
  unfold moment, stamp_ok, aware. cbn [s_date s_offset]. destruct o as [m|].
  - rewrite !andb_true_iff, !Z.ltb_lt, D. split; [intros [[H1 H2] _]; split; [exact H1|exists m; auto]|]. intros [H (m' & [= <-] & H2)]. auto.
  - split; [intros [_ [=]]|]. intros [_ (m & [=] & _)].
Qed.
(** The restriction to one timezone is needed. *)
Theorem C83_utc_needed : exists a b x y, moment a /\ moment b /\
  sql_time a = STxt x /\ sql_time b = STxt y /\ text_compare x y = Gt /\
  s_date a = Date 2022 1 1 1 0 0 0 /\ s_offset a = Some 120 /\ s_date b = Date 2022 1 1 0 30 0 0 /\ s_offset b = Some 0.
Proof.
  exists (Stamp (Date 2022 1 1 1 0 0 0) (Some 120)), (Stamp (Date 2022 1 1 0 30 0 0) (Some 0)). eexists; eexists.
  split; [split; reflexivity|]. split; [split; reflexivity|]. repeat split; reflexivity.
Qed.
Print Assumptions C83_times_kept.
Print Assumptions C83_times_sorted.
Print Assumptions C83_moments_are_all_times.
Print Assumptions C83_utc_needed.

Example C83_instance : moment some_time /\ sql_time some_time = STxt (str "2021-12-31 23:59:59.999999+00:00") /\
  date_order (s_date some_time) (Date 2022 1 1 0 0 0 0) = Lt /\ date_order (Date 2022 1 1 0 0 0 1) (Date 2022 1 1 0 0 0 0) = Gt.
Proof. repeat split; reflexivity. Qed.
