(** What is said about vouchers and their stored forms. *)
From Verif Require Import Prelude BytesModel CborModel DateModel VoucherModel.
From Verif Require StoreModel.
Set Implicit Arguments.

(** A moment as the program keeps it: an existing date with a timezone. *)
Definition moment (t : stamp) : Prop := stamp_ok t = true /\ aware t = true.

(** A voucher the program can hold. *)
Definition valid_state (s : vstate) : Prop :=
  match s with
  | Pending counter => 0 <= counter
  | Redeeming started counter => moment started /\ 0 <= counter
  | Redeemed finished _ | DoubleSpend finished | Unpaid finished | Error finished _ => moment finished
  end.
Definition valid_voucher (v : voucher) : Prop :=
  length (number v) = 44%nat /\ 0 < expected_tokens v /\
  (forall t, created v = Some t -> moment t) /\ valid_state (state v).

Definition all_ascii (s : bytes) : Prop := forall b, In b s -> bz b < 128.

(** Numbers that have few enough digits for Python to write them. *)
Definition printable (max_digits : nat) (v : voucher) : Prop :=
  let fits n := Z.abs n < 10 ^ Z.of_nat max_digits in
  fits (expected_tokens v) /\
  match state v with
  | Pending counter | Redeeming _ counter => fits counter
  | Redeemed _ token_count => fits token_count
  | _ => True
  end.

(** A Python text: code points; and one without a high surrogate directly before a low one. *)
Definition code_points (s : text) : Prop := forall c, In c s -> 0 <= c < 1114112.
Definition no_surrogate_pair (s : text) : Prop :=
  forall a b u w, s = a ++ u :: w :: b -> ~ (55296 <= u < 56320 /\ 56320 <= w < 57344).
Definition plain_details (v : voucher) : Prop :=
  match state v with Error _ details => code_points details /\ no_surrogate_pair details | _ => True end.

(** ** The database *)

(** A row of the store model written out with numbers and times as the program writes them. *)
Section Row.
Variable number_text : Z -> text.
Variable time : Z -> stamp.
Variable public_key : sqlv.
Definition opt_time (o : option Z) : sqlv := match o with Some t => sql_time (time t) | None => SNull end.
Definition opt_int (o : option Z) : sqlv := match o with Some n => SInt n | None => SNull end.
Definition state_name (s : StoreModel.vstate) : text :=
  match s with
  | StoreModel.SPending => [112; 101; 110; 100; 105; 110; 103]                          (* pending *)
  | StoreModel.SDoubleSpend => [100; 111; 117; 98; 108; 101; 45; 115; 112; 101; 110; 100]   (* double-spend *)
  | StoreModel.SRedeemed => [114; 101; 100; 101; 101; 109; 101; 100]                    (* redeemed *)
  end.
Definition columns (r : StoreModel.voucher_row) : list sqlv :=
  [STxt (number_text (StoreModel.v_number r)); sql_time (time (StoreModel.v_created r));
   SInt (StoreModel.v_expected r); STxt (state_name (StoreModel.v_state r));
   opt_time (StoreModel.v_finished r); opt_int (StoreModel.v_token_count r); public_key;
   SInt (StoreModel.v_counter r)].

(** The voucher of the store model and the voucher of this one are the same. *)
Definition same_state (p : StoreModel.pstate) (s : vstate) : Prop :=
  match p with
  | StoreModel.PPending c => s = Pending c
  | StoreModel.PRedeemed f n => s = Redeemed (time f) n
  | StoreModel.PDoubleSpend f => s = DoubleSpend (time f)
  end.
Definition same_voucher (a : StoreModel.voucher) (v : voucher) : Prop :=
  ascii (number v) = number_text (StoreModel.number a) /\
  expected_tokens v = StoreModel.expected_tokens a /\
  created v = Some (time (StoreModel.created a)) /\
  same_state (StoreModel.state a) (state v).
End Row.

(** Voucher numbers as they reach the store: 44 ASCII characters. *)
Definition number_texts (number_text : Z -> text) : Prop :=
  forall n, length (number_text n) = 44%nat /\ forall c, In c (number_text n) -> 0 <= c < 128.
Definition clock_times (time : Z -> stamp) : Prop := forall t, moment (time t).

(** ** Times *)

(** Earlier or later, by the fields of a date from the year down. *)
Definition then_by (a b : Z) (k : comparison) : comparison := match a ?= b with Eq => k | c => c end.
Definition date_order (a b : date) : comparison :=
  then_by (d_year a) (d_year b) (then_by (d_month a) (d_month b) (then_by (d_day a) (d_day b)
  (then_by (d_hour a) (d_hour b) (then_by (d_minute a) (d_minute b) (then_by (d_second a) (d_second b)
  (d_micro a ?= d_micro b)))))).
