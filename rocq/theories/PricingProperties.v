(** Property theorems C01-C05.  Each is closed by a lemma of [PricingProofs];
    the [Example]s show concrete cases meeting the hypotheses. *)
From Verif Require Import Prelude PreludeFacts PricingModel PricingSpec PricingProofs.

(** C01: the price is the least number of passes covering each share. *)
Theorem C01_price_is_least_cover :
  forall pass_value sizes n, 0 < pass_value ->
  (required_passes pass_value sizes = Ok n <-> exact_price pass_value sizes n).
Proof. exact required_passes_exact. Qed.
Print Assumptions C01_price_is_least_cover.

Example C01_price_is_least_cover_ex :
  required_passes BYTES_PER_PASS [0; 1; 1048576; 1048577] = Ok 4.
Proof. vm_compute. reflexivity. Qed.

(** C01: there always is a price, it is never negative, and it is zero only
    for shares without any data. *)
Theorem C01_price_total_nonneg :
  forall pass_value sizes, 0 < pass_value -> (forall s, In s sizes -> 0 <= s) ->
  exists n, required_passes pass_value sizes = Ok n /\ 0 <= n /\
            (n = 0 <-> forall s, In s sizes -> s = 0).
Proof. exact price_total_nonneg. Qed.
Print Assumptions C01_price_total_nonneg.

Example C01_price_total_nonneg_ex :
  0 < 3 /\ (forall s, In s [0; 7; 0] -> 0 <= s) /\ required_passes 3 [0; 7; 0] = Ok 3.
Proof. cbn; repeat split; intros; lia. Qed.

(** C01: a pass value of zero is an error as soon as there is a share. *)
Theorem C01_zero_pass_value_is_an_error :
  forall s sizes, required_passes 0 (s :: sizes) = Err ZeroDivision.
Proof. exact required_passes_zero. Qed.
Print Assumptions C01_zero_pass_value_is_an_error.

(** C02: order does not matter. *)
Theorem C02_price_order_independent :
  forall pass_value a b, Permutation a b ->
  required_passes pass_value a = required_passes pass_value b.
Proof. exact price_perm. Qed.
Print Assumptions C02_price_order_independent.

Example C02_price_order_independent_ex : Permutation [5; 12; 7] [7; 5; 12].
Proof. apply Permutation_sym. apply (Permutation_cons_app [5; 12] []). apply Permutation_refl. Qed.

(** C02: additive over splitting a collection. *)
Theorem C02_price_additive :
  forall pass_value a b n m, 0 < pass_value ->
  required_passes pass_value a = Ok n -> required_passes pass_value b = Ok m ->
  required_passes pass_value (a ++ b) = Ok (n + m).
Proof. exact price_app. Qed.
Print Assumptions C02_price_additive.

Example C02_price_additive_ex :
  required_passes 10 [11] = Ok 2 /\ required_passes 10 [9; 30] = Ok 4.
Proof. vm_compute; auto. Qed.

(** C02: more or larger shares never cost less. *)
Theorem C02_price_monotone :
  forall pass_value a b n m, 0 < pass_value -> grows a b ->
  required_passes pass_value a = Ok n -> required_passes pass_value b = Ok m -> n <= m.
Proof. exact price_grows. Qed.
Print Assumptions C02_price_monotone.

Example C02_price_monotone_ex : grows [3; 10] [4; 11; 0].
Proof. repeat constructor; cbn; intros; lia. Qed.

(** C02: a more valuable pass never raises the price. *)
Theorem C02_price_antitone_in_pass_value :
  forall v w sizes n m, 0 < v -> v <= w -> (forall s, In s sizes -> 0 <= s) ->
  required_passes v sizes = Ok n -> required_passes w sizes = Ok m -> m <= n.
Proof. exact price_antitone. Qed.
Print Assumptions C02_price_antitone_in_pass_value.

Example C02_price_antitone_ex :
  required_passes 10 [11; 25] = Ok 5 /\ required_passes 12 [11; 25] = Ok 4.
Proof. vm_compute; auto. Qed.

(** C03: the price of a mutable write is the sum over shares of the growth of
    the individual share prices. *)
Theorem C03_mutable_write_charges_growth :
  forall v cur tw f g ks, 0 < v -> dict_wf tw ->
  represents cur f -> (forall k, 0 <= f k) -> written f tw g ->
  NoDup ks -> incl (dkeys cur) ks -> incl (dkeys tw) ks ->
  get_required_new_passes_for_mutable_write v cur tw
  = Ok (sumZ (map (fun k => cdiv (g k) v - cdiv (f k) v) ks)).
Proof. exact mutable_price_growth. Qed.
Print Assumptions C03_mutable_write_charges_growth.

(** [cdiv], used in the statement above, is the price of one share. *)
Theorem C03_cdiv_is_least_cover : forall v s, 0 < v -> least_cover v s (cdiv s v).
Proof. exact cdiv_least. Qed.
Print Assumptions C03_cdiv_is_least_cover.

Definition ex_tw : tw_vectors :=
  [(0, TW [] [(8, [x01; x02; x03; x04]); (0, [x05])] None);
   (3, TW [] [(0, [x01])] None);
   (5, TW [(0, 1, [])] [] None)].
Definition ex_cur : dict Z := [(3, 25); (0, 10)].
Definition ex_f : slot_sizes := fun k => dget_or 0 k ex_cur.
Definition ex_g : slot_sizes := fun k => if k =? 0 then 12 else if k =? 3 then 25 else 0.

Example C03_mutable_write_charges_growth_ex :
  dict_wf ex_tw /\ represents ex_cur ex_f /\ (forall k, 0 <= ex_f k) /\ written ex_f ex_tw ex_g /\
  get_required_new_passes_for_mutable_write 10 ex_cur ex_tw = Ok 1.
Proof.
  assert (W : dict_wf ex_tw) by (repeat constructor; cbn; lia).
  assert (R : represents ex_cur ex_f) by (split; [repeat constructor; cbn; lia|reflexivity]).
  repeat split; auto; try apply R.
  - intros k; unfold ex_f, dget_or, ex_cur, dget.
    destruct (k =? 3); [lia|]. destruct (k =? 0); lia.
  - intros k; apply size_after_after. unfold ex_g, ex_f, dget_or, ex_cur, ex_tw, dget, after.
    destruct (Z.eqb_spec k 0) as [->|]; [reflexivity|].
    destruct (Z.eqb_spec k 3) as [->|]; [reflexivity|].
    destruct (Z.eqb_spec k 5) as [->|]; reflexivity.
Qed.

(** C03: every write has a size outcome, so the hypothesis [written] of the
    theorem above can always be met. *)
Theorem C03_written_exists : forall f tw, exists g, written f tw g.
Proof. exact written_exists. Qed.
Print Assumptions C03_written_exists.

(** C03: no write earns passes. *)
Theorem C03_mutable_price_nonneg :
  forall v cur tw n, 0 < v -> dict_wf cur -> dict_wf tw ->
  (forall s, In s (dvalues cur) -> 0 <= s) ->
  get_required_new_passes_for_mutable_write v cur tw = Ok n -> 0 <= n.
Proof. exact mutable_price_nonneg. Qed.
Print Assumptions C03_mutable_price_nonneg.

Example C03_mutable_price_nonneg_ex :
  get_required_new_passes_for_mutable_write 10 [(0, 1000)] ex_tw = Ok 1.
Proof. vm_compute. reflexivity. Qed.

(** C04: over any history of writes the charges add up to the difference of
    the total prices of the final and initial sizes. *)
Theorem C04_write_charges_telescope :
  forall v f tws h n ks, 0 < v -> (forall k, 0 <= f k) ->
  charged (fun cur tw m => get_required_new_passes_for_mutable_write v cur tw = Ok m) f tws h n ->
  NoDup ks -> (forall k, f k <> 0 -> In k ks) ->
  (forall tw, In tw tws -> incl (dkeys tw) ks) ->
  n = total_price v ks h - total_price v ks f.
Proof. exact charged_telescope. Qed.
Print Assumptions C04_write_charges_telescope.

Example C04_write_charges_telescope_ex :
  exists h n,
    charged (fun cur tw m => get_required_new_passes_for_mutable_write 2 cur tw = Ok m)
      (fun _ => 0) [[(1, TW [] [(0, [x01; x02; x03])] None)]; [(1, TW [] [(4, [x09])] None)]] h n /\ n = 3.
Proof.
  set (s1 := fun k => if k =? 1 then 3 else 0).
  set (s2 := fun k => if k =? 1 then 5 else 0).
  exists s2, (2 + (1 + 0)). split; [|reflexivity].
  apply charged_cons with (cur := []) (g := s1); [| | | |apply charged_cons with (cur := [(1, 3)]) (g := s2)].
  - split; [constructor|reflexivity].
  - repeat constructor; cbn; lia.
  - intros k; apply size_after_after; unfold s1; cbn; destruct (k =? 1); reflexivity.
  - vm_compute; reflexivity.
  - split; [repeat constructor; cbn; lia|]. intros k; unfold s1, dget_or; cbn. destruct (k =? 1); reflexivity.
  - repeat constructor; cbn; lia.
  - intros k; apply size_after_after; unfold s1, s2; cbn; destruct (k =? 1); reflexivity.
  - vm_compute; reflexivity.
  - constructor.
Qed.

(** C05: the calculator's price is the sum of the per-file prices, each being
    what storing all its shares costs. *)
Theorem C05_calculator_matches_upload_cost :
  forall v needed total sizes, 0 < v -> 0 < needed -> 0 <= total ->
  exists prices,
    calculate needed total v sizes = Ok (sumZ prices) /\
    Forall2 (fun size n =>
        required_passes_for_data v needed total size = Ok n /\
        exists share_size, least_cover needed size share_size /\
          required_passes v (repeat share_size (Z.to_nat total)) = Ok n /\
          exists per_share, least_cover v share_size per_share /\ n = total * per_share)
      sizes prices.
Proof. exact calculator_matches_upload_cost. Qed.
Print Assumptions C05_calculator_matches_upload_cost.

Example C05_calculator_ex :
  calculate 3 10 BYTES_PER_PASS [0; 1; 3145728; 3145729] = Ok (0 + 10 + 10 + 20).
Proof. vm_compute. reflexivity. Qed.

(** C05: an encoding that needs zero shares is refused, not priced. *)
Theorem C05_zero_needed_is_an_error :
  forall total v size sizes, calculate 0 total v (size :: sizes) = Err ZeroDivision.
Proof. exact calculate_zero_needed. Qed.
Print Assumptions C05_zero_needed_is_an_error.
