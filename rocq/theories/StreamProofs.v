(** Lemmas about the serialised replica. *)
From Verif Require Import Prelude PreludeFacts BytesModel BytesProofs CborModel CborProofs StreamModel StreamSpec.
From Coq Require Import Sorting.Sorted.
From Coq Require Strings.String.
Import Coq.Strings.String.StringSyntax.
Set Implicit Arguments.

Lemma date_ok_iff d : date_ok d = true <-> calendar_date d.
Proof.
  unfold date_ok, calendar_date.
  assert (Lp : is_leap (d_year d) = true <-> leap_year (d_year d)).
  { unfold is_leap, leap_year. rewrite andb_true_iff, orb_true_iff, negb_true_iff, Z.eqb_eq, Z.eqb_neq, Z.eqb_eq.
    rewrite <- !Z.mod_divide by lia. tauto. }
  assert (M : 1 <= d_month d -> ((d_month d <= 12 /\ 1 <= d_day d <= days_in_month (d_year d) (d_month d)) <->
    exists n, month_has (d_year d) (d_month d) n /\ 1 <= d_day d <= n)).
  { intros H1. generalize dependent (d_day d). intros day. unfold days_in_month, month_has. destruct (Z.eqb_spec (d_month d) 2) as [E|E].
    - rewrite E. change (Z.to_nat (2 - 1)) with 1%nat. cbn [nth_error]. destruct (is_leap (d_year d)) eqn:El.
      + pose proof (proj1 Lp eq_refl) as Ly. split; [intros [_ H]; exists 29; split; [right; auto|exact H]|]. intros (n & [[_ []]|(_ & _ & ->)] & H); [auto|lia].
      + assert (Nl : ~ leap_year (d_year d)) by (rewrite <- Lp; congruence).
        split; [intros [_ H]; exists 28; split; [left; split; [reflexivity|tauto]|exact H]|]. intros (n & [[E28 _]|(_ & C & _)] & Hd); [injection E28 as <-; lia|tauto].
    - assert (X : d_month d <= 12 <-> nth_error [31; 28; 31; 30; 31; 30; 31; 31; 30; 31; 30; 31] (Z.to_nat (d_month d - 1)) = Some (if memZ (d_month d) [4; 6; 9; 11] then 30 else 31)).
      { split; [|intros X; assert (Ln : (Z.to_nat (d_month d - 1) < 12)%nat) by (apply (proj1 (nth_error_Some [31; 28; 31; 30; 31; 30; 31; 31; 30; 31; 30; 31] _)); congruence); lia].
        intros H2. assert (C : d_month d = 1 \/ d_month d = 3 \/ d_month d = 4 \/ d_month d = 5 \/ d_month d = 6 \/ d_month d = 7 \/ d_month d = 8 \/ d_month d = 9 \/
          d_month d = 10 \/ d_month d = 11 \/ d_month d = 12) by lia.
        repeat (destruct C as [C|C]; [rewrite C; reflexivity|]). rewrite C. reflexivity. }
      split.
      + intros [H2 H]. eexists. split; [left; split; [apply X, H2|tauto]|exact H].
      + intros (n & [[H _]|(C & _)] & Hd); [|contradiction].
        assert (Ln : (Z.to_nat (d_month d - 1) < 12)%nat) by (apply (proj1 (nth_error_Some [31; 28; 31; 30; 31; 30; 31; 31; 30; 31; 30; 31] _)); congruence).
        assert (H2 : d_month d <= 12) by lia. split; [exact H2|]. apply X in H2. rewrite H in H2. injection H2 as ->. exact Hd. }
  rewrite !andb_true_iff, !Z.leb_le, !Z.ltb_lt. split.
  - intros H. assert (M1 : 1 <= d_month d) by tauto. specialize (M M1). repeat split; tauto.
  - intros (H1 & H2 & H3 & H4). apply M in H3; [|exact H2]. tauto.
Qed.
Lemma sql_plain v : sql_value v -> plain v.
Proof.
  destruct v; try solve [cbn; auto; contradiction].
  - intros [H N]. split; [exact H|]. intros E. unfold is_nan in E. apply Z.ltb_lt in E. exact (N E).
  - apply date_ok_iff.
Qed.
Lemma sql_is_sql v : sql_value v -> is_sql v = true.
Proof. destruct v; cbn; auto; contradiction. Qed.

Lemma loads_dumps v s rest : plain v -> dumps v = Ok s -> loads (s ++ rest) = Ok v.
Proof.
  unfold dumps, loads. intros P. destruct (encode v) as [b|] eqn:E; intros H; [|discriminate H].
  injection H as <-. now rewrite (@load_encode v b rest P E).
Qed.
Lemma loads_dumps0 v s : plain v -> dumps v = Ok s -> loads s = Ok v.
Proof. intros P E. pose proof (@loads_dumps _ _ [] P E) as H. now rewrite app_nil_r in H. Qed.

Definition event_val (c : change) : cval := CArr [sequence c; statement c; arguments c; important c].

Lemma real_plain c : real_change c -> plain (event_val c).
Proof.
  intros ((n & En) & (s & Es) & (l & El & Hl) & (b & Eb)). apply plain_arr. rewrite En, Es, El.
  repeat (constructor; try exact I).
  - apply plain_arr. eapply Forall_impl; [|exact Hl]. exact sql_plain.
  - destruct Eb as [->| ->]; exact I.
Qed.

Lemma forallb_sql l : Forall sql_value l -> forallb is_sql l = true.
Proof. intros H. rewrite forallb_forall. rewrite Forall_forall in H. intros x Hx. now apply sql_is_sql, H. Qed.

Lemma make_real c : real_change c -> make_change_star (event_val c) = Ok c.
Proof.
  intros (_ & _ & (l & El & Hl) & _). unfold make_change_star, event_val. cbn. unfold make_change. rewrite El. cbn.
  rewrite (forallb_sql Hl). rewrite <- El. now destruct c.
Qed.

Lemma map_res_map A B C (f : B -> res sexn C) (g : A -> B) l : map_res f (map g l) = map_res (fun x => f (g x)) l.
Proof. induction l as [|x l IH]; [reflexivity|]. cbn. now rewrite IH. Qed.
Lemma map_res_all A B (f : A -> res sexn B) (g : A -> B) l :
  Forall (fun x => f x = Ok (g x)) l -> map_res f l = Ok (map g l).
Proof. induction 1 as [|x l H F IH]; [reflexivity|]. cbn. rewrite H. cbn. now rewrite IH. Qed.
Lemma map_res_Ok A B (f : A -> res sexn B) l ys :
  map_res f l = Ok ys -> Forall2 (fun x y => f x = Ok y) l ys.
Proof.
  revert ys. induction l as [|x l IH]; intros ys E; cbn in E.
  - injection E as <-. constructor.
  - destruct (f x) as [y|e] eqn:F; [|discriminate E]. cbn in E.
    destruct (map_res f l) as [l'|e]; [|discriminate E]. injection E as <-. constructor; [exact F|auto].
Qed.

Definition stream_val (s : list change) : cval :=
  CMap [(CText (str "version"), CInt stream_version); (CText (str "events"), CArr (map event_val s))].
Lemma stream_plain s : Forall real_change s -> plain (stream_val s).
Proof.
  intros H. apply plain_map. cbn [flatten]. repeat (constructor; [exact I|]). constructor; [|constructor].
  apply plain_arr. apply Forall_map. eapply Forall_impl; [|exact H]. exact real_plain.
Qed.

Lemma round_trip s bs rest : Forall real_change s -> to_bytes s = Ok bs -> from_bytes (bs ++ rest) = Ok s.
Proof.
  intros H E. unfold from_bytes. change (dumps (stream_val s) = Ok bs) in E.
  rewrite (@loads_dumps _ _ rest (stream_plain H) E). cbn [bind stream_val].
  assert (G1 : map_get (str "version") [(CText (str "version"), CInt stream_version); (CText (str "events"), CArr (map event_val s))] = Some (CInt 1)) by reflexivity.
  assert (G2 : map_get (str "events") [(CText (str "version"), CInt stream_version); (CText (str "events"), CArr (map event_val s))] = Some (CArr (map event_val s))) by reflexivity.
  rewrite G1, G2. cbn [equals_one Z.eqb Pos.eqb negb iter bind].
  rewrite map_res_map, (@map_res_all _ _ _ (fun x => x)).
  - now rewrite map_id.
  - eapply Forall_impl; [|exact H]. exact make_real.
Qed.

(** ** What can be written *)
Lemma utf8_char_length c : (length (utf8_char c) <= 4)%nat.
Proof. unfold utf8_char. destruct (_ <? _); [cbn; lia|]. destruct (_ <? _); [cbn; lia|]. destruct (_ <? _); cbn; lia. Qed.
Lemma utf8_length s : forall u, utf8_encode s = Some u -> lenN u <= 4 * lenN s.
Proof.
  induction s as [|c s IH]; intros u E; cbn in E.
  - injection E as <-. cbn. lia.
  - destruct (is_scalar c); [|discriminate E]. destruct (utf8_encode s) as [v|]; [|discriminate E]. injection E as <-.
    specialize (IH v eq_refl). pose proof (utf8_char_length c). unfold lenN in *. rewrite app_length. cbn [length]. lia.
Qed.
Lemma encode_text_ok s : writable_text s -> exists b, encode (CText s) = Some b.
Proof.
  intros [H0 H2]. assert (H1 : forallb is_scalar s = true).
  { apply forallb_forall. intros c J. specialize (H0 c J). unfold is_scalar. lia. }
  cbn [encode]. apply utf8_encode_ok in H1 as [u E]. rewrite E. pose proof (utf8_length _ E).
  destruct (proj2 (@head_ok 3 (lenN u) (lenN_nonneg u))) as [h Eh]; [unfold two64; lia|]. rewrite Eh. cbn. eauto.
Qed.
Lemma int_bytes_length n : 0 < n -> lenN (int_bytes n) = (Z.log2 n + 8) / 8.
Proof.
  intros N. unfold lenN, int_bytes. rewrite be_length, Z2Nat.id; [reflexivity|].
  apply Z.div_pos; [pose proof (Z.log2_nonneg n); lia|lia].
Qed.
Lemma big_ok n : 0 < n -> Z.log2 n < 2 ^ 64 -> exists h, head 2 (lenN (int_bytes n)) = Some h.
Proof.
  intros N L. apply head_ok; [apply lenN_nonneg|]. rewrite int_bytes_length by exact N.
  apply Z.div_lt_upper_bound; [lia|]. unfold two64.
  remember (2 ^ 64) as t. assert (8 <= t) by (subst t; cbn; lia). lia.
Qed.
Lemma encode_int_ok n : Z.log2 (Z.abs n) < 2 ^ 64 -> exists b, encode (CInt n) = Some b.
Proof.
  intros H. cbn [encode].
  destruct ((0 <=? n) && (n <? two64)) eqn:C1; [apply head_ok; lia|].
  destruct ((n <? 0) && (- two64 <=? n)) eqn:C2; [apply head_ok; lia|].
  assert (T : 0 < two64) by reflexivity.
  destruct (Z.leb_spec 0 n) as [L|L].
  - destruct (@big_ok n) as [h ->]; [lia|rewrite Z.abs_eq in H by lia; exact H|]. cbn. eauto.
  - destruct (@big_ok (- n - 1)) as [h ->]; [lia|eapply Z.le_lt_trans; [|exact H]; apply Z.log2_le_mono; lia|]. cbn. eauto.
Qed.
Lemma encode_value_ok v : sql_value v -> writable_value v -> exists b, encode v = Some b.
Proof.
  destruct v; intros S W; try contradiction.
  - apply encode_int_ok, W.
  - cbn [encode]. destruct (proj2 (@head_ok 2 (lenN s) (lenN_nonneg s)) W) as [h ->]. cbn. eauto.
  - apply encode_text_ok, W.
  - cbn. eauto.
  - cbn. eauto.
  - cbn [encode]. destruct (is_nan bits); [eauto|]. destruct (_ =? _); [eauto|]. destruct (_ =? _); eauto.
  - cbn [encode]. assert (L : lenN (isoformat d) < two64).
    { unfold lenN, isoformat. rewrite !app_length, !digits_length. destruct (d_micro d =? 0); cbn [length]; rewrite ?digits_length; reflexivity. }
    destruct (proj2 (@head_ok 3 (lenN (isoformat d)) (lenN_nonneg _)) L) as [h ->]. cbn. eauto.
Qed.
Lemma encode_all_ok l : Forall (fun v => exists b, encode v = Some b) l -> exists b, encode_all l = Some b.
Proof. induction 1 as [|v l [b H] F [b' IH]]; cbn; [eauto|]. rewrite H, IH. cbn. eauto. Qed.
Lemma encode_arr_ok l : lenN l < two64 -> Forall (fun v => exists b, encode v = Some b) l -> exists b, encode (CArr l) = Some b.
Proof.
  intros L H. rewrite encode_arr. destruct (proj2 (@head_ok 4 (lenN l) (lenN_nonneg l)) L) as [h ->].
  destruct (encode_all_ok H) as [b ->]. cbn. eauto.
Qed.
Lemma encode_args_ok l : lenN l < two64 -> Forall sql_value l -> Forall writable_value l -> exists b, encode (CArr l) = Some b.
Proof.
  intros L S W. apply encode_arr_ok; [exact L|]. rewrite Forall_forall in *. intros v Hv. apply encode_value_ok; auto.
Qed.
Lemma encode_change_ok c : real_change c -> writable_change c -> exists b, encode (event_val c) = Some b.
Proof.
  intros ((n & En) & (s & Es) & (l & El & Hl) & (b & Eb)) W. unfold writable_change in W. rewrite En, Es, El in W.
  destruct W as (W1 & W2 & W3 & W4). unfold event_val. rewrite En, Es, El. apply encode_arr_ok; [reflexivity|].
  constructor; [apply encode_int_ok, W1|]. constructor; [apply encode_text_ok, W2|].
  constructor; [apply encode_args_ok; assumption|]. constructor; [|constructor].
  destruct Eb as [->| ->]; [cbn; eauto|]. apply encode_int_ok.
  destruct b; reflexivity.
Qed.
Lemma to_bytes_ok s : Forall real_change s -> Forall writable_change s -> lenN s < 2 ^ 64 -> exists bs, to_bytes s = Ok bs.
Proof.
  intros R W L. change (exists bs, dumps (stream_val s) = Ok bs). unfold dumps, stream_val. rewrite encode_map.
  cbn [flatten encode_all].
  assert (A : exists b, encode (CArr (map event_val s)) = Some b).
  { apply encode_arr_ok; [unfold lenN in *; rewrite map_length; exact L|]. apply Forall_map.
    rewrite Forall_forall in *. intros c Hc. apply encode_change_ok; auto. }
  destruct A as [b ->]. cbn. eauto.
Qed.

(** ** Versions and arguments *)
Lemma from_bytes_inv s l : from_bytes s = Ok l ->
  exists kvs events, load s = Some (CMap kvs) /\ equals_one (map_get (str "version") kvs) = true /\
    map_get (str "events") kvs = Some events /\ exists items, iter events = Ok items /\ map_res make_change_star items = Ok l.
Proof.
  unfold from_bytes, loads. destruct (load s) as [v|]; [|discriminate]. cbn [bind].
  destruct v; try discriminate. destruct (equals_one _) eqn:E; [|discriminate]. cbn [negb].
  destruct (map_get (str "events") l0) as [ev|] eqn:G; [|discriminate]. destruct (iter ev) as [items|] eqn:I; [|discriminate].
  cbn [bind]. intros H. exists l0, ev. repeat split; eauto.
Qed.

Lemma make_change_args a b c d x : make_change a b c d = Ok x ->
  x = Change a b c d /\ exists l, iter c = Ok l /\ forallb is_sql l = true.
Proof.
  unfold make_change. destruct (iter c) as [l|]; [|discriminate]. cbn. destruct (forallb is_sql l) eqn:F; [|discriminate].
  intros [= <-]. eauto.
Qed.

(** ** The event log *)
Lemma log_round_trip seq sql args imp row : Forall sql_value args ->
  log_event seq sql args imp = Ok row ->
  get_events [row] = Ok [Change (CInt seq) (CText sql) (CArr args) (CInt (Z.b2z imp))].
Proof.
  intros S E. unfold log_event in E. destruct (dumps (CArr args)) as [a|e] eqn:D; [|discriminate E]. injection E as <-.
  assert (P : plain (CArr args)) by (apply plain_arr; eapply Forall_impl; [|exact S]; exact sql_plain).
  unfold get_events. cbn [map_res l_arguments l_sequence l_statement l_important]. rewrite (@loads_dumps0 _ _ P D). cbn [bind].
  unfold make_change. cbn [iter bind]. now rewrite (forallb_sql S).
Qed.
Lemma get_events_app a b : forall x y, get_events a = Ok x -> get_events b = Ok y -> get_events (a ++ b) = Ok (x ++ y).
Proof.
  unfold get_events. induction a as [|r a IH]; intros x y E1 E2; cbn in *.
  - injection E1 as <-. exact E2.
  - destruct (loads (l_arguments r)); [|discriminate E1]. cbn in *. destruct (make_change _ _ _ _); [|discriminate E1]. cbn in *.
    destruct (map_res _ a) as [ys|] eqn:M; [|discriminate E1]. injection E1 as <-. rewrite (IH ys y eq_refl E2). reflexivity.
Qed.

(** ** Numbers and names *)
Lemma real_number c : real_change c -> exists n, sequence c = CInt n /\ number (sequence c) = Some n.
Proof. intros ((n & E) & _). exists n. rewrite E. auto. Qed.

Lemma highest_spec s : Forall real_change s ->
  match s with
  | [] => highest_sequence s = Ok None
  | _ => exists n, highest_sequence s = Ok (Some n) /\ largest s n
  end.
Proof.
  induction 1 as [|c s R F IH]; [reflexivity|]. cbn [highest_sequence].
  destruct (real_number R) as (n & E1 & E2). rewrite E2.
  destruct s as [|c' s].
  - rewrite IH. cbn. exists n. split; [reflexivity|]. split.
    + exists c. split; [now left|exact E1].
    + intros x m [<-|[]] M. unfold numbered in M. rewrite E1 in M. injection M as ->. lia.
  - destruct IH as (m & -> & (x & Hx & Nx) & L). cbn [bind]. exists (Z.max n m). split; [reflexivity|]. split.
    + destruct (Z.max_spec n m) as [[_ ->]|[_ ->]].
      * exists x. split; [now right|exact Nx].
      * exists c. split; [now left|exact E1].
    + intros y k [<-|Hy] K.
      * unfold numbered in K. rewrite E1 in K. injection K as ->. lia.
      * specialize (L y k Hy K). lia.
Qed.

Lemma largest_unique s a b : largest s a -> largest s b -> a = b.
Proof. intros [(x & Hx & Nx) La] [(y & Hy & Ny) Lb]. specialize (La y b Hy Ny). specialize (Lb x a Hx Nx). lia. Qed.

Lemma highest_of s n : Forall real_change s -> largest s n -> highest_sequence s = Ok (Some n).
Proof.
  intros F L. pose proof (highest_spec F) as H. destruct s as [|c s].
  - destruct L as [(x & [] & _) _].
  - destruct H as (m & H & Lm). now rewrite H, (largest_unique Lm L).
Qed.

Lemma ascii_inj a : forall b, ascii a = ascii b -> a = b.
Proof.
  induction a as [|x a IH]; destruct b as [|y b]; cbn; intros E; try discriminate E; [reflexivity|].
  injection E as E1 E2. f_equal; [now apply bz_inj|now apply IH].
Qed.

Lemma stream_name_like n : stream_like (event_stream_name n).
Proof. exists (ascii (dec n)). reflexivity. Qed.

Lemma stream_like_starts name : startswith stream_prefix name = true <-> stream_like name.
Proof. apply startswith_spec. Qed.

(** Parsing the number of a name back. *)
Lemma dec_digits n : 0 <= n -> forallb is_digit (dec n) = true /\ dec n <> [].
Proof.
  intros N. unfold dec. replace (n <? 0) with false by lia. split.
  - apply dec_loop_digits; [exact N|reflexivity].
  - apply dec_loop_nonempty. now right.
Qed.
Lemma take_digit_chars_app s rest : forallb is_digit s = true ->
  (match rest with c :: _ => ((48 <=? c) && (c <=? 57)) = false | [] => True end) ->
  take_digit_chars (ascii s ++ rest) = ascii s.
Proof.
  intros F R. induction s as [|b s IH]; cbn in *.
  - destruct rest as [|c rest]; [reflexivity|]. cbn. now rewrite R.
  - apply andb_true_iff in F as [F1 F2]. unfold is_digit in F1. rewrite F1. f_equal. exact (IH F2).
Qed.
Lemma map_zb_ascii s : map zb (ascii s) = s.
Proof. unfold ascii. rewrite map_map. rewrite <- (map_id s) at 2. apply map_ext. exact zb_bz. Qed.

Lemma is_old_name q n rest : 0 <= n ->
  (match rest with c :: _ => ((48 <=? c) && (c <=? 57)) = false | [] => True end) ->
  is_old_eventstream q (event_stream_name n ++ rest) = Ok (n <=? q).
Proof.
  intros N R. unfold is_old_eventstream, event_stream_name. rewrite <- app_assoc, startswith_app.
  rewrite skipn_app_exact by reflexivity. destruct (dec_digits N) as [D _].
  rewrite (take_digit_chars_app _ _ D R), map_zb_ascii, py_int_dec. reflexivity.
Qed.
Lemma is_old_other q name : ~ stream_like name -> is_old_eventstream q name = Ok false.
Proof.
  intros N. unfold is_old_eventstream. destruct (startswith stream_prefix name) eqn:S; [|reflexivity].
  apply stream_like_starts in S. contradiction.
Qed.

Lemma maybe_unlink_ok p names f : (forall n, In n names -> p n = Ok (f n)) ->
  maybe_unlink p names = (filter f names, None).
Proof.
  induction names as [|n names IH]; intros H; [reflexivity|]. cbn. rewrite (H n) by now left.
  rewrite IH by (intros m Hm; apply H; now right). now destruct (f n).
Qed.

(** ** Sorting *)
Section Sort.
Context {A : Type}.
Implicit Types l : list (Z * A).

Lemma insert_perm k (x : A) l : Permutation (insert_by k x l) ((k, x) :: l).
Proof.
  induction l as [|[k' y] l IH]; cbn; [reflexivity|]. destruct (k <? k'); [reflexivity|].
  etransitivity; [apply perm_skip; exact IH|]. apply perm_swap.
Qed.
Definition le_key (a b : Z * A) : Prop := fst a <= fst b.
Lemma insert_sorted k (x : A) l : StronglySorted le_key l -> StronglySorted le_key (insert_by k x l).
Proof.
  induction 1 as [|[k' y] l S IH F]; cbn; [repeat constructor|].
  destruct (Z.ltb_spec k k') as [L|L].
  - constructor; [constructor; assumption|]. constructor; [unfold le_key; cbn; lia|].
    eapply Forall_impl; [|exact F]. unfold le_key. cbn. intros [a b]. cbn. lia.
  - constructor; [exact IH|]. rewrite Forall_forall in *. intros z Hz.
    apply (Permutation_in _ (insert_perm k x l)) in Hz. destruct Hz as [<-|Hz]; [unfold le_key; cbn; lia|auto].
Qed.
Lemma sort_spec l : forall acc, StronglySorted le_key acc ->
  exists r, fold_left (fun acc kx => insert_by (fst kx) (snd kx) acc) l acc = r /\
  Permutation r (acc ++ l) /\ StronglySorted le_key r.
Proof.
  induction l as [|[k x] l IH]; intros acc S; cbn.
  - exists acc. rewrite app_nil_r. auto.
  - destruct (IH (insert_by k x acc) (insert_sorted k x S)) as (r & E & P & Sr). exists r. split; [exact E|]. split; [|exact Sr].
    etransitivity; [exact P|]. etransitivity; [apply Permutation_app_tail, insert_perm|]. cbn. apply Permutation_middle.
Qed.
Lemma strict_sorted l : StronglySorted le_key l -> NoDup (map fst l) -> StronglySorted Z.lt (map fst l).
Proof.
  induction 1 as [|[k x] l S IH F]; cbn; intros N; [constructor|]. inversion N as [|? ? N1 N2]; subst.
  constructor; [auto|]. rewrite Forall_forall in *. intros z Hz. apply in_map_iff in Hz as ([k' y] & <- & Hy).
  specialize (F _ Hy). unfold le_key in F. cbn in *. assert (k <> k'); [|lia]. intros ->. apply N1. apply in_map_iff. now exists (k', y).
Qed.
End Sort.

(** ** Replay *)
Lemma holds_downloaded entries streams : holds entries streams ->
  exists data, downloaded_streams entries = data /\ map_res from_bytes data = Ok (map snd streams).
Proof.
  induction 1 as [|n s size bs entries streams R L B H (data & <- & IH)|name e entries streams O H (data & <- & IH)].
  - exists []. split; reflexivity.
  - eexists. split; [reflexivity|]. cbn [downloaded_streams flat_map].
    change (str "event-stream-" ++ ascii (dec n)) with (stream_prefix ++ ascii (dec n)). rewrite startswith_app.
    cbn [app map_res map snd]. pose proof (round_trip [] R B) as T. rewrite app_nil_r in T. rewrite T. cbn [bind].
    unfold downloaded_streams in IH. now rewrite IH.
  - eexists. split; [reflexivity|]. cbn [downloaded_streams flat_map]. destruct e as [sz c|]; [|exact IH].
    destruct O as [O|O]; [|discriminate O]. destruct (startswith stream_prefix name) eqn:S; [|exact IH].
    apply stream_like_starts in S. contradiction.
Qed.
Lemma holds_real entries streams : holds entries streams -> Forall (fun ns => Forall real_change (snd ns) /\ largest (snd ns) (fst ns)) streams.
Proof. induction 1; [constructor|constructor; auto|assumption]. Qed.

Lemma replayed_control c : replayed c = negb (control_change c).
Proof. unfold replayed, control_change. destruct (statement c); reflexivity. Qed.

Lemma replay_holds entries streams : holds entries streams -> NoDup (map fst streams) ->
  exists order, Permutation order streams /\ StronglySorted Z.lt (map fst order) /\
  replay_streams (downloaded_streams entries) =
    Ok (filter (fun c => negb (control_change c)) (concat (map snd order))).
Proof.
  intros H N. destruct (holds_downloaded H) as (data & E & M). rewrite E. clear E.
  pose proof (holds_real H) as R. unfold replay_streams. rewrite M. cbn [bind]. unfold sorted_event_streams.
  rewrite map_res_map, (@map_res_all _ _ _ Some).
  - cbn [bind].
    assert (X : flat_map (fun o : option (Z * list change) => match o with Some x => [x] | None => [] end) (map Some streams) = streams).
    { clear. induction streams as [|x l IH]; [reflexivity|]. cbn. now rewrite IH. }
    rewrite X. destruct (@sort_spec (list change) streams [] (SSorted_nil _)) as (order & E & P & S).
    exists order. cbn in P. split; [exact P|]. split.
    + apply strict_sorted; [exact S|]. apply (Permutation_NoDup (l := map fst streams)); [|exact N].
      apply Permutation_map, Permutation_sym, P.
    + unfold sorted_by. rewrite E. f_equal. apply filter_ext. exact replayed_control.
  - eapply Forall_impl; [|exact R]. intros [n s] [R1 R2]. cbn [snd fst] in *. now rewrite (highest_of R1 R2).
Qed.

Lemma sorted_perm_unique (l : list (Z * list change)) : forall l',
  StronglySorted Z.lt (map fst l) -> StronglySorted Z.lt (map fst l') -> Permutation l l' -> l = l'.
Proof.
  induction l as [|[k x] l IH]; intros l' S S' P.
  - apply Permutation_nil in P. now subst.
  - destruct l' as [|[k' x'] l']; [apply Permutation_sym, Permutation_nil in P; discriminate P|].
    cbn in S, S'. inversion S as [|? ? S1 F1]; subst. inversion S' as [|? ? S2 F2]; subst.
    rewrite Forall_forall in F1, F2.
    assert (E : (k, x) = (k', x')).
    { assert (H : In (k, x) ((k', x') :: l')) by (eapply Permutation_in; [exact P|now left]).
      destruct H as [H|H]; [now symmetry|].
      assert (H' : In (k', x') ((k, x) :: l)) by (eapply Permutation_in; [apply Permutation_sym, P|now left]).
      destruct H' as [H'|H']; [assumption|].
      assert (k' < k) by (apply F2, in_map_iff; now exists (k, x)).
      assert (k < k') by (apply F1, in_map_iff; now exists (k', x')). lia. }
    injection E as <- <-. f_equal. apply IH; auto. eapply Permutation_cons_inv. exact P.
Qed.

(** ** Snapshots *)
Lemma str_statements_all l : str_statements (map CText l) = (l, None).
Proof. induction l as [|s l IH]; [reflexivity|]. cbn. now rewrite IH. Qed.
Lemma snapshot_round_trip l bs rest : statements_to_snapshot l = Ok bs -> statements_from_snapshot (bs ++ rest) = Ok (l, None).
Proof.
  intros E. unfold statements_to_snapshot in E.
  set (v := CMap [(CText (str "version"), CInt 1); (CText (str "statements"), CArr (map CText l))]) in E.
  assert (P : plain v).
  { apply plain_map. cbn [flatten]. repeat (constructor; [exact I|]). constructor; [|constructor].
    apply plain_arr. apply Forall_map. apply Forall_forall. intros; exact I. }
  unfold statements_from_snapshot. rewrite (@loads_dumps _ _ rest P E). cbn [bind v].
  assert (G1 : map_get (str "version") [(CText (str "version"), CInt 1); (CText (str "statements"), CArr (map CText l))] = Some (CInt 1)) by reflexivity.
  assert (G2 : map_get (str "statements") [(CText (str "version"), CInt 1); (CText (str "statements"), CArr (map CText l))] = Some (CArr (map CText l))) by reflexivity.
  rewrite G1, G2. cbn [equals_one Z.eqb Pos.eqb negb]. now rewrite str_statements_all.
Qed.
