(** Reading back what [dumps] wrote. *)
From Verif Require Import Prelude PreludeFacts BytesModel BytesProofs CborModel CborProofs StreamModel JsonModel.
From Coq Require Strings.String.
Import Coq.Strings.String.StringSyntax.
Set Implicit Arguments.

(** ** Strings *)

(** A Python string; no low surrogate follows a high one (the two would be read as one
    character). *)
Definition char_ok (c : Z) : bool := (0 <=? c) && (c <? 1114112).
Fixpoint no_pairs (s : text) : bool :=
  match s with
  | a :: s' => match s' with b :: _ => negb (is_high a && is_low b) | [] => true end && no_pairs s'
  | [] => true
  end.
Definition string_ok (s : text) : bool := forallb char_ok s && no_pairs s.

Lemma hex_value_digit d : 0 <= d < 16 -> hex_value (hexdigit d) = Some d.
Proof.
  intros H. unfold hex_value, hexdigit. destruct (Z.ltb_spec d 10).
  - replace ((48 <=? 48 + d) && (48 + d <=? 57)) with true by lia. f_equal. lia.
  - replace ((48 <=? 87 + d) && (87 + d <=? 57)) with false by lia.
    replace ((97 <=? 87 + d) && (87 + d <=? 102)) with true by lia. f_equal. lia.
Qed.

Lemma hex4_value_hex4 n : 0 <= n < 65536 ->
  hex4_value (hexdigit (n / 4096 mod 16)) (hexdigit (n / 256 mod 16)) (hexdigit (n / 16 mod 16)) (hexdigit (n mod 16)) = Some n.
Proof.
  intros H. unfold hex4_value. rewrite !hex_value_digit by (apply Z.mod_pos_bound; lia). f_equal.
  Z.to_euclidean_division_equations. lia.
Qed.

(** What follows a lone high surrogate is not the escape of a low one. *)
Definition no_low (s : text) : Prop :=
  match s with
  | b1 :: u1 :: k1 :: k2 :: k3 :: k4 :: _ =>
      match (if (b1 =? 92) && (u1 =? 117) then hex4_value k1 k2 k3 k4 else None) with
      | Some v => is_low v = false
      | None => True
      end
  | _ => True
  end.

Lemma no_low_next s rest : forallb char_ok s = true -> match s with c :: _ => is_low c = false | [] => True end ->
  no_low (flat_map dump_char s ++ 34 :: rest).
Proof.
  destruct s as [|c s]; intros K L.
  - cbn. destruct rest as [|? [|? [|? [|? [|? ?]]]]]; exact I.
  - cbn [forallb] in K. apply andb_true_iff in K as [K _]. unfold char_ok in K. cbn [flat_map]. rewrite <- app_assoc.
    set (X := flat_map dump_char s ++ 34 :: rest). clearbody X. unfold dump_char.
    destruct (Z.eqb_spec c 34); [destruct X as [|? [|? [|? [|? ?]]]]; exact I|].
    destruct (Z.eqb_spec c 92); [destruct X as [|? [|? [|? [|? ?]]]]; exact I|].
    destruct (Z.eqb_spec c 10); [destruct X as [|? [|? [|? [|? ?]]]]; exact I|].
    destruct (Z.eqb_spec c 13); [destruct X as [|? [|? [|? [|? ?]]]]; exact I|].
    destruct (Z.eqb_spec c 9); [destruct X as [|? [|? [|? [|? ?]]]]; exact I|].
    destruct (Z.eqb_spec c 12); [destruct X as [|? [|? [|? [|? ?]]]]; exact I|].
    destruct (Z.eqb_spec c 8); [destruct X as [|? [|? [|? [|? ?]]]]; exact I|].
    destruct ((32 <=? c) && (c <=? 126)).
    { destruct X as [|? [|? [|? [|? [|? ?]]]]]; try exact I. cbn [app no_low].
      destruct (Z.eqb_spec c 92); [congruence|]. exact I. }
    destruct (Z.ltb_spec c 65536).
    + unfold u_escape, hex4. cbn [app no_low]. cbn [Z.eqb Pos.eqb andb]. rewrite hex4_value_hex4 by lia. exact L.
    + unfold u_escape, hex4. cbn [app no_low]. cbn [Z.eqb Pos.eqb andb].
      assert (0 <= (c - 65536) / 1024 < 1024) by (split; [apply Z.div_pos; lia|apply Z.div_lt_upper_bound; lia]).
      rewrite hex4_value_hex4 by lia. unfold is_low. lia.
Qed.

Lemma string_body_escape u s : 0 <= u < 65536 -> (is_high u = true -> no_low s) ->
  string_body (u_escape u ++ s) = push u (string_body s).
Proof.
  intros H N. unfold u_escape, hex4. cbn [app].
  cbn [string_body]. cbn [Z.eqb Pos.eqb]. rewrite hex4_value_hex4 by exact H.
  destruct (is_high u); [|reflexivity]. specialize (N eq_refl).
  destruct s as [|b1 [|u1 [|k1 [|k2 [|k3 [|k4 s4]]]]]]; try reflexivity. cbn [no_low] in N.
  destruct (if (b1 =? 92) && (u1 =? 117) then hex4_value k1 k2 k3 k4 else None) as [v|]; [|reflexivity].
  now rewrite N.
Qed.

Lemma string_body_pair c s : 65536 <= c < 1114112 ->
  string_body (u_escape (55296 + (c - 65536) / 1024) ++ u_escape (56320 + (c - 65536) mod 1024) ++ s) = push c (string_body s).
Proof.
  intros H.
  assert (A : 0 <= (c - 65536) / 1024 < 1024) by (split; [apply Z.div_pos; lia|apply Z.div_lt_upper_bound; lia]).
  pose proof (Z.mod_pos_bound (c - 65536) 1024 ltac:(lia)) as B.
  set (h := 55296 + (c - 65536) / 1024) in *. set (l := 56320 + (c - 65536) mod 1024) in *.
  unfold u_escape at 1, hex4. cbn [app string_body]. cbn [Z.eqb Pos.eqb]. rewrite hex4_value_hex4 by lia.
  replace (is_high h) with true by (unfold is_high; lia). unfold u_escape, hex4. cbn [app]. cbn [Z.eqb Pos.eqb andb].
  rewrite hex4_value_hex4 by lia. replace (is_low l) with true by (unfold is_low; lia).
  f_equal. unfold join_surrogates, h, l. pose proof (Z.div_mod (c - 65536) 1024 ltac:(lia)). lia.
Qed.

Lemma dump_char_body c s rest : char_ok c = true -> (is_high c = true -> no_low (s ++ rest)) ->
  string_body (dump_char c ++ s ++ rest) = push c (string_body (s ++ rest)).
Proof.
  intros K N. unfold char_ok in K. unfold dump_char.
  destruct (Z.eqb_spec c 34) as [->|]; [reflexivity|].
  destruct (Z.eqb_spec c 92) as [->|]; [reflexivity|].
  destruct (Z.eqb_spec c 10) as [->|]; [reflexivity|].
  destruct (Z.eqb_spec c 13) as [->|]; [reflexivity|].
  destruct (Z.eqb_spec c 9) as [->|]; [reflexivity|].
  destruct (Z.eqb_spec c 12) as [->|]; [reflexivity|].
  destruct (Z.eqb_spec c 8) as [->|]; [reflexivity|].
  destruct ((32 <=? c) && (c <=? 126)) eqn:P.
  { cbn [app string_body]. destruct (Z.eqb_spec c 34); [congruence|]. destruct (Z.eqb_spec c 92); [congruence|].
    destruct (Z.ltb_spec c 32); [lia|reflexivity]. }
  destruct (Z.ltb_spec c 65536).
  - apply string_body_escape; [lia|exact N].
  - rewrite <- app_assoc. apply string_body_pair. lia.
Qed.

Lemma string_body_dump s rest : string_ok s = true ->
  string_body (flat_map dump_char s ++ 34 :: rest) = Some (s, rest).
Proof.
  unfold string_ok. intros K. apply andb_true_iff in K as [K P].
  induction s as [|c s IH]; [reflexivity|]. cbn [flat_map]. rewrite <- app_assoc.
  cbn [forallb no_pairs] in K, P. apply andb_true_iff in K as [K1 K2]. apply andb_true_iff in P as [P1 P2].
  rewrite (@dump_char_body c (flat_map dump_char s) (34 :: rest) K1).
  - now rewrite (IH K2 P2).
  - intros H. apply no_low_next; [exact K2|]. destruct s as [|d s]; [exact I|]. rewrite H in P1. cbn in P1. now destruct (is_low d).
Qed.

(** ** Numbers *)

Lemma dec_loop_head fuel : forall n acc, 0 < n < 2 ^ Z.of_nat fuel -> exists c s, dec_loop fuel n acc = c :: s /\ bz c <> 48 /\ is_digit c = true.
Proof.
  induction fuel as [|f IH]; intros n acc H; [cbn in H; lia|]. cbn [dec_loop]. destruct (Z.ltb_spec n 10).
  - exists (digit n), acc. split; [reflexivity|]. rewrite bz_digit by lia. split; [lia|apply is_digit_digit; lia].
  - apply IH. replace (Z.of_nat (S f)) with (Z.succ (Z.of_nat f)) in H by lia. rewrite Z.pow_succ_r in H by lia.
    split; [apply Z.div_str_pos; lia|apply Z.div_lt_upper_bound; lia].
Qed.

Definition stops (s : text) : Prop :=
  match s with c :: _ => digit_char c = false /\ c <> 46 /\ c <> 101 /\ c <> 69 | [] => True end.

Lemma span_digits_app ds s : forallb is_digit ds = true -> match s with c :: _ => digit_char c = false | [] => True end ->
  span_digits (ascii ds ++ s) = (ascii ds, s).
Proof.
  intros D H. induction ds as [|d ds IH]; cbn.
  - destruct s as [|c s]; [reflexivity|]. cbn. now rewrite H.
  - cbn in D. apply andb_true_iff in D as [D1 D2]. change (digit_char (bz d)) with (is_digit d). rewrite D1.
    change (map bz ds) with (ascii ds). now rewrite (IH D2).
Qed.

Lemma number_value_ascii ds : forall acc, fold_left (fun acc c => acc * 10 + (c - 48)) (ascii ds) acc = digits_value acc ds.
Proof. induction ds as [|d ds IH]; intros acc; cbn; [reflexivity|apply IH]. Qed.

Definition nat_digits (n : Z) : bytes := dec (Z.abs n).

Lemma dec_abs n : dec n = if n <? 0 then x2d :: nat_digits n else nat_digits n.
Proof.
  unfold nat_digits, dec. destruct (Z.ltb_spec n 0).
  - destruct (Z.ltb_spec (Z.abs n) 0); [lia|]. replace (Z.abs n) with (- n) by lia. reflexivity.
  - destruct (Z.ltb_spec (Z.abs n) 0); [lia|]. now replace (Z.abs n) with n by lia.
Qed.

Lemma whole_digits n s : stops s -> whole (ascii (nat_digits n) ++ s) = (ascii (nat_digits n), s) /\
  forallb is_digit (nat_digits n) = true /\ nat_digits n <> [] /\ digits_value 0 (nat_digits n) = Z.abs n.
Proof.
  intros S. unfold nat_digits, dec. destruct (Z.ltb_spec (Z.abs n) 0); [lia|].
  assert (D : forallb is_digit (dec_loop (Datatypes.S (Z.to_nat (Z.log2 (Z.abs n)))) (Z.abs n) []) = true) by (apply dec_loop_digits; [lia|reflexivity]).
  assert (V : digits_value 0 (dec_loop (Datatypes.S (Z.to_nat (Z.log2 (Z.abs n)))) (Z.abs n) []) = Z.abs n)
    by (rewrite dec_loop_value; [reflexivity|]; split; [lia|]; apply log2_fuel; lia).
  assert (N : dec_loop (Datatypes.S (Z.to_nat (Z.log2 (Z.abs n)))) (Z.abs n) [] <> []) by (apply dec_loop_nonempty; right; discriminate).
  split; [|auto]. destruct (Z.eq_dec (Z.abs n) 0) as [Z0|NZ].
  - rewrite Z0. reflexivity.
  - destruct (@dec_loop_head (Datatypes.S (Z.to_nat (Z.log2 (Z.abs n)))) (Z.abs n) []) as (c & t & E & C & _).
    { split; [lia|]. apply log2_fuel. lia. }
    rewrite E in *. unfold whole. cbn [ascii map app]. destruct (Z.eqb_spec (bz c) 48); [congruence|].
    change (bz c :: map bz t ++ s) with (ascii (c :: t) ++ s). apply span_digits_app; [exact D|].
    destruct s; [exact I|apply S].
Qed.

Section Values.
Variable F : Type.
Variable float_of : text -> F.
Variable float_repr : F -> text.
Variable max_digits : nat.
Notation json := (json F).
Notation value := (value float_of max_digits).
Notation dumps := (dumps float_repr).
Notation number := (number float_of max_digits).

Lemma number_dump n s : (length (nat_digits n) <= max_digits)%nat -> stops s ->
  number (ascii (dec n) ++ s) = Ok (JInt n, s).
Proof.
  intros L S. destruct (whole_digits n s S) as (W & D & N & V). rewrite dec_abs. unfold JsonModel.number.
  assert (Fr : fraction s = ([], s)).
  { unfold fraction. destruct s as [|c s]; [reflexivity|]. destruct S as (_ & S & _). destruct (Z.eqb_spec c 46); [congruence|reflexivity]. }
  assert (Ex : exponent s = ([], s)).
  { unfold exponent. destruct s as [|c s]; [reflexivity|]. destruct S as (_ & _ & S1 & S2).
    destruct (Z.eqb_spec c 101); [congruence|]. destruct (Z.eqb_spec c 69); [congruence|reflexivity]. }
  assert (LL : Nat.ltb max_digits (length (ascii (nat_digits n))) = false).
  { apply Nat.ltb_ge. unfold ascii. now rewrite map_length. }
  assert (NV : number_value (ascii (nat_digits n)) = Z.abs n) by (unfold number_value; now rewrite number_value_ascii).
  destruct (Z.ltb_spec n 0).
  - cbn [ascii map app]. change (bz x2d =? 45) with true. cbn iota. change (map bz (nat_digits n)) with (ascii (nat_digits n)). rewrite W.
    destruct (ascii (nat_digits n)) as [|d ds] eqn:E; [destruct (nat_digits n); [congruence|discriminate]|].
    rewrite Fr, Ex, LL, NV. do 2 f_equal. f_equal. lia.
  - destruct (ascii (nat_digits n)) as [|d ds] eqn:E; [destruct (nat_digits n); [congruence|discriminate]|].
    assert (Dd : digit_char d = true).
    { destruct (nat_digits n) as [|b bs]; [discriminate|]. injection E as <- _. cbn in D. apply andb_true_iff in D as [D _]. exact D. }
    cbn [app]. destruct (Z.eqb_spec d 45) as [->|]; [discriminate Dd|]. cbn [app] in W. rewrite W, Fr, Ex, LL, NV.
    do 2 f_equal. f_equal. lia.
Qed.

(** ** Values *)

(** What is written so that it can be read back: no floats, strings and keys as above,
    no key twice, integers within the limit. *)
Fixpoint writable (j : json) : Prop :=
  match j with
  | JNull | JBool _ => True
  | JInt n => (length (nat_digits n) <= max_digits)%nat
  | JFloat _ => False
  | JStr s => string_ok s = true
  | JArr l => (fix all (l : list json) : Prop := match l with [] => True | x :: l' => writable x /\ all l' end) l
  | JObj l => NoDup (map fst l) /\
      (fix all (l : list (text * json)) : Prop :=
         match l with [] => True | kv :: l' => string_ok (fst kv) = true /\ writable (snd kv) /\ all l' end) l
  end.
Fixpoint depth_of (j : json) : nat :=
  match j with
  | JArr l => S ((fix most (l : list json) : nat := match l with [] => O | x :: l' => Nat.max (depth_of x) (most l') end) l)
  | JObj l => S ((fix most (l : list (text * json)) : nat :=
                    match l with [] => O | kv :: l' => Nat.max (depth_of (snd kv)) (most l') end) l)
  | _ => O
  end.

Lemma json_ind' (P : json -> Prop) :
  P JNull -> (forall b, P (JBool b)) -> (forall n, P (JInt n)) -> (forall f, P (JFloat f)) -> (forall s, P (JStr s)) ->
  (forall l, Forall P l -> P (JArr l)) -> (forall l, Forall (fun kv => P (snd kv)) l -> P (JObj l)) ->
  forall j, P j.
Proof.
  intros Hn Hb Hi Hf Hs Ha Ho. fix self 1. intros [| | | | |l|l].
  - exact Hn. - apply Hb. - apply Hi. - apply Hf. - apply Hs.
  - apply Ha. induction l as [|x l IH]; constructor; [apply self|exact IH].
  - apply Ho. induction l as [|x l IH]; constructor; [apply self|exact IH].
Qed.

(** What may come after a value inside a text that [dumps] wrote. *)
Definition follows (s : text) : Prop := match s with c :: _ => c = 44 \/ c = 93 \/ c = 125 | [] => True end.
Lemma follows_stops s : follows s -> stops s.
Proof. destruct s as [|c s]; [trivial|]. intros [-> | [-> | ->]]; cbn; repeat split; try reflexivity; discriminate. Qed.
Lemma follows_ws s : follows s -> skip_ws s = s.
Proof. destruct s as [|c s]; [trivial|]. intros [-> | [-> | ->]]; reflexivity. Qed.

Lemma dumps_nonempty j : writable j -> (1 <= length (dumps j))%nat.
Proof.
  destruct j as [|b|n|f|s|l|l]; cbn; intros W; try lia.
  - destruct b; cbn; lia.
  - unfold ascii. rewrite map_length, dec_abs. destruct (whole_digits n [] I) as (_ & _ & N & _).
    destruct (nat_digits n) as [|c ds]; [congruence|]. destruct (n <? 0); cbn; lia.
Qed.

Lemma joined_length (l : list text) : Forall (fun t => (1 <= length t)%nat) l -> (length l <= length (joined l))%nat.
Proof.
  induction 1 as [|x l Hx H IH]; [cbn; lia|]. destruct l as [|y l]; cbn [joined length] in *; [lia|].
  rewrite app_length. cbn [length]. lia.
Qed.

Lemma dumps_head j : writable j -> exists c t, dumps j = c :: t /\ is_ws c = false /\ c <> 93 /\ c <> 125.
Proof.
  assert (G : forall c (t : text), is_ws c = false -> c <> 93 -> c <> 125 -> exists c' t', c :: t = c' :: t' /\ is_ws c' = false /\ c' <> 93 /\ c' <> 125).
  { intros c t. exists c, t. auto. }
  destruct j as [|b|n|f|s|l|l]; intros W.
  - apply G; first [reflexivity|discriminate].
  - destruct b; apply G; first [reflexivity|discriminate].
  - cbn [JsonModel.dumps]. rewrite dec_abs. destruct (whole_digits n [] I) as (_ & Dg & Nn & _).
    destruct (n <? 0); [apply G; first [reflexivity|discriminate]|]. destruct (nat_digits n) as [|c ds]; [congruence|].
    cbn [forallb] in Dg. apply andb_true_iff in Dg as [Dg _]. unfold is_digit in Dg. apply G; unfold is_ws; lia.
  - destruct W.
  - apply G; first [reflexivity|discriminate].
  - apply G; first [reflexivity|discriminate].
  - apply G; first [reflexivity|discriminate].
Qed.

Lemma dumps_ws j s : writable j -> skip_ws (dumps j ++ s) = dumps j ++ s.
Proof. intros W. destruct (dumps_head j W) as (c & t & -> & Wc & _). cbn. now rewrite Wc. Qed.

Lemma joined_cons x l : l <> [] -> joined (x :: l) = x ++ 44 :: 32 :: joined l.
Proof. destruct l; [congruence|reflexivity]. Qed.

Definition reads (j : json) : Prop := forall depth rest, writable j -> (depth_of j <= depth)%nat -> follows rest ->
  value depth (dumps j ++ rest) = Ok (j, rest).

Lemma items_read depth rest l : l <> [] -> Forall reads l -> Forall writable l -> Forall (fun j => (depth_of j <= depth)%nat) l ->
  forall n, (length l <= n)%nat -> items (value depth) n (joined (map dumps l) ++ 93 :: rest) = Ok (l, rest).
Proof.
  intros N R W D. induction l as [|j l IH]; [congruence|]. intros n L. inversion R; subst. inversion W; subst. inversion D; subst.
  destruct n as [|n]; [cbn in L; lia|]. cbn [items]. destruct l as [|k l].
  - cbn [map joined]. rewrite (H1 depth (93 :: rest)) by (try assumption; cbn; auto). cbn [bind snd fst]. reflexivity.
  - cbn [map]. rewrite joined_cons by discriminate. rewrite <- app_assoc. cbn [app].
    rewrite (H1 depth _) by (try assumption; cbn; auto). cbn [bind snd fst].
    cbn [skip_ws is_ws Z.eqb Pos.eqb orb].
    assert (Sk : forall t, skip_ws (joined (dumps k :: map dumps l) ++ t) = joined (dumps k :: map dumps l) ++ t).
    { intros t. inversion H4; subst. destruct l; cbn [map joined]; [|rewrite <- app_assoc]; now apply dumps_ws. }
    rewrite Sk. change (dumps k :: map dumps l) with (map dumps (k :: l)).
    rewrite IH; [reflexivity|discriminate|assumption|assumption|assumption|cbn in L; cbn; lia].
Qed.

Definition dump_member (kv : text * json) : text := dump_string (fst kv) ++ 58 :: 32 :: dumps (snd kv).

Lemma members_read depth rest l : l <> [] -> Forall (fun kv => reads (snd kv)) l ->
  Forall (fun kv => string_ok (fst kv) = true /\ writable (snd kv)) l -> Forall (fun kv => (depth_of (snd kv) <= depth)%nat) l ->
  forall n, (length l <= n)%nat -> members (value depth) n (joined (map dump_member l) ++ 125 :: rest) = Ok (l, rest).
Proof.
  intros N R W D. induction l as [|[k v] l IH]; [congruence|]. intros n L. inversion R; subst. inversion W; subst. inversion D; subst.
  destruct H3 as [Sk Wv]. cbn [fst snd] in *.
  destruct n as [|n]; [cbn in L; lia|]. cbn [map].
  assert (X : forall t, follows t -> members (value depth) (S n) (dump_member (k, v) ++ t) =
    match t with
    | c :: s4 => if c =? 44 then more <- members (value depth) n (skip_ws s4) ;; Ok ((k, v) :: fst more, snd more)
                 else if c =? 125 then Ok ([(k, v)], s4) else Err BadJson
    | [] => Err BadJson
    end).
  { intros t Ft. unfold dump_member, dump_string. cbn [fst snd app]. rewrite <- !app_assoc. cbn [app members]. cbn [Z.eqb Pos.eqb].
    rewrite string_body_dump by exact Sk. cbn [skip_ws is_ws Z.eqb Pos.eqb orb]. rewrite dumps_ws by exact Wv.
    rewrite (H1 depth t) by assumption. cbn [bind fst snd]. now rewrite (follows_ws _ Ft). }
  destruct l as [|kv l].
  - cbn [map joined]. rewrite X by (cbn; auto). reflexivity.
  - cbn [map]. rewrite joined_cons by discriminate. rewrite <- app_assoc. cbn [app].
    rewrite X by (cbn; auto). cbn [Z.eqb Pos.eqb skip_ws is_ws orb].
    assert (Sp : forall t, skip_ws (joined (dump_member kv :: map dump_member l) ++ t) = joined (dump_member kv :: map dump_member l) ++ t).
    { intros t. unfold dump_member at 1 3, dump_string. destruct l; reflexivity. }
    rewrite Sp. change (dump_member kv :: map dump_member l) with (map dump_member (kv :: l)).
    rewrite IH; [reflexivity|discriminate|assumption|assumption|assumption|cbn in L; cbn; lia].
Qed.

Lemma jset_new k (v : json) d : ~ In k (map fst d) -> jset k v d = d ++ [(k, v)].
Proof.
  induction d as [|[k' v'] d IH]; cbn; intros N; [reflexivity|].
  destruct (text_eqb_spec k k'); [exfalso; apply N; now left|]. rewrite IH; [reflexivity|tauto].
Qed.
Lemma object_of_nodup (l : list (text * json)) : NoDup (map fst l) -> object_of l = l.
Proof.
  unfold object_of. assert (G : forall (l d : list (text * json)), NoDup (map fst (d ++ l)) -> fold_left (fun (d : list (text * json)) kv => jset (fst kv) (snd kv) d) l d = d ++ l).
  { induction l0 as [|[k v] l0 IH]; intros d N; cbn [fold_left]; [now rewrite app_nil_r|]. cbn [fst snd]. rewrite jset_new.
    - rewrite IH; rewrite <- app_assoc; [reflexivity|exact N].
    - rewrite map_app in N. cbn in N. apply NoDup_remove_2 in N. intros I. apply N. apply in_or_app. now left. }
  intros N. now rewrite (G l []).
Qed.

Lemma writable_arr l : writable (JArr l) <-> Forall writable l.
Proof.
  cbn. induction l as [|x l IH]; [split; auto|]. split.
  - intros [A B]. constructor; [exact A|]. now apply IH.
  - intros H. inversion H; subst. split; [assumption|]. now apply IH.
Qed.
Lemma writable_obj l : writable (JObj l) <-> NoDup (map fst l) /\ Forall (fun kv => string_ok (fst kv) = true /\ writable (snd kv)) l.
Proof.
  cbn. assert (G : (fix all (l : list (text * json)) : Prop :=
         match l with [] => True | kv :: l' => string_ok (fst kv) = true /\ writable (snd kv) /\ all l' end) l <->
     Forall (fun kv => string_ok (fst kv) = true /\ writable (snd kv)) l); [|tauto].
  induction l as [|x l IH]; [split; auto|]. split.
  - intros (A & B & C). constructor; [auto|]. now apply IH.
  - intros H. inversion H; subst. destruct H2. split; [assumption|]. split; [assumption|]. now apply IH.
Qed.
Lemma depth_arr l d : (depth_of (JArr l) <= S d)%nat -> Forall (fun j => (depth_of j <= d)%nat) l.
Proof. cbn. induction l as [|x l IH]; intros H; constructor; [lia|]. apply IH. lia. Qed.
Lemma depth_obj l d : (depth_of (JObj l) <= S d)%nat -> Forall (fun kv => (depth_of (snd kv) <= d)%nat) l.
Proof. cbn. induction l as [|x l IH]; intros H; constructor; [lia|]. apply IH. lia. Qed.

Lemma strip_prefix_head c p s x : c <> x -> strip_prefix (x :: p) (c :: s) = None.
Proof. intros H. cbn. destruct (Z.eqb_spec x c); congruence. Qed.

Lemma reads_all j : reads j.
Proof.
  induction j as [|b|n|f|s|l IH|l IH] using json_ind'; intros depth rest W D Fo.
  - destruct depth; reflexivity.
  - destruct b; destruct depth; reflexivity.
  - cbn [JsonModel.dumps]. pose proof (number_dump n rest W (follows_stops _ Fo)) as Nd.
    destruct (whole_digits n [] I) as (_ & Dg & Nn & _). cbn in W.
    assert (H : exists c t, ascii (dec n) ++ rest = c :: t /\ (c = 45 /\ (exists d t', t = d :: t' /\ digit_char d = true) \/ digit_char c = true)).
    { rewrite dec_abs. destruct (nat_digits n) as [|c ds]; [congruence|]. cbn in Dg. apply andb_true_iff in Dg as [Dg _].
      destruct (n <? 0).
      - exists 45, (ascii (c :: ds) ++ rest). split; [reflexivity|]. left. split; [reflexivity|]. exists (bz c), (ascii ds ++ rest). split; [reflexivity|exact Dg].
      - exists (bz c), (ascii ds ++ rest). split; [reflexivity|]. right. exact Dg. }
    destruct H as (c & t & E & H). rewrite E in *.
    assert (Cc : c <> 34 /\ c <> 123 /\ c <> 91 /\ c <> 110 /\ c <> 116 /\ c <> 102 /\ c <> 78 /\ c <> 73).
    { destruct H as [[-> _]|H]; [repeat split; discriminate|]. unfold digit_char in H. lia. }
    destruct Cc as (C1 & C2 & C3 & C4 & C5 & C6 & C7 & C8).
    assert (P : strip_prefix (str "-Infinity") (c :: t) = None).
    { destruct H as [[-> (d & t' & -> & Dd)]|H].
      - cbn. destruct d as [|p|p]; try reflexivity. unfold digit_char in Dd. destruct (Pos.eqb_spec 73 p); [subst; discriminate|reflexivity].
      - apply strip_prefix_head. intros ->. discriminate H. }
    unfold JsonModel.value. destruct depth;
    (destruct (Z.eqb_spec c 34); [congruence|]; destruct (Z.eqb_spec c 123); [congruence|]; destruct (Z.eqb_spec c 91); [congruence|];
     destruct (Z.eqb_spec c 110); [congruence|]; destruct (Z.eqb_spec c 116); [congruence|]; destruct (Z.eqb_spec c 102); [congruence|];
     destruct (Z.eqb_spec c 78); [congruence|]; destruct (Z.eqb_spec c 73); [congruence|]; rewrite P; exact Nd).
  - destruct W.
  - cbn [JsonModel.dumps]. unfold dump_string. cbn [app]. rewrite <- app_assoc. cbn [app].
    assert (X : string_body (flat_map dump_char s ++ 34 :: rest) = Some (s, rest)) by (apply string_body_dump, W).
    destruct depth; cbn [JsonModel.value]; cbn [Z.eqb Pos.eqb]; now rewrite X.
  - apply writable_arr in W. destruct depth as [|depth]; [cbn in D; lia|]. apply depth_arr in D.
    cbn [JsonModel.dumps app JsonModel.value]. cbn [Z.eqb Pos.eqb]. rewrite <- app_assoc. cbn [app]. destruct l as [|j l]; [reflexivity|].
    assert (Hd : exists c t, joined (map dumps (j :: l)) ++ 93 :: rest = c :: t /\ is_ws c = false /\ c <> 93).
    { inversion W; subst. destruct (dumps_head j H1) as (c & t & E & Wc & N3 & _). cbn [map]. destruct l as [|k l].
      - cbn [map joined]. rewrite E. cbn [app]. eauto.
      - cbn [map]. rewrite joined_cons by discriminate. rewrite E. cbn [app]. eauto. }
    destruct Hd as (c & t & E & Wc & N3). pose proof E as E'. rewrite E. cbn [skip_ws]. rewrite Wc. destruct (Z.eqb_spec c 93); [congruence|].
    rewrite <- E'. rewrite items_read; [reflexivity|discriminate|assumption|assumption|assumption|].
    assert (Hl : (length (j :: l) <= length (joined (map dumps (j :: l))))%nat).
    { rewrite <- (map_length dumps (j :: l)). apply joined_length. apply Forall_map. eapply Forall_impl; [|exact W]. intros a. apply dumps_nonempty. }
    apply (f_equal (@length Z)) in E'. rewrite app_length in E'. cbn [length] in *. lia.
  - apply writable_obj in W as [Nd W]. destruct depth as [|depth]; [cbn in D; lia|]. apply depth_obj in D.
    change (dumps (JObj l)) with (123 :: joined (map dump_member l) ++ [125]).
    cbn [app JsonModel.value]. cbn [Z.eqb Pos.eqb]. rewrite <- app_assoc. cbn [app]. destruct l as [|kv l]; [reflexivity|].
    assert (Hd : exists t, joined (map dump_member (kv :: l)) ++ 125 :: rest = 34 :: t).
    { cbn [map]. unfold dump_member at 1, dump_string. cbn [app]. destruct l; cbn [map joined app]; eauto. }
    destruct Hd as (t & E). pose proof E as E'. rewrite E. cbn [skip_ws is_ws Z.eqb Pos.eqb orb].
    rewrite <- E'. rewrite members_read; [|discriminate|assumption|assumption|assumption|].
    + cbn [bind fst snd]. now rewrite object_of_nodup.
    + assert (Hl : (length (kv :: l) <= length (joined (map dump_member (kv :: l))))%nat).
      { rewrite <- (map_length dump_member (kv :: l)). apply joined_length. apply Forall_map. apply Forall_forall. intros x _. unfold dump_member. cbn. lia. }
      apply (f_equal (@length Z)) in E'. rewrite app_length in E'. cbn [length] in *. lia.
Qed.

(** ** Bytes *)

Lemma dumps_ascii j : writable j -> Forall (fun c => 32 <= c <= 126) (dumps j).
Proof.
  assert (Hx : forall n, 0 <= n -> Forall (fun c => 32 <= c <= 126) (u_escape n)).
  { intros n H. assert (G : forall m, 0 <= m < 16 -> 32 <= hexdigit m <= 126) by (intros m Hm; unfold hexdigit; destruct (m <? 10) eqn:E; lia).
    unfold u_escape, hex4. repeat constructor; try lia; apply G; apply Z.mod_pos_bound; lia. }
  assert (Hs : forall s, string_ok s = true -> Forall (fun c => 32 <= c <= 126) (dump_string s)).
  { intros s K. unfold string_ok in K. apply andb_true_iff in K as [K _]. unfold dump_string. constructor; [lia|].
    apply Forall_app. split; [|repeat constructor; lia]. apply Forall_flat_map. apply Forall_forall. intros c I.
    rewrite forallb_forall in K. apply K in I. unfold char_ok in I. unfold dump_char.
    repeat (match goal with |- Forall _ (if ?b then _ else _) => destruct b eqn:?; [repeat constructor; lia|] end).
    destruct (c <? 65536) eqn:E; [apply Hx; lia|]. apply Forall_app. split; apply Hx.
    - pose proof (Z.div_pos (c - 65536) 1024). lia.
    - pose proof (Z.mod_pos_bound (c - 65536) 1024). lia. }
  assert (Hj : forall l, Forall (Forall (fun c => 32 <= c <= 126)) l -> Forall (fun c => 32 <= c <= 126) (joined l)).
  { induction 1 as [|x l H1 H2 IH]; [constructor|]. destruct l as [|y l]; [exact H1|].
    rewrite joined_cons by discriminate. apply Forall_app. split; [exact H1|]. repeat constructor; try lia. exact IH. }
  induction j as [|b|n|f|s|l IH|l IH] using json_ind'; intros W.
  - repeat constructor; cbn; lia.
  - destruct b; repeat constructor; cbn; lia.
  - cbn [JsonModel.dumps]. rewrite dec_abs. destruct (whole_digits n [] I) as (_ & Dg & _).
    assert (G : Forall (fun c => 32 <= c <= 126) (ascii (nat_digits n))).
    { unfold ascii. apply Forall_map. apply Forall_forall. intros c I. rewrite forallb_forall in Dg. apply Dg in I. unfold is_digit in I. lia. }
    destruct (n <? 0); [|exact G]. constructor; [cbn; lia|exact G].
  - destruct W.
  - apply Hs, W.
  - apply writable_arr in W. cbn [JsonModel.dumps]. constructor; [lia|]. apply Forall_app. split; [|repeat constructor; lia].
    apply Hj. apply Forall_map. rewrite Forall_forall in *. auto.
  - apply writable_obj in W as [_ W]. cbn [JsonModel.dumps]. constructor; [lia|]. apply Forall_app. split; [|repeat constructor; lia].
    apply Hj. apply Forall_map. rewrite Forall_forall in *. intros kv I. destruct (W _ I). apply Forall_app. split; [now apply Hs|].
    repeat constructor; try lia. now apply IH.
Qed.

(** A body of printable ASCII characters is decoded as such. *)
Definition decodes_ascii (decode : bytes -> option text) : Prop :=
  forall b, (forall c, In c b -> 32 <= bz c <= 126) -> decode b = Some (ascii b).

Lemma loads_dumps decode depth j : decodes_ascii decode -> writable j -> (depth_of j <= depth)%nat ->
  loads float_of max_digits decode depth (dumps_utf8 float_repr j) = Ok j.
Proof.
  intros Dc W D. pose proof (dumps_ascii j W) as A. unfold loads, dumps_utf8. rewrite Dc.
  - assert (E : ascii (map zb (dumps j)) = dumps j).
    { unfold ascii. rewrite map_map. rewrite <- (map_id (dumps j)) at 2. apply map_ext_Forall. eapply Forall_impl; [|exact A].
      cbn. intros c Hc. rewrite bz_zb. apply Z.mod_small. lia. }
    rewrite E. unfold loads_text. rewrite <- (app_nil_r (dumps j)). rewrite dumps_ws by exact W.
    rewrite (@reads_all j depth [] W D I). reflexivity.
  - intros c I. apply in_map_iff in I as (z & <- & I). rewrite Forall_forall in A. apply A in I. rewrite bz_zb, Z.mod_small; lia.
Qed.
End Values.
