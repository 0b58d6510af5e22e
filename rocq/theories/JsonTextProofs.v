(** The scanner of JsonModel reads exactly the texts of JsonSpec. *)
From Verif Require Import Prelude PreludeFacts BytesModel BytesProofs CborModel CborProofs StreamModel JsonModel JsonSpec.
From Coq Require Strings.String.
Import Coq.Strings.String.StringSyntax.
Set Implicit Arguments.

(** ** Blanks *)

Lemma blank_nil : blank [].
Proof. intros c []. Qed.
Lemma is_ws_spec c : is_ws c = true <-> c = 32 \/ c = 9 \/ c = 10 \/ c = 13.
Proof. unfold is_ws. lia. Qed.
Lemma blank_cons c s : is_ws c = true -> blank s -> blank (c :: s).
Proof. intros W B x [<-|J]; [now apply is_ws_spec|now apply B]. Qed.
Lemma skip_ws_split s : exists b, blank b /\ s = b ++ skip_ws s.
Proof.
  induction s as [|c s (b & B & E)]; [exists []; split; [apply blank_nil|reflexivity]|]. cbn [skip_ws]. destruct (is_ws c) eqn:W.
  - exists (c :: b). split; [now apply blank_cons|]. cbn. now rewrite <- E.
  - exists []. split; [apply blank_nil|reflexivity].
Qed.
Lemma skip_ws_blank b s : blank b -> skip_ws (b ++ s) = skip_ws s.
Proof.
  induction b as [|c b IH]; intros B; [reflexivity|]. cbn. replace (is_ws c) with true by (symmetry; apply is_ws_spec, B; now left).
  apply IH. intros x J. apply B. now right.
Qed.
Lemma skip_ws_all b : blank b -> skip_ws b = [].
Proof. intros B. rewrite <- (app_nil_r b). now rewrite skip_ws_blank. Qed.
Lemma skip_ws_nil s : skip_ws s = [] -> blank s.
Proof. destruct (skip_ws_split s) as (b & B & E). intros H. rewrite H, app_nil_r in E. now subst. Qed.

(** ** Strings *)

Lemma hex_value_spec c d : hex_value c = Some d <-> In (c, d) hex_digits.
Proof.
  split.
  - unfold hex_value. intros H.
    destruct ((48 <=? c) && (c <=? 57)) eqn:A; [|destruct ((97 <=? c) && (c <=? 102)) eqn:B; [|destruct ((65 <=? c) && (c <=? 70)) eqn:C; [|discriminate]]];
      injection H as <-.
    + assert (X : c = 48 \/ c = 49 \/ c = 50 \/ c = 51 \/ c = 52 \/ c = 53 \/ c = 54 \/ c = 55 \/ c = 56 \/ c = 57) by lia.
      repeat (destruct X as [->|X]; [cbn; tauto|]). subst. cbn; tauto.
    + assert (X : c = 97 \/ c = 98 \/ c = 99 \/ c = 100 \/ c = 101 \/ c = 102) by lia.
      repeat (destruct X as [->|X]; [cbn; tauto|]). subst. cbn; tauto.
    + assert (X : c = 65 \/ c = 66 \/ c = 67 \/ c = 68 \/ c = 69 \/ c = 70) by lia.
      repeat (destruct X as [->|X]; [cbn; tauto|]). subst. cbn; tauto.
  - intros H. unfold hex_digits in H. cbn [In] in H. repeat (destruct H as [[= <- <-]|H]; [reflexivity|]). destruct H.
Qed.
Lemma hex4_spec a b c d u : hex4_value a b c d = Some u <-> unit_escape [92; 117; a; b; c; d] u.
Proof.
  unfold hex4_value. split.
  - destruct (hex_value a) as [x|] eqn:A; [|discriminate]. destruct (hex_value b) as [y|] eqn:B; [|discriminate].
    destruct (hex_value c) as [z|] eqn:C; [|discriminate]. destruct (hex_value d) as [w|] eqn:D; [|discriminate]. intros [= <-].
    exists a, b, c, d, x, y, z, w. rewrite <- !hex_value_spec. repeat (split; [assumption || reflexivity|]). lia.
  - intros (a' & b' & c' & d' & x & y & z & w & [= <- <- <- <-] & A & B & C & D & ->). rewrite <- hex_value_spec in A, B, C, D.
    rewrite A, B, C, D. f_equal. lia.
Qed.
Lemma escape_shape e u : unit_escape e u -> exists a b c d, e = [92; 117; a; b; c; d] /\ hex4_value a b c d = Some u.
Proof.
  intros X. pose proof X as (a & b & c & d & x & y & z & w & -> & _). exists a, b, c, d. split; [reflexivity|]. now apply hex4_spec.
Qed.
Lemma high_spec u : is_high u = true <-> high_surrogate u.
Proof. unfold is_high, high_surrogate. lia. Qed.
Lemma low_spec u : is_low u = true <-> low_surrogate u.
Proof. unfold is_low, low_surrogate. lia. Qed.
Lemma simple_spec e x : simple_escape e = Some x <-> In (e, x) short_escapes.
Proof.
  split.
  - unfold simple_escape. intros H.
    repeat match type of H with (if ?e =? ?n then _ else _) = _ => destruct (Z.eqb_spec e n) as [->|]; [injection H as <-; cbn; tauto|] end. discriminate.
  - intros H. unfold short_escapes in H. cbn [In] in H. repeat (destruct H as [[= <- <-]|H]; [reflexivity|]). destruct H.
Qed.

Lemma push_some c r t rest : push c r = Some (t, rest) -> exists t', t = c :: t' /\ r = Some (t', rest).
Proof. destruct r as [[s x]|]; [|discriminate]. intros [= <- <-]. eauto. Qed.

(** Whether a low surrogate comes next *)
Definition low_next (s : text) (v : Z) (s4 : text) : Prop :=
  exists k1 k2 k3 k4, s = 92 :: 117 :: k1 :: k2 :: k3 :: k4 :: s4 /\ hex4_value k1 k2 k3 k4 = Some v /\ is_low v = true.
Definition second (s3 : text) : option (Z * text) :=
  match s3 with
  | b1 :: u1 :: k1 :: k2 :: k3 :: k4 :: s4 =>
      match (if (b1 =? 92) && (u1 =? 117) then hex4_value k1 k2 k3 k4 else None) with
      | Some v => if is_low v then Some (v, s4) else None
      | None => None
      end
  | _ => None
  end.
Lemma second_some s v s4 : second s = Some (v, s4) <-> low_next s v s4.
Proof.
  unfold second, low_next. split.
  - destruct s as [|b1 [|u1 [|k1 [|k2 [|k3 [|k4 s]]]]]]; try discriminate.
    destruct (Z.eqb_spec b1 92) as [->|]; [|discriminate]. destruct (Z.eqb_spec u1 117) as [->|]; [|discriminate]. cbn [andb].
    destruct (hex4_value k1 k2 k3 k4) as [w|] eqn:X; [|discriminate]. destruct (is_low w) eqn:L; [|discriminate]. intros [= <- <-].
    exists k1, k2, k3, k4. auto.
  - intros (k1 & k2 & k3 & k4 & -> & X & L). rewrite !Z.eqb_refl. cbn [andb]. now rewrite X, L.
Qed.
Lemma string_body_unit a b c d u s : hex4_value a b c d = Some u ->
  string_body (92 :: 117 :: a :: b :: c :: d :: s) =
    match (if is_high u then second s else None) with
    | Some (v, s4) => push (join_surrogates u v) (string_body s4)
    | None => push u (string_body s)
    end.
Proof.
  intros H. cbn [string_body]. rewrite !Z.eqb_refl. replace (92 =? 34) with false by reflexivity. rewrite H.
  destruct (is_high u); [|reflexivity]. unfold second. destruct s as [|b1 [|u1 [|k1 [|k2 [|k3 [|k4 s]]]]]]; try reflexivity.
  destruct (if (b1 =? 92) && (u1 =? 117) then hex4_value k1 k2 k3 k4 else None) as [v|]; [|reflexivity].
  destruct (is_low v); reflexivity.
Qed.

Lemma string_sound n : forall s t r, (length s <= n)%nat -> string_body s = Some (t, r) -> exists p, s = p ++ 34 :: r /\ string_text p t.
Proof.
  induction n as [|n IH]; intros s t r L H.
  - destruct s; [discriminate|cbn in L; lia].
  - destruct s as [|c s1]; [discriminate|]. cbn [length] in L.
    destruct (Z.eqb_spec c 34) as [->|N34].
    { cbn in H. injection H as <- <-. exists []. split; [reflexivity|constructor]. }
    destruct (Z.eqb_spec c 92) as [->|N92].
    + destruct s1 as [|e s2]; [discriminate|]. cbn [length] in L. destruct (Z.eqb_spec e 117) as [->|Nu].
      * destruct s2 as [|h1 [|h2 [|h3 [|h4 s3]]]]; try discriminate. cbn [length] in L.
        destruct (hex4_value h1 h2 h3 h4) as [u|] eqn:U.
        2:{ cbn in H. rewrite U in H. discriminate. }
        rewrite (string_body_unit _ _ _ _ _ U) in H. pose proof (proj1 (hex4_spec _ _ _ _ _) U) as Ue.
        destruct (if is_high u then second s3 else None) as [[v s4]|] eqn:S2.
        -- destruct (is_high u) eqn:Hi; [|discriminate]. apply second_some in S2 as (k1 & k2 & k3 & k4 & -> & K & Lo). cbn [length] in L.
           apply push_some in H as (t' & -> & H). destruct (IH s4 t' r ltac:(lia) H) as (p & -> & P).
           exists ([92; 117; h1; h2; h3; h4] ++ [92; 117; k1; k2; k3; k4] ++ p). split; [reflexivity|].
           unfold join_surrogates. apply st_pair; auto; [now apply high_spec|now apply hex4_spec|now apply low_spec].
        -- apply push_some in H as (t' & -> & H). destruct (IH s3 t' r ltac:(lia) H) as (p & -> & P).
           exists ([92; 117; h1; h2; h3; h4] ++ p). split; [reflexivity|]. apply st_unit; auto.
           intros Hi e2 v s2 E2 Lo ->. apply high_spec in Hi. rewrite Hi in S2.
           destruct (escape_shape E2) as (k1 & k2 & k3 & k4 & -> & K).
           assert (X : second (([92; 117; k1; k2; k3; k4] ++ s2) ++ 34 :: r) = Some (v, s2 ++ 34 :: r)).
           { apply second_some. exists k1, k2, k3, k4. split; [reflexivity|]. split; [exact K|]. now apply low_spec. }
           congruence.
      * cbn in H. apply Z.eqb_neq in Nu. rewrite Nu in H. destruct (simple_escape e) as [x|] eqn:X; [|discriminate].
        apply push_some in H as (t' & -> & H). destruct (IH s2 t' r ltac:(lia) H) as (p & -> & P).
        exists (92 :: e :: p). split; [reflexivity|]. apply st_short; [now apply simple_spec|exact P].
    + cbn in H. apply Z.eqb_neq in N34, N92. rewrite N34, N92 in H. destruct (c <? 32) eqn:C; [discriminate|].
      apply push_some in H as (t' & -> & H). destruct (IH s1 t' r ltac:(lia) H) as (p & -> & P).
      exists (c :: p). split; [reflexivity|]. apply st_plain; auto; lia.
Qed.
Lemma hex_not_quote c d : hex_value c = Some d -> c <> 34.
Proof. intros H ->. discriminate. Qed.
Lemma hex4_digits a b c d u : hex4_value a b c d = Some u -> a <> 34 /\ b <> 34 /\ c <> 34 /\ d <> 34.
Proof.
  unfold hex4_value. destruct (hex_value a) eqn:A; [|discriminate]. destruct (hex_value b) eqn:B; [|discriminate].
  destruct (hex_value c) eqn:C; [|discriminate]. destruct (hex_value d) eqn:D; [|discriminate]. intros _. repeat split; eapply hex_not_quote; eassumption.
Qed.
Lemma string_complete p t : string_text p t -> forall r, string_body (p ++ 34 :: r) = Some (t, r).
Proof.
  induction 1 as [|c s t C34 C92 C S IH|e x s t X S IH|e u s t U Nl S IH|e u e2 v s t U Hi U2 Lo S IH]; intros r.
  - reflexivity.
  - cbn. replace (c =? 34) with false by lia. replace (c =? 92) with false by lia. replace (c <? 32) with false by lia. now rewrite IH.
  - cbn. apply simple_spec in X. replace (e =? 117) with false.
    + now rewrite X, IH.
    + destruct (Z.eqb_spec e 117) as [->|]; [discriminate|reflexivity].
  - destruct (escape_shape U) as (a & b & c & d & -> & H). cbn [app]. rewrite (string_body_unit _ _ _ _ _ H).
    destruct (if is_high u then second (s ++ 34 :: r) else None) as [[v s4]|] eqn:E; [|now rewrite IH].
    exfalso. destruct (is_high u) eqn:Hi; [|discriminate]. apply high_spec in Hi. apply second_some in E as (k1 & k2 & k3 & k4 & E & K & Lo).
    pose proof (hex4_digits _ _ _ _ K) as (K1 & K2 & K3 & K4).
    destruct s as [|c1 [|c2 [|c3 [|c4 [|c5 [|c6 s]]]]]]; cbn in E; injection E; intros; subst; try congruence.
    refine (Nl Hi [92; 117; k1; k2; k3; k4] v s _ _ eq_refl); [now apply hex4_spec|now apply low_spec].
  - destruct (escape_shape U) as (a & b & c & d & -> & H). destruct (escape_shape U2) as (k1 & k2 & k3 & k4 & -> & K).
    cbn [app]. rewrite (string_body_unit _ _ _ _ _ H). apply high_spec in Hi. rewrite Hi.
    replace (second _) with (Some (v, s ++ 34 :: r)); [now rewrite IH|].
    symmetry. apply second_some. exists k1, k2, k3, k4. split; [reflexivity|]. split; [exact K|now apply low_spec].
Qed.

(** ** Numbers *)

Lemma digit_spec c : digit_char c = true <-> 48 <= c <= 57.
Proof. unfold digit_char. lia. Qed.
Lemma span_digits_sound s : forall d r, span_digits s = (d, r) -> s = d ++ r /\ all_digits d /\ match r with c :: _ => digit_char c = false | [] => True end.
Proof.
  induction s as [|c s IH]; intros d r; cbn; [intros [= <- <-]; split; [reflexivity|split; [intros x []|exact I]]|].
  destruct (digit_char c) eqn:D; [|intros [= <- <-]; split; [reflexivity|split; [intros x []|exact D]]].
  destruct (span_digits s) as [d' r'] eqn:E. intros [= <- <-]. destruct (IH d' r' eq_refl) as (-> & A & B).
  split; [reflexivity|]. split; [|exact B]. intros x [<-|J]; [now apply digit_spec|now apply A].
Qed.
Lemma span_digits_complete d r : all_digits d -> match r with c :: _ => digit_char c = false | [] => True end -> span_digits (d ++ r) = (d, r).
Proof.
  induction d as [|c d IH]; intros A B; cbn.
  - destruct r as [|c r]; [reflexivity|]. cbn. now rewrite B.
  - replace (digit_char c) with true by (symmetry; apply digit_spec, A; now left). rewrite IH; [reflexivity| |exact B]. intros x J. apply A. now right.
Qed.
Lemma whole_sound s c d r : whole s = (c :: d, r) -> s = (c :: d) ++ r /\ whole_text (c :: d).
Proof.
  destruct s as [|x s]; [discriminate|]. cbn [whole]. destruct (Z.eqb_spec x 48) as [->|N].
  - intros [= <- <- <-]. split; [reflexivity|now left].
  - intros H. destruct (span_digits_sound _ H) as (E & A & _). split; [exact E|]. right. exists c, d. split; [reflexivity|].
    cbn in E. injection E as <- _. split; [specialize (A x (or_introl eq_refl)); lia|]. intros y J. apply A. now right.
Qed.
Lemma whole_complete w r : whole_text w -> match r with c :: _ => digit_char c = false | [] => True end -> whole (w ++ r) = (w, r).
Proof.
  intros [->|(c & s & -> & C & A)] B; [reflexivity|]. cbn [app whole]. replace (c =? 48) with false by lia.
  change (c :: s ++ r) with ((c :: s) ++ r). apply span_digits_complete; [|exact B]. intros x [<-|J]; [lia|now apply A].
Qed.
Lemma fraction_sound s f r : fraction s = (f, r) -> s = f ++ r /\ fraction_text f.
Proof.
  unfold fraction. destruct s as [|c s]; [intros [= <- <-]; split; [reflexivity|now left]|].
  destruct (Z.eqb_spec c 46) as [->|N]; [|intros [= <- <-]; split; [reflexivity|now left]].
  destruct (span_digits s) as [[|x d] r'] eqn:E; intros [= <- <-]; [split; [reflexivity|now left]|].
  destruct (span_digits_sound _ E) as (-> & A & _). split; [reflexivity|]. right. exists (x :: d). split; [reflexivity|]. split; [discriminate|exact A].
Qed.
Lemma fraction_complete f r : fraction_text f -> match r with c :: _ => digit_char c = false /\ c <> 46 | [] => True end -> fraction (f ++ r) = (f, r).
Proof.
  intros [->|(d & -> & N & A)] B.
  - destruct r as [|c r]; [reflexivity|]. cbn. destruct B as [_ B]. now replace (c =? 46) with false by lia.
  - cbn. rewrite span_digits_complete; [|exact A|destruct r; [exact I|apply B]]. destruct d; [congruence|reflexivity].
Qed.
Lemma exponent_sound s e r : exponent s = (e, r) -> s = e ++ r /\ exponent_text e.
Proof.
  unfold exponent. destruct s as [|c s]; [intros [= <- <-]; split; [reflexivity|now left]|].
  destruct ((c =? 101) || (c =? 69)) eqn:C; [|intros [= <- <-]; split; [reflexivity|now left]].
  assert (C' : c = 101 \/ c = 69) by lia.
  destruct s as [|g s]; [intros [= <- <-]; split; [reflexivity|now left]|].
  destruct ((g =? 43) || (g =? 45)) eqn:G.
  - assert (G' : [g] = [] \/ [g] = [43] \/ [g] = [45]) by (right; destruct (Z.eqb_spec g 43) as [->|]; [now left|right; f_equal; lia]).
    destruct (span_digits s) as [[|x d] r'] eqn:E; intros [= <- <-]; [split; [reflexivity|now left]|].
    destruct (span_digits_sound _ E) as (-> & A & _). split; [reflexivity|]. right. exists c, [g], (x :: d). split; [reflexivity|].
    split; [exact C'|]. split; [exact G'|]. split; [discriminate|exact A].
  - destruct (span_digits (g :: s)) as [[|x d] r'] eqn:E; intros [= <- <-]; [split; [reflexivity|now left]|].
    destruct (span_digits_sound _ E) as (-> & A & _). split; [reflexivity|]. right. exists c, [], (x :: d). split; [reflexivity|].
    split; [exact C'|]. split; [now left|]. split; [discriminate|exact A].
Qed.
Lemma exponent_complete e r : exponent_text e -> match r with c :: _ => digit_char c = false /\ c <> 101 /\ c <> 69 | [] => True end -> exponent (e ++ r) = (e, r).
Proof.
  intros [->|(c & g & d & -> & C & G & N & A)] B.
  - destruct r as [|c r]; [reflexivity|]. cbn. destruct B as (_ & B1 & B2). now replace ((c =? 101) || (c =? 69)) with false by lia.
  - assert (B' : match r with c :: _ => digit_char c = false | [] => True end) by (destruct r; [exact I|apply B]).
    cbn [app exponent]. replace ((c =? 101) || (c =? 69)) with true by lia. destruct G as [->|[->| ->]].
    + cbn [app]. destruct d as [|x d]; [congruence|]. cbn [app]. pose proof (A x (or_introl eq_refl)). replace ((x =? 43) || (x =? 45)) with false by lia.
      change (x :: d ++ r) with ((x :: d) ++ r). rewrite span_digits_complete by assumption. reflexivity.
    + cbn [app]. cbn [Z.eqb Pos.eqb orb]. rewrite span_digits_complete by assumption. destruct d; [congruence|reflexivity].
    + cbn [app]. cbn [Z.eqb Pos.eqb orb]. rewrite span_digits_complete by assumption. destruct d; [congruence|reflexivity].
Qed.
Lemma decimal_value s : decimal s (number_value s).
Proof.
  induction s as [|c s IH] using rev_ind; [constructor|]. unfold number_value in *. rewrite fold_left_app. cbn [fold_left].
  replace (fold_left (fun acc c => acc * 10 + (c - 48)) s 0 * 10 + (c - 48)) with (10 * fold_left (fun acc c => acc * 10 + (c - 48)) s 0 + (c - 48)) by lia.
  now constructor.
Qed.
Lemma decimal_unique s n : decimal s n -> n = number_value s.
Proof.
  induction 1 as [|s n c D IH]; [reflexivity|]. unfold number_value in *. rewrite fold_left_app. cbn [fold_left]. lia.
Qed.

(** ** Objects *)

Section Objects.
Variable F : Type.
Lemma jset_last k v (d : list (text * json F)) : ~ In k (map fst d) -> jset k v d = d ++ [(k, v)].
Proof.
  induction d as [|[k' v'] d IH]; cbn; [reflexivity|]. intros H. destruct (text_eqb_spec k k') as [->|]; [exfalso; auto|]. rewrite IH; auto.
Qed.
Lemma jset_again k v v0 (d1 d2 : list (text * json F)) : ~ In k (map fst d1) -> jset k v (d1 ++ (k, v0) :: d2) = d1 ++ (k, v) :: d2.
Proof.
  induction d1 as [|[k' v'] d1 IH]; cbn; [now rewrite text_eqb_refl|]. intros H. destruct (text_eqb_spec k k') as [->|]; [exfalso; auto|]. rewrite IH; auto.
Qed.
Lemma object_of_snoc (l : list (text * json F)) kv : object_of (l ++ [kv]) = jset (fst kv) (snd kv) (object_of l).
Proof. unfold object_of. now rewrite fold_left_app. Qed.
Lemma from_nodup (l d : list (text * json F)) : object_from l d -> NoDup (map fst d).
Proof.
  induction 1 as [|l d k v H IH N|l d1 d2 k v v0 H IH]; [constructor| |].
  - rewrite map_app. apply (NoDup_Add (Add_app k (map fst d) [])). now rewrite app_nil_r.
  - rewrite map_app in *. exact IH.
Qed.
Lemma object_sound (l : list (text * json F)) : object_from l (object_of l).
Proof.
  induction l as [|[k v] l IH] using rev_ind; [constructor|]. rewrite object_of_snoc. cbn [fst snd].
  destruct (in_dec (list_eq_dec Z.eq_dec) k (map fst (object_of l))) as [J|N].
  - pose proof (from_nodup IH) as Nd. apply in_map_iff in J as ([k' v0] & E & J). cbn in E. subst k'. apply in_split in J as (d1 & d2 & E).
    rewrite E in *. rewrite jset_again.
    + exact (of_again _ _ _ _ _ IH).
    + rewrite map_app in Nd. cbn in Nd. intros J. apply NoDup_remove_2 in Nd. apply Nd, in_or_app. now left.
  - rewrite jset_last by exact N. now apply of_new.
Qed.
Lemma object_unique (l d : list (text * json F)) : object_from l d -> d = object_of l.
Proof.
  induction 1 as [|l d k v H IH N|l d1 d2 k v v0 H IH]; [reflexivity| |]; rewrite object_of_snoc; cbn [fst snd]; rewrite <- IH.
  - now rewrite jset_last.
  - symmetry. apply jset_again. pose proof (from_nodup H) as Nd. rewrite map_app in Nd. cbn in Nd. intros J. apply NoDup_remove_2 in Nd.
    apply Nd, in_or_app. now left.
Qed.
End Objects.

(** ** The scanner *)

Scheme json_text_mut := Minimality for json_text Sort Prop
  with items_text_mut := Minimality for items_text Sort Prop
  with members_text_mut := Minimality for members_text Sort Prop.
Combined Scheme json_texts_mut from json_text_mut, items_text_mut, members_text_mut.

Section Scanner.
Variable F : Type.
Variable float_of : text -> F.
Variable max_digits : nat.
Notation value := (value float_of max_digits).
Notation number := (number float_of max_digits).
Notation jtext := (json_text float_of max_digits).
Notation itext := (items_text float_of max_digits).
Notation mtext := (members_text float_of max_digits).

Lemma number_sound depth s j r : number s = Ok (j, r) -> exists p, s = p ++ r /\ jtext depth p j.
Proof.
  unfold JsonModel.number. set (sg := match s with c :: s' => if c =? 45 then ([45], s') else ([], s) | [] => ([], s) end).
  assert (S0 : exists g s1, sg = (g, s1) /\ s = g ++ s1 /\ (g = [] \/ g = [45])).
  { unfold sg. destruct s as [|c s']; [exists [], []; auto|]. destruct (Z.eqb_spec c 45) as [->|]; [exists [45], s'|exists [], (c :: s')]; auto. }
  destruct S0 as (g & s1 & -> & -> & G).
  destruct (whole s1) as [[|x d] s2] eqn:W; [discriminate|]. destruct (whole_sound _ W) as [-> Wt]. clear W.
  destruct (fraction s2) as [f s3] eqn:Fr. destruct (fraction_sound _ Fr) as [-> Ft]. clear Fr.
  destruct (exponent s3) as [e s4] eqn:Ex. destruct (exponent_sound _ Ex) as [-> Et]. clear Ex.
  destruct f as [|f0 f]; [destruct e as [|e0 e]|].
  - destruct (Nat.ltb_spec max_digits (length (x :: d))) as [L|L]; [discriminate|]. intros [= <- <-]. exists (g ++ x :: d). split; [now rewrite <- app_assoc|].
    destruct G as [->| ->]; [apply jt_int|apply jt_minus]; auto using decimal_value.
  - intros [= <- <-]. exists (g ++ (x :: d) ++ [] ++ (e0 :: e)). split; [now rewrite <- !app_assoc|]. apply jt_float; auto. right. discriminate.
  - intros [= <- <-]. exists (g ++ (x :: d) ++ (f0 :: f) ++ e). split; [now rewrite <- !app_assoc|]. apply jt_float; auto. left. discriminate.
Qed.

(** What may come after a value *)
Definition ends (s : text) : Prop := match s with c :: _ => is_ws c = true \/ c = 44 \/ c = 93 \/ c = 125 | [] => True end.
Lemma ends_stop s : ends s -> match s with c :: _ => digit_char c = false /\ c <> 46 /\ c <> 101 /\ c <> 69 | [] => True end.
Proof. destruct s as [|c s]; [auto|]. cbn. unfold is_ws, digit_char. lia. Qed.
Lemma blank_ends b s : blank b -> ends s -> ends (b ++ s).
Proof. destruct b as [|c b]; [auto|]. intros B _. left. apply is_ws_spec, B. now left. Qed.

Lemma whole_head w : whole_text w -> exists c s, w = c :: s /\ 48 <= c <= 57.
Proof. intros [->|(c & s & -> & C & _)]; [exists 48, []; split; [reflexivity|lia]|exists c, s; split; [reflexivity|lia]]. Qed.
Lemma number_parts g w f e rest : g = [] \/ g = [45] -> whole_text w -> fraction_text f -> exponent_text e -> ends rest ->
  number (g ++ w ++ f ++ e ++ rest) =
    match f, e with
    | [], [] => if Nat.ltb max_digits (length w) then Err BadJson
                else Ok (JInt (match g with [] => number_value w | _ => - number_value w end), rest)
    | _, _ => Ok (JFloat (float_of (g ++ w ++ f ++ e)), rest)
    end.
Proof.
  intros G W Ft Et R. apply ends_stop in R.
  assert (Re : match e ++ rest with c :: _ => digit_char c = false /\ c <> 46 | [] => True end).
  { destruct Et as [->|(c & g' & d & -> & C & _)]; [destruct rest; [exact I|split; apply R]|]. cbn. unfold digit_char. lia. }
  assert (Rf : match f ++ e ++ rest with c :: _ => digit_char c = false | [] => True end).
  { destruct Ft as [->|(d & -> & _)]; [cbn; destruct (e ++ rest); [exact I|apply Re]|reflexivity]. }
  assert (Re2 : match rest with c :: _ => digit_char c = false /\ c <> 101 /\ c <> 69 | [] => True end).
  { destruct rest; [exact I|]. split; [apply R|split; apply R]. }
  assert (Wh := whole_complete _ W Rf). assert (Fh := fraction_complete _ Ft Re). assert (Eh := exponent_complete _ Et Re2).
  destruct (whole_head W) as (c & s & -> & C). destruct G as [->| ->]; unfold JsonModel.number.
  - cbn [app] in *. replace (c =? 45) with false by lia. cbv beta iota. rewrite Wh, Fh, Eh. reflexivity.
  - cbn [app] in *. cbn [Z.eqb Pos.eqb]. cbv beta iota. rewrite Wh, Fh, Eh. reflexivity.
Qed.

Lemma strip_prefix_sound p : forall s r, strip_prefix p s = Some r -> s = p ++ r.
Proof.
  induction p as [|a p IH]; intros s r; cbn; [intros [= <-]; reflexivity|]. destruct s as [|b s]; [discriminate|].
  destruct (Z.eqb_spec a b) as [->|]; [|discriminate]. intros H. now rewrite (IH _ _ H).
Qed.
Lemma strip_prefix_complete p r : strip_prefix p (p ++ r) = Some r.
Proof. induction p as [|a p IH]; cbn; [reflexivity|]. now rewrite Z.eqb_refl. Qed.

Definition sound_at (depth : nat) (rec : text -> res jexn (json F * text)) : Prop :=
  forall s j r, rec s = Ok (j, r) -> exists p, s = p ++ r /\ jtext depth p j.

Lemma items_sound depth rec : sound_at depth rec -> forall n s l r a, items rec n s = Ok (l, r) -> blank a ->
  exists p, a ++ s = p ++ 93 :: r /\ itext depth p l.
Proof.
  intros R. induction n as [|n IH]; intros s l r a; cbn [items]; [discriminate|]. destruct (rec s) as [[j s1]|] eqn:E; [|discriminate].
  cbn [bind fst snd]. destruct (R _ _ _ E) as (q & -> & Q). destruct (skip_ws_split s1) as (b & B & Es).
  destruct (skip_ws s1) as [|c s4]; [discriminate|]. destruct (Z.eqb_spec c 44) as [->|N1].
  - destruct (items rec n (skip_ws s4)) as [[more r']|] eqn:E2; [|discriminate]. cbn [bind fst snd]. intros [= <- <-] A.
    destruct (skip_ws_split s4) as (b4 & B4 & E4). destruct (IH _ _ _ b4 E2 B4) as (p & Ep & P). rewrite <- E4 in Ep.
    exists (a ++ q ++ b ++ 44 :: p). split; [rewrite Es, Ep; rewrite <- !app_assoc; reflexivity|]. now apply it_more.
  - destruct (Z.eqb_spec c 93) as [->|N2]; [|discriminate]. intros [= <- <-] A.
    exists (a ++ q ++ b). split; [rewrite Es; rewrite <- !app_assoc; reflexivity|]. now apply it_last.
Qed.
Lemma members_sound depth rec : sound_at depth rec -> forall n s l r a, members rec n s = Ok (l, r) -> blank a ->
  exists p, a ++ s = p ++ 125 :: r /\ mtext depth p l.
Proof.
  intros R. induction n as [|n IH]; intros s l r a; cbn [members]; [discriminate|]. destruct s as [|q s1]; [discriminate|].
  destruct (Z.eqb_spec q 34) as [->|]; [|discriminate]. destruct (string_body s1) as [[k s2]|] eqn:Sb; [|discriminate].
  destruct (string_sound _ (le_n _) Sb) as (ks & -> & K). clear Sb. destruct (skip_ws_split s2) as (b & B & E2).
  destruct (skip_ws s2) as [|o s3]; [discriminate|]. destruct (Z.eqb_spec o 58) as [->|]; [|discriminate].
  destruct (skip_ws_split s3) as (c & C & E3). destruct (rec (skip_ws s3)) as [[j s5]|] eqn:E; [|discriminate]. cbn [bind fst snd].
  destruct (R _ _ _ E) as (t & E5 & Q). destruct (skip_ws_split s5) as (e & Be & E6).
  destruct (skip_ws s5) as [|x s4]; [discriminate|]. destruct (Z.eqb_spec x 44) as [->|N1].
  - destruct (members rec n (skip_ws s4)) as [[more r']|] eqn:Em; [|discriminate]. cbn [bind fst snd]. intros [= <- <-] A.
    destruct (skip_ws_split s4) as (b4 & B4 & E4). destruct (IH _ _ _ b4 Em B4) as (p & Ep & P). rewrite <- E4 in Ep.
    exists (a ++ 34 :: ks ++ 34 :: b ++ 58 :: c ++ t ++ e ++ 44 :: p). split.
    + rewrite E2, E3, E5, E6, Ep. repeat (rewrite <- !app_assoc; cbn [app]). reflexivity.
    + now apply mt_more.
  - destruct (Z.eqb_spec x 125) as [->|N2]; [|discriminate]. intros [= <- <-] A.
    exists (a ++ 34 :: ks ++ 34 :: b ++ 58 :: c ++ t ++ e). split.
    + rewrite E2, E3, E5, E6. repeat (rewrite <- !app_assoc; cbn [app]). reflexivity.
    + now apply mt_last.
Qed.

Lemma constant_sound p j s x : constant (F := F) p j s = Ok x -> s = p ++ snd x /\ fst x = j.
Proof. unfold constant. destruct (strip_prefix p s) as [r|] eqn:E; [|discriminate]. intros [= <-]. split; [now apply strip_prefix_sound|reflexivity]. Qed.

Lemma value_sound depth : sound_at depth (value depth).
Proof.
  induction depth as [|depth IH]; intros s j r H.
  all: destruct s as [|c s1]; [discriminate|]; cbn [JsonModel.value] in H.
  all: destruct (Z.eqb_spec c 34) as [->|N1];
    [destruct (string_body s1) as [[t r']|] eqn:Sb; [|discriminate]; injection H as <- <-; destruct (string_sound _ (le_n _) Sb) as (p & -> & P);
     exists (34 :: p ++ [34]); split; [cbn; now rewrite <- app_assoc|now apply jt_string]|].
  all: destruct (Z.eqb_spec c 123) as [->|N2].
  1: discriminate.
  2:{ destruct (skip_ws_split s1) as (b & B & E1). destruct (skip_ws s1) as [|x s2]; [discriminate|]. destruct (Z.eqb_spec x 125) as [->|N3].
      - injection H as <- <-. exists (123 :: b ++ [125]). split; [rewrite E1; cbn; now rewrite <- app_assoc|now apply jt_no_members].
      - destruct (members (value depth) (S (length s2)) (x :: s2)) as [[l r']|] eqn:M; [|discriminate]. cbn [bind fst snd] in H. injection H as <- <-.
        destruct (@members_sound depth _ IH _ _ _ _ b M B) as (p & E & P). exists (123 :: p ++ [125]). split.
        + rewrite E1, E. cbn. now rewrite <- app_assoc.
        + eapply jt_members; [exact P|apply object_sound]. }
  all: destruct (Z.eqb_spec c 91) as [->|N4].
  1: discriminate.
  2:{ destruct (skip_ws_split s1) as (b & B & E1). destruct (skip_ws s1) as [|x s2]; [discriminate|]. destruct (Z.eqb_spec x 93) as [->|N3].
      - injection H as <- <-. exists (91 :: b ++ [93]). split; [rewrite E1; cbn; now rewrite <- app_assoc|now apply jt_no_items].
      - destruct (items (value depth) (S (length s2)) (x :: s2)) as [[l r']|] eqn:M; [|discriminate]. cbn [bind fst snd] in H. injection H as <- <-.
        destruct (@items_sound depth _ IH _ _ _ _ b M B) as (p & E & P). exists (91 :: p ++ [93]). split.
        + rewrite E1, E. cbn. now rewrite <- app_assoc.
        + now apply jt_items. }
  all: repeat match type of H with
       | (if ?x =? ?n then constant ?p ?v _ else _) = _ =>
           destruct (Z.eqb_spec x n) as [->|?]; [apply constant_sound in H as [E E2]; cbn [fst snd] in E, E2; subst j; exists p; split; [exact E|constructor]|]
       end.
  all: destruct (strip_prefix (str "-Infinity") (c :: s1)) as [r'|] eqn:Sp;
    [injection H as <- <-; exists (str "-Infinity"); split; [now apply strip_prefix_sound|constructor]|now apply number_sound].
Qed.

Lemma text_head depth s j : jtext depth s j -> exists c s', s = c :: s' /\ is_ws c = false /\ c <> 93 /\ c <> 125.
Proof.
  assert (D : forall c s, 48 <= c <= 57 -> exists c' s', c :: s = c' :: s' /\ is_ws c' = false /\ c' <> 93 /\ c' <> 125).
  { intros c y C. exists c, y. split; [reflexivity|]. unfold is_ws. lia. }
  intros H. destruct H as [| | | | | |n w z W _ _|n w z W _ _|n g w f e G W _ _ _|n s t _|n b _|n s l _|n b _|n s l d _ _];
    try (eexists; eexists; split; [reflexivity|]; split; [reflexivity|]; split; discriminate).
  - destruct (whole_head W) as (c & s & -> & C). now apply D.
  - destruct G as [->| ->].
    + destruct (whole_head W) as (c & s & -> & C). cbn [app]. now apply D.
    + eexists. eexists. split; [reflexivity|]. split; [reflexivity|]. split; discriminate.
Qed.
Lemma text_skip depth s j rest : jtext depth s j -> skip_ws (s ++ rest) = s ++ rest.
Proof. intros H. destruct (text_head H) as (c & s' & -> & W & _). cbn. now rewrite W. Qed.
Lemma items_length depth s l : itext depth s l -> (length l <= length s)%nat.
Proof.
  induction 1 as [n a s b j A J B|n a s b j rest l A J B R IH]; destruct (text_head J) as (c & s' & -> & _); rewrite !app_length; cbn [length app]; lia.
Qed.
Lemma members_length depth s l : mtext depth s l -> (length l <= length s)%nat.
Proof.
  induction 1 as [n a ks k b c s e j A K B C J E|n a ks k b c s e j rest l A K B C J E R IH]; rewrite ?app_length; cbn [length app]; [lia|].
  rewrite ?app_length; cbn [length]. rewrite ?app_length; cbn [length]. rewrite ?app_length; cbn [length]. lia.
Qed.
Lemma items_shape depth s l : itext depth s l ->
  exists a c s', s = a ++ c :: s' /\ blank a /\ is_ws c = false /\ c <> 93 /\ (length l <= S (length s'))%nat.
Proof.
  intros H. destruct H as [n a s b j A J B|n a s b j more l A J B R]; destruct (text_head J) as (c & s' & -> & W & N & _).
  - exists a, c, (s' ++ b). split; [reflexivity|]. repeat (split; [assumption|]). cbn. lia.
  - exists a, c, (s' ++ b ++ 44 :: more). split; [reflexivity|]. repeat (split; [assumption|]). apply items_length in R.
    rewrite !app_length. cbn [length]. lia.
Qed.
Lemma members_shape depth s l : mtext depth s l ->
  exists a s', s = a ++ 34 :: s' /\ blank a /\ (length l <= S (length s'))%nat.
Proof.
  intros H. destruct H as [n a ks k b c s e j A K B C J E|n a ks k b c s e j rest l A K B C J E R].
  - eexists. eexists. split; [reflexivity|]. split; [exact A|]. cbn. lia.
  - eexists. eexists. split; [reflexivity|]. split; [exact A|]. apply members_length in R.
    rewrite ?app_length; cbn [length]. rewrite ?app_length; cbn [length]. rewrite ?app_length; cbn [length]. lia.
Qed.
Lemma skip_to a c s : blank a -> is_ws c = false -> skip_ws (a ++ c :: s) = c :: s.
Proof. intros A W. rewrite skip_ws_blank by exact A. cbn. now rewrite W. Qed.

Lemma value_number depth c s : c = 45 \/ 48 <= c <= 57 -> strip_prefix (str "-Infinity") (c :: s) = None -> value depth (c :: s) = number (c :: s).
Proof.
  intros C N. assert (forall k, k <> 45 -> (k < 48 \/ 57 < k) -> (c =? k) = false) as X by (intros k; lia).
  destruct depth; cbn [JsonModel.value]; rewrite (X 34), (X 123), (X 91), (X 110), (X 116), (X 102), (X 78), (X 73), N by lia; reflexivity.
Qed.
Lemma no_infinity c s : 48 <= c <= 57 -> strip_prefix (str "-Infinity") (c :: s) = None /\ strip_prefix (str "-Infinity") (45 :: c :: s) = None.
Proof.
  intros C. change (str "-Infinity") with (45 :: 73 :: str "nfinity"). cbn [strip_prefix].
  replace (45 =? c) with false by lia. replace (73 =? c) with false by lia. split; reflexivity.
Qed.

Lemma texts_complete :
  (forall n s j, jtext n s j -> forall rest, ends rest -> value n (s ++ rest) = Ok (j, rest)) /\
  (forall n s l, itext n s l -> forall rest m, (length l <= m)%nat -> items (value n) m (skip_ws (s ++ 93 :: rest)) = Ok (l, rest)) /\
  (forall n s l, mtext n s l -> forall rest m, (length l <= m)%nat -> members (value n) m (skip_ws (s ++ 125 :: rest)) = Ok (l, rest)).
Proof.
  apply json_texts_mut.
  - intros n rest _. destruct n; reflexivity.
  - intros n rest _. destruct n; reflexivity.
  - intros n rest _. destruct n; reflexivity.
  - intros n rest _. destruct n; reflexivity.
  - intros n rest _. destruct n; reflexivity.
  - intros n rest _. destruct n; reflexivity.
  - intros n w z W D L rest R. pose proof (@number_parts [] w [] [] rest (or_introl eq_refl) W (or_introl eq_refl) (or_introl eq_refl) R) as X. cbn [app] in X.
    destruct (whole_head W) as (c & s & -> & C). cbn [app] in *. rewrite value_number; [|lia|apply (no_infinity _ C)]. rewrite X.
    destruct (Nat.ltb_spec max_digits (length (c :: s))); [lia|]. now rewrite (decimal_unique D).
  - intros n w z W D L rest R. pose proof (@number_parts [45] w [] [] rest (or_intror eq_refl) W (or_introl eq_refl) (or_introl eq_refl) R) as X. cbn [app] in X.
    destruct (whole_head W) as (c & s & -> & C). cbn [app] in *. rewrite value_number; [|lia|apply (no_infinity _ C)]. rewrite X.
    destruct (Nat.ltb_spec max_digits (length (c :: s))); [lia|]. now rewrite (decimal_unique D).
  - intros n g w f e G W Ft Et Ne rest R. pose proof (@number_parts g w f e rest G W Ft Et R) as X. rewrite <- !app_assoc.
    assert (V : value n (g ++ w ++ f ++ e ++ rest) = number (g ++ w ++ f ++ e ++ rest)).
    { destruct (whole_head W) as (c & s & -> & C). destruct G as [->| ->]; cbn [app]; (rewrite value_number; [reflexivity|lia|apply (no_infinity _ C)]). }
    rewrite V, X. destruct f; [destruct e; [destruct Ne; congruence|reflexivity]|reflexivity].
  - intros n s t S rest R. replace ((34 :: s ++ [34]) ++ rest) with (34 :: s ++ 34 :: rest) by (cbn; now rewrite <- app_assoc).
    destruct n; cbn [JsonModel.value]; rewrite (string_complete S); reflexivity.
  - intros n b B rest R. replace ((91 :: b ++ [93]) ++ rest) with (91 :: b ++ 93 :: rest) by (cbn; now rewrite <- app_assoc).
    cbn [JsonModel.value Z.eqb Pos.eqb]. now rewrite skip_to.
  - intros n s l It IH rest R. replace ((91 :: s ++ [93]) ++ rest) with (91 :: s ++ 93 :: rest) by (cbn; now rewrite <- app_assoc).
    cbn [JsonModel.value Z.eqb Pos.eqb]. destruct (items_shape It) as (a & c & s' & Es & A & W & N & L).
    specialize (IH rest (S (length (s' ++ 93 :: rest)))). rewrite Es in *. rewrite <- app_assoc in *. cbn [app] in *. rewrite skip_to in * by assumption.
    replace (c =? 93) with false by lia. rewrite IH; [reflexivity|]. rewrite app_length. lia.
  - intros n b B rest R. replace ((123 :: b ++ [125]) ++ rest) with (123 :: b ++ 125 :: rest) by (cbn; now rewrite <- app_assoc).
    cbn [JsonModel.value Z.eqb Pos.eqb]. now rewrite skip_to.
  - intros n s l d Mt IH O rest R. replace ((123 :: s ++ [125]) ++ rest) with (123 :: s ++ 125 :: rest) by (cbn; now rewrite <- app_assoc).
    cbn [JsonModel.value Z.eqb Pos.eqb]. destruct (members_shape Mt) as (a & s' & Es & A & L).
    specialize (IH rest (S (length (s' ++ 125 :: rest)))). rewrite Es in *. rewrite <- app_assoc in *. cbn [app] in *. rewrite skip_to in * by (assumption || reflexivity).
    cbn [Z.eqb Pos.eqb]. rewrite IH; [cbn [bind fst snd]; now rewrite (object_unique O)|]. rewrite app_length. lia.
  - intros n a s b j A J IH B rest m L. destruct m as [|m]; [cbn in L; lia|]. rewrite <- !app_assoc, skip_ws_blank by exact A. rewrite (text_skip _ J).
    cbn [items]. rewrite IH; [|apply blank_ends; [exact B|cbn; auto]]. cbn [bind fst snd]. now rewrite skip_to.
  - intros n a s b j more l A J IH B Mo IHl rest m L. destruct m as [|m]; [cbn in L; lia|]. rewrite <- !app_assoc, skip_ws_blank by exact A. rewrite (text_skip _ J).
    cbn [items app]. rewrite IH; [|apply blank_ends; [exact B|cbn; auto]]. cbn [bind fst snd]. rewrite skip_to by (assumption || reflexivity). cbn [Z.eqb Pos.eqb].
    rewrite IHl by (cbn in L; lia). reflexivity.
  - intros n a ks k b c s e j A K B C J IH E rest m L. destruct m as [|m]; [cbn in L; lia|].
    replace ((a ++ 34 :: ks ++ 34 :: b ++ 58 :: c ++ s ++ e) ++ 125 :: rest) with (a ++ 34 :: ks ++ 34 :: b ++ 58 :: c ++ s ++ e ++ 125 :: rest)
      by (repeat (rewrite <- app_assoc; cbn [app]); reflexivity).
    rewrite skip_to by (assumption || reflexivity). cbn [members Z.eqb Pos.eqb]. rewrite (string_complete K). rewrite skip_to by (assumption || reflexivity).
    cbn [Z.eqb Pos.eqb]. rewrite skip_ws_blank by exact C. rewrite (text_skip _ J). rewrite IH; [|apply blank_ends; [exact E|cbn; auto]]. cbn [bind fst snd].
    now rewrite skip_to.
  - intros n a ks k b c s e j more l A K B C J IH E Mo IHl rest m L. destruct m as [|m]; [cbn in L; lia|].
    replace ((a ++ 34 :: ks ++ 34 :: b ++ 58 :: c ++ s ++ e ++ 44 :: more) ++ 125 :: rest) with (a ++ 34 :: ks ++ 34 :: b ++ 58 :: c ++ s ++ e ++ 44 :: more ++ 125 :: rest)
      by (repeat (rewrite <- app_assoc; cbn [app]); reflexivity).
    rewrite skip_to by (assumption || reflexivity). cbn [members Z.eqb Pos.eqb]. rewrite (string_complete K). rewrite skip_to by (assumption || reflexivity).
    cbn [Z.eqb Pos.eqb]. rewrite skip_ws_blank by exact C. rewrite (text_skip _ J). rewrite IH; [|apply blank_ends; [exact E|cbn; auto]]. cbn [bind fst snd].
    rewrite skip_to by (assumption || reflexivity). cbn [Z.eqb Pos.eqb]. rewrite IHl by (cbn in L; lia). reflexivity.
Qed.

Lemma loads_text_iff depth s j : loads_text float_of max_digits depth s = Ok j <-> json_document float_of max_digits depth s j.
Proof.
  unfold loads_text, json_document. split.
  - destruct (skip_ws_split s) as (a & A & E). destruct (value depth (skip_ws s)) as [[j' r]|] eqn:V; [|discriminate]. cbn [bind fst snd].
    destruct (skip_ws r) eqn:R; [|discriminate]. intros [= ->]. destruct (value_sound _ _ V) as (t & Et & T).
    exists a, t, r. split; [congruence|]. split; [exact A|]. split; [now apply skip_ws_nil|exact T].
  - intros (a & t & b & -> & A & B & T). rewrite skip_ws_blank by exact A. rewrite (text_skip _ T).
    rewrite (proj1 texts_complete _ _ _ T) by (rewrite <- (app_nil_r b); apply blank_ends; [exact B|exact I]). cbn [bind fst snd]. now rewrite skip_ws_all.
Qed.
Lemma loads_iff decode depth b j : loads float_of max_digits decode depth b = Ok j <-> json_body float_of max_digits decode depth b j.
Proof.
  unfold loads, json_body. split.
  - destruct (decode b) as [s|]; [|discriminate]. intros H. exists s. split; [reflexivity|now apply loads_text_iff].
  - intros (s & -> & H). now apply loads_text_iff.
Qed.

(** ** Deep nesting *)

Lemma opens_app a b : brackets (a ++ b) = (brackets a + brackets b)%nat.
Proof. unfold brackets. now rewrite filter_app, app_length. Qed.
Lemma opens_skip s : brackets (skip_ws s) = brackets s.
Proof.
  destruct (skip_ws_split s) as (b & B & E). rewrite E at 2. rewrite opens_app.
  replace (brackets b) with 0%nat; [reflexivity|]. clear E. induction b as [|c b IH]; [reflexivity|]. unfold brackets in *. cbn [filter].
  destruct (B c (or_introl eq_refl)) as [->|[->|[->| ->]]]; cbn; apply IH; intros x J; apply B; now right.
Qed.
Definition deep_at (depth : nat) (rec : text -> res jexn (json F * text)) : Prop := forall s, rec s = Err TooDeep -> (depth < brackets s)%nat.
Definition shrinks (rec : text -> res jexn (json F * text)) : Prop := forall s j r, rec s = Ok (j, r) -> (brackets r <= brackets s)%nat.
Lemma value_shrinks depth : shrinks (value depth).
Proof. intros s j r H. destruct (value_sound _ _ H) as (p & -> & _). rewrite opens_app. lia. Qed.
Lemma opens_tail c s : (brackets s <= brackets (c :: s))%nat.
Proof. unfold brackets. cbn. destruct ((c =? 91) || (c =? 123)); cbn; lia. Qed.
Lemma items_deep depth rec : deep_at depth rec -> shrinks rec -> forall n s, items rec n s = Err TooDeep -> (depth < brackets s)%nat.
Proof.
  intros D Sh. induction n as [|n IH]; intros s; cbn [items]; [discriminate|]. destruct (rec s) as [[j r]|e] eqn:E; cbn [bind fst snd].
  - pose proof (Sh _ _ _ E) as L. rewrite <- (opens_skip r) in L. destruct (skip_ws r) as [|c s4]; [discriminate|]. pose proof (opens_tail c s4).
    destruct (c =? 44); [|destruct (c =? 93); discriminate]. destruct (items rec n (skip_ws s4)) as [|e] eqn:E2; [discriminate|].
    cbn [bind]. intros [= ->]. apply IH in E2. rewrite opens_skip in E2. lia.
  - intros [= ->]. now apply D.
Qed.
Lemma string_opens s t r : string_body s = Some (t, r) -> (brackets r <= brackets s)%nat.
Proof. intros H. destruct (string_sound _ (le_n _) H) as (p & -> & _). rewrite opens_app. pose proof (opens_tail 34 r). lia. Qed.
Lemma members_deep depth rec : deep_at depth rec -> shrinks rec -> forall n s, members rec n s = Err TooDeep -> (depth < brackets s)%nat.
Proof.
  intros D Sh. induction n as [|n IH]; intros s; cbn [members]; [discriminate|]. destruct s as [|q s1]; [discriminate|]. pose proof (opens_tail q s1).
  destruct (q =? 34); [|discriminate]. destruct (string_body s1) as [[k s2]|] eqn:Sb; [|discriminate]. pose proof (string_opens _ Sb) as L2.
  rewrite <- (opens_skip s2) in L2. destruct (skip_ws s2) as [|o s3]; [discriminate|]. pose proof (opens_tail o s3). destruct (o =? 58); [|discriminate].
  rewrite <- (opens_skip s3) in *. destruct (rec (skip_ws s3)) as [[j r]|e] eqn:E; cbn [bind fst snd].
  - pose proof (Sh _ _ _ E) as L. rewrite <- (opens_skip r) in L. destruct (skip_ws r) as [|c s4]; [discriminate|]. pose proof (opens_tail c s4).
    destruct (c =? 44); [|destruct (c =? 125); discriminate]. destruct (members rec n (skip_ws s4)) as [|e] eqn:E2; [discriminate|].
    cbn [bind]. intros [= ->]. apply IH in E2. rewrite opens_skip in E2. lia.
  - intros [= ->]. apply D in E. lia.
Qed.
Lemma number_flat s : number s <> Err TooDeep.
Proof.
  unfold JsonModel.number. destruct (match s with c :: s' => if c =? 45 then ([45], s') else ([], s) | [] => ([], s) end) as [g s1].
  destruct (whole s1) as [[|x d] s2]; [discriminate|]. destruct (fraction s2) as [f s3]. destruct (exponent s3) as [e s4].
  destruct f; [destruct e; [destruct (Nat.ltb max_digits (length (x :: d)))|]|]; discriminate.
Qed.
Lemma constant_flat p j s : constant (F := F) p j s <> Err TooDeep.
Proof. unfold constant. destruct (strip_prefix p s); discriminate. Qed.
Lemma value_deep depth : deep_at depth (value depth).
Proof.
  induction depth as [|depth IH]; intros s H.
  all: destruct s as [|c s1]; [discriminate|]; cbn [JsonModel.value] in H.
  all: destruct (Z.eqb_spec c 34) as [->|N1]; [destruct (string_body s1) as [[t r']|]; discriminate|].
  all: destruct (Z.eqb_spec c 123) as [->|N2].
  1: unfold brackets; cbn; lia.
  2:{ destruct (skip_ws s1) as [|x s2] eqn:E; [discriminate|]. destruct (x =? 125); [discriminate|].
      destruct (members (value depth) (S (length s2)) (x :: s2)) as [|e] eqn:M; [discriminate|]. cbn [bind] in H. injection H as ->.
      apply (members_deep IH (@value_shrinks depth)) in M. rewrite <- E, opens_skip in M. unfold brackets in *. cbn. lia. }
  all: destruct (Z.eqb_spec c 91) as [->|N4].
  1: unfold brackets; cbn; lia.
  2:{ destruct (skip_ws s1) as [|x s2] eqn:E; [discriminate|]. destruct (x =? 93); [discriminate|].
      destruct (items (value depth) (S (length s2)) (x :: s2)) as [|e] eqn:M; [discriminate|]. cbn [bind] in H. injection H as ->.
      apply (items_deep IH (@value_shrinks depth)) in M. rewrite <- E, opens_skip in M. unfold brackets in *. cbn. lia. }
  all: repeat match type of H with (if ?x =? ?n then constant ?p ?v _ else _) = _ => destruct (x =? n); [now apply constant_flat in H|] end.
  all: destruct (strip_prefix (str "-Infinity") (c :: s1)); [discriminate|now apply number_flat in H].
Qed.
Lemma loads_text_deep depth s : loads_text float_of max_digits depth s = Err TooDeep -> (depth < brackets s)%nat.
Proof.
  unfold loads_text. destruct (value depth (skip_ws s)) as [[j r]|e] eqn:V; cbn [bind fst snd]; [destruct (skip_ws r); discriminate|].
  intros [= ->]. apply value_deep in V. now rewrite opens_skip in V.
Qed.
Lemma loads_too_deep decode depth b : loads float_of max_digits decode depth b = Err TooDeep ->
  exists s, decode b = Some s /\ (depth < brackets s)%nat.
Proof.
  unfold loads. destruct (decode b) as [s|]; [|discriminate]. intros H. exists s. split; [reflexivity|]. eapply loads_text_deep. exact H.
Qed.
End Scanner.

(** ** UTF-8 *)

Lemma utf8_sound n : forall b s, (length b <= n)%nat -> utf8_decode b = Some s -> utf8_text b s.
Proof.
  induction n as [|n IH]; intros b s L H.
  - destruct b; [|cbn in L; lia]. injection H as <-. constructor.
  - destruct b as [|a b]; [injection H as <-; constructor|]. cbn [utf8_decode] in H. cbn [length] in L. pose proof (bz_range a) as Ra.
    destruct (Z.ltb_spec (bz a) 128) as [A|A].
    { destruct (utf8_decode b) as [s'|] eqn:E; [|discriminate]. injection H as <-. apply (@ut_char [a]); [constructor; lia|]. apply IH; [lia|exact E]. }
    destruct ((194 <=? bz a) && (bz a <? 224)) eqn:A2.
    { destruct b as [|b1 b]; [discriminate|]. destruct (is_cont b1) eqn:C1; [|discriminate]. unfold is_cont, cont in *.
      destruct (utf8_decode b) as [s'|] eqn:E; [|discriminate]. injection H as <-. cbn [length] in L.
      apply (@ut_char [a; b1]); [|apply IH; [lia|exact E]]. cbn [map].
      replace (bz a) with (192 + (bz a - 192)) at 2 by lia. replace (bz b1) with (128 + (bz b1 - 128)) at 2 by lia.
      rewrite (Z.mul_comm (bz a - 192)). apply ut_two; lia. }
    destruct ((224 <=? bz a) && (bz a <? 240)) eqn:A3.
    { destruct b as [|b1 [|b2 b]]; try discriminate. unfold is_scalar, is_cont, cont in *.
      match type of H with (if ?x then _ else _) = _ => destruct x eqn:C1; [|discriminate] end.
      destruct (utf8_decode b) as [s'|] eqn:E; [|discriminate]. injection H as <-. cbn [length] in L.
      apply (@ut_char [a; b1; b2]); [|apply IH; [lia|exact E]]. cbn [map].
      assert (X : utf8_char_text (4096 * (bz a - 224) + 64 * (bz b1 - 128) + (bz b2 - 128)) [224 + (bz a - 224); 128 + (bz b1 - 128); 128 + (bz b2 - 128)])
        by (apply ut_three; lia).
      replace ((bz a - 224) * 4096 + (bz b1 - 128) * 64 + (bz b2 - 128)) with (4096 * (bz a - 224) + 64 * (bz b1 - 128) + (bz b2 - 128)) by lia.
      replace [bz a; bz b1; bz b2] with [224 + (bz a - 224); 128 + (bz b1 - 128); 128 + (bz b2 - 128)] by (repeat f_equal; lia). exact X. }
    destruct ((240 <=? bz a) && (bz a <? 245)) eqn:A4; [|discriminate].
    destruct b as [|b1 [|b2 [|b3 b]]]; try discriminate. unfold is_scalar, is_cont, cont in *.
    match type of H with (if ?x then _ else _) = _ => destruct x eqn:C1; [|discriminate] end.
    destruct (utf8_decode b) as [s'|] eqn:E; [|discriminate]. injection H as <-. cbn [length] in L.
    apply (@ut_char [a; b1; b2; b3]); [|apply IH; [lia|exact E]]. cbn [map].
    assert (X : utf8_char_text (262144 * (bz a - 240) + 4096 * (bz b1 - 128) + 64 * (bz b2 - 128) + (bz b3 - 128))
      [240 + (bz a - 240); 128 + (bz b1 - 128); 128 + (bz b2 - 128); 128 + (bz b3 - 128)]) by (apply ut_four; lia).
    replace ((bz a - 240) * 262144 + (bz b1 - 128) * 4096 + (bz b2 - 128) * 64 + (bz b3 - 128))
      with (262144 * (bz a - 240) + 4096 * (bz b1 - 128) + 64 * (bz b2 - 128) + (bz b3 - 128)) by lia.
    replace [bz a; bz b1; bz b2; bz b3] with [240 + (bz a - 240); 128 + (bz b1 - 128); 128 + (bz b2 - 128); 128 + (bz b3 - 128)] by (repeat f_equal; lia). exact X.
Qed.
Lemma utf8_iff b s : utf8_decode b = Some s <-> utf8_text b s.
Proof.
  split; [apply (@utf8_sound (length b)); lia|]. induction 1 as [|u c b s U H IH]; [reflexivity|].
  remember (map bz u) as m eqn:M. destruct U as [c C|x y Y C|x y z Y Z c C Ns|x y z w Y Z W c C].
  - destruct u as [|a [|]]; try discriminate. cbn [map] in M. assert (E : c = bz a) by congruence. cbn [app utf8_decode]. replace (bz a <? 128) with true by lia. now rewrite IH, E.
  - destruct u as [|a [|b1 [|]]]; try discriminate. cbn [map] in M. assert (E : 192 + x = bz a) by congruence. assert (E1 : 128 + y = bz b1) by congruence. clear M. cbn [app utf8_decode]. unfold is_cont, cont. rewrite <- E, <- E1.
    replace (192 + x <? 128) with false by lia. replace ((194 <=? 192 + x) && (192 + x <? 224)) with true by lia.
    replace ((128 <=? 128 + y) && (128 + y <? 192)) with true by lia. cbv iota. rewrite IH. unfold option_map. now match goal with |- Some (?a :: _) = Some (?b :: _) => replace a with b by lia end.
  - destruct u as [|a [|b1 [|b2 [|]]]]; try discriminate. cbn [map] in M. assert (E : 224 + x = bz a) by congruence. assert (E1 : 128 + y = bz b1) by congruence. assert (E2 : 128 + z = bz b2) by congruence. clear M. cbn [app utf8_decode]. unfold is_scalar, is_cont, cont. rewrite <- E, <- E1, <- E2.
    subst c. replace (224 + x <? 128) with false by lia. replace ((194 <=? 224 + x) && (224 + x <? 224)) with false by lia.
    replace ((224 <=? 224 + x) && (224 + x <? 240)) with true by lia. cbv zeta.
    match goal with |- (if ?e then _ else _) = _ => replace e with true by lia end. cbv iota. rewrite IH. unfold option_map. now match goal with |- Some (?a :: _) = Some (?b :: _) => replace a with b by lia end.
  - destruct u as [|a [|b1 [|b2 [|b3 [|]]]]]; try discriminate. cbn [map] in M. assert (E : 240 + x = bz a) by congruence. assert (E1 : 128 + y = bz b1) by congruence. assert (E2 : 128 + z = bz b2) by congruence. assert (E3 : 128 + w = bz b3) by congruence. clear M. cbn [app utf8_decode]. unfold is_scalar, is_cont, cont. rewrite <- E, <- E1, <- E2, <- E3.
    subst c. replace (240 + x <? 128) with false by lia. replace ((194 <=? 240 + x) && (240 + x <? 224)) with false by lia.
    replace ((224 <=? 240 + x) && (240 + x <? 240)) with false by lia. replace ((240 <=? 240 + x) && (240 + x <? 245)) with true by lia. cbv zeta.
    match goal with |- (if ?e then _ else _) = _ => replace e with true by lia end. cbv iota. rewrite IH. unfold option_map. now match goal with |- Some (?a :: _) = Some (?b :: _) => replace a with b by lia end.
Qed.
