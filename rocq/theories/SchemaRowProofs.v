(** Proofs about what an upgrade does to tokens and vouchers, and about interrupted upgrades. *)
From Verif Require Import Prelude PreludeFacts BytesModel BytesProofs CborModel CborProofs StreamModel DateModel DateProofs
  VoucherModel VoucherSpec VoucherProofs SchemaModel SchemaSpec SchemaProofs.
From Coq Require Strings.String.
Import Coq.Strings.String.StringSyntax.
Set Implicit Arguments.

Lemma Forall2_left A B (R : A -> B -> Prop) l l' x : Forall2 R l l' -> In x l -> exists y, In y l' /\ R x y.
Proof.
  induction 1 as [|a b l l' H F IH]; intros []; [subst; exists b; split; [now left|exact H]|]. destruct (IH H0) as (y & I & Hy). exists y. split; [now right|exact Hy].
Qed.
Lemma Forall2_right A B (R : A -> B -> Prop) l l' y : Forall2 R l l' -> In y l' -> exists x, In x l /\ R x y.
Proof.
  induction 1 as [|a b l l' H F IH]; intros []; [subst; exists a; split; [now left|exact H]|]. destruct (IH H0) as (x & I & Hx). exists x. split; [now right|exact Hx].
Qed.
Lemma Forall2_with A B (R S : A -> B -> Prop) l l' : Forall2 R l l' -> (forall x y, In x l -> R x y -> S x y) -> Forall2 S l l'.
Proof.
  induction 1 as [|a b l l' H F IH]; intros G; constructor; [apply G; [now left|exact H]|]. apply IH. intros x y I. apply G. now right.
Qed.
Lemma cell_some t row name : filled t -> In row (t_rows t) -> In name (names t) -> exists v, cell t row name = Some v.
Proof. intros W I N. apply cell_in_some; [now apply W|exact N]. Qed.

(** ** Groups *)

Definition group_columns : list column := [plain "rowid"; plain "voucher"; plain "spendable"; plain "public-key"].
Definition opt_value (o : option sqlv) : sqlv := match o with Some v => v | None => SNull end.
Fixpoint numbered (n : Z) (l : list (option sqlv * option sqlv)) : list (list sqlv) :=
  match l with
  | [] => []
  | (number, key) :: l' => [SInt n; opt_value number; SInt 1; opt_value key] :: numbered (n + 1) l'
  end.
Lemma next_rowid_pos t rows : 1 <= next_rowid t rows.
Proof. induction rows as [|r rows IH]; cbn; lia. Qed.
Lemma next_rowid_snoc t n x y z rows : t_cols t = group_columns -> n = next_rowid t rows -> next_rowid t (rows ++ [[SInt n; x; y; z]]) = n + 1.
Proof.
  intros C ->. pose proof (next_rowid_pos t rows) as P.
  assert (G : forall m, 1 <= m -> next_rowid t (rows ++ [[SInt m; x; y; z]]) = Z.max (next_rowid t rows) (m + 1)).
  { intros m Hm. induction rows as [|r rows IH]; cbn [app next_rowid].
    - unfold cell. rewrite C. cbn. lia.
    - rewrite IH; [lia|]. apply next_rowid_pos. }
  rewrite G by exact P. lia.
Qed.
Lemma next_rowid_cols t t' rows : t_cols t = t_cols t' -> next_rowid t rows = next_rowid t' rows.
Proof. intros E. induction rows as [|r rows IH]; [reflexivity|]. cbn. unfold cell. rewrite E, IH. reflexivity. Qed.
Lemma insert_groups_rows l : forall t, t_cols t = group_columns ->
  t_rows (insert_groups t l) = t_rows t ++ numbered (next_rowid t (t_rows t)) l.
Proof.
  induction l as [|[num key] l IH]; intros t C; cbn [insert_groups numbered]; [now rewrite app_nil_r|].
  rewrite IH by exact C. cbn [t_rows t_cols]. rewrite <- app_assoc. f_equal.
  assert (R : new_row (t_cols t) [("rowid"%string, SInt (next_rowid t (t_rows t))); ("voucher"%string, opt_value num); ("public-key"%string, opt_value key); ("spendable"%string, SInt 1)] =
    [SInt (next_rowid t (t_rows t)); opt_value num; SInt 1; opt_value key]) by (rewrite C; reflexivity).
  change (match num with Some v => v | None => SNull end) with (opt_value num). change (match key with Some v => v | None => SNull end) with (opt_value key).
  rewrite R. cbn [app]. do 2 f_equal.
  rewrite (@next_rowid_cols (Table (t_cols t) (t_rows t ++ [[SInt (next_rowid t (t_rows t)); opt_value num; SInt 1; opt_value key]])) t) by reflexivity.
  now apply next_rowid_snoc.
Qed.
Lemma numbered_in l : forall n num key, In (num, key) l -> exists i, In [SInt i; opt_value num; SInt 1; opt_value key] (numbered n l).
Proof.
  induction l as [|[a b] l IH]; intros n num key []; cbn.
  - injection H as -> ->. exists n. now left.
  - destruct (IH (n + 1) num key H) as [i I]. exists i. now right.
Qed.

Lemma sqlv_eqb_spec a b : reflect (a = b) (sqlv_eqb a b).
Proof.
  destruct a, b; cbn; try (constructor; discriminate); try (constructor; reflexivity).
  - destruct (Z.eqb_spec n n0); constructor; congruence.
  - destruct (text_eqb_spec s s0); constructor; congruence.
  - destruct (bytes_eqb_spec s s0); constructor; congruence.
Qed.
Lemma pair_eqb_spec a b : reflect (a = b) (pair_eqb a b).
Proof.
  assert (O : forall x y : option sqlv, reflect (x = y) (match x, y with Some u, Some v => sqlv_eqb u v | None, None => true | _, _ => false end)).
  { intros [x|] [y|]; try (constructor; congruence). destruct (sqlv_eqb_spec x y); constructor; congruence. }
  destruct a as [a1 a2], b as [b1 b2]. unfold pair_eqb. cbn [fst snd]. destruct (O a1 b1), (O a2 b2); constructor; congruence.
Qed.
Lemma distinct_in l x : In x l -> In x (distinct l).
Proof.
  induction l as [|y l IH]; intros []; cbn [distinct]; [subst; now left|]. destruct (pair_eqb_spec y x) as [->|N]; [now left|]. right.
  apply filter_In. split; [now apply IH|]. destruct (pair_eqb_spec y x); [contradiction|reflexivity].
Qed.

Section Upgrades.
Variable utc : text -> option text.
Notation exec := (exec utc).
Notation exec_list := (exec_list utc).

Lemma schema_cols v d name t : of_version v d -> lookup name d = Some t -> columns_in name (schema v) = Some (t_cols t).
Proof. intros (M & _) L. rewrite <- M, L. reflexivity. Qed.
Lemma schema_table v d name cols : of_version v d -> columns_in name (schema v) = Some cols -> exists t, lookup name d = Some t /\ t_cols t = cols /\ filled t.
Proof.
  intros (M & W & _) C. rewrite <- M in C. destruct (lookup name d) as [t|] eqn:L; [|discriminate]. injection C as <-. exists t. split; [reflexivity|]. split; [reflexivity|]. now apply (W name).
Qed.
Lemma no_table v d name : of_version v d -> columns_in name (schema v) = None -> lookup name d = None.
Proof. intros (M & _) C. rewrite <- M in C. destruct (lookup name d); [discriminate|reflexivity]. Qed.

(** What becomes of the groups of a database that has none *)
Lemma groups_made v d d' : 1 <= v <= 5 -> of_version v d -> exec_list (ups (Z.to_nat (9 - v)) v) d = Ok d' ->
  exists tv tv5 g', lookup "vouchers" d = Some tv /\ carried as_is tv tv5 /\ t_cols tv5 = match columns_in "vouchers" (schema 5) with Some c => c | None => [] end /\
    filled tv /\ filled tv5 /\ lookup "redemption-groups" d' = Some g' /\
    carried as_is (Table group_columns (numbered 1 (redeemed_vouchers tv5))) g'.
Proof.
  intros H V E.
  assert (Sp : ups (Z.to_nat (9 - v)) v = ups (Z.to_nat (5 - v)) v ++ CreateTable "redemption-groups" group_columns :: InsertGroups ::
     (AddColumn "vouchers" (Column "sequestered-count" true (SInt 0)) :: AddColumn "unblinded-tokens" (Column "redemption-group" false (SInt 1)) :: Increment :: ups 3 6)).
  { assert (X : v = 1 \/ v = 2 \/ v = 3 \/ v = 4 \/ v = 5) by lia. intuition (subst; reflexivity). }
  rewrite Sp, exec_list_app in E. set (rest := AddColumn "vouchers" _ :: _) in E.
  destruct (@ups_ok utc (Z.to_nat (5 - v)) v d ltac:(lia) ltac:(lia) V) as (d5 & E5 & V5). rewrite E5 in E. cbn [bind] in E.
  assert (Hv : columns_in "vouchers" (schema v) <> None) by (assert (X : v = 1 \/ v = 2 \/ v = 3 \/ v = 4 \/ v = 5) by lia; intuition (subst; discriminate)).
  destruct (columns_in "vouchers" (schema v)) as [vcols|] eqn:Cv; [|contradiction]. destruct (schema_table _ V Cv) as (tv & Lv & _ & Wv).
  destruct (@ups_carried utc (Z.to_nat (5 - v)) v d d5 "vouchers"%string tv ltac:(lia) ltac:(lia) V E5 Lv) as (tv5 & L5 & C5 & W5); [discriminate|discriminate|].
  replace (v + Z.of_nat (Z.to_nat (5 - v))) with 5 in V5, C5 by lia.
  exists tv, tv5. cbn [SchemaProofs.exec_list SchemaModel.exec] in E.
  rewrite (@no_table 5 d5 "redemption-groups"%string V5 eq_refl) in E. cbn [bind SchemaProofs.exec_list] in E.
  set (d1 := d5 ++ [("redemption-groups"%string, Table group_columns [])]) in E.
  assert (L1g : lookup "redemption-groups" d1 = Some (Table group_columns [])) by (unfold d1; rewrite lookup_app, (@no_table 5 d5 "redemption-groups"%string V5 eq_refl); reflexivity).
  assert (L1v : lookup "vouchers" d1 = Some tv5) by (unfold d1; now rewrite lookup_app, L5).
  destruct (exec InsertGroups d1) as [d2|] eqn:E2; [|cbn [SchemaModel.exec] in E2; rewrite E2 in E; discriminate E].
  assert (E' : exec_list rest d2 = Ok d').
  { cbn [SchemaModel.exec] in E2. rewrite E2 in E. exact E. }
  clear E. cbn [SchemaModel.exec] in E2. rewrite L1g, L1v in E2. destruct (forallb _ _ && forallb _ _) in E2; [|discriminate E2]. injection E2 as <-.
  set (g2 := insert_groups (Table group_columns []) (redeemed_vouchers tv5)) in *.
  assert (G2 : g2 = Table group_columns (numbered 1 (redeemed_vouchers tv5))).
  { pose proof (insert_groups_rows (redeemed_vouchers tv5) (Table group_columns []) eq_refl) as R. cbn [t_rows app next_rowid] in R.
    destruct (insert_groups_shape (redeemed_vouchers tv5) (Table group_columns [])) as [Cg _]. unfold g2.
    destruct (insert_groups (Table group_columns []) (redeemed_vouchers tv5)) as [gc gr]. cbn in *. now subst. }
  assert (W2 : filled g2) by (apply insert_groups_shape; intros row []).
  assert (L2 : lookup "redemption-groups" (replace "redemption-groups" g2 d1) = Some g2) by (rewrite lookup_replace by congruence; reflexivity).
  destruct (@exec_list_carried utc rest _ d' "redemption-groups"%string g2 E' eq_refl L2 W2) as (g' & L' & C' & _); [rewrite G2; apply nodupb_spec; reflexivity|discriminate|reflexivity|].
  exists g'. split; [exact Lv|]. split.
  { apply (@carried_ext (fun c x => if (v <=? 7) && (7 <? 5) then times_converted utc "vouchers" c x else x)); [|exact C5].
    intros c x. unfold as_is. destruct (v <=? 7); reflexivity. }
  split; [now rewrite (schema_cols _ V5 L5)|]. split; [exact Wv|]. split; [exact W5|]. split; [exact L'|]. rewrite <- G2.
  apply (@carried_ext (effects utc rest "redemption-groups")); [|exact C']. intros c x. unfold as_is, rest.
  change (AddColumn "vouchers" (Column "sequestered-count" true (SInt 0)) :: AddColumn "unblinded-tokens" (Column "redemption-group" false (SInt 1)) :: Increment :: ups 3 6)
    with ([AddColumn "vouchers" (Column "sequestered-count" true (SInt 0)); AddColumn "unblinded-tokens" (Column "redemption-group" false (SInt 1)); Increment] ++ ups 3 6).
  rewrite effects_app, effects_ups by lia. reflexivity.
Qed.

(** All of an upgrade from before version 6, for the tables that are not touched otherwise *)
Lemma upgrade_carried v d d' name t : 0 <= v <= 9 -> of_version v d -> exec_list (ups (Z.to_nat (9 - v)) v) d = Ok d' -> lookup name d = Some t ->
  name <> "version"%string -> (name = "redemption-groups"%string -> 6 <= v) ->
  exists t', lookup name d' = Some t' /\ carried (fun c x => if v <=? 7 then times_converted utc name c x else x) t t' /\ filled t /\ filled t'.
Proof.
  intros H V E L NV NG. destruct (@ups_carried utc (Z.to_nat (9 - v)) v d d' name t ltac:(lia) ltac:(lia) V E L NV NG) as (t' & L' & C & W).
  exists t'. split; [exact L'|]. split; [|split; [now apply (proj1 (proj2 V) name)|exact W]].
  eapply carried_ext; [|exact C]. intros c x. cbn beta. replace (7 <? v + Z.of_nat (Z.to_nat (9 - v))) with true by lia. now rewrite andb_true_r.
Qed.

Lemma carried_cell conv t t' r r' c v : (forall c v, cell t r c = Some v -> cell t' r' c = Some (conv c v)) -> cell t r c = Some v -> cell t' r' c = Some (conv c v).
Proof. intros F. apply F. Qed.
Lemma carried_back conv t t' r r' c v' : filled t -> In r (t_rows t) -> In c (names t) ->
  (forall c v, cell t r c = Some v -> cell t' r' c = Some (conv c v)) -> cell t' r' c = Some v' -> exists v, cell t r c = Some v /\ v' = conv c v.
Proof. intros W I N F E. destruct (@cell_some t r c W I N) as [v Hv]. exists v. split; [exact Hv|]. rewrite (F c v Hv) in E. congruence. Qed.

Lemma name_in v d name t c : of_version v d -> lookup name d = Some t -> existsb (String.eqb c) (match columns_in name (schema v) with Some cols => map c_name cols | None => [] end) = true -> In c (names t).
Proof.
  intros V L E. rewrite (schema_cols _ V L) in E. apply existsb_exists in E. destruct E as (x & I & Ex). apply String.eqb_eq in Ex. now subst.
Qed.
Lemma name_not_in v d name t c : of_version v d -> lookup name d = Some t -> existsb (String.eqb c) (match columns_in name (schema v) with Some cols => map c_name cols | None => [] end) = false -> ~ In c (names t).
Proof.
  intros V L E I. rewrite (schema_cols _ V L) in E. assert (X : existsb (String.eqb c) (map c_name (t_cols t)) = true); [|congruence].
  apply existsb_exists. exists c. split; [exact I|apply String.eqb_refl].
Qed.
Ltac versions H := match type of H with ?a <= ?v <= ?b =>
  let X := fresh in assert (X : v = 0 \/ v = 1 \/ v = 2 \/ v = 3 \/ v = 4 \/ v = 5 \/ v = 6 \/ v = 7 \/ v = 8 \/ v = 9) by lia;
  repeat (destruct X as [-> | X]; [try lia; try reflexivity|]); subst; try lia; try reflexivity end.

Lemma wallet_kept v d d' tok : 0 <= v <= 9 -> of_version v d -> exec_list (ups (Z.to_nat (9 - v)) v) d = Ok d' -> in_wallet d tok -> in_wallet d' tok.
Proof.
  intros H V E (ts & row & Lt & It & Ct). destruct (@upgrade_carried v d d' "unblinded-tokens"%string ts H V E Lt) as (ts' & Lt' & C & _); [discriminate|discriminate|].
  destruct (Forall2_left _ C It) as (row' & I' & F & _). exists ts', row'. split; [exact Lt'|]. split; [exact I'|]. rewrite (F _ _ Ct). now destruct (v <=? 7).
Qed.

Lemma redeemed_row_cell t row : redeemed_row t row = true <-> cell t row "state" = Some (STxt (str "redeemed")).
Proof.
  unfold redeemed_row. destruct (cell t row "state") as [x|]; [|now split]. destruct (sqlv_eqb_spec x (STxt (str "redeemed"))) as [->|N]; [now split|].
  split; [discriminate|]. intros X. injection X as X. contradiction.
Qed.

Lemma tokens_spendable v d d' tok : 1 <= v <= 5 -> of_version v d -> exec_list (ups (Z.to_nat (9 - v)) v) d = Ok d' -> of_version 9 d' ->
  some_redeemed d -> in_wallet d tok -> spendable d' tok.
Proof.
  intros H V E V' (tv0 & rv & Lv0 & Iv & Cv) (ts & row & Lt & It & Ct).
  destruct (groups_made H V E) as (tv & tv5 & g' & Lv & C5 & _ & Wv & _ & Lg & Cg). rewrite Lv in Lv0. injection Lv0 as <-.
  destruct (@upgrade_carried v d d' "unblinded-tokens"%string ts ltac:(lia) V E Lt) as (ts' & Lt' & C & _ & W'); [discriminate|discriminate|].
  destruct (Forall2_left _ C It) as (row' & I' & F & G).
  destruct (Forall2_left _ C5 Iv) as (rv5 & I5 & F5 & _). apply F5 in Cv. change (as_is _ _) with (STxt (str "redeemed")) in Cv.
  assert (N : In (cell tv5 rv5 "number", cell tv5 rv5 "public-key") (redeemed_vouchers tv5)).
  { unfold redeemed_vouchers. apply distinct_in, in_map_iff. exists rv5. split; [reflexivity|]. apply filter_In. split; [exact I5|]. now apply redeemed_row_cell. }
  destruct (redeemed_vouchers tv5) as [|[num key] l] eqn:El; [destruct N|]. cbn [numbered] in Cg.
  unfold carried in Cg. cbn [t_rows] in Cg. inversion Cg as [|x y xs ys (F1 & _) _ Ex Ey]. subst x xs.
  exists ts', g', row', y, (SInt 1). split; [exact Lt'|]. split; [exact Lg|]. split; [exact I'|]. split; [rewrite <- Ey; now left|].
  split; [rewrite (F _ _ Ct); now destruct (v <=? 7)|]. split; [|split].
  - apply (G (Column "redemption-group" false (SInt 1))).
    + pose proof (schema_cols _ V' Lt') as X. injection X as X. rewrite <- X. cbn. now right; left.
    + cbn [c_name]. apply (@name_not_in v d _ _ _ V Lt). versions H.
  - apply (F1 "rowid"%string (SInt 1)). reflexivity.
  - apply (F1 "spendable"%string (SInt 1)). reflexivity.
Qed.

Lemma voucher_grouped v d d' tv row number : 1 <= v <= 5 -> of_version v d -> exec_list (ups (Z.to_nat (9 - v)) v) d = Ok d' ->
  lookup "vouchers" d = Some tv -> In row (t_rows tv) -> cell tv row "state" = Some (STxt (str "redeemed")) -> cell tv row "number" = Some number ->
  exists g group, lookup "redemption-groups" d' = Some g /\ In group (t_rows g) /\ cell g group "voucher" = Some number /\ cell g group "spendable" = Some (SInt 1).
Proof.
  intros H V E Lv Iv Cv Cn.
  destruct (groups_made H V E) as (tv' & tv5 & g' & Lv' & C5 & _ & Wv & _ & Lg & Cg). rewrite Lv in Lv'. injection Lv' as <-.
  destruct (Forall2_left _ C5 Iv) as (rv5 & I5 & F5 & _). apply F5 in Cv, Cn. unfold as_is in Cv, Cn.
  assert (N : In (cell tv5 rv5 "number", cell tv5 rv5 "public-key") (redeemed_vouchers tv5)).
  { unfold redeemed_vouchers. apply distinct_in, in_map_iff. exists rv5. split; [reflexivity|]. apply filter_In. split; [exact I5|]. now apply redeemed_row_cell. }
  rewrite Cn in N. destruct (@numbered_in _ 1 _ _ N) as [i Ii]. unfold carried in Cg. destruct (Forall2_left _ Cg Ii) as (group & Ig & F & _).
  exists g', group. split; [exact Lg|]. split; [exact Ig|]. split; [apply (F "voucher"%string number)|apply (F "spendable"%string (SInt 1))]; reflexivity.
Qed.

Lemma none_spendable v d d' tok : 1 <= v <= 5 -> of_version v d -> exec_list (ups (Z.to_nat (9 - v)) v) d = Ok d' -> ~ some_redeemed d -> ~ spendable d' tok.
Proof.
  intros H V E NR (ts & gs & row & group & n & Lt & Lg' & _ & Ig & _).
  destruct (groups_made H V E) as (tv & tv5 & g' & Lv & C5 & _ & Wv & _ & Lg & Cg). rewrite Lg in Lg'. injection Lg' as <-.
  assert (R : redeemed_vouchers tv5 = []).
  { unfold redeemed_vouchers. replace (filter (redeemed_row tv5) (t_rows tv5)) with (@nil (list sqlv)); [reflexivity|]. symmetry.
    destruct (filter (redeemed_row tv5) (t_rows tv5)) as [|r5 l] eqn:Ef; [reflexivity|exfalso]. assert (I : In r5 (filter (redeemed_row tv5) (t_rows tv5))) by (rewrite Ef; now left).
    apply filter_In in I. destruct I as [I5 Er]. apply redeemed_row_cell in Er. destruct (Forall2_right _ C5 I5) as (r & Ir & F & _).
    destruct (@carried_back as_is tv tv5 r r5 "state"%string (STxt (str "redeemed")) Wv Ir) as (x & Cx & Ex); [|exact F|exact Er|].
    { apply (@name_in v d _ _ _ V Lv). versions H. }
    apply NR. exists tv, r. unfold as_is in Ex. subst x. now repeat split. }
  rewrite R in Cg. unfold carried in Cg. cbn in Cg. inversion Cg as [X Y|]. rewrite <- Y in Ig. destruct Ig.
Qed.

Lemma spendable_kept v d d' tok : 6 <= v <= 9 -> of_version v d -> exec_list (ups (Z.to_nat (9 - v)) v) d = Ok d' -> spendable d tok <-> spendable d' tok.
Proof.
  intros H V E.
  assert (Tt : exists ts, lookup "unblinded-tokens" d = Some ts).
  { assert (X : columns_in "unblinded-tokens" (schema v) <> None) by (versions H; discriminate). destruct (columns_in _ _) eqn:Ec in X; [|contradiction].
    destruct (schema_table _ V Ec) as (t & L & _). now exists t. }
  assert (Tg : exists gs, lookup "redemption-groups" d = Some gs).
  { assert (X : columns_in "redemption-groups" (schema v) <> None) by (versions H; discriminate). destruct (columns_in _ _) eqn:Ec in X; [|contradiction].
    destruct (schema_table _ V Ec) as (t & L & _). now exists t. }
  destruct Tt as [ts Lt], Tg as [gs Lg].
  destruct (@upgrade_carried v d d' "unblinded-tokens"%string ts ltac:(lia) V E Lt) as (ts' & Lt' & C & W & W'); [discriminate|discriminate|].
  destruct (@upgrade_carried v d d' "redemption-groups"%string gs ltac:(lia) V E Lg) as (gs' & Lg' & Cg & Wg & Wg'); [discriminate|lia|].
  assert (Id1 : forall c x, (if v <=? 7 then times_converted utc "unblinded-tokens" c x else x) = x) by (intros; now destruct (v <=? 7)).
  assert (Id2 : forall c x, (if v <=? 7 then times_converted utc "redemption-groups" c x else x) = x) by (intros; now destruct (v <=? 7)).
  split; intros (t0 & g0 & row & group & n & L1 & L2 & I1 & I2 & C1 & C2 & C3 & C4).
  - rewrite Lt in L1. rewrite Lg in L2. injection L1 as <-. injection L2 as <-. destruct (Forall2_left _ C I1) as (row' & I1' & F1 & _). destruct (Forall2_left _ Cg I2) as (group' & I2' & F2 & _).
    exists ts', gs', row', group', n. apply F1 in C1, C2. apply F2 in C3, C4. rewrite Id1 in C1, C2. rewrite Id2 in C3, C4. now repeat (split; [assumption|]).
  - rewrite Lt' in L1. rewrite Lg' in L2. injection L1 as <-. injection L2 as <-. destruct (Forall2_right _ C I1) as (row0 & I1' & F1 & _). destruct (Forall2_right _ Cg I2) as (group0 & I2' & F2 & _).
    exists ts, gs, row0, group0, n.
    destruct (@carried_back _ ts ts' row0 row "token"%string tok W I1' ltac:(apply (@name_in v d _ _ _ V Lt); versions H) F1 C1) as (x1 & X1 & Y1).
    destruct (@carried_back _ ts ts' row0 row "redemption-group"%string n W I1' ltac:(apply (@name_in v d _ _ _ V Lt); versions H) F1 C2) as (x2 & X2 & Y2).
    destruct (@carried_back _ gs gs' group0 group "rowid"%string n Wg I2' ltac:(apply (@name_in v d _ _ _ V Lg); versions H) F2 C3) as (x3 & X3 & Y3).
    destruct (@carried_back _ gs gs' group0 group "spendable"%string (SInt 1) Wg I2' ltac:(apply (@name_in v d _ _ _ V Lg); versions H) F2 C4) as (x4 & X4 & Y4).
    cbn beta in Y1, Y2, Y3, Y4. rewrite Id1 in Y1, Y2. rewrite Id2 in Y3, Y4. subst. now repeat (split; [assumption|]).
Qed.

(** ** Vouchers *)

Lemma stamp_text_utc u : ascii (stamp_text x20 (Stamp u (Some 0))) = ascii (stamp_text x20 (Stamp u None)) ++ str "+00:00".
Proof.
  assert (X : stamp_text x20 (Stamp u (Some 0)) = stamp_text x20 (Stamp u None) ++ offset_text (Some 0)).
  { unfold stamp_text. cbn [s_date s_offset]. rewrite <- ?app_assoc. cbn [offset_text app]. reflexivity. }
  rewrite X, ascii_app. reflexivity.
Qed.
Lemma encode_number num : all_ascii num -> encode_ascii (ascii num) = Some num.
Proof. apply encode_ascii_ok. Qed.

Lemma waiting_read v d d' t t' row row' num local u counter expected : 1 <= v <= 7 -> of_version v d -> of_version 9 d' ->
  lookup "vouchers" d = Some t -> lookup "vouchers" d' = Some t' ->
  (forall c x, cell t row c = Some x -> cell t' row' c = Some (times_converted utc "vouchers" c x)) ->
  (forall col, In col (t_cols t') -> ~ In (c_name col) (names t) -> cell t' row' (c_name col) = Some (c_default col)) ->
  waiting v t row num local counter expected -> local_time utc local u ->
  read_voucher t' row' = Ok (Voucher num expected (Some (Stamp u (Some 0))) (Pending counter)).
Proof.
  intros H V V' L L' F G (A & Len & Cn & Cc & Cs & K0 & K3 & K2 & E0 & E4 & E3) (Hu & Ut).
  pose proof (schema_cols _ V' L') as Cols. injection Cols as Cols.
  apply F in Cn, Cc, Cs. change (times_converted utc "vouchers" "number" (STxt (ascii num))) with (STxt (ascii num)) in Cn.
  change (times_converted utc "vouchers" "state" (STxt (str "pending"))) with (STxt (str "pending")) in Cs.
  change (times_converted utc "vouchers" "created" (STxt (ascii (stamp_text x20 (Stamp local None))))) with (converted utc (STxt (ascii (stamp_text x20 (Stamp local None))))) in Cc.
  unfold converted in Cc. rewrite Ut, <- stamp_text_utc in Cc.
  assert (Ck : cell t' row' "counter" = Some (SInt counter)).
  { destruct (Z.le_gt_cases 3 v) as [H3|H3]; [apply (F _ _ (K3 H3))|]. rewrite (K2 H3). apply (G (Column "counter" false (SInt 0))).
    - rewrite <- Cols. cbn. intuition.
    - apply (@name_not_in v d _ _ _ V L). versions H. }
  assert (Ce : cell t' row' "expected-tokens" = Some (SInt expected)).
  { destruct (Z.le_gt_cases 4 v) as [H4|H4]; [apply (F _ _ (E4 H4))|]. rewrite (E3 H4). apply (G (Column "expected-tokens" true (SInt 32768))).
    - rewrite <- Cols. cbn. intuition.
    - apply (@name_not_in v d _ _ _ V L). versions H. }
  unfold read_voucher, from_row. rewrite Cn, Cc, Cs, Ck, Ce. cbn [text_of number_of bind]. rewrite (encode_number A). cbn [or_err bind].
  rewrite parse_datetime_text; [|reflexivity|unfold stamp_ok; cbn [s_date s_offset]; now rewrite Hu]. cbn [bind].
  assert (S : forall a b c, state_from_row (str "pending") a b c (SInt counter) = Ok (Pending counter)).
  { intros a b c. unfold state_from_row. change (text_eqb (str "pending") (str "pending")) with true. cbn [number_of bind]. unfold make_pending, check_above.
    replace (-1 <? counter) with true by lia. reflexivity. }
  rewrite S. cbn [bind]. unfold make_voucher, check_base64_bytes, check_above. rewrite Len. cbn [Nat.eqb bind]. replace (0 <? expected) with true by lia. reflexivity.
Qed.

Lemma finished_unreadable t t' row row' local : (forall c x, cell t row c = Some x -> cell t' row' c = Some (times_converted utc "vouchers" c x)) ->
  finished_locally t row local -> exists e, read_voucher t' row' = Err e.
Proof.
  intros F (D & Cs & Cf). apply F in Cf. change (times_converted utc "vouchers" "finished" (STxt (ascii (stamp_text x20 (Stamp local None))))) with (STxt (ascii (stamp_text x20 (Stamp local None)))) in Cf.
  assert (P : parse_datetime x20 (ascii (stamp_text x20 (Stamp local None))) = Ok (Stamp local None)) by (apply parse_datetime_text; [reflexivity|unfold stamp_ok; cbn [s_date s_offset]; now rewrite D]).
  destruct (read_voucher t' row') as [v|e] eqn:R; [exfalso|now exists e]. unfold read_voucher, from_row in R.
  repeat (apply bind_ok in R; destruct R as (? & ? & R)). clear R.
  assert (S : exists s, cell t' row' "state" = Some (STxt s) /\ (s = str "redeemed" \/ s = str "double-spend")).
  { destruct Cs as [Cs|Cs]; apply F in Cs; eexists; (split; [exact Cs|]); [now left|now right]. }
  destruct S as (s & Es & S). rewrite Es in *. rewrite Cf in *.
  match goal with H : text_of _ (STxt s) = Ok ?x |- _ => cbn in H; injection H as <- end.
  match goal with H : state_from_row s _ _ _ _ = Ok _ |- _ => rename H into St end. unfold state_from_row in St.
  destruct S as [-> | ->]; cbn [text_eqb] in St.
  - change (text_eqb (str "redeemed") (str "pending")) with false in St. change (text_eqb (str "redeemed") (str "double-spend")) with false in St.
    change (text_eqb (str "redeemed") (str "redeemed")) with true in St. cbn iota in St. apply bind_ok in St. destruct St as (c & _ & St). cbn [text_of bind] in St. rewrite P in St. discriminate St.
  - change (text_eqb (str "double-spend") (str "pending")) with false in St. change (text_eqb (str "double-spend") (str "double-spend")) with true in St.
    cbn iota in St. cbn [text_of bind] in St. rewrite P in St. discriminate St.
Qed.

(** ** Interruption *)

Fixpoint autos (ss : list stmt) : list stmt :=
  match ss with
  | [] => []
  | s :: ss' => if opens_transaction s then [] else s :: autos ss'
  end.
Lemma execute_all_open ss : forall c o, open c = Some o -> disk (snd (execute_all utc ss c)) = disk c.
Proof.
  induction ss as [|s ss IH]; intros c o O; cbn [execute_all]; [reflexivity|]. unfold execute. destruct (exec s (current c)) as [d|e]; cbn [bind]; [|reflexivity].
  destruct (opens_transaction s); [now rewrite (IH _ d)|]. rewrite O. now rewrite (IH _ d).
Qed.
Lemma execute_all_disk ss : forall d d', exec_list ss d = Ok d' -> exec_list (autos ss) d = Ok (disk (snd (execute_all utc ss (Conn d None)))).
Proof.
  induction ss as [|s ss IH]; intros d d' E; cbn [autos execute_all]; [reflexivity|]. cbn [SchemaProofs.exec_list] in E. unfold execute. cbn [current open disk].
  destruct (exec s d) as [d1|] eqn:E1; [|discriminate]. cbn [bind] in E |- *. destruct (opens_transaction s).
  - cbn [SchemaProofs.exec_list]. now rewrite (@execute_all_open ss _ d1).
  - cbn [SchemaProofs.exec_list]. rewrite E1. cbn [bind]. now apply (IH d1 d').
Qed.
Lemma autos_firstn n : forall ss, autos (firstn n ss) = firstn n (autos ss).
Proof. induction n as [|n IH]; intros [|s ss]; try reflexivity. cbn [firstn autos]. destruct (opens_transaction s); [reflexivity|]. cbn [firstn]. now rewrite IH. Qed.

Lemma interrupted_disk v d n : 0 <= v <= 9 -> of_version v d ->
  exec_list (firstn n (autos (ups (Z.to_nat (9 - v)) v))) d = Ok (interrupted utc n d).
Proof.
  intros H V. destruct (of_version_reads H V) as [E S]. unfold interrupted. rewrite E, S, upgrades_ups by exact H.
  destruct (@ups_ok utc (Z.to_nat (9 - v)) v d ltac:(lia) ltac:(lia) V) as (d' & X & _).
  rewrite <- (firstn_skipn n (ups (Z.to_nat (9 - v)) v)), exec_list_app in X. destruct (exec_list (firstn n (ups (Z.to_nat (9 - v)) v)) d) as [d1|] eqn:E1; [|discriminate].
  rewrite <- autos_firstn. now apply (execute_all_disk (firstn n (ups (Z.to_nat (9 - v)) v)) d E1).
Qed.

Definition applied (s : stmt) (d : database) : Prop :=
  match s with
  | CreateTable name _ => lookup name d <> None
  | AddColumn name c => exists t, lookup name d = Some t /\ has_column (c_name c) t = true
  | _ => False
  end.
Definition once (s : stmt) : bool := match s with CreateTable _ _ | AddColumn _ _ => true | _ => false end.
Lemma applied_now s d d' : once s = true -> exec s d = Ok d' -> applied s d'.
Proof.
  destruct s as [n cols|n c| |n col only|]; try discriminate; intros _ E; cbn [SchemaModel.exec] in E.
  - destruct (lookup n d) eqn:L; [discriminate|]. injection E as <-. cbn [applied]. rewrite lookup_app, L. cbn. rewrite String.eqb_refl. discriminate.
  - destruct (lookup n d) as [t|] eqn:L; [|discriminate]. destruct (has_column (c_name c) t); [discriminate|]. destruct (_ && _); [discriminate|]. injection E as <-.
    cbn [applied]. rewrite lookup_replace by congruence. rewrite String.eqb_refl. eexists. split; [reflexivity|]. unfold has_column, names. cbn [t_cols].
    rewrite map_app, existsb_app. cbn. rewrite String.eqb_refl. now rewrite orb_true_r.
Qed.
Lemma applied_kept s s' d d' : applied s d -> exec s' d = Ok d' -> applied s d'.
Proof.
  destruct s as [n cols|n c| |n col only|]; cbn [applied]; intros A E; try exact (False_ind _ A).
  - destruct (lookup n d) as [t|] eqn:L; [|contradiction]. destruct (@exec_cols utc s' d d' n t E L) as (t' & L' & _). now rewrite L'.
  - destruct A as (x & L & Hc). destruct (@exec_cols utc s' d d' n x E L) as (t' & L' & C). exists t'. split; [exact L'|]. unfold has_column, names in *.
    destruct C as [-> | (c' & _ & _ & ->)]; [exact Hc|]. rewrite map_app, existsb_app, Hc. reflexivity.
Qed.
Lemma applied_list s ss : forall d d', applied s d -> exec_list ss d = Ok d' -> applied s d'.
Proof.
  induction ss as [|s' ss IH]; intros d d' A E; cbn in E; [now injection E as <-|]. destruct (exec s' d) as [d1|] eqn:E1; [|discriminate]. apply (IH d1); [|exact E]. now apply (@applied_kept s s' d d1 A).
Qed.
Lemma applied_err s d : applied s d -> exists e, exec s d = Err e.
Proof.
  destruct s as [n cols|n c| |n col only|]; cbn [applied SchemaModel.exec]; intros A; try exact (False_ind _ A).
  - destruct (lookup n d) as [t|]; [eauto|contradiction].
  - destruct A as (t & -> & ->). eauto.
Qed.

Lemma stuck v d n : 0 <= v <= 8 -> v <> 7 -> of_version v d -> exists e, initialize utc (interrupted utc (S n) d) = (Err e, interrupted utc (S n) d).
Proof.
  intros H N7 V. assert (H9 : 0 <= v <= 9) by lia.
  assert (X : exists s rest more, autos (ups (Z.to_nat (9 - v)) v) = s :: rest /\ ups (Z.to_nat (9 - v)) v = s :: more /\ once s = true /\ forallb off_version (s :: rest) = true).
  { apply small in H9. destruct H9 as [-> | [-> | [-> | [-> | [-> | [-> | [-> | [-> | [-> | ->]]]]]]]]]; try lia; do 3 eexists; repeat split; reflexivity. }
  destruct X as (s & rest & more & Ea & Eu & O & Off). pose proof (@interrupted_disk v d (S n) H9 V) as D. rewrite Ea in D. cbn [firstn] in D.
  set (i := interrupted utc (S n) d) in *. cbn [forallb] in Off. apply andb_true_iff in Off as [O1 O2].
  assert (Ver : lookup "version" i = lookup "version" d).
  { apply (@exec_list_version utc (s :: firstn n rest)); [|exact D]. cbn [forallb]. rewrite O1. cbn [andb]. rewrite forallb_forall in O2 |- *. intros x I. apply O2. rewrite <- (firstn_skipn n rest). apply in_or_app. now left. }
  destruct (of_version_reads H9 V) as [_ Rd].
  assert (Ri : schema_version i = Some v) by (unfold schema_version in *; now rewrite Ver).
  assert (Ei : ensure_version i = i).
  { unfold ensure_version. unfold schema_version in Ri. destruct (lookup "version" i); [reflexivity|discriminate]. }
  assert (Ap : applied s i).
  { cbn [SchemaProofs.exec_list] in D. destruct (exec s d) as [d1|] eqn:E1; [|discriminate]. apply (@applied_list s (firstn n rest) d1); [now apply (@applied_now s d)|exact D]. }
  destruct (@applied_err _ _ Ap) as [e Ee]. exists e. unfold initialize. rewrite Ei, Ri, upgrades_ups, Eu by exact H9. cbn [execute_all]. unfold execute. cbn [current open disk]. rewrite Ee. reflexivity.
Qed.
Lemma resumable v d n : v = 7 \/ v = 9 -> of_version v d -> interrupted utc n d = d.
Proof.
  intros H V. pose proof (@interrupted_disk v d n ltac:(lia) V) as D. replace (autos (ups (Z.to_nat (9 - v)) v)) with (@nil stmt) in D by (destruct H as [-> | ->]; reflexivity).
  rewrite firstn_nil in D. cbn in D. congruence.
Qed.
Lemma interrupted_safe v d n name t : 0 <= v <= 9 -> of_version v d -> lookup name d = Some t ->
  exists t', lookup name (interrupted utc n d) = Some t' /\ carried as_is t t'.
Proof.
  intros H V L. pose proof (@interrupted_disk v d n H V) as D. set (ss := autos (ups (Z.to_nat (9 - v)) v)) in *.
  assert (Q : forall s, In s ss -> off_version s = true /\ (forall m col o, s <> SetUtc m col o) /\ (inserts s = true -> v <= 5)).
  { intros s I. unfold ss in I. apply small in H. destruct H as [-> | [-> | [-> | [-> | [-> | [-> | [-> | [-> | [-> | ->]]]]]]]]]; cbn in I;
      repeat (destruct I as [<- | I]; [repeat split; try reflexivity; try discriminate; lia|]); destruct I. }
  assert (Qn : forall s, In s (firstn n ss) -> In s ss) by (intros s I; rewrite <- (firstn_skipn n ss); apply in_or_app; now left).
  assert (W : filled t) by (now apply (proj1 (proj2 V) name)).
  destruct (String.string_dec name "version") as [->|NV].
  - exists t. split; [|now apply carried_refl]. rewrite <- L. apply (@exec_list_version utc (firstn n ss)); [|exact D]. apply forallb_forall. intros s I. now apply Q, Qn.
  - assert (Sn : forall f : stmt -> bool, (forall s, In s (firstn n ss) -> f s = true) -> forallb f (firstn n ss) = true) by (intros f; apply forallb_forall).
    assert (St : forall l, (forall s, In s l -> forall m col o, s <> SetUtc m col o) -> stable l = true).
    { induction l as [|s l IH]; intros Hl; [reflexivity|]. cbn [stable]. rewrite IH by (intros x I; apply Hl; now right). rewrite andb_true_r. destruct s; try reflexivity.
      apply forallb_forall. intros x I. destruct x; try reflexivity. exfalso. eapply Hl; [right; exact I|reflexivity]. }
    destruct (@exec_list_carried utc (firstn n ss) d _ name t D) as (t' & L' & C & _); try assumption.
    + apply St. intros s I. now apply Q, Qn.
    + now apply (@version_nodup v d name t).
    + intros ->. assert (H5 : 5 < v).
      { destruct (Z.lt_ge_cases 5 v) as [?|H5]; [assumption|exfalso]. pose proof (schema_cols _ V L) as X. apply small in H.
        destruct H as [-> | [-> | [-> | [-> | [-> | [-> | [-> | [-> | [-> | ->]]]]]]]]]; try lia; discriminate X. }
      destruct (existsb inserts (firstn n ss)) eqn:Ex; [|reflexivity]. apply existsb_exists in Ex. destruct Ex as (s & I & Is). apply Qn, Q in I. destruct I as (_ & _ & I). specialize (I Is). lia.
    + exists t'. split; [exact L'|]. apply (@carried_ext (effects utc (firstn n ss) name)); [|exact C]. intros c x. unfold as_is. apply effects_stable.
      apply forallb_forall. intros s I. destruct s; try reflexivity. exfalso. destruct (Q _ (Qn _ I)) as (_ & X & _). eapply X; reflexivity.
Qed.
End Upgrades.
