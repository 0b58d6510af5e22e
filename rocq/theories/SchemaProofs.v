(** Proofs about the upgrade of databases. *)
From Verif Require Import Prelude PreludeFacts BytesModel BytesProofs CborModel CborProofs StreamModel DateModel DateProofs
  VoucherModel VoucherSpec VoucherProofs SchemaModel SchemaSpec.
From Coq Require Strings.String.
Import Coq.Strings.String.StringSyntax.
Set Implicit Arguments.

(** ** Tables *)

Lemma lookup_app name d e : lookup name (d ++ e) = match lookup name d with Some t => Some t | None => lookup name e end.
Proof. induction d as [|[n t] d IH]; [reflexivity|]. cbn. destruct (String.eqb name n); [reflexivity|exact IH]. Qed.
Lemma lookup_replace name t d other : lookup name d <> None ->
  lookup other (replace name t d) = if String.eqb other name then Some t else lookup other d.
Proof.
  induction d as [|[n t'] d IH]; cbn; [contradiction|]. destruct (String.eqb_spec name n) as [->|N]; intros H; cbn.
  - destruct (String.eqb other n); reflexivity.
  - destruct (String.eqb_spec other n) as [->|M]; [destruct (String.eqb_spec n name); [congruence|reflexivity]|]. now apply IH.
Qed.

Lemma cell_in_none cols : forall row name, ~ In name (map c_name cols) -> cell_in cols row name = None.
Proof.
  induction cols as [|c cols IH]; intros row name N; [reflexivity|]. destruct row as [|v row]; [reflexivity|]. cbn.
  destruct (String.eqb_spec name (c_name c)) as [->|]; [exfalso; apply N; now left|]. apply IH. intros I. apply N. now right.
Qed.
Lemma cell_in_some cols : forall row name, length row = length cols -> In name (map c_name cols) -> exists v, cell_in cols row name = Some v.
Proof.
  induction cols as [|c cols IH]; intros row name L I; [destruct I|]. destruct row as [|v row]; [discriminate|]. cbn.
  destruct (String.eqb_spec name (c_name c)) as [->|N]; [eauto|]. destruct I as [<-|I]; [contradiction|]. apply IH; [now injection L|exact I].
Qed.
Lemma cell_in_name cols : forall row name v, cell_in cols row name = Some v -> In name (map c_name cols).
Proof.
  induction cols as [|c cols IH]; intros row name v; [discriminate|]. destruct row as [|w row]; [discriminate|]. cbn.
  destruct (String.eqb_spec name (c_name c)) as [->|N]; [now left|]. intros H. right. eapply IH, H.
Qed.
Lemma cell_in_app cols : forall row name c v, length row = length cols ->
  cell_in (cols ++ [c]) (row ++ [v]) name =
  match cell_in cols row name with Some w => Some w | None => if String.eqb name (c_name c) then Some v else None end.
Proof.
  induction cols as [|x cols IH]; intros [|w row] name c v L; try discriminate; cbn; [reflexivity|].
  destruct (String.eqb name (c_name x)); [reflexivity|]. apply IH. now injection L.
Qed.
Lemma cell_in_update cols : forall row name col f,
  cell_in cols (update_cell cols col f row) name = if String.eqb name col then option_map f (cell_in cols row name) else cell_in cols row name.
Proof.
  induction cols as [|c cols IH]; intros row name col f; [cbn; destruct (String.eqb name col); reflexivity|].
  destruct row as [|v row]; [cbn; destruct (String.eqb name col); reflexivity|]. cbn.
  destruct (String.eqb_spec col (c_name c)) as [->|N]; cbn.
  - destruct (String.eqb_spec name (c_name c)); reflexivity.
  - destruct (String.eqb_spec name (c_name c)) as [->|M].
    + destruct (String.eqb_spec (c_name c) col); [congruence|reflexivity].
    + apply IH.
Qed.
Lemma update_cell_length cols : forall row col f, length (update_cell cols col f row) = length row.
Proof.
  induction cols as [|c cols IH]; intros row col f; [destruct row; reflexivity|]. destruct row as [|v row]; [reflexivity|]. cbn.
  destruct (String.eqb col (c_name c)); cbn; [reflexivity|]. now rewrite IH.
Qed.

(** ** Carrying rows *)

Lemma carried_refl t : filled t -> carried as_is t t.
Proof.
  intros W. unfold carried. assert (G : forall l, (forall r, In r l -> length r = length (t_cols t)) -> Forall2 (fun r r' =>
      (forall c v, cell t r c = Some v -> cell t r' c = Some (as_is c v)) /\
      (forall col, In col (t_cols t) -> ~ In (c_name col) (names t) -> cell t r' (c_name col) = Some (c_default col))) l l).
  { induction l as [|r l IH]; intros L; [constructor|]. constructor; [|apply IH; intros x I; apply L; now right].
    split; [auto|]. intros col I N. exfalso. apply N. unfold names. now apply in_map. }
  apply G. exact W.
Qed.
Lemma Forall2_compose A (P Q R : A -> A -> Prop) : (forall a b c, P a b -> Q b c -> R a c) ->
  forall l m n, Forall2 P l m -> Forall2 Q m n -> Forall2 R l n.
Proof.
  intros H l m n HP. revert n. induction HP as [|a b l m X HP IH]; intros n HQ; inversion HQ; subst; constructor; [eapply H; eassumption|now apply IH].
Qed.
(** [t_cols t'] extends [t_cols t] *)
Definition extends (t t' : table) : Prop := exists more, t_cols t' = t_cols t ++ more.
Lemma carried_trans f g t t' t'' : carried f t t' -> carried g t' t'' -> extends t t' -> extends t' t'' -> filled t' -> NoDup (names t'') ->
  (forall col, In col (t_cols t') -> ~ In (c_name col) (names t) -> g (c_name col) (c_default col) = c_default col) ->
  carried (fun c v => g c (f c v)) t t''.
Proof.
  intros A B [m1 E1] [m2 E2] W ND G. unfold carried. eapply Forall2_compose; [|exact A|exact B]. cbn.
  intros r r' r'' [A1 A2] [B1 B2]. split.
  - intros c v H. now apply B1, A1.
  - intros col I N. rewrite E2 in I. apply in_app_or in I as [I|I].
    + apply A2 in N as X; [|exact I]. apply B1 in X. rewrite X, G by assumption. reflexivity.
    + apply B2; [rewrite E2; apply in_or_app; now right|]. intros J. unfold names in J, ND. rewrite E2, map_app in ND.
      apply (in_map c_name) in I. revert J I. clear -ND. intros J I. induction (map c_name (t_cols t')) as [|x l IH]; [destruct J|].
      cbn in ND. inversion ND as [|? ? N1 N2]; subst. destruct J as [->|J]; [apply N1; apply in_or_app; now right|now apply IH].
Qed.
Lemma carried_ext f g t t' : (forall c v, f c v = g c v) -> carried f t t' -> carried g t t'.
Proof.
  intros E H. unfold carried in *. induction H as [|r r' l l' [H1 H2] H IH]; constructor; [|exact IH]. split; [|exact H2].
  intros c v X. rewrite <- E. now apply H1.
Qed.

Section Upgrades.
Variable utc : text -> option text.
Notation exec := (exec utc).

(** What a statement does to the values of a table *)
Definition effect (s : stmt) (name c : string) (v : sqlv) : sqlv :=
  match s with
  | SetUtc n col only => if String.eqb name n && String.eqb c col then to_utc_where utc only v else v
  | _ => v
  end.

Lemma exec_carried s d d' name t : exec s d = Ok d' -> lookup name d = Some t -> filled t ->
  name <> "version"%string -> (s = InsertGroups -> name <> "redemption-groups"%string) ->
  exists t', lookup name d' = Some t' /\ carried (effect s name) t t' /\ extends t t' /\ filled t'.
Proof.
  intros E L W NV NG.
  assert (SAME : forall f, (forall c v, f c v = v) -> exists t', Some t = Some t' /\ carried f t t' /\ extends t t' /\ filled t').
  { intros f Hf. exists t. split; [reflexivity|]. split; [|split; [exists []; now rewrite app_nil_r|exact W]].
    apply (@carried_ext as_is); [intros; symmetry; apply Hf|now apply carried_refl]. }
  destruct s as [n cols|n c| |n col only|]; cbn [SchemaModel.exec] in E.
  - destruct (lookup n d) eqn:Ln; [discriminate|]. injection E as <-. rewrite lookup_app, L. now apply SAME.
  - destruct (lookup n d) as [u|] eqn:Ln; [|discriminate]. destruct (has_column (c_name c) u) eqn:H; [discriminate|].
    destruct (c_notnull c && sqlv_eqb (c_default c) SNull); [discriminate|]. injection E as <-.
    rewrite lookup_replace by congruence. destruct (String.eqb_spec name n) as [->|N]; [|rewrite L; now apply SAME].
    rewrite Ln in L. injection L as ->. eexists. split; [reflexivity|]. split; [|split; [exists [c]; reflexivity|]].
    + unfold carried. cbn [t_rows]. assert (G : forall l, (forall r, In r l -> length r = length (t_cols t)) -> Forall2 (fun r r' =>
        (forall c0 v, cell t r c0 = Some v -> cell (Table (t_cols t ++ [c]) (map (fun row => row ++ [c_default c]) (t_rows t))) r' c0 = Some (effect (AddColumn n c) n c0 v)) /\
        (forall col, In col (t_cols (Table (t_cols t ++ [c]) (map (fun row => row ++ [c_default c]) (t_rows t)))) -> ~ In (c_name col) (names t) ->
           cell (Table (t_cols t ++ [c]) (map (fun row => row ++ [c_default c]) (t_rows t))) r' (c_name col) = Some (c_default col)))
        l (map (fun row => row ++ [c_default c]) l)); [|apply G; exact W].
      intros l. induction l as [|r l IH]; intros Lr; [constructor|]. cbn [map]. constructor; [|apply IH; intros x I; apply Lr; now right].
      specialize (Lr r (or_introl eq_refl)). unfold cell. cbn [t_cols effect]. split.
      * intros x v X. rewrite cell_in_app by exact Lr. now rewrite X.
      * intros col I M. rewrite cell_in_app by exact Lr. apply in_app_or in I as [I|[<-|[]]]; [exfalso; apply M; unfold names; now apply in_map|].
        rewrite cell_in_none by exact M. now rewrite String.eqb_refl.
    + intros row I. cbn in I |- *. apply in_map_iff in I as (r & <- & I). rewrite !app_length. f_equal. now apply W.
  - destruct (lookup "redemption-groups" d) as [g|] eqn:Lg; [|discriminate]. destruct (lookup "vouchers" d) as [v|]; [|discriminate].
    destruct (_ && _); [|discriminate]. injection E as <-. rewrite lookup_replace by congruence.
    destruct (String.eqb_spec name "redemption-groups") as [->|]; [exfalso; now apply NG|]. rewrite L. now apply SAME.
  - destruct (lookup n d) as [u|] eqn:Ln; [|discriminate]. destruct (has_column col u) eqn:H; [|discriminate]. injection E as <-.
    rewrite lookup_replace by congruence. destruct (String.eqb_spec name n) as [->|N].
    + rewrite Ln in L. injection L as ->. eexists. split; [reflexivity|]. split; [|split; [exists []; cbn; now rewrite app_nil_r|]].
      * unfold carried. cbn [t_rows update_all]. assert (G : forall l, Forall2 (fun r r' =>
          (forall c v, cell t r c = Some v -> cell (update_all t col (to_utc_where utc only)) r' c = Some (effect (SetUtc n col only) n c v)) /\
          (forall c0, In c0 (t_cols (update_all t col (to_utc_where utc only))) -> ~ In (c_name c0) (names t) ->
             cell (update_all t col (to_utc_where utc only)) r' (c_name c0) = Some (c_default c0))) l (map (update_cell (t_cols t) col (to_utc_where utc only)) l)); [|apply G].
        intros l. induction l as [|r l IH]; [constructor|]. cbn [map]. constructor; [|exact IH]. unfold cell. cbn [t_cols update_all effect]. split.
        -- intros c v X. rewrite cell_in_update, X, String.eqb_refl. cbn [andb option_map]. destruct (String.eqb c col); reflexivity.
        -- intros c0 I M. exfalso. apply M. unfold names. now apply in_map.
      * intros row I. cbn in I |- *. apply in_map_iff in I as (r & <- & I). rewrite update_cell_length. now apply W.
    + rewrite L. apply SAME. intros c v. cbn [effect]. destruct (String.eqb_spec name n); [contradiction|reflexivity].
  - destruct (lookup "version" d) as [u|] eqn:Lu; [|discriminate]. destruct (has_column "version" u); [|discriminate]. injection E as <-.
    rewrite lookup_replace by congruence. destruct (String.eqb_spec name "version"); [contradiction|]. rewrite L. now apply SAME.
Qed.

(** ** Shapes *)

Definition all_filled (d : database) : Prop := forall name t, lookup name d = Some t -> filled t.

Lemma new_row_length cols values : length (new_row cols values) = length cols.
Proof. apply map_length. Qed.
Lemma insert_groups_shape l : forall t, t_cols (insert_groups t l) = t_cols t /\ (filled t -> filled (insert_groups t l)).
Proof.
  induction l as [|[n k] l IH]; intros t; [split; auto|]. cbn [insert_groups].
  match goal with |- context [insert_groups ?u l] => destruct (IH u) as [A B] end. split; [rewrite A; reflexivity|].
  intros W. apply B. intros row I. cbn [t_rows t_cols] in *. apply in_app_or in I as [I|[<-|[]]]; [now apply W|apply new_row_length].
Qed.

Lemma exec_filled s d d' : exec s d = Ok d' -> all_filled d -> all_filled d'.
Proof.
  intros E W name t' L. destruct s as [n cols|n c| |n col only|]; cbn [SchemaModel.exec] in E.
  - destruct (lookup n d) eqn:Ln; [discriminate|]. injection E as <-. rewrite lookup_app in L.
    destruct (lookup name d) as [t|] eqn:Lo; [injection L as <-; now apply (W name)|]. cbn in L. destruct (String.eqb name n); [|discriminate].
    injection L as <-. intros row [].
  - destruct (lookup n d) as [u|] eqn:Ln; [|discriminate]. destruct (has_column (c_name c) u); [discriminate|].
    destruct (c_notnull c && sqlv_eqb (c_default c) SNull); [discriminate|]. injection E as <-.
    rewrite lookup_replace in L by congruence. destruct (String.eqb name n); [|now apply (W name)]. injection L as <-.
    intros row I. cbn in I |- *. apply in_map_iff in I as (r & <- & I). rewrite !app_length. f_equal. now apply (W n).
  - destruct (lookup "redemption-groups" d) as [g|] eqn:Lg; [|discriminate]. destruct (lookup "vouchers" d) as [v|]; [|discriminate].
    destruct (_ && _); [|discriminate]. injection E as <-. rewrite lookup_replace in L by congruence.
    destruct (String.eqb name "redemption-groups"); [|now apply (W name)]. injection L as <-. apply insert_groups_shape. now apply (W _ _ Lg).
  - destruct (lookup n d) as [u|] eqn:Ln; [|discriminate]. destruct (has_column col u); [|discriminate]. injection E as <-.
    rewrite lookup_replace in L by congruence. destruct (String.eqb name n); [|now apply (W name)]. injection L as <-.
    intros row I. cbn in I |- *. apply in_map_iff in I as (r & <- & I). rewrite update_cell_length. now apply (W n).
  - destruct (lookup "version" d) as [u|] eqn:Lu; [|discriminate]. destruct (has_column "version" u); [|discriminate]. injection E as <-.
    rewrite lookup_replace in L by congruence. destruct (String.eqb name "version"); [|now apply (W name)]. injection L as <-.
    intros row I. cbn in I |- *. apply in_map_iff in I as (r & <- & I). rewrite update_cell_length. now apply (W _ _ Lu).
Qed.

Notation shape := (list (string * list column)).
Definition matches (d : database) (sh : shape) : Prop := forall name, option_map t_cols (lookup name d) = columns_in name sh.
Fixpoint set_columns (name : string) (cols : list column) (sh : shape) : shape :=
  match sh with
  | [] => []
  | (n, c) :: sh' => if String.eqb name n then (n, cols) :: sh' else (n, c) :: set_columns name cols sh'
  end.
Definition has (name : string) (cols : list column) : bool := existsb (String.eqb name) (map c_name cols).
(** What a statement does to the shape *)
Definition shape_exec (s : stmt) (sh : shape) : option shape :=
  match s with
  | CreateTable name cols => match columns_in name sh with Some _ => None | None => Some (sh ++ [(name, cols)]) end
  | AddColumn name c =>
      match columns_in name sh with
      | None => None
      | Some cols => if has (c_name c) cols then None
                     else if c_notnull c && sqlv_eqb (c_default c) SNull then None
                     else Some (set_columns name (cols ++ [c]) sh)
      end
  | InsertGroups =>
      match columns_in "redemption-groups" sh, columns_in "vouchers" sh with
      | Some g, Some v =>
          if forallb (fun n => has n g) ["voucher"%string; "public-key"%string; "spendable"%string] &&
             forallb (fun n => has n v) ["number"%string; "public-key"%string; "state"%string] then Some sh else None
      | _, _ => None
      end
  | SetUtc name col _ => match columns_in name sh with Some cols => if has col cols then Some sh else None | None => None end
  | Increment => match columns_in "version" sh with Some cols => if has "version" cols then Some sh else None | None => None end
  end.

Lemma columns_in_app name sh sh' : columns_in name (sh ++ sh') = match columns_in name sh with Some c => Some c | None => columns_in name sh' end.
Proof. induction sh as [|[n c] sh IH]; [reflexivity|]. cbn. destruct (String.eqb name n); [reflexivity|exact IH]. Qed.
Lemma columns_in_set name cols sh other : columns_in name sh <> None ->
  columns_in other (set_columns name cols sh) = if String.eqb other name then Some cols else columns_in other sh.
Proof.
  induction sh as [|[n c] sh IH]; cbn; [contradiction|]. destruct (String.eqb_spec name n) as [->|N]; intros H; cbn.
  - destruct (String.eqb other n); reflexivity.
  - destruct (String.eqb_spec other n) as [->|M]; [destruct (String.eqb_spec n name); [congruence|reflexivity]|]. now apply IH.
Qed.
Lemma matches_some d sh name cols : matches d sh -> columns_in name sh = Some cols -> exists t, lookup name d = Some t /\ t_cols t = cols.
Proof. intros M C. specialize (M name). rewrite C in M. destruct (lookup name d) as [t|]; [|discriminate]. injection M as <-. eauto. Qed.
Lemma matches_none d sh name : matches d sh -> columns_in name sh = None -> lookup name d = None.
Proof. intros M C. specialize (M name). rewrite C in M. destruct (lookup name d); [discriminate|reflexivity]. Qed.

Lemma shape_exec_ok s d sh sh' : matches d sh -> shape_exec s sh = Some sh' -> exists d', exec s d = Ok d' /\ matches d' sh'.
Proof.
  assert (SAME : forall name t u, matches d sh -> lookup name d = Some t -> t_cols u = t_cols t -> matches (replace name u d) sh).
  { intros name t u M L E other. rewrite lookup_replace by congruence. destruct (String.eqb_spec other name) as [->|]; [|apply M].
    rewrite <- M, L. cbn. now f_equal. }
  intros M. destruct s as [n cols|n c| |n col only|]; cbn [shape_exec SchemaModel.exec].
  - destruct (columns_in n sh) eqn:C; [discriminate|]. intros [= <-]. rewrite (matches_none _ M C). eexists. split; [reflexivity|].
    intros name. rewrite lookup_app, columns_in_app, <- M. destruct (lookup name d); [reflexivity|]. cbn. destruct (String.eqb name n); reflexivity.
  - destruct (columns_in n sh) as [cols|] eqn:C; [|discriminate]. destruct (matches_some _ M C) as (t & L & <-).
    rewrite L. change (has_column (c_name c) t) with (has (c_name c) (t_cols t)). destruct (has _ _); [discriminate|].
    destruct (c_notnull c && sqlv_eqb (c_default c) SNull) eqn:Nn; [discriminate|]. intros [= <-]. eexists. split; [reflexivity|].
    intros name. rewrite lookup_replace by congruence. rewrite columns_in_set by congruence. destruct (String.eqb name n); [reflexivity|apply M].
  - destruct (columns_in "redemption-groups" sh) as [g|] eqn:Cg; [|discriminate]. destruct (columns_in "vouchers" sh) as [v|] eqn:Cv; [|discriminate].
    destruct (matches_some _ M Cg) as (tg & Lg & <-). destruct (matches_some _ M Cv) as (tv & Lv & <-). rewrite Lg, Lv.
    change (fun n => has_column n tg) with (fun n => has n (t_cols tg)). change (fun n => has_column n tv) with (fun n => has n (t_cols tv)).
    destruct (_ && _) eqn:B; [|discriminate]. intros [= <-]. eexists. split; [reflexivity|].
    eapply SAME; [exact M|exact Lg|]. apply insert_groups_shape.
  - destruct (columns_in n sh) as [cols|] eqn:C; [|discriminate]. destruct (matches_some _ M C) as (t & L & <-).
    rewrite L. change (has_column col t) with (has col (t_cols t)). destruct (has _ _) eqn:X; [|discriminate]. intros [= <-]. eexists. split; [reflexivity|].
    now apply (@SAME n t).
  - destruct (columns_in "version" sh) as [cols|] eqn:C; [|discriminate]. destruct (matches_some _ M C) as (t & L & <-).
    rewrite L. change (has_column "version" t) with (has "version" (t_cols t)). destruct (has _ _) eqn:X; [|discriminate]. intros [= <-]. eexists. split; [reflexivity|].
    now apply (@SAME "version"%string t).
Qed.

(** ** Sequences of statements *)
Fixpoint exec_list (ss : list stmt) (d : database) : res sqlerr database :=
  match ss with [] => Ok d | s :: ss' => d' <- exec s d ;; exec_list ss' d' end.
Fixpoint shape_list (ss : list stmt) (sh : shape) : option shape :=
  match ss with [] => Some sh | s :: ss' => match shape_exec s sh with Some sh' => shape_list ss' sh' | None => None end end.
Lemma exec_list_app a b d : exec_list (a ++ b) d = (d' <- exec_list a d ;; exec_list b d').
Proof. revert d. induction a as [|s a IH]; intros d; [reflexivity|]. cbn. destruct (exec s d); [apply IH|reflexivity]. Qed.
Lemma shape_list_ok ss : forall d sh sh', matches d sh -> shape_list ss sh = Some sh' -> exists d', exec_list ss d = Ok d' /\ matches d' sh'.
Proof.
  induction ss as [|s ss IH]; intros d sh sh' M; cbn; [intros [= <-]; eauto|]. destruct (shape_exec s sh) as [sh1|] eqn:E; [|discriminate].
  destruct (shape_exec_ok s M E) as (d1 & E1 & M1). intros H. rewrite E1. cbn. now apply (IH d1 sh1).
Qed.
Lemma exec_list_filled ss : forall d d', exec_list ss d = Ok d' -> all_filled d -> all_filled d'.
Proof.
  induction ss as [|s ss IH]; intros d d'; cbn; [intros [= <-]; auto|]. destruct (exec s d) as [d1|] eqn:E; [|discriminate].
  cbn. intros H W. apply (IH d1); [exact H|]. now apply (exec_filled s E).
Qed.

(** The table with the version *)
Definition off_version (s : stmt) : bool :=
  match s with
  | CreateTable n _ | AddColumn n _ | SetUtc n _ _ => negb (String.eqb n "version")
  | InsertGroups => true
  | Increment => false
  end.
Lemma exec_version s d d' : off_version s = true -> exec s d = Ok d' -> lookup "version" d' = lookup "version" d.
Proof.
  destruct s as [n cols|n c| |n col only|]; cbn [off_version SchemaModel.exec]; intros O E; try discriminate O.
  - destruct (lookup n d) eqn:Ln; [discriminate|]. injection E as <-. rewrite lookup_app. destruct (lookup "version" d); [reflexivity|].
    cbn [lookup]. destruct (String.eqb_spec "version" n) as [<-|]; [discriminate O|reflexivity].
  - destruct (lookup n d) as [u|] eqn:Ln; [|discriminate]. destruct (has_column (c_name c) u); [discriminate|].
    destruct (c_notnull c && sqlv_eqb (c_default c) SNull); [discriminate|]. injection E as <-. rewrite lookup_replace by congruence.
    destruct (String.eqb_spec "version" n) as [<-|]; [discriminate O|reflexivity].
  - destruct (lookup "redemption-groups" d) as [g|] eqn:Lg; [|discriminate]. destruct (lookup "vouchers" d) as [v|]; [|discriminate].
    destruct (_ && _); [|discriminate]. injection E as <-. rewrite lookup_replace by congruence. reflexivity.
  - destruct (lookup n d) as [u|] eqn:Ln; [|discriminate]. destruct (has_column col u); [|discriminate]. injection E as <-. rewrite lookup_replace by congruence.
    destruct (String.eqb_spec "version" n) as [<-|]; [discriminate O|reflexivity].
Qed.
Lemma exec_list_version ss : forall d d', forallb off_version ss = true -> exec_list ss d = Ok d' -> lookup "version" d' = lookup "version" d.
Proof.
  induction ss as [|s ss IH]; intros d d' O; cbn; [intros [= <-]; reflexivity|]. cbn in O. apply andb_true_iff in O as [O1 O2].
  destruct (exec s d) as [d1|] eqn:E; [|discriminate]. cbn. intros H. rewrite (IH d1 d' O2 H). now apply (@exec_version s).
Qed.

(** ** The upgrades *)

Fixpoint ups (k : nat) (v : Z) : list stmt :=
  match k with O => [] | S k' => match upgrade v with Some ss => ss | None => [] end ++ Increment :: ups k' (v + 1) end.
Lemma ups_app a : forall b v, ups (a + b) v = ups a v ++ ups b (v + Z.of_nat a).
Proof.
  induction a as [|a IH]; intros b v; [cbn [Nat.add ups app Z.of_nat]; now rewrite Z.add_0_r|]. cbn [Nat.add ups]. rewrite IH, <- app_assoc. cbn [app]. replace (v + Z.of_nat (S a)) with (v + 1 + Z.of_nat a) by lia. reflexivity.
Qed.
Lemma small v : 0 <= v <= 9 -> v = 0 \/ v = 1 \/ v = 2 \/ v = 3 \/ v = 4 \/ v = 5 \/ v = 6 \/ v = 7 \/ v = 8 \/ v = 9.
Proof. lia. Qed.
Lemma upgrades_ups v : 0 <= v <= 9 -> get_schema_upgrades v = ups (Z.to_nat (9 - v)) v.
Proof. intros H. apply small in H. intuition (subst; reflexivity). Qed.
Lemma upgrade_none v : v < 0 \/ 8 < v -> upgrade v = None.
Proof. intros H. unfold upgrade. repeat (match goal with |- context [?a =? ?b] => destruct (Z.eqb_spec a b); [lia|] end). reflexivity. Qed.
Lemma upgrades_none v : v < 0 \/ 8 < v -> get_schema_upgrades v = [].
Proof. intros H. unfold get_schema_upgrades. cbn [upgrades_from]. now rewrite upgrade_none. Qed.

Lemma upgrade_step v d : 0 <= v <= 8 -> of_version v d ->
  exists d', exec_list (ups 1 v) d = Ok d' /\ of_version (v + 1) d'.
Proof.
  intros H (M & W & t & L & R).
  assert (X : exists ss, upgrade v = Some ss /\ shape_list ss (schema v) = Some (schema (v + 1)) /\ forallb off_version ss = true /\
    columns_in "version" (schema v) = Some [plain "version"]).
  { assert (H' : 0 <= v <= 9) by lia. apply small in H'. intuition (try lia); subst; eexists; (split; [reflexivity|]); (split; [vm_compute; reflexivity|]); split; reflexivity. }
  destruct X as (ss & U & Sh & O & Cv). unfold ups. rewrite U, exec_list_app.
  destruct (@shape_list_ok ss d _ _ M Sh) as (d1 & E1 & M1). rewrite E1. cbn [bind exec_list SchemaModel.exec].
  pose proof (@exec_list_version ss d d1 O E1) as V1. rewrite V1, L.
  assert (Ct : t_cols t = [plain "version"]) by (specialize (M "version"%string); rewrite L, Cv in M; now injection M).
  assert (Hc : has_column "version" t = true) by (unfold has_column, names; rewrite Ct; reflexivity). rewrite Hc. cbn [bind]. eexists. split; [reflexivity|].
  split; [|split].
  - intros name. rewrite lookup_replace by congruence. rewrite <- M1. destruct (String.eqb_spec name "version") as [->|]; [|reflexivity]. rewrite V1, L. reflexivity.
  - intros name u. rewrite lookup_replace by congruence. destruct (String.eqb name "version").
    + intros [= <-]. unfold update_all. rewrite Ct, R. intros row [<-|[]]. reflexivity.
    + apply (exec_list_filled ss E1 W).
  - eexists. rewrite lookup_replace by congruence. split; [reflexivity|]. unfold update_all. rewrite Ct, R. reflexivity.
Qed.

Lemma ups_ok k : forall v d, 0 <= v -> v + Z.of_nat k <= 9 -> of_version v d ->
  exists d', exec_list (ups k v) d = Ok d' /\ of_version (v + Z.of_nat k) d'.
Proof.
  induction k as [|k IH]; intros v d H0 H9 V.
  - exists d. split; [reflexivity|]. now replace (v + Z.of_nat 0) with v by lia.
  - destruct (@upgrade_step v d ltac:(lia) V) as (d1 & E1 & V1). destruct (IH (v + 1) d1 ltac:(lia) ltac:(lia) V1) as (d' & E' & V').
    exists d'. split; [|now replace (v + Z.of_nat (S k)) with (v + 1 + Z.of_nat k) by lia].
    change (S k) with (1 + k)%nat. rewrite ups_app, exec_list_app, E1. exact E'.
Qed.

(** ** Rows over sequences *)

Definition effects (ss : list stmt) (name c : string) (v : sqlv) : sqlv := fold_left (fun v s => effect s name c v) ss v.
(** No statement touches the values of a column added before. *)
Fixpoint stable (ss : list stmt) : bool :=
  match ss with
  | [] => true
  | s :: ss' => match s with
                | AddColumn n c => forallb (fun s => match s with SetUtc m col _ => negb (String.eqb n m && String.eqb (c_name c) col) | _ => true end) ss'
                | _ => true
                end && stable ss'
  end.
Definition inserts (s : stmt) : bool := match s with InsertGroups => true | _ => false end.

Lemma has_column_false name t : has_column name t = false -> ~ In name (names t).
Proof.
  unfold has_column. intros H I. assert (X : existsb (String.eqb name) (names t) = true) by (apply existsb_exists; exists name; split; [exact I|apply String.eqb_refl]). congruence.
Qed.
Lemma nodup_snoc A (l : list A) x : NoDup l -> ~ In x l -> NoDup (l ++ [x]).
Proof.
  intros N I. induction N as [|y l M N IH]; [constructor; [auto|constructor]|]. cbn. constructor.
  - intros J. apply in_app_or in J as [J|[<-|[]]]; [contradiction|]. apply I. now left.
  - apply IH. intros J. apply I. now right.
Qed.
Lemma exec_cols s d d' name t : exec s d = Ok d' -> lookup name d = Some t ->
  exists t', lookup name d' = Some t' /\ (t_cols t' = t_cols t \/ exists c, s = AddColumn name c /\ ~ In (c_name c) (names t) /\ t_cols t' = t_cols t ++ [c]).
Proof.
  intros E L. destruct s as [n cols|n c| |n col only|]; cbn [SchemaModel.exec] in E.
  - destruct (lookup n d) eqn:Ln; [discriminate|]. injection E as <-. rewrite lookup_app, L. eauto.
  - destruct (lookup n d) as [u|] eqn:Ln; [|discriminate]. destruct (has_column (c_name c) u) eqn:H; [discriminate|].
    destruct (c_notnull c && sqlv_eqb (c_default c) SNull); [discriminate|]. injection E as <-.
    rewrite lookup_replace by congruence. destruct (String.eqb_spec name n) as [->|]; [|eauto]. rewrite Ln in L. injection L as ->.
    eexists. split; [reflexivity|]. right. exists c. split; [reflexivity|]. split; [now apply has_column_false|reflexivity].
  - destruct (lookup "redemption-groups" d) as [g|] eqn:Lg; [|discriminate]. destruct (lookup "vouchers" d) as [v|]; [|discriminate].
    destruct (_ && _); [|discriminate]. injection E as <-. rewrite lookup_replace by congruence.
    destruct (String.eqb_spec name "redemption-groups") as [->|]; [|eauto]. rewrite Lg in L. injection L as ->. eexists. split; [reflexivity|]. left. apply insert_groups_shape.
  - destruct (lookup n d) as [u|] eqn:Ln; [|discriminate]. destruct (has_column col u); [|discriminate]. injection E as <-. rewrite lookup_replace by congruence.
    destruct (String.eqb_spec name n) as [->|]; [|eauto]. rewrite Ln in L. injection L as ->. eexists. split; [reflexivity|]. now left.
  - destruct (lookup "version" d) as [u|] eqn:Lu; [|discriminate]. destruct (has_column "version" u); [|discriminate]. injection E as <-.
    rewrite lookup_replace by congruence. destruct (String.eqb_spec name "version") as [->|]; [|eauto]. rewrite Lu in L. injection L as ->. eexists. split; [reflexivity|]. now left.
Qed.
Lemma exec_nodup s d d' name t t' : exec s d = Ok d' -> lookup name d = Some t -> lookup name d' = Some t' -> NoDup (names t) -> NoDup (names t').
Proof.
  intros E L L' N. destruct (@exec_cols s d d' name t E L) as (u & Lu & C). rewrite Lu in L'. injection L' as ->. unfold names.
  destruct C as [-> | (c & _ & I & ->)]; [exact N|]. rewrite map_app. now apply nodup_snoc.
Qed.

Lemma effects_stable ss name c v : forallb (fun s => match s with SetUtc m col _ => negb (String.eqb name m && String.eqb c col) | _ => true end) ss = true ->
  effects ss name c v = v.
Proof.
  unfold effects. revert v. induction ss as [|s ss IH]; intros v; [reflexivity|]. cbn. intros H. apply andb_true_iff in H as [H1 H2].
  assert (E : effect s name c v = v); [|rewrite E; now apply IH]. destruct s; try reflexivity. cbn. apply negb_true_iff in H1. now rewrite H1.
Qed.

Lemma exec_list_carried ss : forall d d' name t, exec_list ss d = Ok d' -> stable ss = true -> lookup name d = Some t -> filled t -> NoDup (names t) ->
  name <> "version"%string -> (name = "redemption-groups"%string -> existsb inserts ss = false) ->
  exists t', lookup name d' = Some t' /\ carried (effects ss name) t t' /\ extends t t' /\ filled t' /\ NoDup (names t').
Proof.
  induction ss as [|s ss IH]; intros d d' name t E St L W N NV NG; cbn in E.
  - injection E as <-. exists t. split; [exact L|]. split; [now apply carried_refl|]. split; [exists []; now rewrite app_nil_r|auto].
  - destruct (exec s d) as [d1|] eqn:E1; [|discriminate]. cbn in E. cbn [stable] in St. apply andb_true_iff in St as [S1 S2].
    assert (NG1 : s = InsertGroups -> name <> "redemption-groups"%string) by (intros -> Hn; specialize (NG Hn); discriminate NG).
    assert (NG2 : name = "redemption-groups"%string -> existsb inserts ss = false) by (intros Hn; specialize (NG Hn); cbn in NG; now apply orb_false_iff in NG).
    destruct (@exec_carried s d d1 name t E1 L W NV NG1) as (t1 & L1 & C1 & X1 & W1). pose proof (@exec_nodup s d d1 name t t1 E1 L L1 N) as N1.
    destruct (IH d1 d' name t1 E S2 L1 W1 N1 NV NG2) as (t' & L' & C' & X' & W' & N').
    exists t'. split; [exact L'|]. split; [|split; [|auto]].
    + apply (carried_trans C1 C' X1 X' W1 N'). intros col I M. destruct (@exec_cols s d d1 name t E1 L) as (u & Lu & C). rewrite L1 in Lu. injection Lu as <-.
      destruct C as [C | (c & -> & _ & C)]; rewrite C in I.
      * exfalso. apply M. unfold names. now apply in_map.
      * apply in_app_or in I as [I|[<-|[]]]; [exfalso; apply M; unfold names; now apply in_map|]. now apply effects_stable.
    + destruct X1 as [m1 X1], X' as [m2 X2]. exists (m1 ++ m2). rewrite X2, X1. now rewrite app_assoc.
Qed.

(** ** Opening *)

Fixpoint nodupb (l : list string) : bool := match l with [] => true | x :: l' => negb (existsb (String.eqb x) l') && nodupb l' end.
Lemma nodupb_spec l : nodupb l = true -> NoDup l.
Proof.
  induction l as [|x l IH]; cbn; intros H; constructor; apply andb_true_iff in H as [H1 H2]; [|now apply IH].
  intros I. apply negb_true_iff in H1. assert (X : existsb (String.eqb x) l = true) by (apply existsb_exists; exists x; split; [exact I|apply String.eqb_refl]). congruence.
Qed.
Lemma columns_in_In name sh cols : columns_in name sh = Some cols -> exists n, In (n, cols) sh.
Proof.
  induction sh as [|[n c] sh IH]; [discriminate|]. cbn. destruct (String.eqb name n); [intros [= <-]; exists n; now left|].
  intros H. destruct (IH H) as [m I]. exists m. now right.
Qed.
Lemma schema_nodup v name cols : 0 <= v <= 9 -> columns_in name (schema v) = Some cols -> NoDup (map c_name cols).
Proof.
  intros H C. apply columns_in_In in C as [n I]. apply nodupb_spec.
  assert (X : forallb (fun e => nodupb (map c_name (snd e))) (schema v) = true) by (apply small in H; intuition (subst; reflexivity)).
  rewrite forallb_forall in X. apply (X (n, cols) I).
Qed.
Lemma version_nodup v d name t : 0 <= v <= 9 -> of_version v d -> lookup name d = Some t -> NoDup (names t).
Proof. intros H (M & _) L. specialize (M name). rewrite L in M. cbn in M. symmetry in M. now apply (schema_nodup name H) in M. Qed.

Lemma ups_checks k v : 0 <= v -> v + Z.of_nat k <= 9 -> stable (ups k v) = true /\ (6 <= v -> existsb inserts (ups k v) = false).
Proof.
  intros H0 H9. assert (Hv : 0 <= v <= 9) by lia. assert (Hk : (k <= 9)%nat) by lia. apply small in Hv.
  assert (Hk' : (k = 0 \/ k = 1 \/ k = 2 \/ k = 3 \/ k = 4 \/ k = 5 \/ k = 6 \/ k = 7 \/ k = 8 \/ k = 9)%nat) by lia. clear Hk.
  split.
  - destruct Hv as [-> | [-> | [-> | [-> | [-> | [-> | [-> | [-> | [-> | ->]]]]]]]]];
      destruct Hk' as [-> | [-> | [-> | [-> | [-> | [-> | [-> | [-> | [-> | ->]]]]]]]]]; try reflexivity; exfalso; cbn in H9; lia.
  - intros H6. destruct Hv as [-> | [-> | [-> | [-> | [-> | [-> | [-> | [-> | [-> | ->]]]]]]]]]; try (exfalso; lia);
      destruct Hk' as [-> | [-> | [-> | [-> | [-> | [-> | [-> | [-> | [-> | ->]]]]]]]]]; try reflexivity; exfalso; cbn in H9; lia.
Qed.

Lemma to_utc_converted only v : to_utc_where utc only v = converted utc v.
Proof. destruct v; try reflexivity. destruct only; reflexivity. Qed.
Lemma effects_app a b name c v : effects (a ++ b) name c v = effects b name c (effects a name c v).
Proof. unfold effects. apply fold_left_app. Qed.
Lemma effects_one v name c x : 0 <= v <= 8 -> effects (ups 1 v) name c x = if v =? 7 then times_converted utc name c x else x.
Proof.
  intros H. assert (H' : 0 <= v <= 9) by lia. apply small in H'.
  destruct H' as [-> | [-> | [-> | [-> | [-> | [-> | [-> | [-> | [-> | ->]]]]]]]]]; try reflexivity.
  change (7 =? 7) with true. cbn iota. unfold effects, ups. change (upgrade 7) with (Some [SetUtc "vouchers" "created" false; SetUtc "lease-maintenance-spending" "started" false; SetUtc "lease-maintenance-spending" "finished" true]).
  cbn [app fold_left effect]. rewrite !to_utc_converted. unfold times_converted.
  destruct (String.eqb_spec name "vouchers") as [->|N1]; cbn [andb].
  - destruct (String.eqb c "created"); reflexivity.
  - destruct (String.eqb name "lease-maintenance-spending"); [|reflexivity]. cbn [andb]. destruct (String.eqb_spec c "started") as [->|]; [reflexivity|].
    cbn [orb]. reflexivity.
Qed.
Lemma effects_ups k : forall v name c x, 0 <= v -> v + Z.of_nat k <= 9 ->
  effects (ups k v) name c x = if (v <=? 7) && (7 <? v + Z.of_nat k) then times_converted utc name c x else x.
Proof.
  induction k as [|k IH]; intros v name c x H0 H9.
  - cbn. destruct (Z.leb_spec v 7), (Z.ltb_spec 7 (v + 0)); try lia; reflexivity.
  - change (S k) with (1 + k)%nat. rewrite ups_app, effects_app, effects_one by lia. rewrite IH by lia.
    destruct (Z.eqb_spec v 7), (Z.leb_spec v 7), (Z.ltb_spec 7 (v + Z.of_nat (1 + k))), (Z.leb_spec (v + Z.of_nat 1) 7), (Z.ltb_spec 7 (v + Z.of_nat 1 + Z.of_nat k)); try lia; reflexivity.
Qed.

Lemma ups_carried k v d d' name t : 0 <= v -> v + Z.of_nat k <= 9 -> of_version v d -> exec_list (ups k v) d = Ok d' -> lookup name d = Some t ->
  name <> "version"%string -> (name = "redemption-groups"%string -> 6 <= v) ->
  exists t', lookup name d' = Some t' /\ carried (fun c x => if (v <=? 7) && (7 <? v + Z.of_nat k) then times_converted utc name c x else x) t t' /\ filled t'.
Proof.
  intros H0 H9 V E L NV NG. destruct (ups_checks k H0 H9) as [St In6].
  destruct (@exec_list_carried (ups k v) d d' name t E St L) as (t' & L' & C & X & W & N); try assumption.
  - apply V in L. exact L.
  - apply (@version_nodup v d name t); [lia|exact V|exact L].
  - intros Hn. apply In6, NG, Hn.
  - exists t'. split; [exact L'|]. split; [|exact W]. apply (@carried_ext (effects (ups k v) name)); [|exact C]. intros c x. now apply effects_ups.
Qed.

Lemma execute_all_ok ss : forall c d', exec_list ss (current c) = Ok d' -> exists c', execute_all utc ss c = (Ok tt, c') /\ current c' = d'.
Proof.
  induction ss as [|s ss IH]; intros c d'; cbn [exec_list execute_all]; [intros [= <-]; eauto|].
  unfold execute. destruct (exec s (current c)) as [d1|]; [|discriminate]. cbn [bind]. intros H. destruct (opens_transaction s); [now apply IH|].
  destruct (open c); now apply IH.
Qed.
Lemma ensure_version_same d t : lookup "version" d = Some t -> ensure_version d = d.
Proof. intros L. unfold ensure_version. now rewrite L. Qed.
Lemma of_version_reads v d : 0 <= v <= 9 -> of_version v d -> ensure_version d = d /\ schema_version d = Some v.
Proof.
  intros H (M & _ & t & L & R). split; [now apply (ensure_version_same _ L)|]. unfold schema_version. rewrite L, R.
  assert (Ct : t_cols t = [plain "version"]).
  { specialize (M "version"%string). rewrite L in M. assert (X : columns_in "version" (schema v) = Some [plain "version"]) by (apply small in H; intuition (subst; reflexivity)). rewrite X in M. now injection M. }
  unfold cell. rewrite Ct. reflexivity.
Qed.
Lemma initialize_upgrades v d : 0 <= v <= 9 -> of_version v d -> exists d', exec_list (ups (Z.to_nat (9 - v)) v) d = Ok d' /\ initialize utc d = (Ok tt, d') /\ of_version 9 d'.
Proof.
  intros H V. destruct (of_version_reads H V) as [E S].
  destruct (@ups_ok (Z.to_nat (9 - v)) v d (proj1 H) ltac:(lia) V) as (d' & X & V'). exists d'. split; [exact X|]. split; [|replace 9 with (v + Z.of_nat (Z.to_nat (9 - v))) by lia; exact V'].
  unfold initialize. rewrite E, S, upgrades_ups by exact H. destruct (@execute_all_ok (ups (Z.to_nat (9 - v)) v) (Conn d None) d' X) as (c' & -> & <-). reflexivity.
Qed.
Lemma initialize_none v d : v < 0 \/ 8 < v -> schema_version d = Some v -> initialize utc d = (Ok tt, d).
Proof.
  intros H S. assert (E : ensure_version d = d).
  { unfold ensure_version. unfold schema_version in S. destruct (lookup "version" d); [reflexivity|discriminate]. }
  unfold initialize. rewrite E, S, upgrades_none by exact H. reflexivity.
Qed.
Lemma empty_version : of_version 0 (ensure_version []).
Proof.
  split; [|split].
  - intros name. cbn. destruct (String.eqb name "version"); reflexivity.
  - intros name t. cbn. destruct (String.eqb name "version"); [|discriminate]. intros [= <-] row [<-|[]]. reflexivity.
  - eexists. split; reflexivity.
Qed.
Lemma initialize_ensured d : initialize utc (ensure_version d) = initialize utc d.
Proof.
  unfold initialize. assert (E : ensure_version (ensure_version d) = ensure_version d); [|now rewrite E].
  unfold ensure_version. destruct (lookup "version" d) as [t|] eqn:L; [now rewrite L|]. rewrite lookup_app, L. reflexivity.
Qed.
End Upgrades.
