(** Properties of database upgrades. *)
From Verif Require Import Prelude PreludeFacts BytesModel CborModel StreamModel DateModel VoucherModel VoucherSpec
  SchemaModel SchemaSpec SchemaProofs SchemaRowProofs.
From Coq Require Strings.String.
Import Coq.Strings.String.StringSyntax.

Section Properties.
(** What SQLite's [datetime(_, "utc")] does depends on the timezone of the machine. *)
Variable utc : text -> option text.

(** ** C50 *)

(** Every older database is brought to version 9 ... *)
Theorem C50_upgraded : forall v d, 0 <= v <= 9 -> of_version v d ->
  exists d', initialize utc d = (Ok tt, d') /\ of_version 9 d'.
Proof. intros v d H V. destruct (initialize_upgrades utc H V) as (d' & _ & I & V'). now exists d'. Qed.
(** ... and so is a new one. *)
Theorem C50_created : exists d', initialize utc [] = (Ok tt, d') /\ of_version 9 d'.
Proof. rewrite <- initialize_ensured. apply (C50_upgraded 0); [lia|apply empty_version]. Qed.
(** A database of the newest version, or of a later one (or of an unknown one), is not
    changed. *)
Theorem C50_untouched : forall v d, v < 0 \/ 8 < v -> schema_version d = Some v -> initialize utc d = (Ok tt, d).
Proof. intros v d. apply initialize_none. Qed.
(** Opening again changes nothing. *)
Theorem C50_once : forall v d d' r, 0 <= v <= 9 -> of_version v d -> initialize utc d = (r, d') -> initialize utc d' = (Ok tt, d').
Proof.
  intros v d d' r H V I. destruct (C50_upgraded v d H V) as (d1 & I1 & V1). rewrite I1 in I. injection I as _ <-.
  destruct (@of_version_reads 9 d1 ltac:(lia) V1) as [_ S]. now apply (C50_untouched 9); [lia|].
Qed.
(** The statements are those of the missing upgrades in order, each followed by the one that
    counts the version up. *)
Theorem C50_statements : forall v, 0 <= v <= 9 ->
  get_schema_upgrades v = concat (map (fun i => match upgrade (v + Z.of_nat i) with Some ss => ss ++ [Increment] | None => [] end) (seq 0 (Z.to_nat (9 - v)))).
Proof. intros v H. apply small in H. intuition (subst; reflexivity). Qed.

(** ** C51 *)

(** Every row of every table is there afterwards, with its values as they were; columns that
    are new hold their defaults, and three columns of times are converted. *)
Theorem C51_kept : forall v d d' r name t, 0 <= v <= 9 -> of_version v d -> initialize utc d = (r, d') ->
  lookup name d = Some t -> name <> "version"%string ->
  exists t', lookup name d' = Some t' /\ carried (if v <=? 7 then times_converted utc name else as_is) t t'.
Proof.
  intros v d d' r name t H V I L NV. destruct (initialize_upgrades utc H V) as (d1 & E & I1 & _). rewrite I1 in I. injection I as _ <-.
  destruct (@upgrade_carried utc v d d1 name t H V E L NV) as (t' & L' & C & _).
  { intros ->. destruct (Z.le_gt_cases 6 v) as [|H5]; [assumption|exfalso]. destruct V as [M _]. specialize (M "redemption-groups"%string). rewrite L in M.
    apply small in H. destruct H as [-> | [-> | [-> | [-> | [-> | [-> | [-> | [-> | [-> | ->]]]]]]]]]; try lia; discriminate M. }
  exists t'. split; [exact L'|]. eapply carried_ext; [|exact C]. intros c x. cbn beta. destruct (v <=? 7); reflexivity.
Qed.

(** Databases from before version 6, where the groups of tokens are made up: with at least one
    redeemed voucher every token can be spent; ... *)
Theorem C51_spendable_partial : forall v d d' r token, 1 <= v <= 5 -> of_version v d -> initialize utc d = (r, d') ->
  some_redeemed d -> in_wallet d token -> spendable d' token.
Proof.
  intros v d d' r token H V I. destruct (@initialize_upgrades utc v d ltac:(lia) V) as (d1 & E & I1 & V1). rewrite I1 in I. injection I as _ <-. now apply (@tokens_spendable utc v d d1).
Qed.
(** ... without, none can be spent any more, and no error is reported. *)
Theorem C51_spendable_refuted : forall v d d' r token, 1 <= v <= 5 -> of_version v d -> initialize utc d = (r, d') ->
  ~ some_redeemed d -> in_wallet d token -> r = Ok tt /\ in_wallet d' token /\ ~ spendable d' token.
Proof.
  intros v d d' r token H V I N W. destruct (@initialize_upgrades utc v d ltac:(lia) V) as (d1 & E & I1 & V1). rewrite I1 in I. injection I as <- <-.
  split; [reflexivity|]. split; [now apply (@wallet_kept utc v d d1 token ltac:(lia))|]. now apply (@none_spendable utc v d d1).
Qed.
(** Every redeemed voucher has a group that can be spent. *)
Theorem C51_groups : forall v d d' r t row number, 1 <= v <= 5 -> of_version v d -> initialize utc d = (r, d') ->
  lookup "vouchers" d = Some t -> In row (t_rows t) ->
  cell t row "state" = Some (STxt (str "redeemed")) -> cell t row "number" = Some number ->
  exists g group, lookup "redemption-groups" d' = Some g /\ In group (t_rows g) /\
    cell g group "voucher" = Some number /\ cell g group "spendable" = Some (SInt 1).
Proof.
  intros v d d' r t row number H V I. destruct (@initialize_upgrades utc v d ltac:(lia) V) as (d1 & E & I1 & V1). rewrite I1 in I. injection I as _ <-.
  now apply (@voucher_grouped utc v d d1).
Qed.
(** From version 6 on the same tokens can be spent before and after. *)
Theorem C51_spendable_since_6 : forall v d d' r token, 6 <= v <= 9 -> of_version v d -> initialize utc d = (r, d') ->
  spendable d token <-> spendable d' token.
Proof.
  intros v d d' r token H V I. destruct (@initialize_upgrades utc v d ltac:(lia) V) as (d1 & E & I1 & V1). rewrite I1 in I. injection I as _ <-.
  now apply (@spendable_kept utc v d d1).
Qed.

(** Vouchers that wait to be redeemed can be read after the upgrade and are the same: the rows
    of the tables correspond in order. *)
Theorem C51_waiting_readable : forall v d d' r t, 1 <= v <= 7 -> of_version v d -> initialize utc d = (r, d') -> lookup "vouchers" d = Some t ->
  exists t', lookup "vouchers" d' = Some t' /\
    Forall2 (fun row row' => forall num local u counter expected,
        waiting v t row num local counter expected -> local_time utc local u ->
        read_voucher t' row' = Ok (Voucher num expected (Some (Stamp u (Some 0))) (Pending counter)))
      (t_rows t) (t_rows t').
Proof.
  intros v d d' r t H V I L. destruct (@initialize_upgrades utc v d ltac:(lia) V) as (d1 & E & I1 & V1). rewrite I1 in I. injection I as _ <-.
  destruct (C51_kept v d d1 (Ok tt) "vouchers" t ltac:(lia) V I1 L ltac:(discriminate)) as (t' & L' & C). exists t'. split; [exact L'|].
  replace (v <=? 7) with true in C by lia. eapply Forall2_with; [exact C|]. intros row row' _ (F & G) num local u counter expected. now apply (@waiting_read utc v d d1).
Qed.
(** Vouchers that were redeemed, or spent twice, at a time without a timezone cannot be read
    any more. *)
Theorem C51_finished_readable_refuted : forall v d d' r t, 1 <= v <= 7 -> of_version v d -> initialize utc d = (r, d') -> lookup "vouchers" d = Some t ->
  exists t', lookup "vouchers" d' = Some t' /\
    Forall2 (fun row row' => forall local, finished_locally t row local -> exists e, read_voucher t' row' = Err e) (t_rows t) (t_rows t').
Proof.
  intros v d d' r t H V I L. destruct (C51_kept v d d' r "vouchers" t ltac:(lia) V I L ltac:(discriminate)) as (t' & L' & C). exists t'. split; [exact L'|].
  replace (v <=? 7) with true in C by lia. eapply Forall2_with; [exact C|]. intros row row' _ (F & _) local. now apply (@finished_unreadable utc).
Qed.
(** From version 8 on vouchers read the same before and after. *)
Theorem C51_readable_since_8 : forall v d d' r t, 8 <= v <= 9 -> of_version v d -> initialize utc d = (r, d') -> lookup "vouchers" d = Some t ->
  exists t', lookup "vouchers" d' = Some t' /\ Forall2 (fun row row' => read_voucher t' row' = read_voucher t row) (t_rows t) (t_rows t').
Proof.
  intros v d d' r t H V I L. destruct (C51_kept v d d' r "vouchers" t ltac:(lia) V I L ltac:(discriminate)) as (t' & L' & C). exists t'. split; [exact L'|].
  replace (v <=? 7) with false in C by lia. eapply Forall2_with; [exact C|]. intros row row' In_row (F & _).
  assert (W : filled t) by (now apply (proj1 (proj2 V) "vouchers"%string)).
  assert (Same : forall c, existsb (String.eqb c) (match columns_in "vouchers" (schema v) with Some cols => map c_name cols | None => [] end) = true -> cell t' row' c = cell t row c).
  { intros c Hc. destruct (@cell_some t row c W In_row (@name_in v d _ _ _ V L Hc)) as [x Hx]. rewrite Hx. now apply F. }
  unfold read_voucher. rewrite !Same; [reflexivity|..]; (assert (X : v = 8 \/ v = 9) by lia; destruct X as [-> | ->]; reflexivity).
Qed.

(** ** C81 *)

(** If the process dies during an upgrade of an older version than 7, or of 8, after the first
    statement, the database cannot be opened any more: every attempt fails and changes
    nothing. *)
Theorem C81_resumed_refuted : forall v d n, 0 <= v <= 8 -> v <> 7 -> of_version v d -> (1 <= n)%nat ->
  exists e, initialize utc (interrupted utc n d) = (Err e, interrupted utc n d).
Proof. intros v d [|n] H N V P; [lia|]. now apply stuck with v. Qed.
(** So it is for a new database. *)
Theorem C81_created_refuted : forall n, (1 <= n)%nat ->
  exists e, initialize utc (interrupted utc n []) = (Err e, interrupted utc n []).
Proof. intros n P. change (interrupted utc n []) with (interrupted utc n (ensure_version [])). apply (C81_resumed_refuted 0); [lia|lia|apply empty_version|exact P]. Qed.
(** An upgrade of version 7, whose first statement opens a transaction, leaves no trace. *)
Theorem C81_resumed_partial : forall v d n, v = 7 \/ v = 9 -> of_version v d -> interrupted utc n d = d.
Proof. intros v d n. apply resumable. Qed.
(** Nothing that was there is lost. *)
Theorem C81_nothing_lost : forall v d n name t, 0 <= v <= 9 -> of_version v d -> lookup name d = Some t ->
  exists t', lookup name (interrupted utc n d) = Some t' /\ carried as_is t t'.
Proof. intros v d n name t. apply interrupted_safe. Qed.
End Properties.

Print Assumptions C50_upgraded.
Print Assumptions C50_created.
Print Assumptions C50_untouched.
Print Assumptions C50_once.
Print Assumptions C50_statements.
Print Assumptions C51_kept.
Print Assumptions C51_spendable_partial.
Print Assumptions C51_spendable_refuted.
Print Assumptions C51_groups.
Print Assumptions C51_spendable_since_6.
Print Assumptions C51_waiting_readable.
Print Assumptions C51_finished_readable_refuted.
Print Assumptions C51_readable_since_8.
Print Assumptions C81_resumed_refuted.
Print Assumptions C81_created_refuted.
Print Assumptions C81_resumed_partial.
Print Assumptions C81_nothing_lost.

(** ** Cases *)

(** A machine in UTC, seconds only; a database of version 3. *)
Definition utc_zone (s : text) : option text := Some (firstn 19 s).
Definition a_number : bytes := repeat x41 44.
Definition b_number : bytes := repeat x42 44.
Definition a_day : date := Date 2021 2 3 4 5 6 0.
Definition day_text : text := ascii (stamp_text x20 (Stamp a_day None)).
Definition old_columns : list column :=
  [plain "number"; plain "created"; Column "state" false (STxt (str "pending")); plain "finished"; plain "token-count"; plain "public-key"; Column "counter" false (SInt 0)].
Definition waiting_row : list sqlv := [STxt (ascii a_number); STxt day_text; STxt (str "pending"); SNull; SNull; SNull; SInt 4].
Definition redeemed_row' : list sqlv := [STxt (ascii b_number); STxt day_text; STxt (str "redeemed"); STxt day_text; SInt 16; STxt (str "key"); SInt 16].
Definition old_database (rows : list (list sqlv)) : database :=
  [("version"%string, Table [plain "version"] [[SInt 3]]);
   ("vouchers"%string, Table old_columns rows);
   ("tokens"%string, Table [plain "text"; plain "voucher"] []);
   ("unblinded-tokens"%string, Table [plain "token"] [[STxt (str "t1")]; [STxt (str "t2")]]);
   ("lease-maintenance-spending"%string, Table [plain "id"; plain "started"; plain "finished"; plain "count"] [[SInt 1; STxt day_text; SNull; SInt 7]])].

Lemma old_is_old rows : Forall (fun row => length row = 7%nat) rows -> of_version 3 (old_database rows).
Proof.
  intros R. split; [|split].
  - intros name. unfold old_database. cbn [lookup]. change (schema 3) with
      [("version"%string, [plain "version"]); ("vouchers"%string, old_columns); ("tokens"%string, [plain "text"; plain "voucher"]);
       ("unblinded-tokens"%string, [plain "token"]); ("lease-maintenance-spending"%string, [plain "id"; plain "started"; plain "finished"; plain "count"])].
    cbn [columns_in]. repeat (destruct (String.eqb name _); [reflexivity|]). reflexivity.
  - intros name t. unfold old_database. cbn [lookup].
    repeat match goal with |- context [String.eqb name ?n] => destruct (String.eqb name n) end; intros [= <-] row I; cbn [t_rows t_cols] in I |- *;
      try (repeat destruct I as [<- | I]; try reflexivity; destruct I).
    rewrite Forall_forall in R. now apply R.
  - eexists. split; reflexivity.
Qed.

(** With both vouchers: everything is there, the tokens can be spent, and of the vouchers one
    reads and one does not. *)
Example C50_C51_instance :
  of_version 3 (old_database [waiting_row; redeemed_row']) /\ some_redeemed (old_database [waiting_row; redeemed_row']) /\
  in_wallet (old_database [waiting_row; redeemed_row']) (STxt (str "t2")) /\
  waiting 3 (Table old_columns [waiting_row; redeemed_row']) waiting_row a_number a_day 4 32768 /\
  local_time utc_zone a_day a_day /\
  finished_locally (Table old_columns [waiting_row; redeemed_row']) redeemed_row' a_day /\
  let (r, d) := initialize utc_zone (old_database [waiting_row; redeemed_row']) in
  r = Ok tt /\ schema_version d = Some 9 /\
  option_map t_rows (lookup "redemption-groups" d) = Some [[SInt 1; STxt (ascii b_number); SInt 1; STxt (str "key")]] /\
  option_map t_rows (lookup "unblinded-tokens" d) = Some [[STxt (str "t1"); SInt 1]; [STxt (str "t2"); SInt 1]] /\
  option_map (fun t => map (read_voucher t) (t_rows t)) (lookup "vouchers" d) =
    Some [Ok (Voucher a_number 32768 (Some (Stamp a_day (Some 0))) (Pending 4)); Err VType].
Proof.
  split; [apply old_is_old; repeat constructor|]. split.
  { exists (Table old_columns [waiting_row; redeemed_row']), redeemed_row'. split; [reflexivity|]. split; [now right; left|reflexivity]. }
  split.
  { eexists. exists [STxt (str "t2")]. split; [reflexivity|]. split; [now right; left|reflexivity]. }
  split.
  { split; [intros b I; apply repeat_spec in I; now subst|]. repeat (split; [reflexivity || lia|]). lia. }
  split; [split; reflexivity|].
  split; [split; [reflexivity|]; split; [now left|reflexivity]|].
  vm_compute. repeat split; reflexivity.
Qed.
(** A voucher of which some tokens were redeemed when the wallet was upgraded: the tokens that
    were already there are lost to their owner. *)
Example C51_refuted_instance :
  let d := old_database [waiting_row] in
  of_version 3 d /\ ~ some_redeemed d /\ in_wallet d (STxt (str "t1")) /\
  option_map t_rows (lookup "redemption-groups" (snd (initialize utc_zone d))) = Some [].
Proof.
  split; [apply old_is_old; repeat constructor|]. split.
  { intros (t & row & L & I & C). injection L as <-. destruct I as [<-|[]]. discriminate C. }
  split; [|vm_compute; reflexivity].
  eexists. exists [STxt (str "t1")]. split; [reflexivity|]. split; [now left|reflexivity].
Qed.
(** Two statements into the upgrade the process dies. *)
Example C81_instance :
  let d := interrupted utc_zone 2 (old_database [waiting_row; redeemed_row']) in
  schema_version d = Some 3 /\ fst (initialize utc_zone d) = Err DuplicateColumn /\
  fst (initialize utc_zone (interrupted utc_zone 1 [])) = Err TableExists.
Proof. vm_compute. repeat split. Qed.
