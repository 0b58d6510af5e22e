(** Facts about recovery. *)
From Verif Require Import Prelude PreludeFacts BytesModel CborModel CborProofs StreamModel StreamSpec StreamProofs RecoverModel RecoverSpec.
From Coq Require Import Sorting.Sorted.
From Coq Require Strings.String.
Import Coq.Strings.String.StringSyntax.
Set Implicit Arguments.

Lemma stream_files_names entries names : stream_files entries names -> stream_names entries = names.
Proof.
  induction 1 as [|name size content entries names L H IH|name e entries names N H IH]; [reflexivity|..]; unfold stream_names in *; cbn [flat_map]; rewrite IH.
  - rewrite (proj2 (stream_like_starts name) L). reflexivity.
  - destruct e as [size content|]; [|reflexivity]. destruct N as [N|]; [|discriminate].
    destruct (startswith stream_prefix name) eqn:E; [|reflexivity]. now apply stream_like_starts in E.
Qed.

Section Proofs.
Variable D : Type.
Variable exec : text -> cval -> D -> res rexn D.
Variable tables : D -> list text.
Variable consistent : D -> bool.
Variable begins : text -> bool.
Variable occupied : D -> res rexn bool.
Variable checked : bool.

Notation performs := (performs exec).
Notation step := (step exec tables consistent begins occupied checked).
Notation run := (run exec tables consistent begins occupied checked).
Notation import := (RecoverModel.import exec tables begins checked).
Notation execute_all := (execute_all exec begins).
Notation execute_changes := (execute_changes exec begins checked).
Notation recover_snapshot := (recover_snapshot exec tables begins).

(** * Scripts in an open transaction *)

Lemma performs_app a b d1 d2 d3 : performs a d1 d2 -> performs b d2 d3 -> performs (a ++ b) d1 d3.
Proof. induction 1; cbn; intros Q; [exact Q|]. econstructor; eauto. Qed.
Lemma performs_split a : forall b d1 d3, performs (a ++ b) d1 d3 -> exists d2, performs a d1 d2 /\ performs b d2 d3.
Proof.
  induction a as [|[s x] a IH]; cbn; intros b d1 d3 H; [exists d1; split; [constructor|exact H]|].
  inversion H as [|? ? ? ? d2 ? E R]; subst. apply IH in R as (d & R1 & R2). exists d. split; [econstructor; eauto|exact R2].
Qed.
Lemma performs_inv sql args l d d2 : performs ((sql, args) :: l) d d2 -> exists d1, exec sql args d = Ok d1 /\ performs l d1 d2.
Proof. intros P. inversion P; subst. eauto. Qed.
Lemma performs_none d d2 : performs [] d d2 -> d2 = d.
Proof. now inversion 1. Qed.
Lemma performs_det l : forall d d1 d2, performs l d d1 -> performs l d d2 -> d1 = d2.
Proof.
  induction l as [|[s x] l IH]; intros d d1 d2 H1 H2.
  - inversion H1; inversion H2; subst; reflexivity.
  - inversion H1 as [|? ? ? ? a ? E1 R1]; inversion H2 as [|? ? ? ? b ? E2 R2]; subst. rewrite E1 in E2. injection E2 as <-. eauto.
Qed.

(** The result of executing the script [l] from [d]: all of it, or a prefix. *)
Definition outcome (s : D) (l : list (text * cval)) (d : D) (r : conn D * option rexn) : Prop :=
  exists d1 done rest, l = done ++ rest /\ performs done d d1 /\ fst r = Conn s (Some d1) /\ (snd r = None -> rest = []).

Lemma outcome_nil s d : outcome s [] d (Conn s (Some d), None).
Proof. exists d, [], []. repeat split. constructor. Qed.

Lemma outcome_andthen s a b d r k :
  outcome s a d r -> (forall d1, performs a d d1 -> outcome s b d1 (k (Conn s (Some d1)))) ->
  outcome s (a ++ b) d (andthen r k).
Proof.
  intros (d1 & done & rest & E & P & F & N) K. destruct r as [c [e|]]; cbn in *; subst c.
  - exists d1, done, (rest ++ b). rewrite E, app_assoc. repeat split; [exact P|discriminate].
  - rewrite (N eq_refl), app_nil_r in E. subst done.
    destruct (K d1 P) as (d2 & done2 & rest2 & E2 & P2 & F2 & N2). exists d2, (a ++ done2), rest2.
    rewrite E2, app_assoc. repeat split; [exact (performs_app P P2)|exact F2|exact N2].
Qed.

Lemma outcome_execute s sql args d : outcome s [(sql, args)] d (raw_execute exec begins sql args (Conn s (Some d))).
Proof.
  unfold raw_execute. cbn. destruct (exec sql args d) as [d1|e] eqn:E.
  - exists d1, [(sql, args)], []. repeat split. econstructor; [exact E|constructor].
  - exists d, [], [(sql, args)]. repeat split; [constructor|discriminate].
Qed.

Lemma outcome_execute_all s l : forall d, outcome s (without_arguments l) d (execute_all l (Conn s (Some d))).
Proof.
  induction l as [|sql l IH]; intros d; [apply outcome_nil|].
  change (execute_all (sql :: l) (Conn s (Some d))) with
    (andthen (raw_execute exec begins sql (CArr []) (Conn s (Some d))) (execute_all l)).
  change (without_arguments (sql :: l)) with ([(sql, CArr [])] ++ without_arguments l).
  apply outcome_andthen; [apply outcome_execute|]. intros d1 _. apply IH.
Qed.

Lemma without_app a b : without_arguments (a ++ b) = without_arguments a ++ without_arguments b.
Proof. apply map_app. Qed.

Lemma outcome_snapshot s given d :
  outcome s (snapshot_script tables d (fst given)) d (recover_snapshot given (Conn s (Some d))) /\
  (snd (recover_snapshot given (Conn s (Some d))) = None -> snd given = None).
Proof.
  unfold RecoverModel.recover_snapshot, snapshot_script. cbn [view txn].
  set (names := filter _ (tables d)). set (ds := map drop_table names).
  assert (L : map (fun name => str "DROP TABLE '" ++ name ++ str "'") names = ds) by reflexivity. rewrite L.
  replace (filter (fun t => negb (startswith (str "CREATE TABLE") t || control t)) (fst given)) with (dml (fst given)).
  2: { apply filter_ext. intros t. change (is_transaction t) with (control t). unfold is_create. now destruct (startswith _ t). }
  assert (L2 : filter (startswith (str "CREATE TABLE")) (fst given) = ddl (fst given)) by reflexivity. rewrite L2.
  split.
  - assert (Q : without_arguments (ds ++ str "PRAGMA defer_foreign_keys = ON" :: ddl (fst given) ++ dml (fst given)) =
       without_arguments ds ++ [(defer_foreign_keys, CArr [])] ++ without_arguments (ddl (fst given)) ++ without_arguments (dml (fst given))).
    { rewrite without_app. f_equal. change (?x :: ?l) with ([x] ++ l) at 1. rewrite !without_app. reflexivity. }
    refine (eq_ind_r (fun x => outcome s x d _) _ Q). clear Q. apply outcome_andthen; [apply outcome_execute_all|]. intros d1 _.
    apply outcome_andthen; [apply outcome_execute|]. intros d2 _.
    apply outcome_andthen; [apply outcome_execute_all|]. intros d3 _.
    destruct (snd given) as [e|]; cbn.
    + exists d3, [], (without_arguments (dml (fst given))). repeat split; [constructor|discriminate].
    + apply outcome_execute_all.
  - intros H. do 3 match type of H with snd (andthen ?r _) = None => destruct r as [? [?|]]; [discriminate H|]; cbn [andthen] in H end.
    destruct (snd given); [discriminate H|reflexivity].
Qed.

Lemma execute_changes_checked l c : checked = true -> l <> [] -> execute_changes l c = (c, Some AssertionError).
Proof. intros E N. destruct l; [contradiction|]. cbn. unfold execute_change. now rewrite E. Qed.

Lemma outcome_changes s l : forall d, exists pre post sas d1,
  l = pre ++ post /\ Forall2 same_statement pre sas /\ performs sas d d1 /\
  fst (execute_changes l (Conn s (Some d))) = Conn s (Some d1) /\
  (snd (execute_changes l (Conn s (Some d))) = None -> post = []).
Proof.
  induction l as [|ch l IH]; intros d.
  - exists [], [], [], d. repeat split; constructor.
  - assert (Z : forall e, exists pre post sas d1, ch :: l = pre ++ post /\ Forall2 same_statement pre sas /\ performs sas d d1 /\
        fst (Conn s (Some d), Some e) = Conn s (Some d1) /\ (snd (Conn s (Some d), @Some rexn e) = None -> post = [])).
    { intros e. exists [], (ch :: l), [], d. repeat split; try constructor. discriminate. }
    cbn. destruct (execute_change exec begins checked ch (Conn s (Some d))) as [c o] eqn:E.
    unfold execute_change in E. destruct checked; [injection E as <- <-; apply Z|].
    destruct (statement ch) as [| |sql| | | | | |] eqn:S; try (injection E as <- <-; apply Z).
    unfold raw_execute in E. cbn in E. destruct (exec sql (arguments ch) d) as [d1|e] eqn:X; injection E as <- <-; [|apply Z].
    cbn [andthen]. destruct (IH d1) as (pre & post & sas & d2 & E & F & P & F2 & N).
    exists (ch :: pre), post, ((sql, arguments ch) :: sas), d2.
    repeat split; [cbn; now f_equal|constructor; [split; [exact S|reflexivity]|exact F]|econstructor; eauto|exact F2|exact N].
Qed.

(** What an import within a transaction can do. *)
Lemma import_cases s snapshot streams d :
  let r := import snapshot streams (Conn s (Some d)) in
  exists d1, fst r = Conn s (Some d1) /\
  ((d1 = d /\ snd r <> None) \/
   (exists statements x done rest, statements_from_snapshot snapshot = Ok (statements, x) /\
      snapshot_script tables d statements = done ++ rest /\ performs done d d1 /\ snd r <> None) \/
   (exists statements d2 changes pre post sas, statements_from_snapshot snapshot = Ok (statements, None) /\
      performs (snapshot_script tables d statements) d d2 /\
      replay_streams streams = Ok changes /\ changes = pre ++ post /\ Forall2 same_statement pre sas /\
      performs sas d2 d1 /\ (snd r = None -> post = []))).
Proof.
  intros r. unfold RecoverModel.import in r. destruct (statements_from_snapshot snapshot) as [[ts x]|e] eqn:S.
  2: { exists d. split; [reflexivity|]. left. split; [reflexivity|discriminate]. }
  pose proof (outcome_snapshot s (ts, x) d) as [(d1 & done & rest & E & P & F & N) G]. cbn [fst snd] in *.
  destruct (recover_snapshot (ts, x) (Conn s (Some d))) as [c [e|]]; cbn in F, N, G; subst c; cbn [andthen] in r.
  { exists d1. split; [reflexivity|]. right. left. exists ts, x, done, rest. repeat split; [exact E|exact P|discriminate]. }
  rewrite (N eq_refl), app_nil_r in E. rewrite (G eq_refl) in *. subst done.
  destruct (replay_streams streams) as [changes|e] eqn:R.
  2: { exists d1. split; [reflexivity|]. right. left. exists ts, None, (snapshot_script tables d ts), [].
       rewrite app_nil_r. repeat split; [exact P|discriminate]. }
  destruct (outcome_changes s changes d1) as (pre & post & sas & d2 & E2 & F2 & P2 & R2 & N2). exists d2. split; [exact R2|].
  right. right. exists ts, d1, changes, pre, post, sas. repeat split; assumption.
Qed.

(** * Transitions *)
Notation returned := (returned consistent).
Notation failed := (failed consistent).
Notation downloaded := (downloaded exec tables consistent begins checked).
Notation next := (next exec tables consistent begins checked).
Notation call_if_empty := (call_if_empty consistent occupied).
Notation begin_recovery := (begin_recovery consistent).
Notation process := (process D).

Definition over (p : process) : bool := match p_phase p with Over => true | _ => false end.

(** From [p] to [p1] these updates are sent to every client, and the connections
    are closed if the recovery is over. *)
Definition moved (p p1 : process) (sts : list rstate) : Prop :=
  p_clients p1 = p_clients p /\ p_cap p1 = p_cap p /\ p_sent p1 = p_sent p ++ sts /\
  p_out p1 = p_out p ++ flat_map (fun s => map (fun c => Update c s) (p_clients p)) sts ++
             (if over p1 then map Closed (p_clients p) else []).

Lemma moved_set s p p1 sts : moved (set_state s p) p1 sts -> moved p p1 (s :: sts).
Proof.
  intros (A & B & C & E). unfold moved in *. cbn in *. rewrite A, B, C, E. repeat split.
  - now rewrite <- app_assoc.
  - now rewrite <- !app_assoc.
Qed.
Lemma moved_disconnect p : moved p (disconnect p) [].
Proof. unfold moved, disconnect. cbn. rewrite app_nil_r. auto. Qed.
Lemma moved_err e p : moved p (err e p) [RState import_failed (Some e)].
Proof. apply moved_set, moved_disconnect. Qed.

(** A transaction that cannot be committed. *)
Definition uncommitted (c : conn D) : list rstate :=
  match snd (commit consistent c) with Some e => [RState import_failed (Some e)] | None => [] end.
Lemma moved_returned p : moved p (returned p) (uncommitted (p_conn p)).
Proof.
  unfold RecoverModel.returned, uncommitted. destruct (commit consistent (p_conn p)) as [c [e|]]; cbn [snd].
  - apply (moved_err e (with_conn c p)).
  - apply (moved_disconnect (with_conn c p)).
Qed.
Lemma moved_failed p : moved p (failed p) (RState download_failed (Some DownloadError) :: uncommitted (p_conn p)).
Proof. apply moved_set. exact (moved_returned (set_state _ p)). Qed.

Lemma returned_conn p : p_conn (returned p) = fst (commit consistent (p_conn p)).
Proof. unfold RecoverModel.returned. destruct (commit consistent (p_conn p)) as [c [e|]]; reflexivity. Qed.
Lemma returned_over p : p_phase (returned p) = Over.
Proof. unfold RecoverModel.returned. destruct (commit consistent (p_conn p)) as [c [e|]]; reflexivity. Qed.
Lemma commit_closed c : txn (fst (commit consistent c)) = None.
Proof. unfold commit. destruct c as [s [d|]]; cbn; [destruct (consistent d)|]; reflexivity. Qed.

Definition import_end (r : conn D * option rexn) : rstate :=
  match snd r with Some e => RState import_failed (Some e) | None => RState succeeded None end.
Lemma downloaded_eq snapshot streams p :
  downloaded snapshot streams p =
    let r := import snapshot streams (p_conn p) in
    returned (set_state (import_end r) (with_conn (fst r) p)).
Proof. unfold RecoverModel.downloaded, import_end. destruct (import snapshot streams (p_conn p)) as [c [e|]]; reflexivity. Qed.
Lemma moved_downloaded snapshot streams p :
  let r := import snapshot streams (p_conn p) in
  moved p (downloaded snapshot streams p) (import_end r :: uncommitted (fst r)).
Proof.
  intros r. rewrite downloaded_eq. fold r. cbv zeta. change (moved (with_conn (fst r) p) (returned (set_state (import_end r) (with_conn (fst r) p))) (import_end r :: uncommitted (fst r))).
  apply moved_set. exact (moved_returned (set_state (import_end r) (with_conn (fst r) p))).
Qed.

(** The stages by the time of each phase. *)
Definition s_started := RState started None.
Definition s_inspect := RState inspect_replica None.
Definition s_downloading := RState downloading None.
Inductive ending : list rstate -> list rstate -> Prop :=
| end_refused e : ending [] [RState import_failed (Some e)]
| end_listing e : ending [s_started; s_inspect] [RState download_failed (Some e)]
| end_download e : ending [s_started; s_inspect; s_downloading] [RState download_failed (Some e)]
| end_import e : ending [s_started; s_inspect; s_downloading] [RState import_failed (Some e)]
| end_success : ending [s_started; s_inspect; s_downloading] [RState succeeded None].

Definition good (p : process) : Prop :=
  match p_phase p with
  | Unstarted => txn (p_conn p) = None /\ r_stage (p_state p) = inactive /\ p_cap p = None /\ p_sent p = []
  | Listing => p_cap p <> None /\ p_sent p = [s_started; s_inspect]
  | GettingSnapshot _ | GettingStream _ _ _ => p_cap p <> None /\ p_sent p = [s_started; s_inspect; s_downloading]
  | Over => txn (p_conn p) = None /\ p_cap p <> None /\
      exists pre fin more, ending pre fin /\ p_sent p = pre ++ fin ++ more /\
        (more = [] \/ exists d e, consistent d = false /\ more = [RState import_failed (Some e)])
  end.

Lemma uncommitted_cases c : uncommitted c = [] \/ exists d e, consistent d = false /\ uncommitted c = [RState import_failed (Some e)].
Proof.
  unfold uncommitted, commit. destruct (txn c) as [d|]; [|now left]. destruct (consistent d) eqn:E; [now left|]. cbn. right. eauto.
Qed.

Lemma good_returned p pre s : p_cap p <> None -> p_sent p = pre -> ending pre [s] -> good (returned (set_state s p)).
Proof.
  intros C S E. unfold good. rewrite returned_over, returned_conn.
  destruct (moved_returned (set_state s p)) as (_ & C1 & S1 & _). rewrite C1, S1. cbn. rewrite S.
  split; [apply commit_closed|]. split; [exact C|].
  exists pre, [s], (uncommitted (p_conn p)). split; [exact E|]. split; [now rewrite <- app_assoc|]. apply uncommitted_cases.
Qed.

Lemma good_next snapshot got names p : p_cap p <> None -> p_sent p = [s_started; s_inspect; s_downloading] -> good (next snapshot got names p).
Proof.
  intros C S. destruct names as [|n names]; [|split; assumption]. cbn. rewrite downloaded_eq. cbv zeta.
  apply good_returned with (pre := [s_started; s_inspect; s_downloading]); [exact C|exact S|].
  unfold import_end. destruct (snd _); constructor.
Qed.

Lemma other_call_txn f c : txn c = None -> txn (other_call consistent f c) = None.
Proof.
  intros E. unfold other_call. rewrite E. destruct (f (stored c)); [|exact E]. cbn. destruct (consistent _); reflexivity.
Qed.

Lemma good_call_if_empty p : txn (p_conn p) = None -> r_stage (p_state p) = inactive -> p_cap p <> None -> p_sent p = [] ->
  good (call_if_empty p).
Proof.
  intros T I C S. unfold RecoverModel.call_if_empty. rewrite T.
  assert (Z : forall e, good (err e (with_conn (rollback (p_conn p)) p))).
  { intros e. unfold good. cbn. split; [reflexivity|]. split; [exact C|]. rewrite S. eexists [], _, []. split; [constructor|]. split; [reflexivity|now left]. }
  destruct (occupied (stored (p_conn p))) as [[|]|e]; [apply Z| |apply Z].
  unfold RecoverModel.begin_recovery. cbn. rewrite I. unfold good. cbn. split; [exact C|]. now rewrite S.
Qed.

Lemma good_step p e : good p -> good (step p e).
Proof.
  intros G. destruct e as [c cap|c|c|entries|content| |f]; cbn.
  - unfold initiate_recovery. cbn. destruct (p_cap p) as [cap1|] eqn:C.
    + unfold good in *. cbn. destruct (negb (cap1 =? cap)); cbn; exact G.
    + unfold good in G. destruct (p_phase p) eqn:P; try (destruct G as (? & ? & ?); congruence); try (destruct G; congruence).
      destruct G as (T & I & _ & S). apply good_call_if_empty; try assumption. discriminate.
  - unfold good in *. exact G.
  - unfold good in *. exact G.
  - destruct (p_phase p) eqn:P; try exact G. unfold good in *. rewrite P in G. destruct G as [C S]. cbn. split; [exact C|]. now rewrite S.
  - destruct (p_phase p) eqn:P; try exact G; unfold good in G; rewrite P in G; destruct G as [C S]; now apply good_next.
  - destruct (p_phase p) eqn:P; try exact G; unfold good in G; rewrite P in G; destruct G as [C S]; eapply good_returned; try eassumption; constructor.
  - unfold good in *. cbn. destruct (p_phase p); try exact G; (split; [apply other_call_txn, G|apply G]).
Qed.
Lemma good_new d : good (new_process d).
Proof. repeat split. Qed.
Lemma good_run es : forall p, good p -> good (run p es).
Proof. induction es as [|e es IH]; intros p G; [exact G|]. apply IH, good_step, G. Qed.

Lemma good_ended p : good p -> ended (p_sent p) = over p.
Proof.
  unfold good, over. destruct (p_phase p); intros G.
  - destruct G as (_ & _ & _ & ->). reflexivity.
  - destruct G as (_ & ->). reflexivity.
  - destruct G as (_ & ->). reflexivity.
  - destruct G as (_ & ->). reflexivity.
  - destruct G as (_ & _ & pre & fin & more & E & -> & _). unfold ended. rewrite !existsb_app.
    destruct E; cbn; now rewrite ?orb_true_r.
Qed.

Lemma good_moves_on p : good p -> (forall d, consistent d = true) -> moves_on (map r_stage (p_sent p)).
Proof.
  intros G C. unfold good in G.
  assert (A : moves_on (map r_stage [s_started; s_inspect; s_downloading])) by (repeat constructor; cbn; lia).
  destruct (p_phase p).
  - destruct G as (_ & _ & _ & ->). constructor.
  - destruct G as (_ & ->). repeat constructor; cbn; lia.
  - destruct G as (_ & ->). exact A.
  - destruct G as (_ & ->). exact A.
  - destruct G as (_ & _ & pre & fin & more & E & -> & [->|(d & e & X & _)]); [|rewrite C in X; discriminate X].
    destruct E; cbn; repeat constructor; cbn; lia.
Qed.

Lemma over_step p e : good p -> over p = true -> over (step p e) = true /\ p_sent (step p e) = p_sent p.
Proof.
  intros G O. unfold over in O. destruct (p_phase p) eqn:P; try discriminate O.
  unfold good in G. rewrite P in G. destruct G as (_ & C & _).
  destruct e; cbn; rewrite ?P; try (split; [unfold over; cbn; now rewrite P|reflexivity]).
  unfold initiate_recovery. cbn. destruct (p_cap p) as [cap1|]; [|congruence].
  destruct (negb (cap1 =? cap)); (split; [unfold over; cbn; now rewrite P|reflexivity]).
Qed.
Lemma over_run es : forall p, good p -> over p = true -> over (run p es) = true /\ p_sent (run p es) = p_sent p.
Proof.
  induction es as [|e es IH]; intros p G O; [auto|]. destruct (@over_step p e G O) as [O1 S1].
  destruct (IH _ (@good_step p e G) O1) as [O2 S2]. split; [exact O2|]. cbn. unfold RecoverModel.run in S2. rewrite S2. exact S1.
Qed.

(** * One client *)
Definition count (c : Z) (l : list Z) : nat := count_occ Z.eq_dec l c.

Lemma for_client_app c a b : for_client c (a ++ b) = for_client c a ++ for_client c b.
Proof. apply filter_app. Qed.
Lemma for_client_updates c s l : for_client c (map (fun x => Update x s) l) = repeat (Update c s) (count c l).
Proof.
  induction l as [|x l IH]; [reflexivity|]. cbn. unfold for_client in IH. destruct (Z.eq_dec x c) as [->|N].
  - rewrite Z.eqb_refl. cbn. now f_equal.
  - replace (x =? c) with false by lia. exact IH.
Qed.
Lemma for_client_closed c l : for_client c (map Closed l) = repeat (Closed c) (count c l).
Proof.
  induction l as [|x l IH]; [reflexivity|]. cbn. unfold for_client in IH. destruct (Z.eq_dec x c) as [->|N].
  - rewrite Z.eqb_refl. cbn. now f_equal.
  - replace (x =? c) with false by lia. exact IH.
Qed.

Lemma moved_client c p p1 sts : moved p p1 sts ->
  (count c (p_clients p) = 1%nat -> for_client c (p_out p1) = for_client c (p_out p) ++ map (Update c) sts ++ (if over p1 then [Closed c] else [])) /\
  (count c (p_clients p) = 0%nat -> for_client c (p_out p1) = for_client c (p_out p)).
Proof.
  intros (_ & _ & _ & E). rewrite E, !for_client_app.
  assert (X : for_client c (if over p1 then map Closed (p_clients p) else []) = if over p1 then repeat (Closed c) (count c (p_clients p)) else []).
  { destruct (over p1); [apply for_client_closed|reflexivity]. }
  rewrite X. clear X E. split; intros N; rewrite N.
  - f_equal. f_equal. induction sts as [|s sts IH]; [reflexivity|]. cbn [flat_map map]. rewrite for_client_app, for_client_updates, N, IH. reflexivity.
  - replace (for_client c (flat_map _ sts)) with (@nil output); [destruct (over p1); cbn; now rewrite app_nil_r|].
    induction sts as [|s sts IH]; [reflexivity|]. cbn [flat_map map]. rewrite for_client_app, for_client_updates, N. exact IH.
Qed.

Lemma count_remove c x l : x <> c -> count c (remove_first x l) = count c l.
Proof.
  intros N. induction l as [|y l IH]; [reflexivity|]. cbn. destruct (Z.eqb_spec x y) as [<-|M].
  - destruct (Z.eq_dec x c); [contradiction|reflexivity].
  - cbn. destruct (Z.eq_dec y c); [now f_equal|exact IH].
Qed.

Lemma moved_next snapshot got names p : exists sts, moved p (next snapshot got names p) sts.
Proof.
  destruct names as [|n names]; [eexists; apply moved_downloaded|]. exists []. unfold moved, over. cbn. rewrite !app_nil_r. auto.
Qed.
Lemma moved_call_if_empty p : txn (p_conn p) = None -> r_stage (p_state p) = inactive -> exists sts, moved p (call_if_empty p) sts.
Proof.
  intros T I. unfold RecoverModel.call_if_empty. rewrite T.
  assert (Z : forall e, exists sts, moved p (err e (with_conn (rollback (p_conn p)) p)) sts).
  { intros e. eexists. exact (moved_err e (with_conn (rollback (p_conn p)) p)). }
  destruct (occupied (stored (p_conn p))) as [[|]|e]; [apply Z| |apply Z].
  unfold RecoverModel.begin_recovery. cbn. rewrite I. eexists.
  unfold moved, over. cbn. split; [reflexivity|]. split; [reflexivity|]. split; [rewrite <- app_assoc; reflexivity|].
  cbn. rewrite !app_nil_r, <- app_assoc. reflexivity.
Qed.

(** A step that has nothing to do with the client. *)
Lemma step_client c p e : good p -> concerns c e = false ->
  let p1 := step p e in
  count c (p_clients p1) = count c (p_clients p) /\
  exists sts, p_sent p1 = p_sent p ++ sts /\
  (count c (p_clients p) = 1%nat -> for_client c (p_out p1) = for_client c (p_out p) ++ map (Update c) sts ++
      (if over p1 && negb (over p) then [Closed c] else [])) /\
  (count c (p_clients p) = 0%nat -> for_client c (p_out p1) = for_client c (p_out p)).
Proof.
  intros G N p1.
  assert (Same : forall p2, p_clients p2 = p_clients p -> p_sent p2 = p_sent p -> p_out p2 = p_out p -> over p2 = over p ->
    count c (p_clients p2) = count c (p_clients p) /\ exists sts, p_sent p2 = p_sent p ++ sts /\
    (count c (p_clients p) = 1%nat -> for_client c (p_out p2) = for_client c (p_out p) ++ map (Update c) sts ++ (if over p2 && negb (over p) then [Closed c] else [])) /\
    (count c (p_clients p) = 0%nat -> for_client c (p_out p2) = for_client c (p_out p))).
  { intros p2 E1 E2 E3 E4. rewrite E1, E2, E3, E4. split; [reflexivity|]. exists []. rewrite !app_nil_r. split; [reflexivity|].
    split; [intros _|auto]. replace (over p && negb (over p)) with false by now destruct (over p). now rewrite !app_nil_r. }
  assert (Moved : forall p2 sts, over p = false -> moved p p2 sts ->
    count c (p_clients p2) = count c (p_clients p) /\ exists sts, p_sent p2 = p_sent p ++ sts /\
    (count c (p_clients p) = 1%nat -> for_client c (p_out p2) = for_client c (p_out p) ++ map (Update c) sts ++ (if over p2 && negb (over p) then [Closed c] else [])) /\
    (count c (p_clients p) = 0%nat -> for_client c (p_out p2) = for_client c (p_out p))).
  { intros p2 sts O M. destruct (moved_client c M) as [M1 M0]. destruct M as (E1 & _ & E2 & _). rewrite E1. split; [reflexivity|].
    exists sts. split; [exact E2|]. rewrite O, andb_true_r. split; assumption. }
  assert (Other : forall o clients, (forall x, In x o -> match x with Update c1 _ | Closed c1 | Rejected c1 | Raised c1 => c1 <> c end) ->
    count c clients = count c (p_clients p) ->
    let p2 := with_out o (with_clients clients p) in
    count c (p_clients p2) = count c (p_clients p) /\ exists sts, p_sent p2 = p_sent p ++ sts /\
    (count c (p_clients p) = 1%nat -> for_client c (p_out p2) = for_client c (p_out p) ++ map (Update c) sts ++ (if over p2 && negb (over p) then [Closed c] else [])) /\
    (count c (p_clients p) = 0%nat -> for_client c (p_out p2) = for_client c (p_out p))).
  { intros o clients F K p2. assert (X : for_client c (p_out p2) = for_client c (p_out p)).
    { unfold p2. cbn [p_out with_out with_clients]. rewrite for_client_app. replace (for_client c o) with (@nil output); [apply app_nil_r|].
      symmetry. unfold for_client. rewrite (filter_ext_in _ (fun _ => false)); [clear; induction o; auto|].
      intros x Hx. specialize (F x Hx). destruct x; lia. }
    split; [exact K|]. exists []. rewrite X. change (over p2) with (over p). split; [symmetry; apply app_nil_r|]. split; [intros _|auto].
    replace (over p && negb (over p)) with false by now destruct (over p). now rewrite !app_nil_r. }
  assert (Add : forall c1, c1 <> c -> count c (p_clients p ++ [c1]) = count c (p_clients p)).
  { intros c1 X. unfold count. rewrite count_occ_app. cbn. destruct (Z.eq_dec c1 c); [contradiction|lia]. }
  destruct e as [c1 cap|c1|c1|entries|content| |f]; cbn in N; subst p1; cbn.
  - assert (X : c1 <> c) by lia. unfold initiate_recovery. cbn. destruct (p_cap p) as [cap1|] eqn:C.
    + destruct (negb (cap1 =? cap)).
      * apply Other; [intros x [<-|[]]; exact X|now apply Add].
      * apply Other; [|now apply Add]. intros x Hx. apply in_map_iff in Hx as (u & <- & _). exact X.
    + unfold good in G. destruct (p_phase p) eqn:P; try (destruct G as (? & ? & ?); congruence); try (destruct G; congruence).
      destruct G as (T & I & _ & S). set (p0 := with_cap (Some cap) (with_clients (p_clients p ++ [c1]) p)).
      destruct (@moved_call_if_empty p0 T I) as [sts M]. destruct (moved_client c M) as [M1 M0]. destruct M as (E1 & _ & E2 & _).
      cbn in E1. change (p_clients p0) with (p_clients p ++ [c1]) in M1, M0. rewrite (Add _ X) in M1, M0. rewrite E1, (Add _ X).
      split; [reflexivity|]. exists sts. split; [exact E2|]. assert (O : over p = false) by (unfold over; now rewrite P). rewrite O, andb_true_r.
      split; assumption.
  - change (with_out [Rejected c1] p) with (with_out [Rejected c1] (with_clients (p_clients p) p)).
    apply Other; [intros x [<-|[]]; lia|reflexivity].
  - assert (X : c1 <> c) by lia. pose proof (Other [] (remove_first c1 (p_clients p)) (fun x (F : In x []) => match F with end) (count_remove (p_clients p) X)) as Q.
    cbn in Q. rewrite app_nil_r in Q. exact Q.
  - destruct (p_phase p) eqn:P; try (apply Same; reflexivity).
    apply Moved with (sts := [s_downloading]); [unfold over; now rewrite P|]. unfold moved, over. cbn. rewrite !app_nil_r. auto.
  - destruct (p_phase p) eqn:P; try (apply Same; reflexivity);
      match goal with |- context [next ?a ?b ?n p] => destruct (moved_next a b n p) as [sts M] end;
      apply Moved with (sts := sts); [unfold over; now rewrite P|exact M|unfold over; now rewrite P|exact M].
  - destruct (p_phase p) eqn:P; try (apply Same; reflexivity);
      (eapply Moved; [unfold over; now rewrite P|apply moved_failed]).
  - exact (Same (with_conn (other_call consistent f (p_conn p)) p) eq_refl eq_refl eq_refl eq_refl).
Qed.

Lemma run_client c es : forall p, good p -> existsb (concerns c) es = false ->
  let p1 := run p es in
  count c (p_clients p1) = count c (p_clients p) /\
  exists sts, p_sent p1 = p_sent p ++ sts /\
  (count c (p_clients p) = 1%nat -> for_client c (p_out p1) = for_client c (p_out p) ++ map (Update c) sts ++
      (if over p1 && negb (over p) then [Closed c] else [])) /\
  (count c (p_clients p) = 0%nat -> for_client c (p_out p1) = for_client c (p_out p)).
Proof.
  induction es as [|e es IH]; intros p G N.
  - cbn. split; [reflexivity|]. exists []. rewrite !app_nil_r. split; [reflexivity|]. split; [intros _|auto].
    replace (over p && negb (over p)) with false by now destruct (over p). now rewrite !app_nil_r.
  - cbn in N. apply orb_false_iff in N as [N1 N2]. change (run p (e :: es)) with (run (step p e) es). cbv zeta.
    destruct (@step_client c p e G N1) as (K1 & sts1 & S1 & A1 & B1).
    destruct (IH _ (@good_step p e G) N2) as (K2 & sts2 & S2 & A2 & B2). split; [now rewrite K2|].
    exists (sts1 ++ sts2). split; [rewrite S2, S1; apply app_assoc_reverse|]. split.
    + intros X. rewrite A2 by (rewrite K1; exact X). rewrite (A1 X). rewrite map_app, <- !app_assoc. f_equal. f_equal.
      destruct (over (step p e)) eqn:O1.
      * destruct (@over_run es _ (@good_step p e G) O1) as [O2 S3]. rewrite O2. cbn [negb andb].
        rewrite S2 in S3. apply (f_equal (@length rstate)) in S3. rewrite app_length in S3.
        destruct sts2; [|cbn in S3; lia]. cbn. now rewrite app_nil_r.
      * destruct (over p) eqn:O; [destruct (@over_step p e G O); congruence|]. cbn [andb negb]. reflexivity.
    + intros X. rewrite B2 by (rewrite K1; exact X). now apply B1.
Qed.

(** The client joins. *)
Lemma ask_client c cap p : good p -> count c (p_clients p) = 0%nat -> p_cap p = None \/ p_cap p = Some cap ->
  let p1 := step p (Ask c cap) in
  count c (p_clients p1) = 1%nat /\
  for_client c (p_out p1) = for_client c (p_out p) ++ map (Update c) (p_sent p1) ++
      (if over p1 && negb (over p) then [Closed c] else []).
Proof.
  intros G K C. assert (K1 : count c (p_clients p ++ [c]) = 1%nat).
  { unfold count in *. rewrite count_occ_app. cbn. destruct (Z.eq_dec c c); [lia|contradiction]. }
  cbn. unfold initiate_recovery. cbn. destruct C as [C|C]; rewrite C.
  - unfold good in G. destruct (p_phase p) eqn:P; try (destruct G as (? & ? & ?); congruence); try (destruct G; congruence).
    destruct G as (T & I & _ & S). set (p0 := with_cap (Some cap) (with_clients (p_clients p ++ [c]) p)).
    destruct (@moved_call_if_empty p0 T I) as [sts M]. destruct (moved_client c M) as [M1 _]. destruct M as (E1 & _ & E2 & _).
    rewrite E1. split; [exact K1|]. rewrite (M1 K1), E2. cbn. rewrite S.
    assert (O : over p = false) by (unfold over; now rewrite P). now rewrite O, andb_true_r.
  - rewrite Z.eqb_refl. cbn [negb p_clients with_out with_clients p_out p_sent]. split; [exact K1|]. rewrite for_client_app.
    change (over (with_out (map (Update c) (p_sent p)) (with_clients (p_clients p ++ [c]) p))) with (over p).
    replace (over p && negb (over p)) with false by now destruct (over p). rewrite app_nil_r. f_equal.
    clear. induction (p_sent p) as [|u l IH]; [reflexivity|]. cbn. rewrite Z.eqb_refl. cbn. f_equal. exact IH.
Qed.

Lemma client_sees es1 es2 c cap d :
  existsb (concerns c) es1 = false -> existsb (concerns c) es2 = false ->
  let p1 := run (new_process d) es1 in
  let p := run (new_process d) (es1 ++ Ask c cap :: es2) in
  p_cap p1 = None \/ p_cap p1 = Some cap ->
  for_client c (p_out p) = map (Update c) (p_sent p) ++ (if over p && negb (over p1) then [Closed c] else []).
Proof.
  intros N1 N2 p1 p C. set (G1 := @good_run es1 _ (good_new d) : good p1).
  destruct (@run_client c es1 _ (good_new d) N1) as (K1 & _ & _ & _ & B1). specialize (B1 eq_refl).
  set (p2 := step p1 (Ask c cap)). destruct (@ask_client c cap p1 G1 K1 C) as (K2 & A2). fold p1 in B1. fold p2 in K2, A2.
  rewrite B1 in A2. change (for_client c (p_out (new_process d))) with (@nil output) in A2. cbn [app] in A2.
  assert (G2 : good p2) by now apply good_step.
  destruct (@run_client c es2 p2 G2 N2) as (K3 & sts & S3 & A3 & _). specialize (A3 K2).
  assert (E : p = run p2 es2). { unfold p, p2, p1, RecoverModel.run. rewrite fold_left_app. reflexivity. }
  rewrite <- E in *. rewrite A3, A2, S3, map_app, <- !app_assoc. f_equal.
  destruct (over p2) eqn:O2.
  - destruct (@over_run es2 p2 G2 O2) as [O3 S4]. rewrite <- E in *. rewrite O3. cbn [andb negb].
    rewrite S3 in S4. apply (f_equal (@length rstate)) in S4. rewrite app_length in S4.
    destruct sts; [|cbn in S4; lia]. cbn. now rewrite app_nil_r.
  - cbn [andb]. destruct (over p1) eqn:O1; [destruct (@over_step p1 (Ask c cap) G1 O1) as [X _]; fold p2 in X; congruence|]. reflexivity.
Qed.

(** * The wallet *)

(** After a refusal, or once a recovery is over, it has no part in what happens. *)
Lemma uses_over es : forall p, good p -> over p = true ->
  stored (p_conn (run p es)) = uses consistent es (stored (p_conn p)) /\ txn (p_conn (run p es)) = None.
Proof.
  induction es as [|e es IH]; intros p G O.
  - cbn. split; [reflexivity|]. unfold over in O. unfold good in G. destruct (p_phase p); try discriminate O. apply G.
  - change (run p (e :: es)) with (run (step p e) es). destruct (@over_step p e G O) as [O1 _].
    destruct (IH _ (@good_step p e G) O1) as [-> ->]. split; [|reflexivity].
    unfold over in O. unfold good in G. destruct (p_phase p) eqn:P; try discriminate O. destruct G as (T & C & _).
    destruct e as [c cap|c|c|entries|content| |f]; cbn; rewrite ?P; try reflexivity.
    + unfold initiate_recovery. cbn. destruct (p_cap p) as [cap1|]; [|congruence]. destruct (negb (cap1 =? cap)); reflexivity.
    + f_equal. unfold other_call. rewrite T. destruct (f (stored (p_conn p))) as [d1|e]; [|reflexivity]. cbn. now destruct (consistent d1).
Qed.

(** Histories in which nothing else uses the wallet. *)
Inductive result (d : D) (got : list bytes) : D -> list rstate -> Prop :=
| result_refused e : occupied d <> Ok false -> result d got d [RState import_failed (Some e)]
| result_download pre more : ending pre [RState download_failed (Some DownloadError)] -> more = uncommitted (Conn d (Some d)) ->
    result d got d (pre ++ RState download_failed (Some DownloadError) :: more)
| result_import snapshot streams r : In snapshot got -> Forall (fun b => In b got) streams -> occupied d = Ok false ->
    r = import snapshot streams (Conn d (Some d)) ->
    result d got (stored (fst (commit consistent (fst r)))) ([s_started; s_inspect; s_downloading; import_end r] ++ uncommitted (fst r)).

Definition inv (d : D) (got : list bytes) (p : process) : Prop :=
  match p_phase p with
  | Unstarted => p_conn p = Conn d None
  | Listing | GettingSnapshot _ => p_conn p = Conn d (Some d) /\ occupied d = Ok false
  | GettingStream snapshot gs _ => p_conn p = Conn d (Some d) /\ occupied d = Ok false /\
      In snapshot got /\ Forall (fun b => In b got) gs
  | Over => result d got (stored (p_conn p)) (p_sent p)
  end.

Lemma result_more d got got1 s l : incl got got1 -> result d got s l -> result d got1 s l.
Proof.
  intros I R. destruct R as [e O|pre more E M|snapshot streams r H1 H2 O R].
  - now constructor.
  - now constructor.
  - econstructor; [apply I, H1| |exact O|exact R]. eapply Forall_impl; [|exact H2]. intros b Hb. apply I, Hb.
Qed.
Lemma inv_more d got got1 p : incl got got1 -> inv d got p -> inv d got1 p.
Proof.
  intros I H. unfold inv in *. destruct (p_phase p); try exact H.
  - destruct H as (A & B & C & E). repeat split; [exact A|exact B|now apply I|]. eapply Forall_impl; [|exact E]. intros b Hb. apply I, Hb.
  - eapply result_more; eassumption.
Qed.

Definition contents (es : list (event D)) : list bytes := flat_map (fun e => match e with Got b => [b] | _ => [] end) es.

Lemma inv_returned d got p pre : p_conn p = Conn d (Some d) -> p_sent p = pre ->
  ending pre [RState download_failed (Some DownloadError)] -> inv d got (failed p).
Proof.
  intros C S E. unfold inv, RecoverModel.failed. rewrite returned_over, returned_conn. cbn [p_conn set_state].
  destruct (moved_failed p) as (_ & _ & S1 & _). unfold RecoverModel.failed in S1. rewrite S1, S, C.
  replace (stored (fst (commit consistent (Conn d (Some d))))) with d by (unfold commit; cbn; now destruct (consistent d)).
  now constructor.
Qed.
Lemma inv_next d got snapshot gs names p : p_conn p = Conn d (Some d) -> occupied d = Ok false ->
  p_sent p = [s_started; s_inspect; s_downloading] -> In snapshot got -> Forall (fun b => In b got) gs -> inv d got (next snapshot gs names p).
Proof.
  intros C O S H1 H2. destruct names as [|n names].
  2: { unfold inv. cbn. auto. }
  cbn. unfold inv. rewrite downloaded_eq. cbv zeta. rewrite returned_over, returned_conn. cbn [p_conn set_state with_conn].
  destruct (moved_downloaded snapshot gs p) as (_ & _ & S1 & _). rewrite downloaded_eq in S1. cbv zeta in S1. rewrite S1, S, C.
  change ([s_started; s_inspect; s_downloading] ++ ?a :: ?b) with ([s_started; s_inspect; s_downloading; a] ++ b).
  eapply result_import; eauto.
Qed.

Lemma inv_step d es p e : good p -> is_use e = false -> inv d (contents es) p -> inv d (contents (es ++ [e])) (step p e).
Proof.
  intros G U H. assert (I : incl (contents es) (contents (es ++ [e]))).
  { unfold contents. rewrite flat_map_app. apply incl_appl, incl_refl. }
  pose proof (@inv_more _ _ _ p I H) as H1. destruct e as [c cap|c|c|entries|content| |f]; cbn; try discriminate U.
  - unfold initiate_recovery. cbn. destruct (p_cap p) as [cap1|] eqn:C.
    + unfold inv in *. destruct (negb (cap1 =? cap)); cbn; exact H1.
    + unfold good in G. unfold inv in H1. destruct (p_phase p) eqn:P; try (destruct G as (? & ? & ?); congruence); try (destruct G; congruence).
      destruct G as (T & St & _ & S). unfold RecoverModel.call_if_empty. cbn. rewrite H1. cbn [txn stored].
      assert (Z : forall x, occupied d <> Ok false -> inv d (contents (es ++ [Ask c cap])) (err x (with_conn (rollback (Conn d None)) (with_cap (Some cap) (with_clients (p_clients p ++ [c]) p))))).
      { intros x O. unfold inv. cbn. rewrite S. now constructor. }
      destruct (occupied d) as [[|]|x] eqn:O; [apply Z; discriminate| |apply Z; discriminate].
      unfold RecoverModel.begin_recovery. cbn. rewrite St. unfold inv. cbn. auto.
  - exact H1.
  - exact H1.
  - unfold inv in H1. destruct (p_phase p) eqn:P; try (unfold inv; rewrite P; exact H1). unfold inv. cbn. exact H1.
  - unfold inv in H1. destruct (p_phase p) eqn:P; try (unfold inv; rewrite P; exact H1); unfold good in G; rewrite P in G; destruct G as [_ S].
    + destruct H1 as [A B]. apply inv_next; try assumption; [|constructor]. unfold contents. rewrite flat_map_app. apply in_or_app. right. now left.
    + destruct H1 as (A & B & F1 & F2). apply inv_next; try assumption. apply Forall_app. split; [exact F2|].
      constructor; [|constructor]. unfold contents. rewrite flat_map_app. apply in_or_app. right. now left.
  - unfold inv in H1. destruct (p_phase p) eqn:P; try (unfold inv; rewrite P; exact H1); unfold good in G; rewrite P in G; destruct G as [_ S];
      destruct H1 as [A B]; eapply inv_returned; try eassumption; constructor.
Qed.

Lemma inv_run es d : existsb (@is_use D) es = false -> inv d (contents es) (run (new_process d) es).
Proof.
  induction es as [|e es IH] using rev_ind; [reflexivity|]. intros U. rewrite existsb_app in U. apply orb_false_iff in U as [U1 U2].
  cbn in U2. rewrite orb_false_r in U2. unfold RecoverModel.run. rewrite fold_left_app. cbn.
  apply inv_step; [apply good_run, good_new|exact U2|now apply IH].
Qed.

(** * A complete recovery *)
Lemma execute_all_ok s l : forall d d1, performs (without_arguments l) d d1 ->
  execute_all l (Conn s (Some d)) = (Conn s (Some d1), None).
Proof.
  induction l as [|x l IH]; intros d d1 P; inversion P as [|? ? ? ? d2 ? E R]; subst; [reflexivity|].
  cbn. unfold execute, raw_execute. cbn. rewrite E. now apply IH.
Qed.
Lemma snapshot_ok s statements d d1 : performs (snapshot_script tables d statements) d d1 ->
  recover_snapshot (statements, None) (Conn s (Some d)) = (Conn s (Some d1), None).
Proof.
  intros P. destruct (outcome_snapshot s (statements, None) d) as [(d2 & done & rest & E & P2 & F & N) _]. cbn [fst] in *.
  destruct (recover_snapshot (statements, None) (Conn s (Some d))) as [c [e|]] eqn:R; cbn in F, N; subst c.
  2: { rewrite (N eq_refl), app_nil_r in E. subst done. f_equal. f_equal. f_equal. eapply performs_det; eassumption. }
  exfalso. clear E P2 N done rest. unfold snapshot_script in P. rewrite without_app in P. apply performs_split in P as (a & P1 & P2).
  unfold RecoverModel.recover_snapshot in R. cbn [view txn fst snd] in R.
  set (names := filter (fun n => negb (text_eqb n (str "sqlite_sequence"))) (tables d)) in *.
  rewrite (execute_all_ok s (map drop_table names) P1) in R. cbn [andthen] in R.
  inversion P2 as [|? ? ? ? b ? E P3]; subst. unfold execute at 1 in R. unfold raw_execute in R. cbn [txn] in R.
  unfold defer_foreign_keys in R. rewrite E in R. cbn [andthen stored] in R.
  change (map (fun sql => (sql, CArr [])) ?x) with (without_arguments x) in P3.
  fold (without_arguments (filter (startswith (str "CREATE TABLE")) statements ++ filter (fun s => negb (startswith (str "CREATE TABLE") s || control s)) statements)) in P3.
  rewrite without_app in P3. apply performs_split in P3 as (a2 & P4 & P5).
  rewrite (execute_all_ok s (ddl statements) P4) in R. cbn [andthen raising fst snd] in R.
  assert (Q : dml statements = filter (fun t => negb (startswith (str "CREATE TABLE") t || control t)) statements).
  { apply filter_ext. intros t. change (is_transaction t) with (control t). unfold is_create. now destruct (startswith _ t). }
  assert (P6 : performs (without_arguments (dml statements)) a2 d1) by (rewrite Q; exact P5).
  rewrite (execute_all_ok s (dml statements) P6) in R. discriminate R.
Qed.
Lemma changes_ok s l sas : checked = false -> Forall2 same_statement l sas -> forall d d1, performs sas d d1 ->
  execute_changes l (Conn s (Some d)) = (Conn s (Some d1), None).
Proof.
  intros K F. induction F as [|c [sql args] l sas [E1 E2] F IH]; intros d d1 P; [now rewrite (performs_none P)|].
  apply performs_inv in P as (d2 & E & R). assert (X : execute_change exec begins checked c (Conn s (Some d)) = (Conn s (Some d2), None)).
  { unfold execute_change. rewrite K, E1. cbn in E2. unfold raw_execute. cbn [fst txn]. now rewrite E2, E. }
  cbn. rewrite X. cbn. now apply IH.
Qed.

(** The whole history of a recovery that nothing interferes with. *)
Definition history (client cap : Z) (entries : list (text * entry)) (snapshot : bytes) (streams : list bytes) : list (event D) :=
  Ask client cap :: Listed entries :: map Got (snapshot :: streams).

Lemma run_streams snapshot : forall streams got names p, length streams = S (length names) ->
  p_phase p = GettingStream snapshot got names ->
  run p (map Got streams) = downloaded snapshot (got ++ streams) (with_phase (GettingStream snapshot (got ++ removelast streams) []) p).
Proof.
  induction streams as [|b streams IH]; intros got names p L P; [discriminate L|].
  cbn in L. injection L as L. cbn [map]. change (run p (Got b :: map Got streams)) with (run (step p (Got b)) (map Got streams)).
  cbn. rewrite P. destruct names as [|n names].
  - destruct streams; [|discriminate L]. cbn. rewrite app_nil_r. f_equal. rewrite <- P. now destruct p.
  - cbn [RecoverModel.next]. cbn in L. rewrite (IH (got ++ [b]) names) by (try exact L; reflexivity).
    destruct streams as [|b2 streams]; [discriminate L|]. rewrite <- !app_assoc. reflexivity.
Qed.

Lemma phase_irrelevant snapshot streams x p : downloaded snapshot streams (with_phase x p) = downloaded snapshot streams p.
Proof.
  rewrite !downloaded_eq. cbv zeta. cbn [p_conn with_phase]. unfold RecoverModel.returned, set_state, with_conn, err, disconnect, with_phase, with_out. cbn.
  destruct (commit _ _) as [c [e|]]; reflexivity.
Qed.

Lemma history_end d client cap entries snapshot streams :
  occupied d = Ok false -> (exists names, stream_files entries names /\ length streams = length names) ->
  exists p0, run (new_process d) (history client cap entries snapshot streams) = downloaded snapshot streams p0 /\
    p_conn p0 = Conn d (Some d) /\ p_sent p0 = [s_started; s_inspect; s_downloading] /\ p_clients p0 = [client] /\
    p_out p0 = map (Update client) (p_sent p0).
Proof.
  intros O (names0 & SF & L). apply stream_files_names in SF. rewrite <- SF in L. unfold history, RecoverModel.run. cbn [fold_left map].
  set (p2 := step (step (new_process d) (Ask client cap)) (Listed entries)).
  assert (F : p_conn p2 = Conn d (Some d) /\ p_sent p2 = [s_started; s_inspect; s_downloading] /\ p_clients p2 = [client] /\
    p_phase p2 = GettingSnapshot (stream_names entries) /\ p_out p2 = map (Update client) (p_sent p2)).
  { unfold p2. cbn. unfold initiate_recovery, RecoverModel.call_if_empty. cbn. rewrite O. cbn. auto. }
  destruct F as (F1 & F2 & F3 & F4 & F5). exists p2. split; [|auto].
  unfold p2 at 1. fold p2. cbn [RecoverModel.step]. rewrite F4. destruct (stream_names entries) as [|n names] eqn:N.
  - destruct streams; [|discriminate L]. reflexivity.
  - cbn [RecoverModel.next]. destruct streams as [|b streams]; [discriminate L|].
    change (fold_left ?f ?l ?x) with (run x l). rewrite (@run_streams snapshot (b :: streams) [] names) by (try exact L; reflexivity).
    cbn [app]. change (with_phase ?a (with_phase ?b ?q)) with (with_phase a q). apply phase_irrelevant.
Qed.
End Proofs.
