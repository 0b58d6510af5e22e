(** Recovery: C46, C47, C76. *)
From Verif Require Import Prelude PreludeFacts BytesModel CborModel CborProofs StreamModel StreamSpec StreamProofs RecoverModel RecoverSpec RecoverProofs.
From Coq Require Import Sorting.Sorted.
From Coq Require Strings.String.
Import Coq.Strings.String.StringSyntax.

Section Recovery.
Variable D : Type.
Variable exec : text -> cval -> D -> res rexn D.
Variable tables : D -> list text.
Variable consistent : D -> bool.
Variable begins : text -> bool.
Variable occupied : D -> res rexn bool.

(** The process after a history, with Python's assertions on or off. *)
Notation after checked d es := (run exec tables consistent begins occupied checked (new_process d) es).
Definition wallet (p : process D) : D := stored (p_conn p).
Definition stages (p : process D) : list stage := map r_stage (p_sent p).

(** * C46: the wallet *)

(** A wallet with vouchers: whatever came before that did not ask for a recovery,
    and whatever follows, the wallet is what the other calls alone make of it, and
    the client is told. *)
Theorem C46_refused_if_not_empty :
  forall checked d es1 client cap es2,
  let p1 := after checked d es1 in
  p_cap p1 = None -> occupied (wallet p1) = Ok true ->
  let p := after checked d (es1 ++ Ask client cap :: es2) in
  wallet p = uses consistent es2 (wallet p1) /\ p_sent p = [RState import_failed (Some NotEmpty)].
Proof.
  intros checked d es1 client cap es2 p1 C O p.
  assert (G1 : good consistent p1) by apply good_run, good_new.
  set (p2 := step exec tables consistent begins occupied checked p1 (Ask client cap)).
  assert (E : p = run exec tables consistent begins occupied checked p2 es2) by (unfold p, p2, p1, run; rewrite fold_left_app; reflexivity).
  assert (G2 : good consistent p2) by now apply good_step.
  assert (F : over p2 = true /\ stored (p_conn p2) = wallet p1 /\ p_sent p2 = [RState import_failed (Some NotEmpty)]).
  { unfold good in G1. unfold p2, wallet in *. cbn. unfold initiate_recovery. cbn. rewrite C.
    destruct (p_phase p1); try (destruct G1 as (? & ? & ?); congruence); try (destruct G1; congruence).
    destruct G1 as (T & I & _ & S). unfold call_if_empty. cbn. rewrite T, O. cbn. rewrite S. auto. }
  destruct F as (F1 & F2 & F3).
  destruct (@uses_over D exec tables consistent begins occupied checked es2 p2 G2 F1) as [U _].
  destruct (@over_run D exec tables consistent begins occupied checked es2 p2 G2 F1) as [_ S].
  rewrite E. unfold wallet at 1. rewrite U, F2, S, F3. auto.
Qed.

(** Partial: nothing else uses the wallet meanwhile.  Unless the import began the
    wallet is untouched at every moment, so also when the process is killed; on
    success it holds the result of the whole import.  Missing: after a failed import
    it is not as it was. *)
Theorem C46_all_or_nothing_partial :
  forall checked d es, existsb (@is_use D) es = false ->
  let p := after checked d es in
  (ended (p_sent p) = false -> wallet p = d) /\
  (In download_failed (stages p) -> wallet p = d) /\
  (occupied d <> Ok false -> wallet p = d) /\
  (last (stages p) inactive = succeeded ->
     exists snapshot streams statements changes sas d1,
       In (Got snapshot) es /\ Forall (fun b => In (Got b) es) streams /\
       statements_from_snapshot snapshot = Ok (statements, None) /\
       replay_streams streams = Ok changes /\ Forall2 same_statement changes sas /\
       performs exec (snapshot_script tables d statements) d d1 /\ performs exec sas d1 (wallet p)).
Proof.
  intros checked d es U p. pose proof (@inv_run D exec tables consistent begins occupied checked es d U) as H. fold p in H.
  assert (G : good consistent p) by apply good_run, good_new.
  pose proof (@good_ended D consistent p G) as EO.
  assert (InGot : forall b, In b (contents es) -> In (Got b) es).
  { intros b Hb. apply in_flat_map in Hb as (e & He & Hb). destruct e; cbn in Hb; try contradiction. destruct Hb as [<-|[]]. exact He. }
  assert (Idle : p_phase p <> Over -> wallet p = d /\ ~ In download_failed (stages p) /\ last (stages p) inactive <> succeeded).
  { intros N. unfold inv, good, wallet, stages in *. destruct (p_phase p); try contradiction.
    - destruct G as (_ & _ & _ & ->). rewrite H. cbn. split; [reflexivity|]. split; [tauto|discriminate].
    - destruct G as (_ & ->). destruct H as [-> _]. cbn. repeat split; [intuition discriminate|discriminate].
    - destruct G as (_ & ->). destruct H as [-> _]. cbn. repeat split; [intuition discriminate|discriminate].
    - destruct G as (_ & ->). destruct H as [-> _]. cbn. repeat split; [intuition discriminate|discriminate]. }
  destruct (p_phase p) eqn:P; try (destruct Idle as (I1 & I2 & I3); [discriminate|]; repeat split; intros; try exact I1; contradiction).
  clear Idle. assert (O : over p = true) by (unfold over; now rewrite P). rewrite EO, O.
  unfold inv in H. rewrite P in H. fold (wallet p) in H. unfold stages. split; [discriminate|].
  destruct H as [e N|pre more E M|snapshot streams r H1 H2 N R].
  - repeat split; intros; try reflexivity. cbn in *. discriminate.
  - repeat split; intros; try reflexivity. exfalso. subst more. rewrite map_app in H. cbn [map r_stage] in H.
    destruct (uncommitted_cases consistent (Conn d (Some d))) as [Z|(d1 & e1 & _ & Z)]; rewrite Z in H; cbn [map r_stage] in H.
    + rewrite last_last in H. discriminate H.
    + change ([download_failed; import_failed]) with ([download_failed] ++ [import_failed]) in H.
      rewrite app_assoc, last_last in H. discriminate H.
  - split.
    { intros X. exfalso. cbn in X. destruct X as [X|[X|[X|X]]]; try discriminate X. unfold import_end in X.
      destruct X as [X|X]; [destruct (snd r); discriminate X|].
      destruct (uncommitted_cases consistent (fst r)) as [Z|(d1 & e1 & _ & Z)]; rewrite Z in X; cbn in X; intuition discriminate. }
    split; [intros X; congruence|]. intros X.
    assert (S : snd r = None /\ uncommitted consistent (fst r) = []).
    { destruct (uncommitted_cases consistent (fst r)) as [Z|(d1 & e1 & _ & Z)]; rewrite Z in X; cbn in X; [|discriminate X].
      split; [|exact Z]. unfold import_end in X. destruct (snd r); [discriminate X|reflexivity]. }
    destruct S as [S1 S2]. destruct (@import_cases D exec tables begins checked d snapshot streams d) as (d1 & F & C).
    rewrite <- R in F, C. destruct C as [(_ & C)|[(? & ? & ? & ? & _ & _ & _ & C)|C]]; try contradiction.
    destruct C as (ts & d2 & changes & pre & post & sas & C1 & C2 & C3 & C4 & C5 & C6 & C7).
    rewrite (C7 S1), app_nil_r in C4. subst pre.
    exists snapshot, streams, ts, changes, sas, d2. repeat split; try assumption; [now apply InGot| |].
    + eapply Forall_impl; [|exact H2]. exact InGot.
    + unfold uncommitted, commit in S2. rewrite F in *. cbn in *. destruct (consistent d1); [exact C6|discriminate S2].
Qed.

(** What a failed import leaves: the result of a first part of the import. *)
Theorem C46_failed_import :
  forall checked d es, existsb (@is_use D) es = false ->
  let p := after checked d es in
  last (stages p) inactive = import_failed ->
  wallet p = d \/
  exists snapshot statements x, In (Got snapshot) es /\ statements_from_snapshot snapshot = Ok (statements, x) /\
    exists done rest, performs exec done d (wallet p) /\
      (done ++ rest = snapshot_script tables d statements \/ done = snapshot_script tables d statements ++ rest).
Proof.
  intros checked d es U p L. pose proof (@inv_run D exec tables consistent begins occupied checked es d U) as H. fold p in H.
  assert (G : good consistent p) by apply good_run, good_new.
  assert (InGot : forall b, In b (contents es) -> In (Got b) es).
  { intros b Hb. apply in_flat_map in Hb as (e & He & Hb). destruct e; cbn in Hb; try contradiction. destruct Hb as [<-|[]]. exact He. }
  unfold inv in H. fold (wallet p) in H. destruct (p_phase p) eqn:P.
  { left. unfold wallet. now rewrite H. }
  1, 2, 3: left; unfold wallet; destruct H as [H _]; now rewrite H.
  destruct H as [e N|pre more E M|snapshot streams r H1 H2 N R]; [now left|now left|].
  destruct (@import_cases D exec tables begins checked d snapshot streams d) as (d1 & F & C). rewrite <- R in F, C. rewrite F.
  unfold commit. cbn. destruct (consistent d1); [|now left]. cbn.
  destruct C as [(-> & _)|[(ts & x & done & rest & S & E & Pf & _)|(ts & d2 & changes & pre & post & sas & C1 & C2 & C3 & C4 & C5 & C6 & C7)]].
  - now left.
  - right. exists snapshot, ts, x. split; [now apply InGot|]. split; [exact S|]. exists done, rest. split; [exact Pf|]. left. now symmetry.
  - right. exists snapshot, ts, None. split; [now apply InGot|]. split; [exact C1|].
    exists (snapshot_script tables d ts ++ sas), sas. split; [eapply performs_app; eassumption|now right].
Qed.

(** A replica whose statements can all be executed is recovered, and success is
    reported, if it has no streams with changes or Python runs without assertions. *)
Theorem C46_success_is_reported :
  forall checked d client cap entries snapshot streams statements changes sas d1 d2,
  occupied d = Ok false -> (exists names, stream_files entries names /\ length streams = length names) ->
  statements_from_snapshot snapshot = Ok (statements, None) ->
  replay_streams streams = Ok changes -> Forall2 same_statement changes sas ->
  performs exec (snapshot_script tables d statements) d d1 -> performs exec sas d1 d2 ->
  consistent d2 = true ->
  checked = false \/ changes = [] ->
  let p := after checked d (history D client cap entries snapshot streams) in
  wallet p = d2 /\ txn (p_conn p) = None /\
  stages p = [started; inspect_replica; downloading; succeeded] /\
  p_out p = map (Update client) (p_sent p) ++ [Closed client].
Proof.
  intros checked d client cap entries snapshot streams ts changes sas d1 d2 O L S R F P1 P2 C K p.
  assert (X : import exec tables begins checked snapshot streams (Conn d (Some d)) = (Conn d (Some d2), None)).
  { unfold import. rewrite S. rewrite (@snapshot_ok D exec tables begins d ts d d1 P1). cbn [andthen]. rewrite R.
    destruct K as [K|K]; [eapply changes_ok; eassumption|]. subst changes. inversion F; subst sas. now rewrite (performs_none P2). }
  destruct (@history_end D exec tables consistent begins occupied checked d client cap entries snapshot streams O L) as (p0 & E & E1 & E2 & E3 & E4).
  assert (Ep : p = downloaded exec tables consistent begins checked snapshot streams p0) by exact E. clear E. rename Ep into E. clearbody p.
  pose proof (@moved_downloaded D exec tables consistent begins checked snapshot streams p0) as M. cbv zeta in M. rewrite <- E in M.
  rewrite E1, X in M. unfold uncommitted, commit in M. cbn in M. rewrite C in M. cbn in M.
  destruct M as (_ & _ & M3 & M4). rewrite E2 in M3. unfold wallet, stages.
  assert (Q : p_conn p = Conn d2 None /\ over p = true).
  { rewrite E, downloaded_eq. cbv zeta. rewrite E1, X. cbn [fst]. unfold over. rewrite returned_over, returned_conn. cbn. rewrite C. auto. }
  destruct Q as [Q1 Q2]. rewrite Q1, M3. repeat split.
  rewrite M4, Q2, E3, E4, E2. reflexivity.
Qed.

(** * C47: the stages *)

(** Partial: transactions can be committed.  Then whatever happens the stages come
    in their order, with at most one final stage, which is the last.  Missing: a
    recovery whose result breaks a foreign key. *)
Theorem C47_stages_move_on_partial :
  (forall d, consistent d = true) ->
  forall checked d es, moves_on (stages (after checked d es)).
Proof. intros C checked d es. apply good_moves_on with (consistent := consistent); [apply good_run, good_new|exact C]. Qed.

(** Nothing is sent after a final stage, however often and by whomever a recovery
    is asked for: there is at most one in the life of a process. *)
Theorem C47_nothing_follows_the_end :
  forall checked d es1 es2, ended (p_sent (after checked d es1)) = true ->
  p_sent (after checked d (es1 ++ es2)) = p_sent (after checked d es1).
Proof.
  intros checked d es1 es2 E. set (p1 := after checked d es1) in *.
  assert (G : good consistent p1) by apply good_run, good_new. rewrite (@good_ended D consistent p1 G) in E.
  replace (after checked d (es1 ++ es2)) with (run exec tables consistent begins occupied checked p1 es2)
    by (unfold run, p1; now rewrite fold_left_app).
  exact (proj2 (@over_run D exec tables consistent begins occupied checked es2 p1 G E)).
Qed.
Theorem C47_one_recovery :
  forall checked d es, (count_occ (fun a b : stage => ltac:(decide equality)) (stages (after checked d es)) started <= 1)%nat.
Proof.
  intros checked d es. assert (G : good consistent (after checked d es)) by apply good_run, good_new.
  unfold stages. unfold good in G. destruct (p_phase _); try (destruct G as (_ & ->); cbn; lia).
  - destruct G as (_ & _ & _ & ->). cbn. lia.
  - destruct G as (_ & _ & pre & fin & more & E & -> & [->|(? & ? & _ & ->)]); destruct E; cbn; lia.
Qed.

(** A client that asks with the capability of the recovery gets all the stages
    from the first to the last, whenever it comes, and its connection is closed after
    the last one if it came before. *)
Theorem C47_every_client_sees_all_stages :
  forall checked d es1 client cap es2,
  existsb (concerns client) es1 = false -> existsb (concerns client) es2 = false ->
  let p1 := after checked d es1 in
  let p := after checked d (es1 ++ Ask client cap :: es2) in
  p_cap p1 = None \/ p_cap p1 = Some cap ->
  for_client client (p_out p) =
    map (Update client) (p_sent p) ++
    (if ended (p_sent p) && negb (ended (p_sent p1)) then [Closed client] else []).
Proof.
  intros checked d es1 client cap es2 N1 N2 p1 p C.
  assert (G1 : good consistent p1) by apply good_run, good_new.
  assert (G : good consistent p) by apply good_run, good_new.
  rewrite (@good_ended D consistent p1 G1), (@good_ended D consistent p G). now apply client_sees.
Qed.

(** Refuted: that every client's connection is closed when the recovery is over.
    One that comes after the end is left waiting. *)
Theorem C47_late_client_is_disconnected_refuted :
  forall checked d es1 client cap es2,
  existsb (concerns client) es1 = false -> existsb (concerns client) es2 = false ->
  let p1 := after checked d es1 in
  p_cap p1 = Some cap -> ended (p_sent p1) = true ->
  for_client client (p_out (after checked d (es1 ++ Ask client cap :: es2))) = map (Update client) (p_sent p1).
Proof.
  intros checked d es1 client cap es2 N1 N2 p1 C E.
  pose proof (C47_every_client_sees_all_stages checked d es1 client cap es2 N1 N2 (or_intror C)) as H. cbv zeta in H. rewrite H.
  fold p1. rewrite E, andb_false_r, app_nil_r. f_equal. now apply C47_nothing_follows_the_end.
Qed.

(** * C76: what was changed after the snapshot *)

(** Refuted for every database: if the downloaded streams hold any change, the
    changes are not recovered and the recovery ends as failed, with the snapshot
    imported. *)
Theorem C76_changes_are_recovered_refuted :
  forall d client cap entries snapshot streams statements changes d1,
  occupied d = Ok false -> (exists names, stream_files entries names /\ length streams = length names) ->
  statements_from_snapshot snapshot = Ok (statements, None) ->
  performs exec (snapshot_script tables d statements) d d1 -> consistent d1 = true ->
  replay_streams streams = Ok changes -> changes <> [] ->
  let p := after true d (history D client cap entries snapshot streams) in
  p_sent p = [RState started None; RState inspect_replica None; RState downloading None; RState import_failed (Some AssertionError)] /\
  wallet p = d1.
Proof.
  intros d client cap entries snapshot streams ts changes d1 O L S P C R N p.
  assert (X : import exec tables begins true snapshot streams (Conn d (Some d)) = (Conn d (Some d1), Some AssertionError)).
  { unfold import. rewrite S. rewrite (@snapshot_ok D exec tables begins d ts d d1 P). cbn [andthen]. rewrite R.
    destruct changes; [contradiction|reflexivity]. }
  destruct (@history_end D exec tables consistent begins occupied true d client cap entries snapshot streams O L) as (p0 & E & E1 & E2 & E3 & E4).
  assert (Ep : p = downloaded exec tables consistent begins true snapshot streams p0) by exact E. clear E. rename Ep into E. clearbody p.
  pose proof (@moved_downloaded D exec tables consistent begins true snapshot streams p0) as M. cbv zeta in M. rewrite <- E in M.
  rewrite E1, X in M. unfold uncommitted, commit in M. cbn in M. rewrite C in M. cbn in M. destruct M as (_ & _ & M3 & _). rewrite E2 in M3.
  split; [exact M3|]. unfold wallet. rewrite E, downloaded_eq. cbv zeta. rewrite E1, X. cbn [fst]. rewrite returned_conn. cbn. now rewrite C.
Qed.

(** Partial: without assertions (python -O) they are. *)
Theorem C76_changes_are_recovered_partial :
  forall d client cap entries snapshot streams statements changes sas d1 d2,
  occupied d = Ok false -> (exists names, stream_files entries names /\ length streams = length names) ->
  statements_from_snapshot snapshot = Ok (statements, None) ->
  replay_streams streams = Ok changes -> Forall2 same_statement changes sas ->
  performs exec (snapshot_script tables d statements) d d1 -> performs exec sas d1 d2 ->
  consistent d2 = true ->
  let p := after false d (history D client cap entries snapshot streams) in
  wallet p = d2 /\ stages p = [started; inspect_replica; downloading; succeeded].
Proof.
  intros d client cap entries snapshot streams ts changes sas d1 d2 O L S R F P1 P2 C.
  pose proof (C46_success_is_reported false d client cap entries snapshot streams ts changes sas d1 d2 O L S R F P1 P2 C (or_introl eq_refl)) as H.
  cbv zeta in *. tauto.
Qed.
End Recovery.

Print Assumptions C46_refused_if_not_empty.
Print Assumptions C46_all_or_nothing_partial.
Print Assumptions C46_failed_import.
Print Assumptions C46_success_is_reported.
Print Assumptions C47_stages_move_on_partial.
Print Assumptions C47_nothing_follows_the_end.
Print Assumptions C47_one_recovery.
Print Assumptions C47_every_client_sees_all_stages.
Print Assumptions C47_late_client_is_disconnected_refuted.
Print Assumptions C76_changes_are_recovered_refuted.
Print Assumptions C76_changes_are_recovered_partial.

(** * A small database to show cases on *)

(** Tables with rows; a row is the statement that inserted it.  Rows of the table
    [orphans] break a constraint that is checked at the end of a transaction. *)
Definition mini : Type := list (text * list text).
Fixpoint until (stop : Z) (s : text) : text :=
  match s with [] => [] | c :: s' => if c =? stop then [] else c :: until stop s' end.
Fixpoint mini_get (name : text) (d : mini) : option (list text) :=
  match d with [] => None | (n, rows) :: d' => if text_eqb n name then Some rows else mini_get name d' end.
Definition mini_exec (sql : text) (args : cval) (d : mini) : res rexn mini :=
  if startswith (str "DROP TABLE '") sql then
    let name := until 39 (skipn 12 sql) in Ok (filter (fun t => negb (text_eqb (fst t) name)) d)
  else if startswith (str "PRAGMA") sql then Ok d
  else if startswith (str "CREATE TABLE [") sql then Ok (d ++ [(until 93 (skipn 14 sql), [])])
  else if startswith (str "INSERT INTO [") sql then
    let name := until 93 (skipn 13 sql) in
    match mini_get name d with
    | None => Err SqlError
    | Some _ => Ok (map (fun t => if text_eqb (fst t) name then (fst t, snd t ++ [sql]) else t) d)
    end
  else Err SqlError.
Definition mini_tables (d : mini) : list text := map fst d.
Definition mini_consistent (d : mini) : bool :=
  match mini_get (str "orphans") d with Some (_ :: _) => false | _ => true end.
Definition mini_begins (sql : text) : bool := startswith (str "INSERT") sql.
Definition mini_occupied (d : mini) : res rexn bool :=
  match mini_get (str "vouchers") d with
  | None => Err SqlError
  | Some [] => Ok false
  | Some _ => Ok true
  end.
Notation mini_run checked d es :=
  (run mini_exec mini_tables mini_consistent mini_begins mini_occupied checked (new_process d) es).

Definition no_vouchers : mini := [(str "vouchers", []); (str "tokens", [])].
Definition some_vouchers : mini := [(str "vouchers", [str "INSERT INTO [vouchers] VALUES ('mine')"]); (str "tokens", [])].
Definition add_voucher (d : mini) : res rexn mini := mini_exec (str "INSERT INTO [vouchers] VALUES ('new')") CNull d.
Definition bytes_of (r : res sexn bytes) : bytes := match r with Ok b => b | Err _ => [] end.

Definition good_statements : list text :=
  [str "BEGIN TRANSACTION;"; str "INSERT INTO [vouchers] VALUES ('old')"; str "CREATE TABLE [vouchers] (x)";
   str "CREATE TABLE [tokens] (x)"; str "COMMIT;"].
Definition good_snapshot : bytes := bytes_of (statements_to_snapshot good_statements).
Definition good_stream : bytes :=
  bytes_of (to_bytes [Change (CInt 4) (CText (str "INSERT INTO [tokens] VALUES (?)")) (CArr [CText (str "t")]) (CInt 1)]).
Definition ex_entries : list (text * entry) := [(str "snapshot", File 1 []); (str "event-stream-4", File 1 [])].

(** The snapshot holds a statement that fails. *)
Definition bad_snapshot : bytes :=
  bytes_of (statements_to_snapshot [str "CREATE TABLE [vouchers] (x)"; str "INSERT INTO [nowhere] VALUES (1)"]).

(** Refuted: a recovery that fails leaves the wallet as it was.  Here its tables
    are gone, and stay so: what was done before the failure is committed. *)
Theorem C46_failure_leaves_the_wallet_refuted :
  let p := mini_run true no_vouchers (history mini 1 7 [] bad_snapshot []) in
  map r_stage (p_sent p) = [started; inspect_replica; downloading; import_failed] /\
  txn (p_conn p) = None /\ stored (p_conn p) = [(str "vouchers", [])] /\ stored (p_conn p) <> no_vouchers.
Proof. repeat split; try (vm_compute; reflexivity). vm_compute. discriminate. Qed.

(** Refuted: only an empty wallet is ever recovered into.  While the replica is
    being downloaded a first call of the store fails and with it ends the transaction
    of the recovery; a second one stores a voucher; then the download is complete and
    the voucher is lost, although the recovery reports success. *)
Theorem C46_only_an_empty_wallet_refuted :
  let es1 := [Ask 1 7; Listed []; Use add_voucher; Use add_voucher] in
  let p1 := mini_run true no_vouchers es1 in
  let p := mini_run true no_vouchers (es1 ++ [Got good_snapshot]) in
  stored (p_conn p1) = [(str "vouchers", [str "INSERT INTO [vouchers] VALUES ('new')"]); (str "tokens", [])] /\
  mini_occupied (stored (p_conn p1)) = Ok true /\
  stored (p_conn p) = [(str "vouchers", [str "INSERT INTO [vouchers] VALUES ('old')"]); (str "tokens", [])] /\
  map r_stage (p_sent p) = [started; inspect_replica; downloading; succeeded].
Proof. repeat split; vm_compute; reflexivity. Qed.

(** Refuted: there is one final stage.  The constraint is checked after success has
    been reported. *)
Theorem C47_one_final_stage_refuted :
  let p := mini_run true no_vouchers (history mini 1 7 [] (bytes_of (statements_to_snapshot [str "CREATE TABLE [orphans] (x)"; str "INSERT INTO [orphans] VALUES (1)"])) []) in
  map r_stage (p_sent p) = [started; inspect_replica; downloading; succeeded; import_failed] /\
  stored (p_conn p) = no_vouchers.
Proof. split; vm_compute; reflexivity. Qed.

(** Refuted: a client that asks with another capability is turned away.  An
    exception is raised instead, and it gets the updates of the other recovery. *)
Theorem C47_other_capability_is_refused_refuted :
  let p := mini_run true no_vouchers [Ask 1 7; Ask 2 8; Listed []] in
  for_client 2 (p_out p) = [Raised 2; Update 2 (RState downloading None)].
Proof. vm_compute. reflexivity. Qed.
Print Assumptions C46_failure_leaves_the_wallet_refuted.
Print Assumptions C46_only_an_empty_wallet_refuted.
Print Assumptions C47_one_final_stage_refuted.
Print Assumptions C47_other_capability_is_refused_refuted.

Example C46_example :
  let p := mini_run true no_vouchers (history mini 1 7 [] good_snapshot []) in
  mini_occupied no_vouchers = Ok false /\
  statements_from_snapshot good_snapshot = Ok (good_statements, None) /\
  performs mini_exec (snapshot_script mini_tables no_vouchers good_statements) no_vouchers
    [(str "vouchers", [str "INSERT INTO [vouchers] VALUES ('old')"]); (str "tokens", [])] /\
  stored (p_conn p) = [(str "vouchers", [str "INSERT INTO [vouchers] VALUES ('old')"]); (str "tokens", [])] /\
  map r_stage (p_sent p) = [started; inspect_replica; downloading; succeeded].
Proof.
  repeat split; try (vm_compute; reflexivity).
  repeat (eapply performs_cons; [vm_compute; reflexivity|]). vm_compute. constructor.
Qed.
Example C46_refused_example :
  mini_occupied some_vouchers = Ok true /\
  stored (p_conn (mini_run true some_vouchers (history mini 1 7 [] good_snapshot []))) = some_vouchers.
Proof. split; vm_compute; reflexivity. Qed.
(** Three clients, one of them late. *)
Example C47_example :
  let es := [Ask 1 7; Ask 2 7; Listed []; Failed; Ask 3 7] in
  let p := mini_run true no_vouchers es in
  for_client 2 (p_out p) = map (Update 2) (p_sent p) ++ [Closed 2] /\
  for_client 3 (p_out p) = map (Update 3) (p_sent p) /\
  map r_stage (p_sent p) = [started; inspect_replica; downloading; download_failed].
Proof. repeat split; vm_compute; reflexivity. Qed.
Example C76_example :
  let p b := mini_run b no_vouchers (history mini 1 7 ex_entries good_snapshot [good_stream]) in
  (exists names, stream_files ex_entries names /\ length [good_stream] = length names) /\
  (exists c, replay_streams [good_stream] = Ok [c]) /\
  map r_stage (p_sent (p true)) = [started; inspect_replica; downloading; import_failed] /\
  mini_get (str "tokens") (stored (p_conn (p true))) = Some [] /\
  map r_stage (p_sent (p false)) = [started; inspect_replica; downloading; succeeded] /\
  mini_get (str "tokens") (stored (p_conn (p false))) = Some [str "INSERT INTO [tokens] VALUES (?)"].
Proof.
  split; [|split; [eexists; vm_compute; reflexivity|repeat split; vm_compute; reflexivity]].
  exists [str "event-stream-4"]. split; [|reflexivity]. unfold ex_entries.
  apply stream_files_other; [left; intros [rest H]; apply (f_equal (@hd Z 0)) in H; vm_compute in H; discriminate|].
  apply stream_files_stream; [exists (str "4"); vm_compute; reflexivity|apply stream_files_nil].
Qed.
