(** The replication model over the voucher store: the statements are those of
    [StoreModel], a transaction is a call on the store. *)
From Verif Require Import Prelude PreludeFacts StoreModel ReplicaModel ReplicaSpec ReplicaProofs ReplicaRunProofs.
Set Implicit Arguments.
Unset Strict Implicit.

(** Executing one row of a statement. *)
Definition sexec (m : mut) (d : db) : res exn db :=
  match exec_mut m d with Ok (_, d') => Ok d' | Err e => Err e end.

(** The transaction a call on the store runs (replicate.py:411-474 around
    model.py:240-263): the statements that succeeded, and whether the body
    returned. *)
Definition call_body (o : op) (d : db) : body mut :=
  map (fun im => Call (fst im) true (snd im)) (snd (StoreModel.run (op_prog o) d)).
Definition returns (o : op) (d : db) : bool :=
  match fst (fst (StoreModel.run (op_prog o) d)) with Ok _ => true | Err _ => false end.

(** A call on the store, a call on the store during which the process is killed
    right after the commit, or what replication or the process does. *)
Inductive wevent :=
| WCall (o : op)
| WCallKill (o : op)
| WOpen | WSetUp | WSetUpKill | WStart
| WDone (policy : bool) | WFail (applied : bool) | WKill (applied : bool).

Definition wevent_event (d : db) (e : wevent) : event mut :=
  match e with
  | WCall o => Txn (call_body o d) (returns o d)
  | WCallKill o => if returns o d then TxnKill (call_body o d) else Kill false
  | WOpen => Open | WSetUp => SetUp | WSetUpKill => SetUpKill | WStart => Start
  | WDone p => Done p | WFail a => Fail a | WKill a => Kill a
  end.

Section Store.
Variable text_size : mut -> Z.
Variable stream_size : list (change mut) -> Z.
Notation step := (ReplicaModel.step sexec restart text_size stream_size).
Notation run := (ReplicaModel.run sexec restart text_size stream_size).
Notation system := (ReplicaModel.system db mut).

Definition wstep (s : system) (e : wevent) : system := step s (wevent_event (n_db (fst s)) e).
Definition wrun (s : system) (es : list wevent) : system := fold_left wstep es s.
(** The same history in terms of transactions. *)
Fixpoint wevents (s : system) (es : list wevent) : list (event mut) :=
  match es with
  | [] => []
  | e :: rest => wevent_event (n_db (fst s)) e :: wevents (wstep s e) rest
  end.
Lemma wrun_run s es : wrun s es = run s (wevents s es).
Proof. revert s. induction es as [|e es IH]; intros s; [reflexivity|]. cbn. apply IH. Qed.
Lemma wevents_app s es1 es2 : wevents s (es1 ++ es2) = wevents s es1 ++ wevents (wrun s es1) es2.
Proof. revert s. induction es1 as [|e es1 IH]; intros s; [reflexivity|]. cbn. now rewrite IH. Qed.
Lemma wrun_app s es1 es2 : wrun s (es1 ++ es2) = wrun (wrun s es1) es2.
Proof. unfold wrun. apply fold_left_app. Qed.

(** The persistent tables are equal, and what is in use in one is in use in the
    other. *)
Definition same_tables (a b : db) : Prop :=
  vouchers a = vouchers b /\ tokens a = tokens b /\ unblinded a = unblinded b /\
  invalid a = invalid b /\ StoreModel.groups a = StoreModel.groups b /\ maint a = maint b.
Definition wsim (a b : db) : Prop :=
  same_tables a b /\ incl (in_use a) (in_use b) /\ to_discard a = to_discard b /\ to_reset a = to_reset b.
(** Between transactions. *)
Definition wok (d : db) : Prop := to_discard d = [] /\ to_reset d = [].

Lemma incl_filter f (l l' : list Z) : incl l l' -> incl (filter f l) (filter f l').
Proof. intros H x Hx. apply filter_In in Hx as [H1 H2]. apply filter_In. split; [now apply H|assumption]. Qed.

Lemma wfaithful : faithful sexec restart wsim wok.
Proof.
  constructor.
  - intros b [H1 H2]. split; [now repeat split|]. cbn. repeat split; try congruence. intros x [].
  - intros m a b b' ((E1 & E2 & E3 & E4 & E5 & E6) & Hu & Hd & Hr) Hx.
    unfold sexec in *. destruct a as [v1 t1 u1 i1 g1 m1 us1 di1 re1], b as [v2 t2 u2 i2 g2 m2 us2 di2 re2].
    cbn [vouchers tokens unblinded invalid StoreModel.groups maint in_use to_discard to_reset] in *. subst v1 t1 u1 i1 g1 m1 di1 re1.
    destruct m; cbn [exec_mut vouchers tokens unblinded invalid StoreModel.groups maint in_use to_discard to_reset] in *;
      try (injection Hx as <-; eexists; split; [reflexivity|];
           split; [now repeat split|]; split; [|split; reflexivity]; cbn;
           solve [exact Hu | apply incl_filter; exact Hu]).
    + destruct (memZ number (map v_number v2)); injection Hx as <-; eexists; (split; [reflexivity|]);
        (split; [now repeat split|]); (split; [exact Hu|split; reflexivity]).
    + destruct (memZ text (map t_text t2)); [discriminate|]. destruct (memZ voucher (map v_number v2)); [|discriminate].
      injection Hx as <-. eexists; (split; [reflexivity|]); (split; [now repeat split|]); (split; [exact Hu|split; reflexivity]).
    + destruct (memZ token (map u_token u2)); [discriminate|].
      injection Hx as <-. eexists; (split; [reflexivity|]); (split; [now repeat split|]); (split; [exact Hu|split; reflexivity]).
    + destruct (memZ token us2) eqn:M2; [discriminate|]. injection Hx as <-.
      assert (M1 : memZ token us1 = false).
      { destruct (memZ token us1) eqn:M1; [|reflexivity]. rewrite memZ_In in M1. apply Hu in M1.
        apply memZ_In in M1. congruence. }
      rewrite M1. eexists; (split; [reflexivity|]); (split; [now repeat split|]); (split; [|split; reflexivity]).
      cbn. intros x Hx. apply in_app_iff in Hx. apply in_app_iff. destruct Hx as [Hx|Hx]; [left; now apply Hu|now right].
    + destruct (memZ token (map fst i2)); [discriminate|].
      injection Hx as <-. eexists; (split; [reflexivity|]); (split; [now repeat split|]); (split; [exact Hu|split; reflexivity]).
  - intros b [H1 H2]. split; reflexivity.
Qed.

(** * Calls as transactions *)
Lemma exec_muts_rows ms d : exec_muts ms d = exec_rows sexec ms d.
Proof.
  revert d. induction ms as [|m ms IH]; intros d; [reflexivity|]. cbn. unfold sexec.
  destruct (exec_mut m d) as [[k d']|e]; [apply IH|reflexivity].
Qed.

Lemma run_rows {A} (p : prog A) d :
  exec_rows sexec (flat_map snd (snd (StoreModel.run p d))) d = Ok (snd (fst (StoreModel.run p d))).
Proof.
  revert d. induction p as [a|e|imp m k IH|imp ms k IH|k IH]; intros d; cbn; try reflexivity.
  - destruct (exec_mut m d) as [[n d']|e] eqn:E; [|reflexivity]. specialize (IH n d').
    destruct (StoreModel.run (k n) d') as [[r d''] rec] eqn:R. cbn in *. unfold sexec. now rewrite E.
  - destruct (exec_muts ms d) as [d'|e] eqn:E; [|reflexivity]. specialize (IH d').
    destruct (StoreModel.run k d') as [[r d''] rec] eqn:R. cbn in *. rewrite rows_app. rewrite <- exec_muts_rows, E. exact IH.
  - apply IH.
Qed.

(** What a call leaves in the open transaction. *)
Definition leaves (o : op) (d : db) : db := snd (fst (StoreModel.run (op_prog o) d)).

Lemma executed_call o d : executed (call_body o d) = flat_map snd (snd (StoreModel.run (op_prog o) d)).
Proof. unfold executed, call_body. induction (snd (StoreModel.run (op_prog o) d)) as [|[i ms] l IH]; cbn; [reflexivity|now rewrite IH]. Qed.
Lemma mutating_call o d : mutating (call_body o d) = executed (call_body o d).
Proof. unfold mutating, executed, call_body. induction (snd (StoreModel.run (op_prog o) d)) as [|[i ms] l IH]; cbn; [reflexivity|now rewrite IH]. Qed.
Lemma call_rows o d : exec_rows sexec (executed (call_body o d)) d = Ok (leaves o d).
Proof. rewrite executed_call. apply run_rows. Qed.
Lemma call_honest o d : honest sexec (call_body o d).
Proof. unfold honest, call_body. rewrite Forall_forall. intros c Hc. apply in_map_iff in Hc as (im & <- & _). discriminate. Qed.
Lemma call_read_only o d : read_only (call_body o d) -> call_body o d = [].
Proof.
  unfold read_only, call_body. destruct (snd (StoreModel.run (op_prog o) d)); [reflexivity|].
  cbn. intros H. inversion H as [|x y H1 H2]. discriminate.
Qed.
Lemma leaves_step o d : o <> ORestart -> snd (StoreModel.step d o) = if returns o d then leaves o d else d.
Proof.
  intros N. unfold returns, leaves. destruct o; try congruence; cbn [StoreModel.step]; unfold with_cursor;
    destruct (StoreModel.run _ _) as [[[x|e] d'] rec]; reflexivity.
Qed.

(** * Between transactions the scratch tables are empty. *)
Definition scratch (m : mut) : bool := match m with InsToDiscard _ | InsToReset _ => true | _ => false end.

Lemma sexec_wok m d d' : scratch m = false -> sexec m d = Ok d' -> wok d -> wok d'.
Proof.
  unfold sexec. intros N H [H1 H2]. destruct m; try discriminate N; cbn [exec_mut] in H;
    repeat match type of H with context [if ?c then _ else _] => destruct c end;
    try discriminate H; injection H as <-; split; cbn; solve [assumption|reflexivity].
Qed.
Lemma rows_wok ms d d' : existsb scratch ms = false -> exec_rows sexec ms d = Ok d' -> wok d -> wok d'.
Proof.
  revert d. induction ms as [|m ms IH]; intros d; cbn; [intros _ [= <-]; auto|].
  intros N. apply orb_false_iff in N as [N1 N2]. destruct (sexec m d) as [d1|e] eqn:E; [|discriminate].
  intros H W. exact (IH _ N2 H (sexec_wok N1 E W)).
Qed.

Lemma no_scratch {A} (f : A -> mut) (l : list A) : (forall x, scratch (f x) = false) -> existsb scratch (map f l) = false.
Proof. intros H. induction l as [|x l IH]; [reflexivity|]. cbn. now rewrite H, IH. Qed.

(** The statements of every other call are not scratch. *)
Inductive unscratched {A} : prog A -> Prop :=
| US_ret a : unscratched (Ret a)
| US_raise e : unscratched (Raise e)
| US_mut i m k : scratch m = false -> (forall n, unscratched (k n)) -> unscratched (Mut i m k)
| US_many i ms k : existsb scratch ms = false -> unscratched k -> unscratched (Many i ms k)
| US_qry k : (forall d, unscratched (k d)) -> unscratched (Qry k).

Lemma unscratched_pmap {A B} (f : A -> B) p : unscratched p -> unscratched (pmap f p).
Proof. induction 1; cbn; constructor; auto. Qed.

Lemma unscratched_run {A} (p : prog A) d : unscratched p -> wok d -> wok (snd (fst (StoreModel.run p d))).
Proof.
  intros U. revert d. induction U as [a|e|i m k Hm U IH|i ms k Hm U IH|k U IH]; intros d W; cbn; try exact W.
  - destruct (exec_mut m d) as [[n d']|e] eqn:E; [|exact W].
    assert (E' : sexec m d = Ok d') by (unfold sexec; now rewrite E).
    specialize (IH n d' (sexec_wok Hm E' W)). destruct (StoreModel.run (k n) d') as [[r d''] rec]. exact IH.
  - destruct (exec_muts ms d) as [d'|e] eqn:E; [|exact W]. rewrite exec_muts_rows in E.
    specialize (IH d' (rows_wok Hm E W)). destruct (StoreModel.run k d') as [[r d''] rec]. exact IH.
  - now apply IH.
Qed.

Lemma discards toks d d' : exec_muts (map InsToDiscard toks) d = Ok d' -> to_reset d' = to_reset d.
Proof. revert d. induction toks as [|t toks IH]; intros d; cbn; [now intros [= <-]|]. intros E. apply IH in E. exact E. Qed.
Lemma resets toks d d' : exec_muts (map InsToReset toks) d = Ok d' -> to_discard d' = to_discard d.
Proof. revert d. induction toks as [|t toks IH]; intros d; cbn; [now intros [= <-]|]. intros E. apply IH in E. exact E. Qed.

Lemma returns_wok o d : returns o d = true -> wok d -> wok (leaves o d).
Proof.
  unfold returns, leaves. intros R W.
  assert (G : unscratched (op_prog o) -> wok (snd (fst (StoreModel.run (op_prog o) d)))) by (intros U; now apply unscratched_run).
  destruct o; cbn [op_prog] in *.
  5: { cbn in *. destruct (exec_muts (map InsToDiscard toks) d) as [d'|e] eqn:E; [|discriminate]. cbn. split; [reflexivity|].
    cbn. rewrite (discards E). exact (proj2 W). }
  6: { cbn in *. destruct (exec_muts (map InsToReset toks) d) as [d'|e] eqn:E; [|discriminate]. cbn. split; [|reflexivity].
    cbn. rewrite (resets E). exact (proj1 W). }
  all: try (apply G; apply unscratched_pmap; clear).
  - constructor. intros d. destruct (filter _ _); repeat (constructor; intros); solve [reflexivity|now apply no_scratch].
  - constructor; [reflexivity|]. intros g. constructor; [reflexivity|]. intros k. destruct (k =? 0); [constructor|].
    constructor. intros d. destruct (filter _ _); constructor; [now apply no_scratch|]. constructor; [reflexivity|]. intros. constructor.
  - constructor; [reflexivity|]. intros k. destruct (k =? 0); constructor.
  - unfold get_unblinded_tokens. destruct (count >? _); [constructor|]. constructor. intros d.
    destruct (_ <? count); constructor; [now apply no_scratch|constructor].
  - constructor; [now apply no_scratch|]. constructor; [reflexivity|]. intros. constructor; [reflexivity|]. intros. constructor.
  - constructor. intros d. destruct (filter _ _); [constructor|]. unfold lift. destruct (from_row _); constructor.
  - constructor. intros d. unfold lift. destruct (map_res _ _); constructor.
  - constructor. intros d. constructor.
  - constructor. intros d. constructor.
  - constructor; [reflexivity|]. intros. constructor.
  - unfold maint_observe. destruct (PricingModel.required_passes _ _); [|constructor]. destruct rowid; constructor; [reflexivity|]. intros. constructor.
  - unfold maint_finish. destruct rowid; constructor; [reflexivity|]. intros. constructor.
  - constructor. intros d. constructor.
  - exact W.
Qed.

(** * Wallet histories *)
Notation base := (@base db mut).

Lemma transaction_fields b o n :
  let n' := transaction sexec restart text_size b o n in
  n_observing n' = n_observing n /\
  (forall d, exec_rows sexec (executed b) (n_db n) = Ok d -> n_db n' = if o then d else n_db n).
Proof.
  unfold transaction. destruct (run_body sexec (n_replicating n) b (n_db n)) as [rec [d|e]] eqn:R.
  - destruct o; [|split; reflexivity].
    assert (G : n_observing (committed restart text_size rec d n) = n_observing n /\ n_db (committed restart text_size rec d n) = d).
    { unfold committed, signal. cbn [n_mutations with_mutations]. destruct (n_mutations n ++ rec) as [|m ms]; [split; reflexivity|].
      cbn [n_observing with_mutations with_db]. destruct (n_observing n) eqn:Ob; [|now split].
      unfold observed. destruct (add_events _ _ _ _) as [l' seq']. destruct (should_upload_eventstream _ _); [|now split].
      match goal with |- context [queue_job restart JEvents ?m] => destruct (queue_job_shape restart JEvents m) as (js & w & -> & _) end.
      now split. }
    destruct G as [G1 G2]. split; [exact G1|]. intros d' Hd. rewrite G2. pose proof (run_body_commits Hd R). congruence.
  - split; [reflexivity|]. intros d Hd. pose proof (run_body_commits Hd R). discriminate.
Qed.

Lemma call_db o n : n_db (transaction sexec restart text_size (call_body o (n_db n)) (returns o (n_db n)) n) =
  if returns o (n_db n) then leaves o (n_db n) else n_db n.
Proof. apply (proj2 (transaction_fields _ _ n)). apply call_rows. Qed.

Lemma run_body_call rep o d : snd (run_body sexec rep (call_body o d) d) = Ok (leaves o d).
Proof.
  destruct (run_body sexec rep (call_body o d) d) as [rec x] eqn:R. exact (run_body_commits (call_rows o d) R).
Qed.

Lemma wok_step s e : wok (n_db (fst s)) -> wok (n_db (fst (wstep s e))).
Proof.
  destruct s as [n r]. cbn [fst]. intros W. unfold wstep. cbn [fst].
  destruct e as [o|o| | | | |p|a|a]; cbn [wevent_event ReplicaModel.step].
  - destruct (n_up n); [|exact W]. cbn [fst]. rewrite call_db. destruct (returns o (n_db n)) eqn:R; [now apply returns_wok|exact W].
  - destruct (returns o (n_db n)) eqn:R; [|exact W]. cbn [ReplicaModel.step]. destruct (n_up n); [|exact W].
    pose proof (run_body_call (n_replicating n) o (n_db n)) as H. destruct (run_body _ _ _ _) as [rec x]. cbn in H. subst x.
    cbn. now apply returns_wok.
  - destruct (n_up n); [exact W|]. split; reflexivity.
  - destruct (n_up n && negb (n_setup n)); [|exact W]. cbn [fst]. now rewrite started_db.
  - destruct (n_up n && negb (n_setup n)); exact W.
  - destruct (n_up n && n_setup n && negb (n_observing n)); [|exact W]. cbn [fst]. now rewrite started_db.
  - cbn [fst]. now rewrite carry_on_db.
  - destruct (n_work n); exact W.
  - exact W.
Qed.
Lemma wok_run s es : wok (n_db (fst s)) -> wok (n_db (fst (wrun s es))).
Proof. revert s. induction es as [|e es IH]; intros s W; [exact W|]. cbn. apply IH. now apply wok_step. Qed.

(** Without replication the database goes through the same contents as the
    store of [StoreModel]. *)
Fixpoint store_ops (s : system) (es : list wevent) : list op :=
  match es with
  | [] => []
  | e :: rest =>
      match e with
      | WCall ORestart => []
      | WCall o => if n_up (fst s) then [o] else []
      | WCallKill ORestart => []
      | WCallKill o => if n_up (fst s) && returns o (n_db (fst s)) then [o] else []
      | WOpen => if n_up (fst s) then [] else [ORestart]
      | _ => []
      end ++ store_ops (wstep s e) rest
  end.
Lemma steps_app d os1 os2 : snd (steps d (os1 ++ os2)) = snd (steps (snd (steps d os1)) os2).
Proof.
  revert d. induction os1 as [|o os1 IH]; intros d; [reflexivity|]. cbn. destruct (StoreModel.step d o) as [x d1].
  specialize (IH d1). destruct (steps d1 (os1 ++ os2)) as [a b]. destruct (steps d1 os1) as [a' b']. cbn in *. exact IH.
Qed.
Lemma steps_one d o : snd (steps d [o]) = snd (StoreModel.step d o).
Proof. cbn. now destruct (StoreModel.step d o). Qed.

Lemma wrun_store s es : n_db (fst (wrun s es)) = snd (steps (n_db (fst s)) (store_ops s es)).
Proof.
  revert s. induction es as [|e es IH]; intros s; [reflexivity|]. cbn [wrun fold_left store_ops].
  change (fold_left wstep es (wstep s e)) with (wrun (wstep s e) es). rewrite IH, steps_app. f_equal. f_equal. clear IH es.
  destruct s as [n r]. unfold wstep. cbn [fst].
  destruct e as [o|o| | | | |p|a|a]; cbn [wevent_event ReplicaModel.step].
  - assert (N : o = ORestart \/ o <> ORestart) by (destruct o; auto; right; discriminate).
    destruct N as [->|N].
    + destruct (n_up n); [|reflexivity]. cbn [fst]. rewrite call_db. reflexivity.
    + replace (match o with ORestart => [] | _ => if n_up n then [o] else [] end) with (if n_up n then [o] else []) by (now destruct o).
      destruct (n_up n); [|reflexivity]. cbn [fst]. now rewrite call_db, steps_one, leaves_step.
  - assert (N : o = ORestart \/ o <> ORestart) by (destruct o; auto; right; discriminate).
    destruct N as [->|N].
    + cbn. destruct (n_up n); reflexivity.
    + replace (match o with ORestart => [] | _ => if n_up n && returns o (n_db n) then [o] else [] end)
        with (if n_up n && returns o (n_db n) then [o] else []) by (now destruct o).
      destruct (returns o (n_db n)) eqn:R; [|cbn [ReplicaModel.step fst]; rewrite andb_false_r; reflexivity].
      cbn [ReplicaModel.step]. destruct (n_up n); [|reflexivity]. cbn [andb].
      pose proof (run_body_call (n_replicating n) o (n_db n)) as H. destruct (run_body _ _ _ _) as [rec x]. cbn in H. subst x.
      rewrite steps_one, leaves_step by assumption. rewrite R. reflexivity.
  - destruct (n_up n); reflexivity.
  - destruct (n_up n && negb (n_setup n)); [|reflexivity]. cbn [fst]. now rewrite started_db.
  - destruct (n_up n && negb (n_setup n)); reflexivity.
  - destruct (n_up n && n_setup n && negb (n_observing n)); [|reflexivity]. cbn [fst]. now rewrite started_db.
  - cbn [fst]. now rewrite carry_on_db.
  - destruct (n_work n); reflexivity.
  - reflexivity.
Qed.

(** Nothing goes wrong with replication: calls return or write nothing, the
    process does not end once replication is set up and no upload fails.  The
    exception for the very first snapshot is explained at C42. *)
Definition writes_nothing (o : op) (d : db) : Prop := snd (StoreModel.run (op_prog o) d) = [].
Definition wcalm (s : system) (e : wevent) : Prop :=
  let '(n, _) := s in
  match e with
  | WCall o => (n_replicating n = true -> returns o (n_db n) = true \/ writes_nothing o (n_db n)) /\
               (first_snapshot n -> writes_nothing o (n_db n))
  | WCallKill _ | WKill _ => n_setup n = false
  | WSetUpKill | WFail _ => False
  | _ => True
  end.
Fixpoint wall_along (P : system -> wevent -> Prop) (s : system) (es : list wevent) : Prop :=
  match es with [] => True | e :: rest => P s e /\ wall_along P (wstep s e) rest end.

Lemma writes_nothing_body o d : writes_nothing o d -> call_body o d = [].
Proof. unfold writes_nothing, call_body. now intros ->. Qed.

(** Once set up it is observing. *)
Definition attentive n : Prop := n_setup (n : node db mut) = true -> n_observing n = true.

Lemma carry_on_observing p r (n : node db mut) : n_observing (carry_on restart p r n) = n_observing n.
Proof.
  assert (T : forall js n', n_observing (take_jobs restart js n') = n_observing (n' : node db mut)) by
    (intros js n'; now destruct (take_jobs_shape restart js n') as (w & js' & -> & _)).
  assert (J : forall j n', n_observing (append_job j n') = n_observing (n' : node db mut)) by
    (intros j n'; now destruct (append_job_shape j n') as (js' & -> & _)).
  unfold carry_on. destruct (n_work n); try reflexivity.
  - rewrite T. destruct (r_snapshot r); [destruct (should_upload_eventstream _ _)|]; now rewrite ?J.
  - now rewrite T, J.
  - destruct (filter _ _); [apply T|reflexivity].
  - destruct (tl names); [apply T|reflexivity].
  - rewrite T. destruct p; now rewrite ?J.
Qed.
Lemma started_observing (n : node db mut) : n_observing (started restart stream_size n) = true.
Proof. unfold started. match goal with |- context [take_jobs _ ?l ?m] => now destruct (take_jobs_shape restart l m) as (w & js & -> & _) end. Qed.

Lemma wcalm_attentive s e : base (fst s) (snd s) -> wcalm s e -> attentive (fst s) -> attentive (fst (wstep s e)).
Proof.
  destruct s as [n r]. cbn [fst snd]. intros HB HC HA. unfold wstep, attentive in *. cbn [fst].
  destruct e as [o|o| | | | |p|a|a]; cbn [wevent_event ReplicaModel.step wcalm] in *; try contradiction.
  - destruct (n_up n); [|exact HA]. cbn [fst].
    rewrite (proj1 (transaction_fields _ _ n)), (proj2 (transaction_flags _ _ _ _ _ _)). exact HA.
  - destruct (returns o (n_db n)); cbn [ReplicaModel.step fst]; [|cbn; congruence].
    destruct (n_up n); [|exact HA]. destruct (run_body _ _ _ _) as [rec [d|x]]; cbn; congruence.
  - destruct (n_up n) eqn:Up; [exact HA|]. cbn. intros Hs. specialize (HA Hs).
    destruct HB as (_ & _ & _ & _ & _ & _ & _ & F5 & _). destruct (F5 HA). congruence.
  - destruct (n_up n && negb (n_setup n)); [|exact HA]. cbn [fst]. intros _. apply started_observing.
  - destruct (n_up n && n_setup n && negb (n_observing n)); [|exact HA]. cbn [fst]. intros _. apply started_observing.
  - cbn [fst]. rewrite carry_on_observing, (proj2 (carry_on_flags _ _ _ _)). exact HA.
  - cbn. congruence.
Qed.

Lemma wcalm_calm s es :
  base (fst s) (snd s) -> wok (n_db (fst s)) -> attentive (fst s) -> wall_along wcalm s es ->
  all_along sexec restart text_size stream_size (calm sexec wok) s (wevents s es).
Proof.
  revert s. induction es as [|e es IH]; intros s HB HW HA HC; [exact I|]. destruct HC as [He HC]. cbn [wevents all_along].
  split.
  - destruct s as [n r]. cbn [fst snd] in *. destruct HB as (_ & _ & _ & Hf). destruct Hf as (F1 & F2 & F3 & F4 & F5 & F6 & F7).
    assert (Rp : n_replicating n = true -> n_observing n = true).
    { intros H. apply HA. destruct (n_up n) eqn:Up; [now rewrite <- F4|]. destruct (F6 eq_refl). congruence. }
    destruct e as [o|o| | | | |p|a|a]; cbn [wevent_event calm wcalm] in *; try contradiction; try exact I; try exact He.
    + destruct He as [H1 H2]. destruct (returns o (n_db n)) eqn:R.
      * split; [apply call_honest|]. split; [exists (leaves o (n_db n)); split; [apply call_rows|now apply returns_wok]|].
        split; [left; now apply Rp|]. intros X. rewrite (writes_nothing_body (H2 X)). constructor.
      * intros X. destruct (H1 X) as [Y|Y]; [discriminate|]. rewrite (writes_nothing_body Y). constructor.
    + destruct (returns o (n_db n)) eqn:R; [|exact He]. split; [exact He|]. intros d Hd. rewrite call_rows in Hd.
      injection Hd as <-. now apply returns_wok.
  - apply IH.
    + apply (@base_step _ _ sexec restart text_size stream_size s); exact HB.
    + now apply wok_step.
    + now apply wcalm_attentive.
    + exact HC.
Qed.

Lemma wevents_prefix s es l1 l2 :
  wevents s es = l1 ++ l2 -> exists es1 es2, es = es1 ++ es2 /\ l1 = wevents s es1.
Proof.
  revert s l1. induction es as [|e es IH]; intros s l1; cbn.
  - intros E. symmetry in E. apply app_eq_nil in E as [-> ->]. now exists [], [].
  - destruct l1 as [|x l1].
    + intros _. now exists [], (e :: es).
    + cbn. intros [= <- E]. apply IH in E as (es1 & es2 & -> & ->). now exists (e :: es1), es2.
Qed.

Definition empty_wallet : system := new_system mut empty_db.
Definition wallet_was (es : list wevent) (b : db) : Prop :=
  exists es1 es2, es = es1 ++ es2 /\ n_db (fst (wrun empty_wallet es1)) = b.

Lemma was_at es b : at_some_time sexec restart text_size stream_size empty_wallet (wevents empty_wallet es) b -> wallet_was es b.
Proof.
  intros (l1 & l2 & E & H). apply wevents_prefix in E as (es1 & es2 & -> & ->).
  exists es1, es2. split; [reflexivity|]. now rewrite wrun_run.
Qed.

Lemma wbase es : base (fst (wrun empty_wallet es)) (snd (wrun empty_wallet es)).
Proof. rewrite wrun_run. apply base_reach. Qed.

Definition wrecovers (es : list wevent) : Prop :=
  forall n r s, wrun empty_wallet es = (n, r) -> r_snapshot r = Some s ->
  exists a b, recover sexec r = Ok a /\ wallet_was es b /\ same_tables a b /\
              exists a', replay sexec (n_log n) a = Ok a' /\ same_tables a' (n_db n).

Lemma recovers_w es : recovers sexec restart text_size stream_size wsim empty_wallet (wevents empty_wallet es) -> wrecovers es.
Proof.
  intros H n r s E Hs. rewrite wrun_run in E. destruct (H n r s E Hs) as (a & b & H1 & H2 & H3 & a' & H4 & H5).
  exists a, b. split; [exact H1|]. split; [now apply was_at|]. split; [exact (proj1 H3)|]. exists a'. split; [exact H4|exact (proj1 H5)].
Qed.

Definition wrecovers_sim (es : list wevent) : Prop :=
  forall n r s, wrun empty_wallet es = (n, r) -> r_snapshot r = Some s ->
  exists a b, recover sexec r = Ok a /\ wallet_was es b /\ wsim a b /\
              exists a', replay sexec (n_log n) a = Ok a' /\ wsim a' (n_db n).

Lemma recovers_w_sim es : recovers sexec restart text_size stream_size wsim empty_wallet (wevents empty_wallet es) -> wrecovers_sim es.
Proof.
  intros H n r s E Hs. rewrite wrun_run in E. destruct (H n r s E Hs) as (a & b & H1 & H2 & H3 & H4).
  exists a, b. split; [exact H1|]. split; [now apply was_at|]. now split.
Qed.

Lemma wallet_recovers_sim es :
  wall_along wcalm empty_wallet es -> ~ pruning (n_work (fst (wrun empty_wallet es))) -> wrecovers_sim es.
Proof.
  intros HC NP. apply recovers_w_sim. apply (calm_recovers wfaithful).
  - split; reflexivity.
  - apply wcalm_calm; [apply base_new|split; reflexivity|discriminate|exact HC].
  - now rewrite <- wrun_run.
Qed.

Lemma wallet_recovers es :
  wall_along wcalm empty_wallet es -> ~ pruning (n_work (fst (wrun empty_wallet es))) -> wrecovers es.
Proof.
  intros HC NP. apply recovers_w. apply (calm_recovers wfaithful).
  - split; reflexivity.
  - apply wcalm_calm; [apply base_new|split; reflexivity|discriminate|exact HC].
  - now rewrite <- wrun_run.
Qed.

Lemma wallet_heals es1 es2 n r q :
  wrun empty_wallet es1 = (n, r) ->
  n_work n = SendingSnapshot q (restart (n_db n)) -> q = match n_seq n with Some x => x | None => 1 end ->
  n_mutations n = [] -> wall_along wcalm (n, r) es2 ->
  ~ pruning (n_work (fst (wrun empty_wallet (es1 ++ es2)))) ->
  (forall q' s', n_work (fst (wrun empty_wallet (es1 ++ es2))) <> SendingSnapshot q' s') ->
  wrecovers (es1 ++ es2).
Proof.
  intros E Wk Eq Hm HC NP NS. apply recovers_w. rewrite wrun_run in NP, NS. rewrite wevents_app in *. rewrite E in *.
  pose proof (wbase es1) as HB. rewrite E in HB. cbn [fst snd] in HB.
  assert (HW : wok (n_db n)). { pose proof (@wok_run empty_wallet es1 (conj eq_refl eq_refl)) as H. now rewrite E in H. }
  eapply (snapshot_heals wfaithful (q := q)).
  - rewrite <- wrun_run. exact E.
  - exact HW.
  - exact Wk.
  - exact Eq.
  - exact Hm.
  - apply wcalm_calm; auto.
    intros _. destruct HB as (_ & _ & _ & Hf). destruct Hf as (_ & _ & F3 & _). cbn [fst]. apply F3. rewrite Wk. discriminate.
  - exact NP.
  - exact NS.
Qed.

(** As [wcalm], or the process ends or an upload fails before the operation has
    taken effect and while no old streams are being removed; it is started
    again with no token in use, and nothing is written before the service
    has been started. *)
Definition wharmless (s : system) (e : wevent) : Prop :=
  let '(n, _) := s in
  match e with
  | WCall o => (n_replicating n = true -> returns o (n_db n) = true \/ writes_nothing o (n_db n)) /\
               (n_replicating n = true -> n_observing n = true \/ writes_nothing o (n_db n)) /\
               (first_snapshot n -> writes_nothing o (n_db n))
  | WCallKill o => n_setup n = false \/ writes_nothing o (n_db n) /\ ~ pruning (n_work n)
  | WKill false | WFail false => ~ pruning (n_work n)
  | WKill true => n_setup n = false
  | WFail true => False
  | WOpen => n_up n = false -> n_setup n = false \/ in_use (n_db n) = []
  | _ => True
  end.

Lemma wrestartable : restartable restart wsim wok (fun d => in_use d = []).
Proof.
  intros a b [O1 O2] St (H1 & H2 & H3 & H4). split; [exact H1|]. cbn. rewrite St in H2. split; [exact H2|]. split; congruence.
Qed.

Lemma wharmless_harmless s es :
  base (fst s) (snd s) -> wok (n_db (fst s)) -> wall_along wharmless s es ->
  all_along sexec restart text_size stream_size (harmless sexec wok (fun d => in_use d = [])) s (wevents s es).
Proof.
  revert s. induction es as [|e es IH]; intros s HB HW HC; [exact I|]. destruct HC as [He HC]. cbn [wevents all_along].
  split.
  - destruct s as [n r]. cbn [fst snd] in *. pose proof HB as (_ & _ & _ & Hf). destruct Hf as (F1 & F2 & F3 & F4 & F5 & F6 & F7).
    destruct e as [o|o| | | | |p|a|a]; cbn [wevent_event harmless calm wharmless] in *; try contradiction; try exact I; try exact He.
    + destruct He as (H1 & H2 & H3). destruct (returns o (n_db n)) eqn:R.
      * split; [apply call_honest|]. split; [exists (leaves o (n_db n)); split; [apply call_rows|now apply returns_wok]|].
        split.
        -- intros X. destruct (H2 X) as [Y|Y]; [now left|right]. rewrite (writes_nothing_body Y). constructor.
        -- intros X. rewrite (writes_nothing_body (H3 X)). constructor.
      * intros X. destruct (H1 X) as [Y|Y]; [discriminate|]. rewrite (writes_nothing_body Y). constructor.
    + destruct (returns o (n_db n)) eqn:R.
      * split.
        -- destruct He as [He|[He NP]]; [now left|right]. rewrite (writes_nothing_body He).
           split; [constructor|]. split; [constructor|exact NP].
        -- intros d Hd. rewrite call_rows in Hd. injection Hd as <-. now apply returns_wok.
      * destruct He as [He|[_ NP]]; [|exact NP]. intros Pr. assert (NS : n_work n <> Stopped) by (destruct (n_work n); try discriminate; destruct Pr).
        destruct (F3 NS) as [_ Ob]. destruct (F5 Ob). congruence.
  - apply IH.
    + apply (@base_step _ _ sexec restart text_size stream_size s); exact HB.
    + now apply wok_step.
    + exact HC.
Qed.

Lemma wallet_harmless es :
  wall_along wharmless empty_wallet es -> ~ pruning (n_work (fst (wrun empty_wallet es))) -> wrecovers es.
Proof.
  intros HC NP. apply recovers_w. eapply (harmless_recovers wfaithful).
  - split; reflexivity.
  - exact wrestartable.
  - apply wharmless_harmless; [apply base_new|split; reflexivity|exact HC].
  - now rewrite <- wrun_run.
Qed.
End Store.

(** * Which calls are important *)
Fixpoint unimportant {A} (p : prog A) : Prop :=
  match p with
  | Ret _ | Raise _ => True
  | Mut i m k => i = false /\ forall n, unimportant (k n)
  | Many i ms k => i = false /\ unimportant k
  | Qry k => forall d, unimportant (k d)
  end.
Lemma unimportant_run {A} (p : prog A) : unimportant p -> forall d i ms,
  In (i, ms) (snd (StoreModel.run p d)) -> i = false.
Proof.
  induction p as [a|e|i m k IH|i ms k IH|k IH]; intros U d i' ms' H; cbn in *; try contradiction.
  - destruct U as [-> U]. destruct (exec_mut m d) as [[n d']|e]; [|destruct H].
    specialize (IH n (U n) d' i' ms').
    destruct (StoreModel.run (k n) d') as [[r d''] rec]. cbn in *. destruct H as [[= <- _]|H]; auto.
  - destruct U as [-> U]. destruct (exec_muts ms d) as [d'|e]; [|destruct H].
    specialize (IH U d' i' ms').
    destruct (StoreModel.run k d') as [[r d''] rec]. cbn in *. destruct H as [[= <- _]|H]; auto.
  - exact (IH d (U d) d i' ms' H).
Qed.
Lemma unimportant_pmap {A B} (f : A -> B) (p : prog A) : unimportant p -> unimportant (pmap f p).
Proof. induction p; cbn; intuition. Qed.

Lemma others_unimportant o d i ms : (forall v e c toks now, o <> OAdd v e c toks now) ->
  In (i, ms) (snd (StoreModel.run (op_prog o) d)) -> i = false.
Proof.
  intros N. apply unimportant_run. destruct o; try exact I; cbn [op_prog]; try apply unimportant_pmap.
  - exfalso. now apply (N voucher expected counter new_tokens now).
  - cbn. split; [reflexivity|]. intros g. split; [reflexivity|]. intros n. destruct (n =? 0); [exact I|].
    cbn. intros d0. destruct (filter _ _); cbn; auto.
  - cbn. split; [reflexivity|]. intros n. destruct (n =? 0); exact I.
  - unfold get_unblinded_tokens. destruct (_ >? _); [exact I|]. cbn. intros d0. destruct (_ <? _); cbn; auto.
  - cbn. auto.
  - cbn. auto.
  - cbn. auto.
  - unfold get. cbn. intros d0. destruct (filter _ _) as [|r ?]; [exact I|]. destruct (from_row r); exact I.
  - unfold list_vouchers. cbn. intros d0. destruct (map_res from_row (vouchers d0)); exact I.
  - cbn. auto.
  - cbn. auto.
  - cbn. auto.
  - unfold maint_observe. destruct (PricingModel.required_passes _ _); [|exact I]. destruct rowid; cbn; auto.
  - unfold maint_finish. destruct rowid; cbn; auto.
  - cbn. auto.
Qed.

(** A call of [add] that changes something. *)
Lemma add_changes v e c toks now d :
  let o := OAdd v e c toks now in
  returns o d = true -> snd (StoreModel.step d o) <> d ->
  executed (call_body o d) = InsVoucherIgnore v e now :: map (InsToken v c) toks /\
  valuable (call_body o d) = true /\
  exec_rows sexec (executed (call_body o d)) d = Ok (snd (StoreModel.step d o)).
Proof.
  intros o Hr Ch.
  assert (L : exec_rows sexec (executed (call_body o d)) d = Ok (snd (StoreModel.step d o))).
  { rewrite call_rows, leaves_step by discriminate. now rewrite Hr. }
  split; [|split; [|exact L]]; clear L.
  all: unfold returns in Hr; unfold StoreModel.step, with_cursor in Ch; unfold executed, valuable, call_body.
  all: unfold o in *; cbn [op_prog] in *; unfold add in *; cbn [pmap StoreModel.run] in *.
  all: destruct (filter _ (tokens d)) as [|t ts]; [|cbn in Ch; congruence].
  all: cbn [pmap StoreModel.run] in *.
  all: destruct (exec_mut (InsVoucherIgnore v e now) d) as [[k d1]|x]; [|discriminate Hr].
  all: destruct (exec_muts (map (InsToken v c) toks) d1) as [d2|x]; [|discriminate Hr].
  - cbn. now rewrite app_nil_r.
  - reflexivity.
Qed.
