(** The serialised replica: C44, C45 (file names), C74, C75. *)
From Verif Require Import Prelude PreludeFacts BytesModel BytesProofs CborModel CborProofs StreamModel StreamSpec StreamProofs.
From Coq Require Import Sorting.Sorted.
From Coq Require Strings.String.
Import Coq.Strings.String.StringSyntax.

(** * C44: event streams *)

(** Decoding gives back the changes, whatever follows the stream in the file. *)
Theorem C44_round_trip :
  forall s data rest, Forall real_change s -> to_bytes s = Ok data -> from_bytes (data ++ rest) = Ok s.
Proof. exact round_trip. Qed.

(** Encoding fails for nothing a database can hold: only for invalid Unicode and
    for lengths beyond 64 bits. *)
Theorem C44_encoding_succeeds :
  forall s, Forall real_change s -> Forall writable_change s -> lenN s < 2 ^ 64 ->
  exists data, to_bytes s = Ok data.
Proof. exact to_bytes_ok. Qed.

(** What is written to the event log for a statement comes back unchanged, through
    the log, the stream object and its decoding. *)
Theorem C44_arguments_survive_log_and_stream :
  forall events rows data,
  Forall (fun e => Forall sql_value (snd (fst e))) events ->
  Forall2 (fun e row => let '(n, sql, args, imp) := e in log_event n sql args imp = Ok row) events rows ->
  (s <- get_events rows ;; to_bytes s) = Ok data ->
  from_bytes data =
    Ok (map (fun e => let '(n, sql, args, imp) := e in
                      Change (CInt n) (CText sql) (CArr args) (CInt (Z.b2z imp))) events).
Proof.
  intros events rows data F H.
  set (g := fun e : Z * text * list cval * bool => let '(n, sql, args, imp) := e in Change (CInt n) (CText sql) (CArr args) (CInt (Z.b2z imp))).
  assert (G : get_events rows = Ok (map g events)).
  { induction H as [|[[[n sql] args] imp] row events rows E H IH]; [reflexivity|].
    inversion F as [|? ? F1 F2]; subst. cbn in F1.
    change (get_events ([row] ++ rows) = Ok ([g (n, sql, args, imp)] ++ map g events)). apply get_events_app; [|exact (IH F2)]. eapply log_round_trip; eassumption. }
  rewrite G. cbn [bind]. intros E.
  assert (R : Forall real_change (map g events)).
  { apply Forall_map. eapply Forall_impl; [|exact F]. intros [[[n sql] args] imp] S. cbn in S.
    split; [eexists; reflexivity|]. split; [eexists; reflexivity|]. split; [exists args; split; [reflexivity|exact S]|].
    exists imp. right. reflexivity. }
  pose proof (round_trip [] R E) as T. now rewrite app_nil_r in T.
Qed.

Lemma map_get_under k l v : map_get k l = Some v <-> under l k v.
Proof.
  revert v. induction l as [|[c x] l IH]; intros v.
  - split; [discriminate|]. intros (l1 & l2 & E & _). destruct l1; discriminate.
  - assert (More : under l k v -> under ((c, x) :: l) k v).
    { intros (l1 & l2 & -> & N). exists ((c, x) :: l1), l2. auto. }
    assert (Less : under ((c, x) :: l) k v -> (c = CText k /\ x = v /\ map_get k l = None) \/ under l k v).
    { intros (l1 & l2 & E & N). destruct l1 as [|y l1]; cbn in E; injection E as E1 E2.
      - subst. left. split; [reflexivity|]. split; [reflexivity|]. destruct (map_get k l2) as [w|] eqn:G; [|reflexivity].
        destruct (proj1 (IH w) eq_refl) as (l3 & l4 & -> & _). destruct (N w). apply in_elt.
      - right. subst. exists l1, l2. auto. }
    destruct c; cbn [map_get]; try (rewrite IH; split; [exact More|intros H; apply Less in H as [(H & _)|H]; [discriminate H|exact H]]).
    destruct (map_get k l) as [w|] eqn:G.
    + split; [intros [= <-]; apply More, IH; reflexivity|]. intros H. apply Less in H as [(_ & _ & H)|H]; [congruence|]. apply IH in H. congruence.
    + split.
      * destruct (text_eqb k s) eqn:Ek; [|discriminate]. intros [= <-]. destruct (text_eqb_spec k s) as [<-|]; [|discriminate]. exists [], l. split; [reflexivity|].
        intros v' J. apply in_split in J as (l1 & l2 & ->). clear -G. induction l1 as [|[c y] l1 IH]; cbn in G.
        -- destruct (map_get k l2); [discriminate|]. rewrite text_eqb_refl in G. discriminate.
        -- destruct c; cbn in G; try (now apply IH). destruct (map_get k (l1 ++ _)) eqn:G'; [discriminate|]. now apply IH.
      * intros H. apply Less in H as [(H & -> & _)|H]; [|apply IH in H; congruence]. injection H as ->. now rewrite text_eqb_refl.
Qed.
Lemma one_under kvs k : equals_one (map_get k kvs) = true <-> exists v, under kvs k v /\ In v [CInt 1; CBool true; CFloat 4607182418800017408].
Proof.
  split.
  - destruct (map_get k kvs) as [v|] eqn:G; [|discriminate]. intros E. exists v. split; [now apply map_get_under|].
    destruct v; cbn in E; try discriminate E.
    + apply Z.eqb_eq in E. subst. now left.
    + subst b. right. now left.
    + apply Z.eqb_eq in E. subst. right. right. now left.
  - intros (v & U & J). apply map_get_under in U. rewrite U. now destruct J as [<-|[<-|[<-|[]]]].
Qed.

(** A stream that says any other version, or none, is refused.  Python takes True
    and 1.0 to be equal to 1. *)
Theorem C44_unknown_versions_are_refused :
  forall data kvs, load data = Some (CMap kvs) ->
  (forall v, under kvs (str "version") v -> ~ In v [CInt 1; CBool true; CFloat 4607182418800017408]) ->
  from_bytes data = Err ValueError.
Proof.
  intros data kvs L N. unfold from_bytes, loads. rewrite L. cbn [bind].
  destruct (equals_one (map_get (str "version") kvs)) eqn:E; [|reflexivity]. exfalso.
  apply one_under in E as (v & U & J). exact (N v U J).
Qed.

(** In particular a stream written with another version number. *)
Theorem C44_other_version_numbers_are_refused :
  forall version events data rest, version <> 1 -> plain events ->
  encode (CMap [(CText (str "version"), CInt version); (CText (str "events"), events)]) = Some data ->
  from_bytes (data ++ rest) = Err ValueError.
Proof.
  intros v e data rest V P E.
  assert (Q : plain (CMap [(CText (str "version"), CInt v); (CText (str "events"), e)])).
  { apply plain_map. cbn [flatten]. repeat (constructor; [first [exact I|exact P]|]). constructor. }
  eapply C44_unknown_versions_are_refused; [exact (@load_encode _ _ rest Q E)|].
  intros w U. apply map_get_under in U. cbn in U. injection U as <-. intros [X|[X|[X|[]]]]; congruence.
Qed.

(** Dates are the calendar's. *)
Example C44_dates_example : calendar_date (Date 2000 2 29 23 59 59 999999) /\ ~ calendar_date (Date 1900 2 29 0 0 0 0) /\ ~ calendar_date (Date 2023 4 31 0 0 0 0).
Proof. split; [apply date_ok_iff; reflexivity|]. split; intros H; apply date_ok_iff in H; discriminate H. Qed.

(** Whatever bytes are accepted, the arguments of every change are SQL values. *)
Theorem C44_only_sql_values_are_accepted :
  forall data s, from_bytes data = Ok s ->
  Forall (fun c => exists l, iter (arguments c) = Ok l /\ forall v, In v l -> is_sql v = true) s.
Proof.
  intros data s H. apply from_bytes_inv in H as (kvs & ev & _ & _ & _ & items & _ & M). apply map_res_Ok in M.
  induction M as [|x y xs ys E M IH]; constructor; [|exact IH]. unfold make_change_star in E.
  destruct (iter x) as [l|]; [|discriminate E]. cbn in E.
  destruct l as [|a [|b [|c [|d [|]]]]]; try discriminate E. apply make_change_args in E as (-> & l & I & F).
  exists l. split; [exact I|]. now apply forallb_forall.
Qed.

(** A stream is named after its last change, and different streams get different
    names. *)
Theorem C44_named_after_the_last_change :
  forall s c n, Forall real_change (s ++ [c]) -> numbered c n ->
  (forall x m, In x s -> numbered x m -> m < n) ->
  highest_sequence (s ++ [c]) = Ok (Some n).
Proof.
  intros s c n R N L. apply highest_of; [exact R|]. split.
  - exists c. split; [apply in_or_app; right; now left|exact N].
  - intros x m Hx Nx. apply in_app_or in Hx as [Hx|[<-|[]]]; [specialize (L x m Hx Nx); lia|].
    unfold numbered in *. rewrite N in Nx. injection Nx as ->. lia.
Qed.
Theorem C44_names_are_different :
  forall a b, event_stream_name a = event_stream_name b -> a = b.
Proof. intros a b E. unfold event_stream_name in E. apply app_inv_head, ascii_inj, dec_inj in E. exact E. Qed.

Print Assumptions C44_round_trip.
Print Assumptions C44_encoding_succeeds.
Print Assumptions C44_arguments_survive_log_and_stream.
Print Assumptions C44_unknown_versions_are_refused.
Print Assumptions C44_other_version_numbers_are_refused.
Print Assumptions C44_only_sql_values_are_accepted.
Print Assumptions C44_named_after_the_last_change.
Print Assumptions C44_names_are_different.

(** A stream with every kind of argument: the encoding is computed, and read back
    with something behind it. *)
Definition ex_stream : list change :=
  [ Change (CInt 7) (CText (str "INSERT INTO [vouchers] VALUES (?, ?, ?)"))
      (CArr [CText [8364; 128512; 65]; CInt (-5); CDate (Date 2022 2 28 12 30 1 500); CNull]) (CBool true);
    Change (CInt 300) (CText (str "UPDATE x SET y = ?"))
      (CArr [CBytes [x00; xff]; CFloat 4607182418800017408; CInt (2 ^ 70); CFloat inf_bits]) (CInt 0) ].
Definition get_bytes (r : res sexn bytes) : bytes := match r with Ok b => b | Err _ => [] end.
Example C44_example :
  Forall real_change ex_stream /\ Forall writable_change ex_stream /\
  length (get_bytes (to_bytes ex_stream)) = 155%nat /\
  from_bytes (get_bytes (to_bytes ex_stream) ++ [x01; x02]) = Ok ex_stream /\
  highest_sequence ex_stream = Ok (Some 300).
Proof.
  split.
  { constructor; [|constructor; [|constructor]]; (split; [eexists; reflexivity|]); (split; [eexists; reflexivity|]);
      (split; [eexists; split; [reflexivity|]|]).
    - repeat (constructor; [first [exact I | apply date_ok_iff; reflexivity]|]). constructor.
    - exists true. now left.
    - repeat (constructor; [first [exact I | split; [split; [now apply Z.leb_le | now apply Z.ltb_lt] | intros H; now apply Z.ltb_lt in H]]|]). constructor.
    - exists false. now right. }
  split.
  { assert (Wr : forall s, forallb is_scalar s = true -> 4 * lenN s <? 2 ^ 64 = true -> writable_text s).
    { intros s H1 H2. split; [|now apply Z.ltb_lt]. intros c J. rewrite forallb_forall in H1. specialize (H1 c J). unfold is_scalar in H1. lia. }
    repeat (apply Forall_cons; [|]); try apply Forall_nil; cbn -[writable_text writable_value Z.pow]; (split; [reflexivity|]); (split; [apply Wr; reflexivity|]); (split; [reflexivity|]);
      repeat (apply Forall_cons; [first [exact I | reflexivity | apply Wr; reflexivity]|]); apply Forall_nil. }
  repeat split; vm_compute; reflexivity.
Qed.
(** Version 2, and no version. *)
Example C44_version_example :
  let other kvs := match encode (CMap kvs) with Some b => b | None => [] end in
  load (other [(CText (str "version"), CInt 2); (CText (str "events"), CArr [])]) =
    Some (CMap [(CText (str "version"), CInt 2); (CText (str "events"), CArr [])]) /\
  from_bytes (other [(CText (str "version"), CInt 2); (CText (str "events"), CArr [])]) = Err ValueError /\
  from_bytes (other [(CText (str "events"), CArr [])]) = Err ValueError /\
  from_bytes (other [(CText (str "version"), CInt 1)]) = Err KeyError /\
  from_bytes (other [(CText (str "version"), CInt 1); (CText (str "events"), CArr [CArr [CInt 1; CText (str "x"); CArr [CArr []]; CInt 0]])]) = Err ValueError.
Proof. repeat split; vm_compute; reflexivity. Qed.
Example C44_log_example :
  exists row, log_event 4 (str "INSERT") [CText (str "abc"); CInt 5] true = Ok row /\
  Forall sql_value [CText (str "abc"); CInt 5].
Proof. eexists. split; [vm_compute; reflexivity|repeat constructor]. Qed.

(** * C45: what recovery takes from the directory *)

(** Whatever order the directory lists them in and whatever else it holds, the
    changes of the streams are replayed in increasing order of the numbers of the
    streams, each exactly once. *)
Theorem C45_streams_in_order_and_nothing_else :
  forall entries streams, holds entries streams -> NoDup (map fst streams) ->
  exists order, Permutation order streams /\ StronglySorted Z.lt (map fst order) /\
  replay_streams (downloaded_streams entries) =
    Ok (filter (fun c => negb (control_change c)) (concat (map snd order))).
Proof. exact replay_holds. Qed.

(** So two directories with the same streams are replayed in the same way. *)
Theorem C45_listing_order_does_not_matter :
  forall entries1 streams1 entries2 streams2,
  holds entries1 streams1 -> holds entries2 streams2 -> NoDup (map fst streams1) ->
  Permutation streams1 streams2 ->
  replay_streams (downloaded_streams entries1) = replay_streams (downloaded_streams entries2).
Proof.
  intros e1 s1 e2 s2 H1 H2 N P.
  assert (N2 : NoDup (map fst s2)) by (eapply Permutation_NoDup; [apply Permutation_map; exact P|exact N]).
  destruct (replay_holds H1 N) as (o1 & P1 & S1 & ->). destruct (replay_holds H2 N2) as (o2 & P2 & S2 & ->).
  assert (E : o1 = o2); [|now subst].
  apply sorted_perm_unique; [exact S1|exact S2|]. etransitivity; [exact P1|]. etransitivity; [exact P|]. now symmetry.
Qed.
Print Assumptions C45_streams_in_order_and_nothing_else.
Print Assumptions C45_listing_order_does_not_matter.

(** Two streams listed in the wrong order between a snapshot, a foreign file and
    a directory with the name of a stream. *)
Definition ex_a : list change := [hd (Change CNull CNull CNull CNull) ex_stream].
Definition ex_b : list change := tl ex_stream.
Definition ex_dir : list (text * entry) :=
  [ (str "snapshot", File 10 []); (str "event-stream-300", File 5 (get_bytes (to_bytes ex_b)));
    (str "event-stream-9", Dir); (str "notes", File 3 [x00]);
    (str "event-stream-7", File 5 (get_bytes (to_bytes ex_a))) ].
Example C45_directory_example :
  holds ex_dir [(300, ex_b); (7, ex_a)] /\ replay_streams (downloaded_streams ex_dir) = Ok ex_stream.
Proof.
  destruct C44_example as (R & _). inversion R as [|? ? R1 R2]; subst.
  assert (S : forall s, startswith stream_prefix s = false -> ~ stream_like s).
  { intros s E H. apply stream_like_starts in H. congruence. }
  split; [|vm_compute; reflexivity].
  apply holds_other; [left; apply S; reflexivity|].
  apply (holds_stream (n := 300)); [exact R2| |vm_compute; reflexivity|].
  { split; [eexists; split; [now left|reflexivity]|]. intros c m [<-|[]] E. injection E as <-. lia. }
  apply holds_other; [now right|]. apply holds_other; [left; apply S; reflexivity|].
  apply (holds_stream (n := 7)); [constructor; [exact R1|constructor]| |vm_compute; reflexivity|constructor].
  split; [eexists; split; [now left|reflexivity]|]. intros c m [<-|[]] E. injection E as <-. lia.
Qed.

(** * C74: pruning *)

(** Partial: the streams of the node are told apart from everything that is not
    named like a stream, and removed exactly if the snapshot covers them. *)
Theorem C74_exactly_the_covered_streams_partial :
  forall names q,
  Forall (fun name => (exists n, 0 <= n /\ name = event_stream_name n) \/ ~ stream_like name) names ->
  exists removed, maybe_unlink (is_old_eventstream q) names = (removed, None) /\
  (forall name, In name removed <-> In name names /\ exists n, 0 <= n <= q /\ name = event_stream_name n).
Proof.
  intros names q H.
  set (f := fun name => match is_old_eventstream q name with Ok b => b | Err _ => false end).
  assert (G : forall name, In name names -> is_old_eventstream q name = Ok (f name) /\
     (f name = true <-> exists n, 0 <= n <= q /\ name = event_stream_name n)).
  { intros name Hn. rewrite Forall_forall in H. unfold f. destruct (H name Hn) as [(n & N & ->)|O].
    - pose proof (@is_old_name q n [] N I) as E. rewrite app_nil_r in E. rewrite E. split; [reflexivity|]. split.
      + intros L. exists n. split; [lia|reflexivity].
      + intros (m & M & X). apply C44_names_are_different in X. subst m. lia.
    - rewrite (is_old_other q O). split; [reflexivity|]. split; [discriminate|].
      intros (n & _ & ->). exfalso. apply O, stream_name_like. }
  exists (filter f names). split.
  - apply maybe_unlink_ok. intros n Hn. now destruct (G n Hn).
  - intros name. rewrite filter_In. split; intros [A B]; (split; [exact A|]); now apply (proj2 (G name A)).
Qed.

(** Refuted in general: an entry whose name begins like that of a stream but goes
    on without a digit makes pruning fail, before the entries listed after it have
    been looked at; and one that goes on after the digits is removed. *)
Theorem C74_exactly_the_covered_streams_refuted :
  maybe_unlink (is_old_eventstream 9) [str "event-stream-old"; event_stream_name 3] = ([], Some ValueError) /\
  maybe_unlink (is_old_eventstream 9) [str "event-stream-5.backup"; event_stream_name 12] = ([str "event-stream-5.backup"], None).
Proof. split; vm_compute; reflexivity. Qed.
Print Assumptions C74_exactly_the_covered_streams_partial.
Print Assumptions C74_exactly_the_covered_streams_refuted.

Example C74_example :
  maybe_unlink (is_old_eventstream 9) [str "snapshot"; event_stream_name 3; event_stream_name 9; event_stream_name 10; str "x"]
    = ([event_stream_name 3; event_stream_name 9], None) /\
  event_stream_name 10 = str "event-stream-10" /\ ~ stream_like (str "snapshot").
Proof.
  split; [vm_compute; reflexivity|]. split; [reflexivity|]. intros H. apply stream_like_starts in H. discriminate H.
Qed.

(** * C75: snapshots *)
Theorem C75_round_trip :
  forall l data rest, statements_to_snapshot l = Ok data ->
  statements_from_snapshot (data ++ rest) = Ok (l, None).
Proof. exact snapshot_round_trip. Qed.

(** What is accepted is a version 1 map with a list of texts. *)
Theorem C75_everything_else_is_refused :
  forall data l, statements_from_snapshot data = Ok (l, None) ->
  exists kvs, load data = Some (CMap kvs) /\ under kvs (str "statements") (CArr (map CText l)) /\
  exists v, under kvs (str "version") v /\ In v [CInt 1; CBool true; CFloat 4607182418800017408].
Proof.
  intros data l. unfold statements_from_snapshot, loads. destruct (load data) as [v|]; [|discriminate]. cbn [bind].
  destruct v as [| | | |kvs| | | |]; try discriminate.
  destruct (equals_one (map_get (str "version") kvs)) eqn:E; [|discriminate]. cbn [negb].
  destruct (map_get (str "statements") kvs) as [[| | |items| | | | |]|] eqn:G; try discriminate. intros H. injection H as H.
  exists kvs. split; [reflexivity|]. split; [|now apply one_under].
  apply map_get_under in G. replace (map CText l) with items; [exact G|]. clear -H. revert l H. induction items as [|x items IH]; intros l H; cbn in H.
  - injection H as <-. reflexivity.
  - destruct x; try discriminate H. destruct (str_statements items) as [ts o]. injection H as <- ->. cbn. f_equal. now apply IH.
Qed.

(** All statements but transaction control, each once; definitions of tables
    first, otherwise in order. *)
Theorem C75_schema_first :
  forall l run, snapshot_replay (l, None) = (run, None) ->
  Permutation run (filter (fun s => is_create s || negb (control s)) l) /\
  exists defs others, run = defs ++ others /\
    defs = filter is_create l /\ Forall (fun s => is_create s = false) others /\
    others = filter (fun s => negb (is_create s || control s)) l.
Proof.
  intros l r [= <-]. unfold ddl, dml. split.
  - induction l as [|s l IH]; [reflexivity|]. cbn [filter]. change (is_transaction s) with (control s).
    destruct (is_create s); cbn [negb orb andb].
    + cbn [app]. now apply perm_skip.
    + destruct (control s); cbn [negb]; [exact IH|]. etransitivity; [apply Permutation_sym, Permutation_middle|]. now apply perm_skip.
  - eexists _, _. split; [reflexivity|]. split; [reflexivity|]. split.
    + apply Forall_forall. intros s Hs. apply filter_In in Hs as [_ Hs]. destruct (is_create s); [discriminate Hs|reflexivity].
    + apply filter_ext. intros s. change (is_transaction s) with (control s). now destruct (is_create s), (control s).
Qed.
Print Assumptions C75_round_trip.
Print Assumptions C75_everything_else_is_refused.
Print Assumptions C75_schema_first.

Definition ex_snapshot : list text :=
  [str "BEGIN TRANSACTION;"; str "CREATE TABLE [b] ([a] int references [a]);"; str "INSERT INTO b VALUES(1);";
   str "CREATE TABLE [a] ([k] int);"; str "INSERT INTO a VALUES(1);"; str "COMMIT;"].
Example C75_example :
  statements_from_snapshot (get_bytes (statements_to_snapshot ex_snapshot)) = Ok (ex_snapshot, None) /\
  snapshot_replay (ex_snapshot, None) =
    ([str "CREATE TABLE [b] ([a] int references [a]);"; str "CREATE TABLE [a] ([k] int);";
      str "INSERT INTO b VALUES(1);"; str "INSERT INTO a VALUES(1);"], None).
Proof. split; vm_compute; reflexivity. Qed.
