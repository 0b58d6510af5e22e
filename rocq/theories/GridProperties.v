(** Properties of operations on the grid. *)
From Verif Require Import Prelude PreludeFacts BytesModel BytesProofs CborModel CborProofs StreamModel JsonModel JsonSpec JsonProofs GridModel GridSpec GridProofs.
From Verif Require JsonTextProofs.
From Coq Require Strings.String.
Import Coq.Strings.String.StringSyntax.

(** ** C64 *)
Section Scrubbing.
Variable printable : Z -> bool.
Variable digest : text -> text.

(** The URL of an error, for the API at the root: the capability is replaced by a text made of
    its digest, everything else stays. *)
Theorem C64_url_scrubbed_partial : forall root cap rest query method status body,
  Forall (fun c => 0 <= c < 128) cap -> starts_with (str "URI:SCRUBBED:") cap = false ->
  exists e, api_exn digest method (Url root (str "uri" :: cap :: rest) query) status body = API e /\
    a_url e = Url root (str "uri" :: (str "URI:SCRUBBED:b'" ++ digest cap ++ str "'") :: rest) query /\
    a_method e = method /\ a_status e = status /\ a_body e = body.
Proof.
  intros root cap rest query method status body A S. unfold api_exn, scrub_caps_from_url. cbn [u_path u_root u_query]. unfold scrubbed_prefix. rewrite S.
  change (text_eqb (str "uri") (str "uri")) with true. cbn [andb negb]. unfold scrub_cap.
  replace (forallb (fun c => (0 <=? c) && (c <? 128)) cap) with true by (symmetry; apply forallb_forall; intros c I; rewrite Forall_forall in A; specialize (A c I); lia).
  cbn [option_map]. eexists. split; [reflexivity|]. repeat split.
Qed.
(** So of two capabilities with the same digest (of thirty bits) the [repr] of an error does
    not tell which one it was: *)
Theorem C64_repr_scrubbed_partial : forall root cap cap' rest query method status body e e',
  Forall (fun c => 0 <= c < 128) cap -> starts_with (str "URI:SCRUBBED:") cap = false ->
  Forall (fun c => 0 <= c < 128) cap' -> starts_with (str "URI:SCRUBBED:") cap' = false ->
  digest cap = digest cap' ->
  api_exn digest method (Url root (str "uri" :: cap :: rest) query) status body = API e ->
  api_exn digest method (Url root (str "uri" :: cap' :: rest) query) status body = API e' ->
  error_repr printable e = error_repr printable e'.
Proof.
  intros root cap cap' rest query method status body e e' A S A' S' D E E'.
  destruct (C64_url_scrubbed_partial root cap rest query method status body A S) as (x & Ex & U & M & St & B).
  destruct (C64_url_scrubbed_partial root cap' rest query method status body A' S') as (x' & Ex' & U' & M' & St' & B').
  rewrite E in Ex. rewrite E' in Ex'. injection Ex as <-. injection Ex' as <-. unfold error_repr. rewrite U, U', M, M', St, St', B, B', D. reflexivity.
Qed.
(** But [str] of an error shows the path of the URL as it was: every run of letters, digits and
    hyphens of the capability, all of its secrets, is there. *)
Theorem C64_str_scrubbed_refuted : forall method u status body e cap secret,
  api_exn digest method u status body = API e -> In cap (u_path u) -> shows cap secret -> Forall (fun c => unreserved c = true) secret ->
  shows (error_str printable e) secret.
Proof.
  intros method u status body e cap secret E I S P. rewrite Forall_forall in P. apply error_str_url with cap; [exact P| |exact S].
  unfold api_exn in E. destruct (scrub_caps_from_url digest u) as [v|]; [|discriminate]. injection E as <-. exact I.
Qed.
(** And with the API below some path nothing is scrubbed at all. *)
Theorem C64_prefix_refuted : forall method root prefix rest query status body e cap secret,
  prefix <> str "uri" ->
  api_exn digest method (Url root (prefix :: rest) query) status body = API e -> In cap (prefix :: rest) -> shows cap secret -> Forall (fun c => unreserved c = true) secret ->
  shows (error_repr printable e) secret.
Proof.
  intros method root prefix rest query status body e cap secret N E I S P. rewrite Forall_forall in P. apply error_repr_url with cap; [exact P| |exact S].
  unfold api_exn, scrub_caps_from_url in E. cbn [u_path] in E. destruct (text_eqb_spec prefix (str "uri")) as [->|_]; [contradiction|].
  destruct rest as [|c rest]; injection E as <-; exact I.
Qed.
End Scrubbing.
Print Assumptions C64_url_scrubbed_partial.
Print Assumptions C64_repr_scrubbed_partial.
Print Assumptions C64_str_scrubbed_refuted.
Print Assumptions C64_prefix_refuted.

Definition a_root : text := str "http://127.0.0.1:3456".
Definition a_cap : text := str "URI:DIR2:mnopqrst:234567".
Definition an_error : gexn := api_exn (fun _ => str "abcdef") (str "get") (list_url (fun c => c) (Url a_root [[]] []) a_cap) 410 (str "gone").
Example C64_instance :
  exists e, an_error = API e /\
  error_repr (fun _ => true) e = str "TahoeAPIError(method='get', url=DecodedURL(url=URL.from_text('http://127.0.0.1:3456/uri/URI%3ASCRUBBED%3Ab%27abcdef%27/?t=json')), status=410, body='gone')" /\
  error_str (fun _ => true) e = str "('get', DecodedURL(url=URL.from_text('http://127.0.0.1:3456/uri/URI%3ADIR2%3Amnopqrst%3A234567/?t=json')), 410, 'gone')".
Proof. eexists. split; [reflexivity|]. vm_compute. split; reflexivity. Qed.

(** ** C66 *)
Section Retry.
Variable A : Type.
(** An operation is called again exactly after errors that match; the first outcome that is
    not such an error is the outcome, and there are no calls after it. *)
Theorem C66_retried : forall matchers (f : nat -> res gexn A) fuel r calls,
  async_retry matchers f 0 fuel = Some (r, calls) <->
  exists n, calls = S n /\ (n < fuel)%nat /\ f n = r /\ ~ again matchers r /\ forall i, (i < n)%nat -> again matchers (f i).
Proof. intros matchers f fuel r calls. apply (retry_spec matchers f fuel 0 r calls). Qed.
(** There is no other bound: it goes on as long as there are such errors. *)
Theorem C66_endless : forall matchers (f : nat -> res gexn A),
  (forall fuel, async_retry matchers f 0 fuel = None) <-> (forall n, again matchers (f n)).
Proof.
  intros matchers f. split; intros H.
  - intros n. apply (proj1 (retry_none matchers f (S n) 0) (H (S n)) n). lia.
  - intros fuel. apply (retry_none matchers f fuel 0). intros i _. apply H.
Qed.
End Retry.

(** What the errors are: the node does not accept the connection, or reports one of two errors
    about servers, whatever the operation. *)
Section Policy.
Variable printable : Z -> bool.
Variable digest : text -> text.
Notation policy := (common_tahoe_errors printable).
Theorem C66_policy : forall A (e : gexn), (forall e', e <> API e') ->
  again (A := A) policy (Err e) <-> e = Refused.
Proof.
  intros A e N. split.
  - intros (x & m & E & [<- | [<- | []]] & M); injection E as <-; destruct e; try discriminate M; try reflexivity. now destruct (N e).
  - intros ->. exists Refused, connection_refused. split; [reflexivity|]. split; [now right; left|reflexivity].
Qed.
Theorem C66_policy_servers : forall A method u status body e,
  api_exn digest method u status body = API e ->
  shows body (str "allmydata.interfaces.NoServersError") \/ shows body (str "allmydata.mutable.common.NotEnoughServersError") ->
  again (A := A) policy (Err (API e)).
Proof.
  intros A method u status body e E H. exists (API e), (not_enough_servers printable). split; [reflexivity|]. split; [now left|].
  unfold api_exn in E. destruct (scrub_caps_from_url digest u) as [v|]; [|discriminate]. injection E as <-. cbn [not_enough_servers].
  assert (P : forall r, forallb unreserved r = true -> plain_run r) by (intros r F c I; rewrite forallb_forall in F; now apply F).
  destruct H as [H|H]; apply orb_true_iff; [left|right]; apply contains_shows; (apply error_str_body; [apply P; vm_compute; reflexivity|exact H]).
Qed.
End Policy.

(** Every attempt of an upload sends all the data. *)
Theorem C66_upload_sends_all : forall printable digest file_cap (readable : text -> option file_cap) api_root data provider answers fuel r requests,
  (forall n, provider n = data) -> upload printable digest readable api_root provider answers fuel = Some (r, requests) ->
  requests <> [] /\ forall q, In q requests -> r_data q = Some data /\ r_method q = str "PUT" /\ r_url q = child api_root (str "uri").
Proof.
  intros printable digest file_cap readable api_root data provider answers fuel r requests P E. unfold upload, retried in E.
  destruct (async_retry _ _ 0 fuel) as [[r' n]|] eqn:R; [|discriminate]. injection E as _ <-. apply retry_spec in R. destruct R as (i & -> & _).
  split; [discriminate|]. intros q I. apply in_map_iff in I. destruct I as (k & <- & _). unfold upload_request. cbn. now rewrite P.
Qed.
Print Assumptions C66_retried.
Print Assumptions C66_endless.
Print Assumptions C66_policy.
Print Assumptions C66_policy_servers.
Print Assumptions C66_upload_sends_all.

(** The node is not there yet, then there are not enough servers, then it works. *)
Example C66_instance :
  upload (fun _ => true) (fun _ => str "abcdef") (fun s => Some s) (Url a_root [] []) (fun _ => [x61; x62])
    (fun n => match n with 0%nat => Refusal | 1%nat => Answer 500 (map zb (str "<p>allmydata.interfaces.NoServersError: none</p>")) | _ => Answer 201 (map zb (str "URI:CHK:x")) end) 10 =
  Some (Ok (str "URI:CHK:x"), repeat (Request (str "PUT") (Url a_root [str "uri"] []) (Some [x61; x62])) 3).
Proof. vm_compute. reflexivity. Qed.

(** ** C65 *)
Section Downloads.
Variable digest : text -> text.
Variable file_cap : Type.
Variable file_text : file_cap -> text.
Notation download := (download digest file_text).

(** At no time is there anything at the destination but what was there before or, if the
    download succeeds, all that was received; other files are left alone. *)
Theorem C65_atomic : forall api_root cap temp outpath a move fs r states, temp <> outpath ->
  download api_root cap temp outpath a move fs = (r, states) ->
  forall fs', In fs' states ->
    (fs' outpath = fs outpath \/ (r = Ok tt /\ exists chunks e, a = Body chunks e /\ fs' outpath = Some (concat chunks))) /\
    forall p, p <> temp -> p <> outpath -> fs' p = fs p.
Proof.
  intros api_root cap temp outpath a move fs r states N E fs' I.
  assert (Same : forall chunks, In fs' (fs :: write_file temp (Some []) fs :: collect temp [] chunks (write_file temp (Some []) fs)) -> forall p, p <> temp -> fs' p = fs p).
  { intros chunks [<- | [<- | J]] p Np; [reflexivity|now apply write_file_other|]. rewrite (@collect_other temp chunks [] _ fs' p J Np). now apply write_file_other. }
  unfold GridModel.download in E. destruct a as [chunks e|a].
  2: { injection E as _ <-. destruct I as [<-|[]]. split; [now left|reflexivity]. }
  assert (Left : In fs' (fs :: write_file temp (Some []) fs :: collect temp [] chunks (write_file temp (Some []) fs)) ->
     (fs' outpath = fs outpath \/ (r = Ok tt /\ exists chunks' e', Body chunks e = Body chunks' e' /\ fs' outpath = Some (concat chunks'))) /\ (forall p, p <> temp -> p <> outpath -> fs' p = fs p)).
  { intros J. split; [left; apply (Same chunks J); congruence|]. intros p Np _. now apply (Same chunks J). }
  destruct e as [| |ex]; [| |injection E as _ <-; now apply Left].
  all: destruct move as [ex|]; [injection E as _ <-; now apply Left|]; apply pair_equal_spec in E; destruct E as [<- <-]; apply in_app_or in I; destruct I as [I|[<-|[]]]; [now apply Left|].
  all: set (opened := write_file temp (Some []) fs); set (final := last (fs :: opened :: collect temp [] chunks opened) fs).
  all: assert (Ft : final temp = Some (concat chunks)) by (unfold final; change (last (fs :: opened :: collect temp [] chunks opened) fs) with (last (opened :: collect temp [] chunks opened) fs);
         apply (@collect_last temp chunks [] opened fs); apply write_file_same).
  all: assert (Fo : forall p, p <> temp -> final p = fs p) by (intros p Np; assert (In final (fs :: opened :: collect temp [] chunks opened)) as Hin by (apply exists_last_in; discriminate);
         destruct Hin as [<- | [<- | J]]; [reflexivity|now apply write_file_other|rewrite (@collect_other temp chunks [] _ _ p J Np); now apply write_file_other]).
  all: split; [right; split; [reflexivity|]; do 2 eexists; split; [reflexivity|]; rewrite write_file_other by congruence; rewrite write_file_same; exact Ft|].
  all: intros p Np No; rewrite write_file_other by exact Np; rewrite write_file_other by exact No; now apply Fo.
Qed.
(** A download that succeeds leaves all of it, and no temporary file; one that fails leaves
    what was there. *)
Theorem C65_outcome : forall api_root cap temp outpath a move fs r states, temp <> outpath ->
  download api_root cap temp outpath a move fs = (r, states) ->
  match r with
  | Ok _ => exists chunks e, a = Body chunks e /\ last states fs outpath = Some (concat chunks) /\ last states fs temp = None
  | Err _ => last states fs outpath = fs outpath
  end.
Proof.
  intros api_root cap temp outpath a move fs r states N E.
  assert (Last : last states fs outpath = fs outpath \/ (r = Ok tt /\ exists chunks e, a = Body chunks e /\ last states fs outpath = Some (concat chunks))).
  { destruct states as [|s states]; [now left|]. apply (C65_atomic _ _ _ _ _ _ _ _ _ N E). apply exists_last_in. discriminate. }
  destruct r as [u|e].
  - unfold GridModel.download in E. destruct a as [chunks e|a]; [|destruct (content a); discriminate E].
    assert (X : exists fs0, states = (fs :: write_file temp (Some []) fs :: collect temp [] chunks (write_file temp (Some []) fs)) ++ [write_file temp None (write_file outpath (fs0 temp) fs0)] /\ fs0 = last (fs :: write_file temp (Some []) fs :: collect temp [] chunks (write_file temp (Some []) fs)) fs).
    { destruct e; destruct move; try discriminate E; apply pair_equal_spec in E; destruct E as [_ <-]; eexists; split; reflexivity. }
    destruct X as (fs0 & -> & H0). exists chunks, e. split; [reflexivity|]. rewrite last_last. rewrite write_file_same. split; [|reflexivity].
    rewrite write_file_other by congruence. rewrite write_file_same, H0.
    change (last (fs :: ?x :: ?l) fs) with (last (x :: l) fs). apply (@collect_last temp chunks [] _ fs). apply write_file_same.
  - destruct Last as [L|[L _]]; [exact L|discriminate L].
Qed.
(** If responses have a length or come in chunks, then what is at the destination is what was
    there before or the complete body of the response. *)
Theorem C65_complete_partial : forall api_root cap temp outpath chunks e move fs r states body, temp <> outpath ->
  arrived body chunks e -> e <> ConnectionEnd ->
  download api_root cap temp outpath (Body chunks e) move fs = (r, states) ->
  forall fs', In fs' states -> fs' outpath = fs outpath \/ (r = Ok tt /\ fs' outpath = Some body).
Proof.
  intros api_root cap temp outpath chunks e move fs r states body N Ar NE E fs' I.
  destruct (C65_atomic _ _ _ _ _ _ _ _ _ N E fs' I) as [[H|(-> & c & e' & X & H)] _]; [now left|]. injection X as <- <-.
  right. split; [reflexivity|]. destruct e as [| |x]; [cbn in Ar; now rewrite <- Ar|contradiction|discriminate E].
Qed.
End Downloads.
(** A body that ends with the connection may be cut short without notice. *)
Theorem C65_complete_refuted : exists (fs : files) body chunks,
  arrived body chunks ConnectionEnd /\ concat chunks <> body /\
  let (r, states) := download (fun s => s) (fun c : text => c) (Url a_root [] []) a_cap (str "/out.tmp") (str "/out") (Body chunks ConnectionEnd) None fs in
  r = Ok tt /\ last states fs (str "/out") = Some (concat chunks).
Proof. exists (fun _ => None), [x61; x62; x63], [[x61]; [x62]]. split; [exists [x63]; reflexivity|]. split; [discriminate|]. vm_compute. split; reflexivity. Qed.
Print Assumptions C65_atomic.
Print Assumptions C65_outcome.
Print Assumptions C65_complete_partial.
Print Assumptions C65_complete_refuted.

(** Two chunks over an old file; and the connection breaking after the first. *)
Example C65_instance :
  let fs := fun p => if text_eqb p (str "/out") then Some [x6f] else None in
  let run := download (fun s => s) (fun c : text => c) (Url a_root [] []) a_cap (str "/out.tmp") (str "/out") in
  let seen r := (fst r, map (fun s : files => (s (str "/out"), s (str "/out.tmp"))) (snd r)) in
  seen (run (Body [[x61]; [x62]] Complete) None fs) =
    (Ok tt, [(Some [x6f], None); (Some [x6f], Some []); (Some [x6f], Some [x61]); (Some [x6f], Some [x61; x62]); (Some [x61; x62], None)]) /\
  seen (run (Body [[x61]] (Broken Disconnected)) None fs) =
    (Err Disconnected, [(Some [x6f], None); (Some [x6f], Some []); (Some [x6f], Some [x61])]).
Proof. vm_compute. split; reflexivity. Qed.

(** ** C89 *)
Section Children.
Variables file_cap dir_cap F : Type.
Variable list_dir : dir_cap -> res gexn (list (text * node file_cap dir_cap F)).
Variable fetch : file_cap -> res gexn unit.
(** A path that leads to a file: the directories on it are listed, in order, and this file is
    downloaded to the destination, once. *)
Theorem C89_child_found : forall outpath d path ds c, leads list_dir d path ds c ->
  download_child list_dir fetch outpath d path = (fetch c, map (ListCall file_cap (dir_cap := dir_cap)) ds ++ [DownloadCall dir_cap outpath c]).
Proof.
  intros outpath d path ds c L. induction L as [d p l size c H T|d p l d' path ds c H T N L IH].
  - cbn [download_child]. rewrite H, T. reflexivity.
  - cbn [download_child]. rewrite H, T. destruct path as [|p' path]; [contradiction|]. rewrite IH. reflexivity.
Qed.
(** Any other path is an error and nothing is downloaded. *)
Theorem C89_child_missing : forall outpath d path r calls, (forall ds c, ~ leads list_dir d path ds c) ->
  download_child list_dir fetch outpath d path = (r, calls) ->
  (exists e, r = Err e) /\ forall x, In x calls -> exists d', x = ListCall file_cap d'.
Proof.
  intros outpath d path r calls N E. destruct (download_child_spec list_dir fetch outpath path d E) as [(ds & c & L & _)|(_ & H)]; [now apply N in L|exact H].
Qed.
End Children.
Print Assumptions C89_child_found.
Print Assumptions C89_child_missing.

(** Directory 1 has a file "f" and a directory "d", number 2, which has a file "g". *)
Definition two_dirs (d : Z) : res gexn (list (text * node Z Z unit)) :=
  if d =? 1 then Ok [(str "f", FileNode Z (JInt 3) 10); (str "d", DirectoryNode Z unit 2)]
  else if d =? 2 then Ok [(str "g", FileNode Z (JInt 4) 20)] else Err NotRecognized.
Example C89_instance :
  leads two_dirs 1 [str "d"; str "g"] [1; 2] 20 /\
  download_child two_dirs (fun _ => Ok tt) (str "/out") 1 [str "d"; str "g"] = (Ok tt, [ListCall Z 1; ListCall Z 2; DownloadCall Z (str "/out") 20]) /\
  download_child two_dirs (fun _ => Ok tt) (str "/out") 1 [str "f"; str "g"] = (Err NotADirectory, [ListCall Z 1]) /\
  (forall ds c, ~ leads two_dirs 1 [str "d"] ds c).
Proof.
  split; [apply LeadsOn with [(str "f", FileNode Z (JInt 3) 10); (str "d", DirectoryNode Z unit 2)] 2; [reflexivity|reflexivity|discriminate|];
    apply LeadsFile with [(str "g", FileNode Z (JInt 4) 20)] (JInt 4); reflexivity|].
  split; [vm_compute; reflexivity|]. split; [vm_compute; reflexivity|].
  intros ds c L. inversion L as [d p l size c' H T|d p l d' path ds' c' H T N L']; subst; [|now apply N]. injection H as <-. vm_compute in T. discriminate T.
Qed.

(** ** C90 *)
Section Listing.
Variable digest : text -> text.
Variables file_cap dir_cap F : Type.
Variable file_text : file_cap -> text.
Variable dir_text : dir_cap -> text.
Variable readable : text -> option file_cap.
Variable readonly : text -> option dir_cap.
Variable float_of : text -> F.
Variable max_digits : nat.
Hypothesis readable_text : forall c, readable (file_text c) = Some c.
Hypothesis readonly_text : forall d, readonly (dir_text d) = Some d.
Notation result := (list_result digest dir_text readable readonly float_of max_digits).

(** Every entry that the node reports is in the listing, under its name and in order. *)
Theorem C90_listed : forall depth api_root d body s kind details children nodes,
  utf8_text body s -> json_document float_of max_digits depth s (JArr [kind; JObj details]) ->
  jget (str "children") details = Some (JObj children) ->
  Forall2 (fun nj nn => fst nj = fst nn /\ describes file_text dir_text (snd nj) (snd nn)) children nodes ->
  result depth api_root d (Answer 200 body) = Ok nodes.
Proof.
  intros depth api_root d body s kind details children nodes U L C H. apply JsonTextProofs.utf8_iff in U. apply JsonTextProofs.loads_text_iff in L. unfold list_result. cbn [content]. rewrite U. cbn [bind fst snd]. cbn [Z.eqb Pos.eqb].
  rewrite L. cbn [as_pair listing_exn bind snd as_object]. rewrite C. cbn [listing_exn bind as_object]. apply read_entries_spec.
  clear C. induction H as [|a b l l' (E & D) H IH]; constructor; [|exact IH]. split; [exact E|]. now apply (@read_entry_ok file_cap dir_cap F file_text dir_text).
Qed.
(** It is all or nothing: whatever is returned has an entry for each one reported. *)
Theorem C90_all_or_nothing : forall depth api_root d a nodes, result depth api_root d a = Ok nodes ->
  exists body s kind details children, a = Answer 200 body /\ utf8_text body s /\
    json_document float_of max_digits depth s (JArr [kind; JObj details]) /\ jget (str "children") details = Some (JObj children) /\
    Forall2 (fun nj nn => fst nj = fst nn /\ read_entry readable readonly (snd nj) = Ok (snd nn)) children nodes.
Proof.
  intros depth api_root d a nodes. unfold list_result. destruct a as [code body|code| |n]; cbn [content bind]; try discriminate.
  destruct (utf8_decode body) as [s|] eqn:U; [|discriminate]. cbn [bind fst snd]. destruct (Z.eqb_spec code 200) as [->|]; [|discriminate].
  destruct (loads_text float_of max_digits depth s) as [j|] eqn:L; [|discriminate]. destruct j as [| | | | |[|k [|x [|]]]|]; try discriminate. cbn [as_pair listing_exn bind snd].
  destruct x as [| | | | | |details]; try discriminate. cbn [as_object listing_exn bind]. destruct (jget (str "children") details) as [ch|] eqn:C; [|discriminate].
  cbn [listing_exn bind]. destruct ch as [| | | | | |children]; try discriminate. cbn [as_object listing_exn bind]. intros R. apply read_entries_spec in R.
  apply JsonTextProofs.loads_text_iff in L. apply JsonTextProofs.utf8_iff in U. now exists body, s, k, details, children.
Qed.
End Listing.
Print Assumptions C90_listed.
Print Assumptions C90_all_or_nothing.

Definition a_listing : text :=
  str "[""dirnode"", {""mutable"": true, ""children"": {""snapshot"": [""filenode"", {""ro_uri"": ""URI:CHK:a"", ""size"": 12, ""metadata"": {""tahoe"": {""linkmotime"": 1.5}}}], ""sub"": [""dirnode"", {""ro_uri"": ""URI:DIR2-RO:b""}]}}]".
Definition dir_listing (body : text) := list_result (fun s => s) (fun d : text => d) (fun s => Some s) (fun s => if starts_with (str "URI:DIR2-RO:") s then Some s else None)
  (fun s => s) 4300 900 (Url a_root [] []) (str "URI:DIR2-RO:x") (Answer 200 (map zb body)).
Example C90_instance :
  dir_listing a_listing = Ok [(str "snapshot", FileNode text (JInt 12) (str "URI:CHK:a")); (str "sub", DirectoryNode text text (str "URI:DIR2-RO:b"))] /\
  dir_listing (str "[""dirnode"", {""children"": {""x"": [""unknown"", {""ro_uri"": ""new:thing""}]}}]") = Err NotRecognized.
Proof. vm_compute. split; reflexivity. Qed.

(** ** C91 *)
Section Requests.
Variables file_cap dir_cap dir_write_cap any_cap : Type.
Variable file_text : file_cap -> text.
Variable dir_text : dir_cap -> text.
Variable dir_write_text : dir_write_cap -> text.
Variable any_text : any_cap -> text.
(** The URLs of requests, read by a server: the path is "uri", the capability and the name,
    just as they were. *)
Definition addresses (u : url) (root : text) (path : list text) : Prop := exists rest, url_text u = root ++ rest /\ read_path rest = map Some path.
Lemma uri_scalar : all_scalar (str "uri").
Proof. intros c I. cbn in I. repeat (destruct I as [<- | I]; [lia|]). destruct I. Qed.
Lemma uri_path s l : all_scalar s -> (forall x, In x l -> all_scalar x) -> forall x, In x (str "uri" :: s :: l) -> all_scalar x.
Proof. intros S L x [<- |[<- |I]]; [apply uri_scalar|exact S|now apply L]. Qed.
Lemma below_uri api_root c : at_root api_root -> child (child api_root (str "uri")) c = Url (u_root api_root) [str "uri"; c] [].
Proof. intros R. rewrite (child_root _ R). reflexivity. Qed.
Lemma below_cap root c n : c <> [] -> child (Url root [str "uri"; c] []) n = Url root [str "uri"; c; n] [].
Proof. destruct c; [contradiction|reflexivity]. Qed.
Theorem C91_download : forall api_root c, at_root api_root -> all_scalar (file_text c) ->
  addresses (download_url file_text api_root c) (u_root api_root) [str "uri"; file_text c].
Proof. intros api_root c R S. unfold download_url. rewrite (below_uri _ _ R). apply path_read, uri_path; [exact S|intros x []]. Qed.
Theorem C91_list : forall api_root d, at_root api_root -> all_scalar (dir_text d) -> dir_text d <> [] ->
  let r := list_request dir_text api_root d in
  addresses (r_url r) (u_root api_root) [str "uri"; dir_text d; []] /\ u_query (r_url r) = [(str "t", str "json")].
Proof.
  intros api_root d R S N. cbn [list_request r_url]. unfold list_url. rewrite (below_uri _ _ R), (below_cap _ _ _ N). split; [|reflexivity].
  apply path_read, uri_path; [exact S|]. intros x [<- |[]] c [].
Qed.
Theorem C91_link : forall api_root d name entry, at_root api_root -> all_scalar (dir_write_text d) -> dir_write_text d <> [] -> all_scalar name ->
  let r := link_request dir_write_text any_text api_root d name entry in
  addresses (r_url r) (u_root api_root) [str "uri"; dir_write_text d; name] /\ u_query (r_url r) = [(str "t", str "uri")] /\
  r_data r = Some (map zb (any_text entry)).
Proof.
  intros api_root d name entry R S N Sn. cbn [link_request r_url r_data]. unfold entry_url. rewrite (below_uri _ _ R), (below_cap _ _ _ N). split; [|split; reflexivity].
  apply path_read, uri_path; [exact S|]. intros x [<- |[]]. exact Sn.
Qed.
Theorem C91_unlink : forall api_root d name, at_root api_root -> all_scalar (dir_write_text d) -> dir_write_text d <> [] -> all_scalar name ->
  let r := unlink_request dir_write_text api_root d name in
  addresses (r_url r) (u_root api_root) [str "uri"; dir_write_text d; name] /\ u_query (r_url r) = [] /\ r_method r = str "DELETE".
Proof.
  intros api_root d name R S N Sn. cbn [unlink_request r_url r_method]. unfold entry_url. rewrite (below_uri _ _ R), (below_cap _ _ _ N). split; [|split; reflexivity].
  apply path_read, uri_path; [exact S|]. intros x [<- |[]]. exact Sn.
Qed.
(** So different names and capabilities have different URLs. *)
Theorem C91_distinct : forall u v root p q, addresses u root p -> addresses v root q -> url_text u = url_text v -> p = q.
Proof.
  intros u v root p q (r1 & E1 & R1) (r2 & E2 & R2) E. rewrite E1, E2 in E. apply app_inv_head in E. subst r2.
  rewrite R1 in R2. clear -R2. revert q R2. induction p as [|a p IH]; intros [|b q] H; try discriminate; [reflexivity|]. cbn in H. injection H as -> H. now rewrite (IH q H).
Qed.
End Requests.
Print Assumptions C91_download.
Print Assumptions C91_list.
Print Assumptions C91_link.
Print Assumptions C91_unlink.
Print Assumptions C91_distinct.

(** A name with a slash, a question mark, a percent sign and a letter that is not ASCII. *)
Example C91_instance :
  let r := unlink_request (fun d : text => d) (Url (str "http://localhost:1") [[]] []) (str "URI:DIR2:a:b") (str "a/b?c%" ++ [233]) in
  url_text (r_url r) = str "http://localhost:1/uri/URI%3ADIR2%3Aa%3Ab/a%2Fb%3Fc%25%C3%A9" /\
  addresses (r_url r) (str "http://localhost:1") [str "uri"; str "URI:DIR2:a:b"; str "a/b?c%" ++ [233]].
Proof.
  split; [vm_compute; reflexivity|]. exists (str "/uri/URI%3ADIR2%3Aa%3Ab/a%2Fb%3Fc%25%C3%A9"). split; vm_compute; reflexivity.
Qed.
