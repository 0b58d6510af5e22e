(** Property theorem C102: an operation on the grid succeeds exactly if the node says so. *)
From Verif Require Import Prelude PreludeFacts BytesModel BytesProofs CborModel CborProofs StreamModel JsonModel JsonSpec JsonProofs
  GridModel GridSpec GridProofs GridProperties OutcomeSpec.
From Verif Require JsonTextProofs.
From Coq Require Strings.String.
Import Coq.Strings.String.StringSyntax.

Section Outcomes.
Variable printable : Z -> bool.
Variable digest : text -> text.

(** ** One call *)
Lemma content_cases a : (exists code s, said a code s /\ content a = Ok (code, s)) \/
  (exists e, content a = Err e /\ (forall code s, ~ said a code s) /\
     ((e = Refused /\ a = Refusal) \/
      (e <> Refused /\ (forall x, e <> API x) /\ forall ok, tells ok a e))).
Proof.
  destruct a as [code body|code| |n]; cbn [content].
  - destruct (utf8_decode body) as [s|] eqn:E.
    + left. exists code, s. split; [exists body; split; [reflexivity|now apply JsonTextProofs.utf8_iff]|reflexivity].
    + assert (N : forall s, ~ utf8_text body s) by (intros s X; apply JsonTextProofs.utf8_iff in X; congruence).
      right. exists BadText. split; [reflexivity|]. split; [intros c s (b & [= -> ->] & X); now apply N in X|]. right.
      split; [discriminate|]. split; [discriminate|]. intros ok. cbn. eauto.
  - right. exists Disconnected. split; [reflexivity|]. split; [intros c s (b & X & _); discriminate|]. right.
    split; [discriminate|]. split; [discriminate|]. intros ok. cbn. eauto.
  - right. exists Refused. split; [reflexivity|]. split; [intros c s (b & X & _); discriminate|]. left. auto.
  - right. exists (Other n). split; [reflexivity|]. split; [intros c s (b & X & _); discriminate|]. right.
    split; [discriminate|]. split; [discriminate|]. intros ok. reflexivity.
Qed.

Lemma said_unique a c s c' s' : said a c s -> said a c' s' -> c = c' /\ s = s'.
Proof. intros (b & -> & E) (b' & [= <- <-] & E'). apply JsonTextProofs.utf8_iff in E, E'. split; congruence. Qed.

Lemma api_tells (ok : Z -> Prop) a method u code s : said a code s -> ~ ok code -> tells ok a (api_exn digest method u code s).
Proof. intros S N. unfold api_exn. destruct (scrub_caps_from_url digest u); cbn; eauto. Qed.
Lemma api_not_refused method u code s : api_exn digest method u code s <> Refused.
Proof. unfold api_exn. destruct (scrub_caps_from_url digest u); discriminate. Qed.

(** What is to be shown of an operation's single call. *)
Definition single {A} (ok : Z -> Prop) (reads : text -> A -> Prop) (result : answer -> res gexn A) : Prop :=
  forall a,
    match result a with
    | Ok x => exists code s, said a code s /\ ok code /\ reads s x
    | Err e => (e = Refused /\ a = Refusal) \/ (e <> Refused /\ tells ok a e)
    end.
Lemma single_content {A} ok (reads : text -> A -> Prop) (f : Z * text -> res gexn A) :
  (forall a code s, said a code s ->
     match f (code, s) with
     | Ok x => ok code /\ reads s x
     | Err e => e <> Refused /\ tells ok a e
     end) -> single ok reads (fun a => c <- content a ;; f c).
Proof.
  intros H a. destruct (content_cases a) as [(code & s & S & ->)|(e & -> & N & D)]; cbn.
  - specialize (H a code s S). destruct (f (code, s)); [destruct H; eauto|right; exact H].
  - destruct D as [D|(D & _ & T)]; [left; exact D|right; auto].
Qed.

(** ** All calls *)
Lemma again_not_ok {A} (e : res gexn A) : again (common_tahoe_errors printable) e -> exists x, e = Err x /\ (x = Refused \/ exists y, x = API y).
Proof.
  intros (x & m & -> & [<- | [<- | []]] & M); exists x; (split; [reflexivity|]); destruct x; try discriminate M; eauto.
Qed.
Lemma calls_come_from {A} ok reads req (result : answer -> res gexn A) answers fuel r requests :
  single ok reads result -> retried printable req result answers fuel = Some (r, requests) ->
  comes_from ok reads answers r (length requests) /\ requests = map req (seq 0 (length requests)).
Proof.
  intros Si E. unfold retried in E. destruct (async_retry _ _ 0 fuel) as [[r' n]|] eqn:R; [|discriminate]. injection E as -> <-.
  rewrite map_length, seq_length. split; [|reflexivity]. apply retry_spec in R. destruct R as (i & -> & _ & E & N & G). cbn [Nat.add] in *.
  exists i. split; [reflexivity|]. split.
  - intros j code s L S O. destruct (again_not_ok _ (G j L)) as (x & Ex & X). pose proof (Si (answers j)) as Sj. rewrite Ex in Sj.
    destruct S as (b & Eb & Ed). destruct Sj as [[-> Ra]|[_ T]]; [congruence|].
    destruct X as [->|[y ->]]; [destruct T|]. destruct T as [T No]. apply No.
    destruct (said_unique (answers j) code s (a_status y) (a_body y)) as [<- _]; [exists b; auto|exact T|exact O].
  - pose proof (Si (answers i)) as Sn. rewrite E in Sn. destruct r as [x|e]; [exact Sn|].
    destruct Sn as [[-> _]|[_ T]]; [|exact T]. exfalso. apply N. exists Refused, connection_refused.
    split; [reflexivity|]. split; [right; left; reflexivity|reflexivity].
Qed.
Lemma calls_come_up {A} req (result : answer -> res gexn A) answers n code s x fuel :
  comes_up answers n code s -> (result Refusal = Err Refused) -> (forall a, said a code s -> result a = Ok x) -> (n < fuel)%nat ->
  retried printable req result answers fuel = Some (Ok x, map req (seq 0 (S n))).
Proof.
  intros [Re Sa] Hr Hx L. unfold retried.
  assert (E : async_retry (common_tahoe_errors printable) (fun k => result (answers k)) 0 fuel = Some (Ok x, S n)).
  { apply retry_spec. exists n. cbn [Nat.add]. split; [reflexivity|]. split; [exact L|]. split; [apply Hx, Sa|].
    split; [intros (e & m & X & _); discriminate X|]. intros j Lj. rewrite (Re j Lj), Hr.
    exists Refused, connection_refused. split; [reflexivity|]. split; [right; left; reflexivity|reflexivity]. }
  rewrite E. reflexivity.
Qed.
Lemma said_content a code s : said a code s -> content a = Ok (code, s).
Proof. intros (b & -> & E). apply JsonTextProofs.utf8_iff in E. cbn. rewrite E. reflexivity. Qed.

Variables file_cap dir_cap dir_write_cap any_cap : Type.
Variable dir_text : dir_cap -> text.
Variable dir_write_text : dir_write_cap -> text.
Variable any_text : any_cap -> text.
Variable readable : text -> option file_cap.
Variable readonly : text -> option dir_cap.
Variable writeable : text -> option dir_write_cap.

(** ** The operations *)

(** An upload returns the capability the node gave with status 200 or 201. *)
Theorem C102_upload : forall api_root provider answers fuel r requests,
  upload printable digest readable api_root provider answers fuel = Some (r, requests) ->
  comes_from (fun code => code = 200 \/ code = 201) (fun s c => readable s = Some c) answers r (length requests).
Proof.
  intros api_root provider answers fuel r requests E. unfold upload in E. eapply calls_come_from in E; [apply E|].
  apply single_content. intros a code s S. cbn [fst snd].
  destruct (Z.eqb_spec code 200) as [->|N1]; [|destruct (Z.eqb_spec code 201) as [->|N2]]; cbn [orb].
  1,2: destruct (readable s) eqn:R; cbn; [auto|split; [discriminate|]]; eauto.
  split; [apply api_not_refused|apply api_tells; [exact S|intros [X|X]; contradiction]].
Qed.
Theorem C102_upload_succeeds : forall api_root provider answers n code s c fuel,
  comes_up answers n code s -> code = 200 \/ code = 201 -> readable s = Some c -> (n < fuel)%nat ->
  exists requests, upload printable digest readable api_root provider answers fuel = Some (Ok c, requests) /\ length requests = S n.
Proof.
  intros api_root provider answers n code s c fuel U O R L. unfold upload.
  rewrite (@calls_come_up _ (fun n => upload_request api_root (provider n)) (upload_result digest readable api_root) answers n code s c fuel U eq_refl);
    [eexists; split; [reflexivity|now rewrite map_length, seq_length]| |exact L].
  intros a S. unfold upload_result. rewrite (said_content _ _ _ S). cbn. destruct O as [-> | ->]; cbn; now rewrite R.
Qed.

(** Making a directory *)
Theorem C102_make_directory : forall api_root answers fuel r requests,
  make_directory printable digest writeable api_root answers fuel = Some (r, requests) ->
  comes_from (fun code => code = 200) (fun s c => writeable s = Some c) answers r (length requests).
Proof.
  intros api_root answers fuel r requests E. unfold make_directory in E. eapply calls_come_from in E; [apply E|].
  apply single_content. intros a code s S. cbn [fst snd]. destruct (Z.eqb_spec code 200) as [->|N1].
  - destruct (writeable s) eqn:R; cbn; [auto|split; [discriminate|]]. eauto.
  - split; [apply api_not_refused|apply api_tells; [exact S|exact N1]].
Qed.
Theorem C102_make_directory_succeeds : forall api_root answers n s c fuel,
  comes_up answers n 200 s -> writeable s = Some c -> (n < fuel)%nat ->
  exists requests, make_directory printable digest writeable api_root answers fuel = Some (Ok c, requests) /\ length requests = S n.
Proof.
  intros api_root answers n s c fuel U R L. unfold make_directory.
  rewrite (@calls_come_up _ (fun _ => make_request api_root) (make_result digest writeable api_root) answers n 200 s c fuel U eq_refl);
    [eexists; split; [reflexivity|now rewrite map_length, seq_length]| |exact L].
  intros a S. unfold make_result. rewrite (said_content _ _ _ S). cbn. now rewrite R.
Qed.

(** Linking *)
Theorem C102_link : forall api_root d name entry answers fuel r requests,
  link printable digest dir_write_text any_text api_root d name entry answers fuel = Some (r, requests) ->
  comes_from (fun code => code = 200) (fun s _ => True) answers r (length requests) /\ r <> Err NotADirectory.
Proof.
  intros api_root d name entry answers fuel r requests E. unfold link in E.
  set (ok := fun code : Z => code = 200).
  assert (Si : single ok (fun s _ => True) (link_result digest dir_write_text api_root d name)).
  { apply single_content. intros a code s S. cbn [fst snd]. destruct (Z.eqb_spec code 200) as [->|N1]; [split; [reflexivity|exact I]|].
    destruct (Z.eqb_spec code 500) as [->|N2]; cbn [andb].
    - destruct (contains _ s) eqn:Co.
      + split; [discriminate|]. exists s. split; [exact S|]. apply contains_shows. exact Co.
      + split; [apply api_not_refused|apply api_tells; [exact S|exact N1]].
    - split; [apply api_not_refused|apply api_tells; [exact S|exact N1]]. }
  split; [eapply calls_come_from in E; [apply E|exact Si]|]. intros ->.
  unfold retried in E. destruct (async_retry _ _ 0 fuel) as [[r' n]|] eqn:R; [|discriminate]. injection E as -> _.
  apply retry_spec in R. destruct R as (i & _ & _ & E & _). cbn [Nat.add] in E. unfold link_result in E.
  destruct (content_cases (answers i)) as [(code & s & S & Ec)|(e & Ec & _ & D)]; rewrite Ec in E; cbn [Prelude.bind fst snd] in E.
  - destruct (code =? 200); [discriminate|]. destruct (_ && _); [discriminate|]. unfold api_exn in E.
    destruct (scrub_caps_from_url _ _); discriminate.
  - destruct (answers i); cbn in Ec; try (injection Ec as <-; discriminate). destruct (utf8_decode body); [discriminate|]. injection Ec as <-. discriminate.
Qed.
Theorem C102_link_succeeds : forall api_root d name entry answers n s fuel,
  comes_up answers n 200 s -> (n < fuel)%nat ->
  exists requests, link printable digest dir_write_text any_text api_root d name entry answers fuel = Some (Ok tt, requests) /\ length requests = S n.
Proof.
  intros api_root d name entry answers n s fuel U L. unfold link.
  rewrite (@calls_come_up _ (fun _ => link_request dir_write_text any_text api_root d name entry) (link_result digest dir_write_text api_root d name) answers n 200 s tt fuel U eq_refl);
    [eexists; split; [reflexivity|now rewrite map_length, seq_length]| |exact L].
  intros a S. unfold link_result. now rewrite (said_content _ _ _ S).
Qed.

(** Unlinking *)
Theorem C102_unlink : forall api_root d name answers fuel r requests,
  unlink printable digest dir_write_text api_root d name answers fuel = Some (r, requests) ->
  comes_from (fun code => code = 200) (fun s _ => True) answers r (length requests).
Proof.
  intros api_root d name answers fuel r requests E. unfold unlink in E. eapply calls_come_from in E; [apply E|].
  apply single_content. intros a code s S. cbn [fst snd]. destruct (Z.eqb_spec code 200) as [->|N1]; [split; [reflexivity|exact I]|].
  destruct (Z.eqb_spec code 500) as [->|N2]; cbn [andb].
  - destruct (contains (str "allmydata.mutable.common.NotWriteableError") s) eqn:Co.
    + split; [discriminate|]. exists s. split; [exact S|]. apply contains_shows. exact Co.
    + cbn. split; [apply api_not_refused|apply api_tells; [exact S|exact N1]].
  - destruct (Z.eqb_spec code 400) as [->|N3]; cbn [andb].
    + destruct (contains (str "Files have no children named") s) eqn:Co.
      * split; [discriminate|]. exists s. split; [exact S|]. apply contains_shows. exact Co.
      * split; [apply api_not_refused|apply api_tells; [exact S|exact N1]].
    + split; [apply api_not_refused|apply api_tells; [exact S|exact N1]].
Qed.
Theorem C102_unlink_succeeds : forall api_root d name answers n s fuel,
  comes_up answers n 200 s -> (n < fuel)%nat ->
  exists requests, unlink printable digest dir_write_text api_root d name answers fuel = Some (Ok tt, requests) /\ length requests = S n.
Proof.
  intros api_root d name answers n s fuel U L. unfold unlink.
  rewrite (@calls_come_up _ (fun _ => unlink_request dir_write_text api_root d name) (unlink_result digest dir_write_text api_root d name) answers n 200 s tt fuel U eq_refl);
    [eexists; split; [reflexivity|now rewrite map_length, seq_length]| |exact L].
  intros a S. unfold unlink_result. now rewrite (said_content _ _ _ S).
Qed.

(** Refusals that can be told apart: linking into, and unlinking from, what cannot be written. *)
Theorem C102_not_writeable : forall api_root d name entry answers s fuel,
  said (answers 0%nat) 500 s -> shows s (str "allmydata.mutable.common.NotWriteableError") -> (0 < fuel)%nat ->
  (exists requests, link printable digest dir_write_text any_text api_root d name entry answers fuel = Some (Err NotWriteable, requests)) /\
  (exists requests, unlink printable digest dir_write_text api_root d name answers fuel = Some (Err NotWriteable, requests)).
Proof.
  intros api_root d name entry answers s fuel S Sh L. apply contains_shows in Sh.
  destruct fuel as [|fuel]; [lia|]. unfold link, unlink, retried. cbn [async_retry]. unfold link_result, unlink_result.
  rewrite (said_content _ _ _ S). cbn [Prelude.bind fst snd]. change (500 =? 200) with false. change (500 =? 500) with true. cbn iota.
  rewrite Sh. cbn. split; eexists; reflexivity.
Qed.

(** Listing; what is made of the text is C90. *)
Theorem C102_list : forall F float_of max_digits depth api_root d answers fuel (r : res gexn (list (text * node file_cap dir_cap F))) requests,
  list_directory printable digest dir_text readable readonly float_of max_digits depth api_root d answers fuel = Some (r, requests) ->
  comes_from (fun code => code = 200) (fun s _ => True) answers r (length requests).
Proof.
  intros F float_of max_digits depth api_root d answers fuel r requests E. unfold list_directory in E. eapply calls_come_from in E; [apply E|].
  apply single_content. intros a code s S. cbn [fst snd]. destruct (Z.eqb_spec code 200) as [->|N1].
  - assert (B : tells (fun code => code = 200) a BadListing) by (exists 200, s; auto).
    assert (Re : forall (l : list (text * json F)) e, read_entries readable readonly l = Err e -> (e = BadListing \/ e = NotRecognized)).
    { induction l as [|[nm j] l IH]; intros e; cbn; [discriminate|].
      assert (K : forall e0, read_entry readable readonly j = Err e0 -> e0 = BadListing \/ e0 = NotRecognized).
      { intros e0. unfold read_entry. destruct (as_pair j) as [[k v]|]; cbn; [|intros [= <-]; auto].
        destruct (as_object v) as [o|]; cbn; [|intros [= <-]; auto].
        assert (D : forall k0 : dir_cap -> node file_cap dir_cap F, (u <- listing_exn (jget (str "ro_uri") o);; u0 <- listing_exn (as_string u);;
                     c <- recognized (readonly u0);; Ok (k0 c)) = Err e0 -> e0 = BadListing \/ e0 = NotRecognized).
        { intros k0. destruct (jget (str "ro_uri") o) as [u|]; cbn; [|intros [= <-]; auto].
          destruct (as_string u); cbn; [|intros [= <-]; auto]. destruct (readonly _); cbn; [discriminate|intros [= <-]; auto]. }
        destruct k as [| | | |k| |]; try exact (D _).
        match goal with |- (if text_eqb k ?t then _ else _) = _ -> _ => destruct (text_eqb k t) end; [|exact (D _)].
        match goal with |- context [jget ?t o] => destruct (jget t o) end; cbn [listing_exn Prelude.bind]; [|intros X; left; congruence].
        match goal with |- context [jget ?t o] => destruct (jget t o) as [u|] end; cbn [listing_exn Prelude.bind]; [|intros X; left; congruence].
        destruct (as_string u); cbn [listing_exn Prelude.bind]; [|intros X; left; congruence].
        destruct (readable _); cbn [recognized Prelude.bind]; [discriminate|intros X; right; congruence]. }
      destruct (read_entry readable readonly j); cbn; [|intros [= <-]; apply K; reflexivity].
      destruct (read_entries readable readonly l) eqn:El; cbn; [discriminate|]. intros [= <-]. apply (IH _ eq_refl). }
    destruct (loads_text _ _ _ s) as [j|]; [|split; [discriminate|exact B]].
    destruct (as_pair j) as [[k v]|]; cbn; [|split; [discriminate|exact B]].
    destruct (as_object v) as [o|]; cbn; [|split; [discriminate|exact B]].
    match goal with |- context [jget ?t o] => destruct (jget t o) as [c|] end; cbn; [|split; [discriminate|exact B]].
    destruct (as_object c) as [l|]; cbn; [|split; [discriminate|exact B]].
    destruct (read_entries readable readonly l) as [x|e] eqn:El; [auto|].
    destruct (Re _ _ El) as [-> | ->]; (split; [discriminate|exact B]).
  - split; [apply api_not_refused|apply api_tells; [exact S|exact N1]].
Qed.
End Outcomes.
Print Assumptions C102_upload.
Print Assumptions C102_upload_succeeds.
Print Assumptions C102_make_directory.
Print Assumptions C102_make_directory_succeeds.
Print Assumptions C102_link.
Print Assumptions C102_link_succeeds.
Print Assumptions C102_unlink.
Print Assumptions C102_unlink_succeeds.
Print Assumptions C102_not_writeable.
Print Assumptions C102_list.

(** The node comes up, then refuses: it is not asked again and the error has status and text. *)
Definition gone_answers (n : nat) : answer := match n with O => Refusal | _ => Answer 410 (map zb (str "gone")) end.
Example C102_example_error :
  exists e, unlink (fun _ => true) (fun _ => str "abcdef") (fun c => c) (Url a_root [] []) a_cap (str "x") gone_answers 5
            = Some (Err (API e), repeat (Request (str "DELETE") (Url a_root [str "uri"; a_cap; str "x"] []) None) 2) /\
            a_status e = 410 /\ a_body e = str "gone".
Proof. eexists. split; [vm_compute; reflexivity|]. split; reflexivity. Qed.
Definition up_answers (n : nat) : answer := match n with O => Refusal | _ => Answer 200 (map zb (str "URI:CHK:x")) end.
Example C102_example_success :
  comes_up up_answers 1 200 (str "URI:CHK:x") /\
  exists requests, link (fun _ => true) (fun _ => str "abcdef") (fun c => c) (fun c => c) (Url a_root [] []) a_cap (str "x") (str "URI:CHK:x") up_answers 5
  = Some (Ok tt, requests).
Proof.
  split; [|eexists; vm_compute; reflexivity]. split; [intros [|i] L; [reflexivity|lia]|].
  exists (map zb (str "URI:CHK:x")). split; [reflexivity|apply JsonTextProofs.utf8_iff; vm_compute; reflexivity].
Qed.
Example C102_example_not_writeable :
  let answers := fun _ : nat => Answer 500 (map zb (str "<p>allmydata.mutable.common.NotWriteableError: no</p>")) in
  said (answers 0%nat) 500 (str "<p>allmydata.mutable.common.NotWriteableError: no</p>") /\
  shows (str "<p>allmydata.mutable.common.NotWriteableError: no</p>") (str "allmydata.mutable.common.NotWriteableError").
Proof.
  split; [eexists; split; [reflexivity|apply JsonTextProofs.utf8_iff; vm_compute; reflexivity]|]. exists (str "<p>"), (str ": no</p>"). reflexivity.
Qed.
