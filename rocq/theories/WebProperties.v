(** Requests to the node's HTTP interface and the vouchers it has: C113-C116. *)
From Verif Require Import Prelude PreludeFacts BytesModel BytesProofs CborModel CborProofs StreamModel PricingModel DateModel JsonModel
  JsonProofs HttpModel HttpSpec HttpProofs HttpProperties VoucherProperties WebModel WebSpec WebProofs.
From Verif Require JsonSpec JsonTextProofs PassModel StoreModel StoreProofs StreamProofs ControllerModel ControllerSpec ControllerProofs.
From Coq Require Strings.String Permutation.
Import Coq.Strings.String.StringSyntax.

Lemma Forall2_in {A B} (P Q : A -> B -> Prop) l l' : (forall a b, In a l -> P a b -> Q a b) -> Forall2 P l l' -> Forall2 Q l l'.
Proof. intros H X. induction X; constructor; [apply H; [left; reflexivity|assumption]|]. apply IHX. intros a b I. apply H. now right. Qed.
Lemma bytes_eqb_eq a b : bytes_eqb a b = true -> a = b.
Proof. destruct (bytes_eqb_spec a b); congruence. Qed.
Lemma ascii_decoded b : VoucherSpec.all_ascii b -> utf8_decode b = Some (ascii b).
Proof. intros A. now apply utf8_decode_ascii. Qed.

Section Web.
Variable F : Type.
Variable float_of : text -> F.
Variable float_repr : F -> text.
Variable is_one : F -> bool.
Variable max_digits : nat.
Variable decode : bytes -> option text.
Variable depth : nat.
Variable secret : bytes.
Variable version : text.
Variables needed total pass_value period : Z.
Variable code : bytes -> Z.
Variable name : Z -> bytes.
Variable time : Z -> stamp.
Variable words : Z -> text.
Variables groups dflt : Z.
Variable allowed : list Z.

Notation handle := (handle float_of float_repr is_one max_digits decode depth utf8_decode secret version needed total pass_value period code name time words).
Notation web_step := (web_step float_of float_repr is_one max_digits decode depth utf8_decode secret version needed total pass_value period code name time words groups dflt allowed).
Notation web_run := (web_run float_of float_repr is_one max_digits decode depth utf8_decode secret version needed total pass_value period code name time words groups dflt allowed).
Notation life := (life web_run).
Notation submits := (submits float_of max_digits decode depth secret).
Notation loads := (loads float_of max_digits decode depth).
Notation json := (json F).

(** ** C113 *)

(** A request without the token is answered in the same way in every state, and nothing is
    done. *)
Theorem C113_refused : secret <> [] -> forall c req, ~ carries secret req ->
  handle c req = (Now (Response 401 []), None).
Proof. intros S c req N. now apply handle_out. Qed.

(** Leave all such requests out of a history: the node ends in the same state, and all the other
    requests are answered as before. *)
Theorem C113_outsiders_make_no_difference : secret <> [] -> forall c es, exists es',
  (forall te, In te es' <-> In te es /\ match te with (Http req, _, _) => carries secret req | _ => True end) /\
  snd (web_run c es') = snd (web_run c es) /\
  sifted secret (combine es (fst (web_run c es))) (combine es' (fst (web_run c es'))).
Proof. intros S c es. now apply outsiders. Qed.

(** ** C114 *)

(** Only submitting a voucher changes anything in the wallet and in the controller. *)
Theorem C114_only_submitting_changes : secret <> [] -> forall c req now gen,
  snd (web_step c (Http req, now, gen)) <> c -> exists b, submits req b.
Proof.
  intros S c req now gen H. unfold WebModel.web_step in H. destruct (handle c req) as [a [[b| |]|]] eqn:E; try (now destruct H).
  exists b. eapply handle_submits; [exact S|]. exists a. exact E.
Qed.
(** Looking does nothing at all. *)
Theorem C114_looking_does_nothing : forall c req,
  r_method req <> PUT -> r_method req <> POST -> hd_error (r_path req) <> Some (PassModel.ascii "recover") ->
  snd (handle c req) = None.
Proof.
  intros c req NP NO NR. unfold WebModel.handle. destruct (authorized secret (r_authorization req)); [|reflexivity].
  assert (P : bytes_eqb (r_method req) PUT = false).
  { destruct (bytes_eqb (r_method req) PUT) eqn:X; [|reflexivity]. apply bytes_eqb_eq in X. contradiction. }
  assert (O : bytes_eqb (r_method req) POST = false).
  { destruct (bytes_eqb (r_method req) POST) eqn:X; [|reflexivity]. apply bytes_eqb_eq in X. contradiction. }
  destruct (find _ _ _ _ _ _ c (r_path req)) as [r|] eqn:E; [|reflexivity]. unfold WebModel.render. rewrite P, O.
  destruct r; try (destruct (bytes_eqb (r_method req) GET); [reflexivity|]; destruct (bytes_eqb (r_method req) HEAD); reflexivity); try reflexivity.
  exfalso. apply NR. unfold WebModel.find in E. destruct (r_path req) as [|x rest]; [discriminate|]. cbn [hd_error]. unfold root_child in E.
  destruct (bytes_eqb x (PassModel.ascii "recover")) eqn:X; [apply bytes_eqb_eq in X; now rewrite X|].
  repeat match type of E with context [if bytes_eqb x ?y then _ else _] => destruct (bytes_eqb x y); [try (destruct rest; discriminate)|] end; [|discriminate].
  destruct rest as [|y rest]; [discriminate|]. unfold voucher_child in E.
  destruct (utf8_decode y); [|discriminate]. destruct (is_syntactic_voucher _); [|discriminate]. destruct (VoucherModel.encode_ascii _); [|discriminate].
  destruct (ControllerModel.get_voucher _ _) as [[v st]|[]]; try discriminate. destruct rest; discriminate.
Qed.

Definition as_its_page_does (c : ControllerModel.ctl) (r : StoreModel.voucher_row) (j : json) : Prop :=
  exists b, voucher_number b /\ StoreModel.v_number r = code b /\ tells time words c r b j /\
    forall req, asks secret GET (voucher_path b) req -> handle c req = (Now (Response 200 (dumps_utf8 float_repr j)), None).

Section List.
Hypothesis code_name : forall b, name (code b) = b.

Lemma life_rows es c : secret <> [] -> life es c -> forall r, ControllerSpec.row c r ->
  exists b, voucher_number b /\ StoreModel.v_number r = code b.
Proof.
  intros S L r Hr. assert (K : In (StoreModel.v_number r) (known c)) by (unfold known; now apply in_map).
  destruct (@life_known _ _ _ _ _ _ _ _ _ _ _ _ _ _ _ _ _ _ _ _ _ _ _ S L _ K) as (req & now & gen & b & _ & (_ & V & _) & E).
  exists b. auto.
Qed.

Lemma list_both : secret <> [] -> forall es c req, life es c -> asks secret GET vouchers_path req ->
  exists js, handle c req = (Now (Response 200 (dumps_utf8 float_repr (JObj [(str "vouchers", JArr js)]))), None) /\
    Forall2 (as_its_page_does c) (StoreModel.vouchers (ControllerModel.c_db c)) js /\
    ((1 <= max_digits)%nat -> writable_rows max_digits words c ->
     Forall2 (fun _ j => writable max_digits j /\ depth_of j = 2%nat) (StoreModel.vouchers (ControllerModel.c_db c)) js).
Proof.
  intros S es c req L A. pose proof (@life_rows es c S L) as R. destruct (life_inv L) as (out & J).
  assert (V : forall r, ControllerSpec.row c r -> voucher_number (name (StoreModel.v_number r))).
  { intros r Hr. destruct (R r Hr) as (b & V & ->). now rewrite code_name. }
  destruct (@list_page _ float_of float_repr is_one max_digits decode depth utf8_decode secret version needed total pass_value period code name time words _ _ _ _ S J A V)
    as (js & E & Fa).
  exists js. split; [exact E|]. split.
  - eapply Forall2_in; [|exact Fa]. intros r j Hr Ej. destruct (R r Hr) as (b & Vb & Nb).
    destruct (@row_json F name time words groups _ _ _ b J Hr) as (j' & Ej' & T); [rewrite Nb; apply code_name|exact Vb|].
    rewrite Ej in Ej'. injection Ej' as <-. exists b. split; [exact Vb|]. split; [exact Nb|]. split; [exact T|]. intros req' A'.
    rewrite (@page_known _ float_of float_repr is_one max_digits decode depth _ _ version needed total pass_value period code name time words _ ascii_decoded _ _ _ _ _ S J Hr Nb Vb A'), Ej. reflexivity.
  - intros Md W. eapply Forall2_in; [|exact Fa]. intros r j Hr Ej.
    exact (@row_writable _ _ name time words _ _ _ _ _ Md J W Hr (V r Hr) Ej).
Qed.

(** The list is of the vouchers that the node has, each shown as on its own page. *)
Theorem C114_list : secret <> [] -> forall es c req, life es c -> asks secret GET vouchers_path req ->
  exists js, handle c req = (Now (Response 200 (dumps_utf8 float_repr (JObj [(str "vouchers", JArr js)]))), None) /\
    Forall2 (as_its_page_does c) (StoreModel.vouchers (ControllerModel.c_db c)) js.
Proof. intros S es c req L A. destruct (list_both S es c req L A) as (js & E & Fa & _). exists js. auto. Qed.

(** A client that can read JSON can read the list. *)
Theorem C114_list_can_be_read : secret <> [] -> forall es c req, life es c -> asks secret GET vouchers_path req ->
  decodes_ascii decode -> (1 <= max_digits)%nat -> (4 <= depth)%nat -> writable_rows max_digits words c ->
  exists js body, handle c req = (Now (Response 200 body), None) /\ JsonSpec.json_body float_of max_digits decode depth body (JObj [(str "vouchers", JArr js)]) /\
    Forall2 (as_its_page_does c) (StoreModel.vouchers (ControllerModel.c_db c)) js.
Proof.
  intros S es c req L A D Md Dp W. destruct (list_both S es c req L A) as (js & E & Fa & Fb). exists js. eexists. split; [exact E|]. split; [|exact Fa].
  specialize (Fb Md W).
  assert (X : Forall (fun j => writable max_digits j /\ depth_of j = 2%nat) js) by (clear -Fb; induction Fb; constructor; auto).
  apply list_writable in X as [X1 X2]. apply JsonTextProofs.loads_iff, loads_dumps; [exact D|exact X1|lia].
Qed.

(** Every other number is answered with 404. *)
Theorem C114_others_are_not_found : secret <> [] -> forall c req b, ~ In (code b) (known c) -> voucher_number b ->
  asks secret GET (voucher_path b) req -> handle c req = (Now (Response 404 []), None).
Proof. intros S c req b N V A. now apply (@page_unknown _ _ _ _ _ _ _ _ _ _ _ _ _ _ _ _ _ _ ascii_decoded _ _ b). Qed.

(** There is nothing else: not at the top, not below the other pages, and not below the page of a
    voucher. *)
Theorem C114_there_is_nothing_else : secret <> [] -> forall es c req segment rest, life es c ->
  carries secret req -> r_path req = segment :: rest ->
  (~ In segment top \/
   (rest <> [] /\ segment <> PassModel.ascii "recover" /\ segment <> PassModel.ascii "voucher") \/
   (exists b segment' rest', segment = PassModel.ascii "voucher" /\ voucher_number b /\ rest = b :: segment' :: rest')) ->
  handle c req = (Now (Response 404 []), None).
Proof.
  intros S es c req segment rest L C P H. rewrite handle_in by assumption. rewrite P. unfold WebModel.find, root_child.
  assert (Ne : forall x, segment <> x -> bytes_eqb segment x = false) by (intros x N; destruct (bytes_eqb_spec segment x); [contradiction|reflexivity]).
  destruct H as [N|[(Hr & N1 & N2)|(b & s' & rest' & -> & V & ->)]].
  - rewrite !Ne; [reflexivity|..]; intros ->; apply N; vm_compute; auto 10.
  - rewrite (Ne _ N1), (Ne _ N2).
    repeat match goal with |- context [if bytes_eqb segment ?y then _ else _] => destruct (bytes_eqb segment y) end;
      try reflexivity; destruct rest; try contradiction; reflexivity.
  - change (bytes_eqb (PassModel.ascii "voucher") (PassModel.ascii "recover")) with false.
    change (bytes_eqb (PassModel.ascii "voucher") (PassModel.ascii "replicate")) with false.
    rewrite bytes_eqb_refl. cbv iota. unfold voucher_child. pose proof (number_ascii V) as A. rewrite (ascii_decoded _ A).
    pose proof V as Sy. apply (syntactic_spec F) in Sy. rewrite Sy, (VoucherProofs.encode_ascii_ok A).
    destruct (life_inv L) as (out & J). destruct (ControllerProofs.known_dec c (code b)) as [(r & Hr & <-)|N].
    + destruct (@ControllerProofs.get_voucher_spec _ _ _ _ J Hr) as (s & -> & _). reflexivity.
    + rewrite (@ControllerProofs.get_voucher_unknown c _ N). reflexivity.
Qed.

(** ** C115 *)

(** Submitting is answered with 200, ... *)
Theorem C115_submitting_is_answered : secret <> [] -> forall c req b, submits req b ->
  handle c req = (Now (Response 200 []), Some (SubmitVoucher b)).
Proof.
  intros S c req b Sb. destruct Sb as ((C & M & P) & V & L). apply JsonTextProofs.loads_iff in L. rewrite handle_in by assumption. rewrite P.
  change (find _ _ _ _ _ _ c vouchers_path) with (Some Vouchers). cbv iota. unfold WebModel.render. rewrite M.
  destruct (put_spec float_of max_digits decode depth (r_body req)) as [(b' & Eb & L' & _)|(Eb & N)].
  - rewrite L in L'. injection L' as X. apply StreamProofs.ascii_inj in X. subst b'. rewrite Eb. reflexivity.
  - apply N in L. apply (syntactic_spec F) in V. congruence.
Qed.
(** ... and from then on the voucher has a page, whatever happens. *)
Theorem C115_submitted_vouchers_are_shown_partial : secret <> [] -> 1 <= groups <= dflt ->
  forall es req now gen es' c b req', life (es ++ (Http req, now, gen) :: es') c -> submits req b ->
  ControllerSpec.fresh_tokens gen (ControllerModel.c_db (snd (web_run ControllerModel.new_node es))) ->
  asks secret GET (voucher_path b) req' ->
  exists r j, ControllerSpec.row c r /\ StoreModel.v_number r = code b /\ tells time words c r b j /\
    handle c req' = (Now (Response 200 (dumps_utf8 float_repr j)), None).
Proof.
  intros S G es req now gen es' c b req' L Sb Fr A. pose proof (submitted_is_known _ _ _ S G L Sb Fr) as K.
  destruct (@known_row c _ K) as (r & Hr & N). destruct (life_inv L) as (out & J). destruct Sb as (_ & V & _).
  destruct (@row_json F name time words groups out c r b J Hr) as (j & Ej & T); [rewrite N; apply code_name|exact V|].
  exists r, j. split; [exact Hr|]. split; [exact N|]. split; [exact T|].
  rewrite (@page_known _ float_of float_repr is_one max_digits decode depth _ _ version needed total pass_value period code name time words _ ascii_decoded _ _ _ _ _ S J Hr N V A), Ej. reflexivity.
Qed.
(** A voucher that has a page was submitted. *)
Theorem C115_only_submitted_vouchers_are_shown : secret <> [] -> forall es c b req body eff, life es c -> voucher_number b ->
  asks secret GET (voucher_path b) req -> handle c req = (Now (Response 200 body), eff) ->
  exists req' now gen, In (Http req', now, gen) es /\ submits req' b.
Proof.
  intros S es c b req body eff L V A E. destruct (in_dec Z.eq_dec (code b) (known c)) as [K|K].
  - destruct (@life_known _ _ _ _ _ _ _ _ _ _ _ _ _ _ _ _ _ _ _ _ _ _ _ S L _ K) as (req' & now & gen & b' & I & Sb & X).
    assert (b = b') by (rewrite <- (code_name b), X; apply code_name). subst b'. exists req', now, gen. auto.
  - rewrite (C114_others_are_not_found S c req b K V A) in E. discriminate.
Qed.
(** With fewer tokens to a voucher than there are groups, no voucher is ever shown; submitting is
    answered with 200 all the same. *)
Theorem C115_no_voucher_when_there_are_too_few_tokens : secret <> [] -> dflt < groups ->
  forall es c b req, life es c -> voucher_number b -> asks secret GET (voucher_path b) req ->
  handle c req = (Now (Response 404 []), None).
Proof.
  intros S G es c b req L V A. apply (fun N => @C114_others_are_not_found S c req b N V A). unfold known. rewrite (too_few_none S G L). auto.
Qed.

(** ** C116 *)

(** The report gives the number of tokens that can be had from the wallet, and what the last
    run of lease maintenance cost. *)
Theorem C116_report : secret <> [] -> forall es c req, life es c -> asks secret GET maintenance_path req ->
  exists n j, handle c req = (Now (Response 200 (dumps_utf8 float_repr (JObj [(str "total", JInt n); (str "spending", j)]))), None) /\
    can_spend (ControllerModel.c_db c) n /\ last_run time (ControllerModel.c_db c) j.
Proof. intros S es c req L A. destruct (life_inv L) as (out & J). eapply report_page; eassumption. Qed.
End List.
End Web.
Print Assumptions C113_refused.
Print Assumptions C113_outsiders_make_no_difference.
Print Assumptions C114_only_submitting_changes.
Print Assumptions C114_looking_does_nothing.
Print Assumptions C114_list.
Print Assumptions C114_list_can_be_read.
Print Assumptions C114_others_are_not_found.
Print Assumptions C114_there_is_nothing_else.
Print Assumptions C115_submitting_is_answered.
Print Assumptions C115_submitted_vouchers_are_shown_partial.
Print Assumptions C115_only_submitted_vouchers_are_shown.
Print Assumptions C115_no_voucher_when_there_are_too_few_tokens.
Print Assumptions C116_report.

(** ** Concrete cases *)

(** Numbers for byte strings: base 256 after a leading one. *)
Definition wx_code (b : bytes) : Z := fold_left (fun a x => a * 256 + bz x) b 1.
Fixpoint wx_digits (fuel : nat) (z : Z) : bytes :=
  match fuel with
  | O => []
  | S k => if z <=? 1 then [] else wx_digits k (z / 256) ++ [zb (z mod 256)]
  end.
Definition wx_name (z : Z) : bytes := wx_digits (Z.to_nat (Z.log2 z)) z.

Lemma wx_code_snoc b x : wx_code (b ++ [x]) = wx_code b * 256 + bz x.
Proof. unfold wx_code. now rewrite fold_left_app. Qed.
Lemma wx_code_large b : 2 ^ Z.of_nat (length b) <= wx_code b.
Proof.
  induction b as [|x b IH] using rev_ind; [cbn; lia|]. rewrite wx_code_snoc, app_length. cbn [length].
  rewrite Nat.add_1_r, Nat2Z.inj_succ, Z.pow_succ_r by lia. pose proof (bz_range x). lia.
Qed.
Lemma wx_digits_code b : forall k, (length b <= k)%nat -> wx_digits k (wx_code b) = b.
Proof.
  induction b as [|x b IH] using rev_ind; intros k L.
  - destruct k; reflexivity.
  - rewrite app_length in L. cbn [length] in L. destruct k as [|k]; [lia|]. rewrite wx_code_snoc. pose proof (bz_range x) as Bx.
    pose proof (wx_code_large b) as P. assert (0 < 2 ^ Z.of_nat (length b)) by (apply Z.pow_pos_nonneg; lia).
    cbn [wx_digits]. destruct (Z.leb_spec (wx_code b * 256 + bz x) 1); [lia|].
    rewrite Z.add_comm, Z.div_add, Z.mod_add, Z.div_small, Z.mod_small by lia. rewrite Z.add_0_l, IH by lia. now rewrite zb_bz.
Qed.
Lemma wx_code_name b : wx_name (wx_code b) = b.
Proof.
  apply wx_digits_code. pose proof (wx_code_large b) as P. apply Z.log2_le_mono in P. rewrite Z.log2_pow2 in P by lia. lia.
Qed.

(** New tokens: different for different vouchers and places. *)
Definition wx_fresh (v k n : Z) : list Z :=
  map (fun i => let s := (if v <? 0 then -2 * v - 1 else 2 * v) + Z.of_nat i in s * s + Z.of_nat i) (seq 0 (Z.to_nat n)).
Lemma wx_pair a b a' b' : 0 <= a -> 0 <= b -> 0 <= a' -> 0 <= b' -> (a + b) * (a + b) + b = (a' + b') * (a' + b') + b' -> a = a' /\ b = b'.
Proof. intros. assert (a + b = a' + b') by nia. nia. Qed.
Lemma wx_fresh_ok : ControllerSpec.fresh_tokens wx_fresh StoreModel.empty_db.
Proof.
  split; [|split; [|split]].
  - intros v c n Hn. unfold wx_fresh. rewrite map_length, seq_length. lia.
  - intros v c n. apply FinFun.Injective_map_NoDup; [|apply seq_NoDup]. intros i i' E. cbv zeta in E.
    apply wx_pair in E; [lia| | | |]; destruct (Z.ltb_spec v 0); lia.
  - intros v c n t _ [].
  - intros v c n v' c' n' t I I'. apply in_map_iff in I as (i & <- & _). apply in_map_iff in I' as (i' & E & _). cbv zeta in E.
    apply wx_pair in E as [E _]; destruct (Z.ltb_spec v' 0), (Z.ltb_spec v 0); lia.
Qed.

Definition wx_secret : bytes := PassModel.ascii "open sesame".
Definition wx_token : list bytes := [PassModel.ascii "tahoe-lafs open sesame"].
Definition wx_time (_ : Z) : stamp := some_time.
Definition wx_words (_ : Z) : text := str "no connection".
Definition wx_request (method : bytes) (path : list bytes) (body : bytes) : request := Request method path wx_token [] body.
Definition wx_put : request :=
  wx_request PUT vouchers_path (PassModel.ascii "{""voucher"": ""NXlb3RcNRhr_ww3ZZpKzWtgdVJpxoXkbqhDEgQ5tnXo=""}").
Definition wx_stranger : request :=
  Request PUT vouchers_path [PassModel.ascii "tahoe-lafs open sesam"] []
    (PassModel.ascii "{""voucher"": ""AXlb3RcNRhr_ww3ZZpKzWtgdVJpxoXkbqhDEgQ5tnXo=""}").
Definition wx_list : request := wx_request GET vouchers_path [].
Definition wx_page : request := wx_request GET (voucher_path sample_number) [].
Definition wx_report : request := wx_request GET maintenance_path [].

Definition wx_handle := handle no_float no_repr is_one_unit 4300 ascii_only 10 utf8_decode wx_secret (str "1.0") 3 10 1000 2678400 wx_code wx_name wx_time wx_words.
Definition wx_run dflt := web_run no_float no_repr is_one_unit 4300 ascii_only 10 utf8_decode wx_secret (str "1.0") 3 10 1000 2678400 wx_code wx_name wx_time wx_words 2 dflt [5].

(** A stranger's request, a submission, an answer with two tokens, a token taken, maintenance. *)
Definition wx_events : list web_timed :=
  map (fun e => (e, 10, wx_fresh))
    [Other ControllerModel.EStart; Http wx_stranger; Http wx_put; Http wx_list;
     Other (ControllerModel.EAnswer 0 (ControllerModel.ASuccess [11; 12] 5));
     Other (ControllerModel.EWallet (StoreModel.OExtract (fun l => l) 1));
     Other (ControllerModel.EWallet (StoreModel.OMaintStart 20));
     Other (ControllerModel.EWallet (StoreModel.OMaintObserve 1000 (Some 1) [5000]));
     Other (ControllerModel.EWallet (StoreModel.OMaintFinish (Some 1) 30));
     Http wx_stranger; Http wx_page; Http wx_report].
Definition wx_end dflt := snd (wx_run dflt ControllerModel.new_node wx_events).

Lemma wx_carries method path body : carries wx_secret (wx_request method path body).
Proof. apply carries_authorized; [discriminate|]. vm_compute. reflexivity. Qed.
Lemma wx_stranger_out : ~ carries wx_secret wx_stranger.
Proof. intros C. apply carries_authorized in C; [|discriminate]. vm_compute in C. discriminate. Qed.
Lemma wx_submits : submits no_float 4300 ascii_only 10 wx_secret wx_put sample_number.
Proof.
  split; [split; [apply wx_carries|split; reflexivity]|]. split; [apply C62_instance|]. apply JsonTextProofs.loads_iff. vm_compute. reflexivity.
Qed.
Lemma wx_ordinary : Forall ordinary wx_events.
Proof.
  assert (E : ControllerSpec.enough wx_fresh) by apply wx_fresh_ok.
  unfold wx_events. cbn [map].
  repeat (apply Forall_cons; [first [exact E | split; [first [exact I | intros l; apply Permutation.Permutation_refl]|exact E]]|]). constructor.
Qed.

Lemma wx_life dflt : life (wx_run dflt) wx_events (wx_end dflt).
Proof. split; [apply wx_ordinary|]. unfold wx_end. apply eq_refl. Qed.
Lemma wx_split : wx_events = firstn 2 wx_events ++ (Http wx_put, 10, wx_fresh) :: skipn 3 wx_events.
Proof. reflexivity. Qed.

Example C113_ex :
  ~ carries wx_secret wx_stranger /\ wx_secret <> [] /\
  nth_error (fst (wx_run 4 ControllerModel.new_node wx_events)) 1 = Some (Some (Now (Response 401 []))) /\
  nth_error (fst (wx_run 4 ControllerModel.new_node wx_events)) 2 = Some (Some (Now (Response 200 []))) /\
  known (wx_end 4) = [wx_code sample_number].
Proof. split; [apply wx_stranger_out|]. split; [discriminate|]. vm_compute. repeat split; reflexivity. Qed.

Definition wx_shown : json unit :=
  JObj [(str "number", JStr (ascii sample_number)); (str "expected-tokens", JInt 4);
        (str "created", JStr (str "2021-12-31T23:59:59.999999+00:00"));
        (str "state", JObj [(str "name", JStr (str "redeeming")); (str "started", JStr (str "2021-12-31T23:59:59.999999+00:00")); (str "counter", JInt 1)]);
        (str "version", JInt 1)].
Example C114_ex :
  (forall b, wx_name (wx_code b) = b) /\ life (wx_run 4) wx_events (wx_end 4) /\
  asks wx_secret GET vouchers_path wx_list /\ asks wx_secret GET (voucher_path sample_number) wx_page /\
  wx_handle (wx_end 4) wx_list = (Now (Response 200 (dumps_utf8 no_repr (JObj [(str "vouchers", JArr [wx_shown])]))), None) /\
  wx_handle (wx_end 4) wx_page = (Now (Response 200 (dumps_utf8 no_repr wx_shown)), None).
Proof.
  split; [exact wx_code_name|]. split; [apply wx_life|]. split; [split; [apply wx_carries|split; reflexivity]|].
  split; [split; [apply wx_carries|split; reflexivity]|]. vm_compute. split; reflexivity.
Qed.
Example C114_ex_writable : writable_rows 4300 wx_words (wx_end 4).
Proof.
  intros r s Hr Rp. vm_compute in Hr. destruct Hr as [<-|[]]. split; [vm_compute; reflexivity|].
  destruct Rp as [f n E _ _|f E _|f k E Ia|f E N|f x E N|E N]; [discriminate E|discriminate E| |exact I| |].
  - vm_compute in Ia. destruct Ia as [Ia|[]]. injection Ia as <- <-. vm_compute. reflexivity.
  - refine (False_ind _ (N _)). vm_compute. left. reflexivity.
  - refine (False_ind _ (N _)). vm_compute. left. reflexivity.
Qed.

Example C115_ex :
  life (wx_run 4) (firstn 2 wx_events ++ (Http wx_put, 10, wx_fresh) :: skipn 3 wx_events) (wx_end 4) /\
  submits no_float 4300 ascii_only 10 wx_secret wx_put sample_number /\
  ControllerSpec.fresh_tokens wx_fresh (ControllerModel.c_db (snd (wx_run 4 ControllerModel.new_node (firstn 2 wx_events)))) /\
  asks wx_secret GET (voucher_path sample_number) wx_page /\ 1 <= 2 <= 4.
Proof.
  split; [rewrite <- wx_split; apply wx_life|]. split; [apply wx_submits|]. split; [exact wx_fresh_ok|].
  split; [split; [apply wx_carries|split; reflexivity]|]. lia.
Qed.

(** With too few tokens to a voucher, this voucher was submitted, which was answered with 200, and
    is not shown. *)
Theorem C115_submitted_vouchers_are_shown_refuted : ~ (forall groups dflt : Z, 0 < groups -> 0 < dflt ->
  forall es req now gen es' c b req',
  let run := web_run no_float no_repr is_one_unit 4300 ascii_only 10 utf8_decode wx_secret (str "1.0") 3 10 1000 2678400 wx_code wx_name wx_time wx_words groups dflt [5] in
  life run (es ++ (Http req, now, gen) :: es') c ->
  submits no_float 4300 ascii_only 10 wx_secret req b -> ControllerSpec.fresh_tokens gen (ControllerModel.c_db (snd (run ControllerModel.new_node es))) ->
  asks wx_secret GET (voucher_path b) req' ->
  exists body, fst (wx_handle c req') = Now (Response 200 body)).
Proof.
  intros H. assert (X : life (wx_run 1) (firstn 2 wx_events ++ (Http wx_put, 10, wx_fresh) :: skipn 3 wx_events) (wx_end 1)) by (rewrite <- wx_split; apply wx_life).
  assert (A : asks wx_secret GET (voucher_path sample_number) wx_page) by (split; [apply wx_carries|split; reflexivity]).
  destruct (H 2 1 eq_refl eq_refl _ _ _ _ _ _ _ wx_page X wx_submits wx_fresh_ok A) as (body & B).
  vm_compute in B. discriminate.
Qed.
Print Assumptions C115_submitted_vouchers_are_shown_refuted.

Example C116_ex :
  asks wx_secret GET maintenance_path wx_report /\
  wx_handle (wx_end 4) wx_report =
  (Now (Response 200 (PassModel.ascii "{""total"": 1, ""spending"": {""when"": ""2021-12-31T23:59:59.999999+00:00"", ""count"": 5}}")), None) /\
  wx_handle ControllerModel.new_node wx_report = (Now (Response 200 (PassModel.ascii "{""total"": 0, ""spending"": null}")), None).
Proof. split; [split; [apply wx_carries|split; reflexivity]|]. vm_compute. split; reflexivity. Qed.
