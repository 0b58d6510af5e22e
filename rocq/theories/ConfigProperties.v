(** Property theorems C103 to C105: what the options in tahoe.cfg mean. *)
From Verif Require Import Prelude BytesModel BytesProofs PassModel ConfigModel ConfigSpec ConfigProofs.
From Coq Require Strings.String.
Import Coq.Strings.String.StringSyntax.

Lemma same_section : client_section = ascii "storageclient.plugins.privatestorageio-zkapauthz-v2".
Proof. reflexivity. Qed.

(** ** C103: the keys that may sign tokens *)

(** Without blanks between the keys, exactly the keys that are written. *)
Theorem C103_allowed_keys_partial : forall c keys line v,
  (forall k, In k keys -> word k) -> comma_list eq keys line -> padded line v ->
  plugin_option c (ascii "allowed-public-keys") (Some v) ->
  get_configured_allowed_public_keys c = Ok keys.
Proof.
  intros c keys line v W L P O. unfold get_configured_allowed_public_keys, get_text. rewrite same_section.
  unfold plugin_option in O. rewrite O. cbn [bind].
  rewrite (strip_padded (@free_trim _ (plain_chars W L)) P). f_equal. apply plain_list; assumption.
Qed.
Print Assumptions C103_allowed_keys_partial.

(** With a blank after the comma, as lists are mostly written, the key after it
    is not in the list: false for every two keys. *)
Theorem C103_blank_after_comma_refuted : forall c k1 k2,
  word k1 -> word k2 -> k1 <> [] -> k2 <> [] -> k1 <> k2 ->
  let v := k1 ++ [x2c] ++ [x20] ++ k2 in
  plugin_option c (ascii "allowed-public-keys") (Some v) ->
  comma_list padded [k1; k2] v /\
  exists l, get_configured_allowed_public_keys c = Ok l /\ In k1 l /\ ~ In k2 l.
Proof.
  intros c k1 k2 W1 W2 N1 N2 D v O. split.
  - apply CMore; [exists [], []; split; [intros b []|split; [intros b []|cbn; rewrite app_nil_r; reflexivity]]|].
    apply CLast. exists [x20], []. split; [intros b [<-|[]]; right; change (bz x20) with 32; lia|].
    split; [intros b []|rewrite app_nil_r; reflexivity].
  - exists [k1; x20 :: k2]. unfold get_configured_allowed_public_keys, get_text. rewrite same_section.
    unfold plugin_option in O. rewrite O. cbn [bind].
    assert (Ev : strip v = v).
    { apply strip_padded; [|exists [], []; split; [intros b []|split; [intros b []|cbn; rewrite app_nil_r; reflexivity]]].
      right. destruct k1 as [|c1 k1]; [congruence|]. destruct (exists_last N2) as (m & d & E).
      exists c1, (k1 ++ [x2c] ++ [x20] ++ m), d. split; [right; unfold v; rewrite E; cbn; rewrite <- app_assoc; reflexivity|].
      split; [apply W1; left; reflexivity|]. right. apply W2. rewrite E. apply in_or_app. right. left. reflexivity. }
    rewrite Ev. unfold v. cbn [app]. rewrite split_on_app by (apply word_no_comma; exact W1).
    rewrite split_on_nosep.
    2:{ intros [X|X]; [discriminate X|exact (word_no_comma W2 X)]. }
    split; [reflexivity|]. split; [left; reflexivity|]. intros [X|[X|[]]]; [contradiction|].
    apply (f_equal (@length byte)) in X. cbn in X. lia.
Qed.
Print Assumptions C103_blank_after_comma_refuted.

Theorem C103_option_is_needed : forall c,
  plugin_option c (ascii "allowed-public-keys") None -> get_configured_allowed_public_keys c = Err MissingConfigEntry.
Proof.
  intros c O. unfold get_configured_allowed_public_keys, get_text. rewrite same_section. unfold plugin_option in O. rewrite O. reflexivity.
Qed.
Print Assumptions C103_option_is_needed.

(** ** C104: the plugin is in use exactly if it is named *)
Theorem C104_enabled_iff_named : forall c names v,
  (forall w, In w names -> word w) -> comma_list padded names v ->
  c (ascii "client") (ascii "storage.plugins") = Some v ->
  (is_client_plugin_enabled c = true <-> In (ascii "privatestorageio-zkapauthz-v2") names).
Proof.
  intros c names v W L O. unfold is_client_plugin_enabled. rewrite O. rewrite (strip_list W L). apply existsb_In.
Qed.
Print Assumptions C104_enabled_iff_named.

Theorem C104_off_by_default : forall c,
  c (ascii "client") (ascii "storage.plugins") = None -> is_client_plugin_enabled c = false.
Proof. intros c O. unfold is_client_plugin_enabled. rewrite O. reflexivity. Qed.
Print Assumptions C104_off_by_default.

(** ** C105: client and server have the same issuer *)

Definition uses_ristretto (c : node_config) : Prop :=
  plugin_option c (ascii "redeemer") None \/ plugin_option c (ascii "redeemer") (Some (ascii "ristretto")).

Lemma ristretto_default is_url c a : uses_ristretto c -> get_redeemer is_url c a = make_ristretto is_url c a.
Proof.
  unfold uses_ristretto, plugin_option, get_redeemer. rewrite <- same_section. intros [-> | ->]; reflexivity.
Qed.

(** What a client does with a server's announcement. *)
Theorem C105_client_only_for_the_same_issuer : forall is_url c a pv r,
  uses_ristretto c ->
  (get_storage_client is_url c a = Ok (pv, r) <->
   exists u, plugin_option c (ascii "ristretto-issuer-root-url") (Some u) /\ an_issuer a = Some u /\ is_url u = true /\
     r = RistrettoRedeemer u /\ get_configured_pass_value c = Ok pv).
Proof.
  intros is_url c a pv r U. unfold get_storage_client. rewrite (ristretto_default is_url c (Some a) U).
  unfold make_ristretto, get_text, plugin_option. rewrite same_section.
  destruct (c _ (ascii "ristretto-issuer-root-url")) as [u|]; cbn [bind].
  2:{ split; [discriminate|intros (u & X & _); discriminate X]. }
  destruct (an_issuer a) as [w|]; cbn [bind].
  2:{ split; [discriminate|intros (u' & _ & X & _); discriminate X]. }
  destruct (bytes_eqb_spec w u) as [->|D]; cbn [bind].
  2:{ split; [discriminate|intros (u' & [= <-] & [= X] & _); contradiction]. }
  destruct (is_url u) eqn:Eu; cbn [bind].
  2:{ split; [discriminate|intros (u' & [= <-] & _ & X & _); congruence]. }
  destruct (get_configured_pass_value c) as [p|e] eqn:Ep; cbn [bind].
  - split; [intros [= <- <-]; exists u; auto|intros (u' & [= <-] & _ & _ & -> & [= ->]); reflexivity].
  - split; [discriminate|intros (u' & _ & _ & _ & _ & X); discriminate X].
Qed.
Print Assumptions C105_client_only_for_the_same_issuer.

Theorem C105_other_issuer : forall is_url c a u w,
  uses_ristretto c -> plugin_option c (ascii "ristretto-issuer-root-url") (Some u) -> an_issuer a = Some w -> w <> u ->
  get_storage_client is_url c a = Err (IssuerConfigurationMismatch w u).
Proof.
  intros is_url c a u w U O A D. unfold get_storage_client. rewrite (ristretto_default is_url c (Some a) U).
  unfold make_ristretto, get_text. rewrite same_section. unfold plugin_option in O. rewrite O. cbn [bind]. rewrite A.
  destruct (bytes_eqb_spec w u); [contradiction|reflexivity].
Qed.
Print Assumptions C105_other_issuer.

(** Without an announcement (for redeeming vouchers) the issuer is the configured one. *)
Theorem C105_redeems_at_the_configured_issuer : forall is_url c u,
  uses_ristretto c -> plugin_option c (ascii "ristretto-issuer-root-url") (Some u) -> is_url u = true ->
  get_redeemer is_url c None = Ok (RistrettoRedeemer u).
Proof.
  intros is_url c u U O E. rewrite (ristretto_default is_url c None U). unfold make_ristretto, get_text.
  rewrite same_section. unfold plugin_option in O. rewrite O. cbn [bind]. rewrite E. reflexivity.
Qed.
Print Assumptions C105_redeems_at_the_configured_issuer.

(** A server and a client made from configurations that agree on the issuer. *)
Theorem C105_configured_alike : forall is_url options key a spv c cpv r,
  uses_ristretto c -> get_storage_server options key = Ok (a, spv) -> get_storage_client is_url c a = Ok (cpv, r) ->
  an_public_keys a = [key] /\
  exists u, options (ascii "ristretto-issuer-root-url") = Some u /\
    plugin_option c (ascii "ristretto-issuer-root-url") (Some u) /\ r = RistrettoRedeemer u.
Proof.
  intros is_url options key a spv c cpv r U S C. apply C105_client_only_for_the_same_issuer in C; [|exact U].
  destruct C as (u & O & A & _ & -> & _). unfold get_storage_server in S.
  destruct (options (ascii "ristretto-issuer-root-url")) as [u'|]; [|discriminate].
  destruct (match options (ascii "pass-value") with Some _ => _ | None => _ end) as [n|e]; cbn [bind] in S; [|discriminate].
  destruct (options (ascii "ristretto-signing-key-path")); [|discriminate]. injection S as <- <-.
  cbn in A. injection A as ->. split; [reflexivity|]. eauto.
Qed.
Print Assumptions C105_configured_alike.

(** Numbers: the one that is written, or a fixed one. *)
Theorem C105_numbers : forall c n,
  (plugin_option c (ascii "pass-value") (Some (dec n)) -> get_configured_pass_value c = Ok n) /\
  (plugin_option c (ascii "pass-value") None -> get_configured_pass_value c = Ok 1048576) /\
  (plugin_option c (ascii "default-token-count") (Some (dec n)) -> get_token_count c = Ok n) /\
  (plugin_option c (ascii "default-token-count") None -> get_token_count c = Ok 32768) /\
  (c (ascii "client") (ascii "shares.needed") = Some (dec n) -> get_configured_shares_needed c = Ok n) /\
  (c (ascii "client") (ascii "shares.needed") = None -> get_configured_shares_needed c = Ok 3) /\
  (c (ascii "client") (ascii "shares.total") = Some (dec n) -> get_configured_shares_total c = Ok n) /\
  (c (ascii "client") (ascii "shares.total") = None -> get_configured_shares_total c = Ok 10).
Proof.
  intros c n. unfold plugin_option, get_configured_pass_value, get_token_count, get_configured_shares_needed,
    get_configured_shares_total, get_int. rewrite same_section.
  split; [|split; [|split; [|split; [|split; [|split; [|split]]]]]]; intros ->; rewrite ?py_int_dec; reflexivity.
Qed.
Print Assumptions C105_numbers.

Theorem C105_server_numbers : forall options key u path n,
  options (ascii "ristretto-issuer-root-url") = Some u -> options (ascii "ristretto-signing-key-path") = Some path ->
  (options (ascii "pass-value") = Some (dec n) ->
     get_storage_server options key = Ok (Announcement (Some u) [key], n)) /\
  (options (ascii "pass-value") = None ->
     get_storage_server options key = Ok (Announcement (Some u) [key], 1048576)).
Proof.
  intros options key u path n U P. unfold get_storage_server. rewrite U, P.
  split; intros ->; [rewrite py_int_dec|]; reflexivity.
Qed.
Print Assumptions C105_server_numbers.

(** What is written but is not a number is never taken for one, or for a missing one. *)
Theorem C105_wrong_numbers : forall is_url c v,
  not_a_number v ->
  (plugin_option c (ascii "pass-value") (Some v) ->
     get_configured_pass_value c = Err BadInt /\ (forall a x, get_storage_client is_url c a <> Ok x)) /\
  (plugin_option c (ascii "default-token-count") (Some v) -> get_token_count c = Err BadInt) /\
  (c (ascii "client") (ascii "shares.needed") = Some v -> get_configured_shares_needed c = Err BadInt) /\
  (c (ascii "client") (ascii "shares.total") = Some v -> get_configured_shares_total c = Err BadInt) /\
  (forall options key x, options (ascii "pass-value") = Some v -> get_storage_server options key <> Ok x).
Proof.
  intros is_url c v N. apply py_int_not_a_number in N.
  unfold plugin_option, get_token_count, get_configured_shares_needed, get_configured_shares_total. rewrite <- same_section.
  assert (P : c client_section (ascii "pass-value") = Some v -> get_configured_pass_value c = Err BadInt).
  { intros O. unfold get_configured_pass_value, get_int. rewrite O, N. reflexivity. }
  split; [|split; [|split; [|split]]].
  - intros O. split; [exact (P O)|]. intros a x. unfold get_storage_client. rewrite (P O). destruct (get_redeemer _ _ _); discriminate.
  - intros O. unfold get_int. rewrite O, N. reflexivity.
  - intros O. unfold get_int. rewrite O, N. reflexivity.
  - intros O. unfold get_int. rewrite O, N. reflexivity.
  - intros options key x O. unfold get_storage_server. rewrite O, N. destruct (options (ascii "ristretto-issuer-root-url")); discriminate.
Qed.
Print Assumptions C105_wrong_numbers.

(** The ordinary redeemer is used where nothing or its name is written, and another one only under its own name. *)
Theorem C105_only_named_redeemers : forall is_url c a r,
  get_redeemer is_url c a = Ok r ->
  match r with
  | RistrettoRedeemer _ => uses_ristretto c
  | NonRedeemer => plugin_option c (ascii "redeemer") (Some (ascii "non"))
  | DummyRedeemer _ => plugin_option c (ascii "redeemer") (Some (ascii "dummy"))
  | DoubleSpendRedeemer => plugin_option c (ascii "redeemer") (Some (ascii "double-spend"))
  | UnpaidRedeemer => plugin_option c (ascii "redeemer") (Some (ascii "unpaid"))
  | ErrorRedeemer _ => plugin_option c (ascii "redeemer") (Some (ascii "error"))
  end.
Proof.
  intros is_url c a r. unfold uses_ristretto, plugin_option, get_redeemer. rewrite <- same_section.
  assert (R : forall b, make_ristretto is_url c a = Ok b -> match b with RistrettoRedeemer _ => True | _ => False end).
  { intros b. unfold make_ristretto. destruct (get_text _ _ _); cbn [bind]; [|discriminate].
    destruct (match a with Some _ => _ | None => _ end); cbn [bind]; [|discriminate]. destruct (is_url _); [|discriminate]. intros [= <-]. exact Logic.I. }
  destruct (c client_section (ascii "redeemer")) as [k|].
  - destruct (bytes_eqb_spec k (ascii "non")) as [->|_]; [intros [= <-]; reflexivity|].
    destruct (bytes_eqb_spec k (ascii "dummy")) as [->|_]; [destruct (get_text _ _ _); cbn [bind]; [intros [= <-]; reflexivity|discriminate]|].
    destruct (bytes_eqb_spec k (ascii "double-spend")) as [->|_]; [intros [= <-]; reflexivity|].
    destruct (bytes_eqb_spec k (ascii "unpaid")) as [->|_]; [intros [= <-]; reflexivity|].
    destruct (bytes_eqb_spec k (ascii "error")) as [->|_]; [destruct (get_text _ _ _); cbn [bind]; [intros [= <-]; reflexivity|discriminate]|].
    destruct (bytes_eqb_spec k (ascii "ristretto")) as [->|_]; [|discriminate]. intros M. apply R in M. destruct r; try contradiction. now right.
  - intros M. change (make_ristretto is_url c a = Ok r) in M. apply R in M. destruct r; try contradiction. now left.
Qed.
Print Assumptions C105_only_named_redeemers.

(** ** Examples *)

Definition cx (l : list (bytes * bytes)) : node_config := fun s o =>
  if bytes_eqb s (ascii "storageclient.plugins.privatestorageio-zkapauthz-v2")
  then option_map snd (find (fun kv => bytes_eqb (fst kv) o) l) else None.

Example C103_example :
  get_configured_allowed_public_keys (cx [(ascii "allowed-public-keys", ascii " AAAA=,BBBB= ")])
    = Ok [ascii "AAAA="; ascii "BBBB="] /\
  get_configured_allowed_public_keys (cx [(ascii "allowed-public-keys", ascii "AAAA=, BBBB=")])
    = Ok [ascii "AAAA="; ascii " BBBB="] /\
  comma_list eq [ascii "AAAA="; ascii "BBBB="] (ascii "AAAA=,BBBB=") /\
  padded (ascii "AAAA=,BBBB=") (ascii " AAAA=,BBBB= ").
Proof.
  split; [reflexivity|]. split; [reflexivity|]. split.
  - apply (@CMore eq (ascii "AAAA=") (ascii "AAAA=") [ascii "BBBB="] (ascii "BBBB=") eq_refl). apply CLast. reflexivity.
  - assert (B : blanks [x20]) by (intros b [<-|[]]; right; change (bz x20) with 32; lia).
    exists [x20], [x20]. split; [exact B|]. split; [exact B|reflexivity].
Qed.

Example C104_example :
  let c v : node_config := fun s o => if bytes_eqb s (ascii "client") && bytes_eqb o (ascii "storage.plugins") then Some v else None in
  is_client_plugin_enabled (c (ascii "other, privatestorageio-zkapauthz-v2")) = true /\
  is_client_plugin_enabled (c (ascii "other, privatestorageio-zkapauthz-v22")) = false.
Proof. split; reflexivity. Qed.

Example C105_example :
  let url := ascii "https://issuer/" in
  let c := cx [(ascii "ristretto-issuer-root-url", url); (ascii "pass-value", ascii "1_000")] in
  let here := Announcement (Some url) [ascii "k"] in
  let there := Announcement (Some (ascii "https://issuer")) [ascii "k"] in
  uses_ristretto c /\
  get_storage_client (fun _ => true) c here = Ok (1000, RistrettoRedeemer url) /\
  get_storage_client (fun _ => true) c there = Err (IssuerConfigurationMismatch (ascii "https://issuer") url) /\
  get_storage_server (fun o => if bytes_eqb o (ascii "pass-value") then None else Some url) (ascii "k") = Ok (here, 1048576).
Proof. split; [left; reflexivity|]. repeat split; reflexivity. Qed.
(** A unit, or nothing at all, is not a number; an unknown redeemer is none. *)
Example C105_wrong_example :
  not_a_number (ascii "1MB") /\ not_a_number [] /\
  get_configured_pass_value (cx [(ascii "pass-value", ascii "1MB")]) = Err BadInt /\
  (forall is_url a, get_redeemer is_url (cx [(ascii "redeemer", ascii "Ristretto")]) a = Err UnknownRedeemer).
Proof.
  split; [|split; [intros; right; intros b []|split; [reflexivity|intros; reflexivity]]].
  left. exists x4d. split; [cbn; auto|]. unfold digit, blank. vm_compute. intuition (try discriminate; try congruence).
Qed.
