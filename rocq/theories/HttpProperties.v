(** The HTTP interface: C60-C62, C85-C88. *)
From Verif Require Import Prelude PreludeFacts BytesModel BytesProofs CborModel CborProofs StreamModel PricingModel PricingSpec
  DateModel JsonModel JsonSpec JsonProofs VoucherModel VoucherSpec VoucherProofs VoucherProperties HttpModel HttpSpec HttpProofs.
From Verif Require JsonTextProofs PassModel StreamProofs.
From Coq Require Strings.String.
Import Coq.Strings.String.StringSyntax.

(** ** C60 *)

(** With a secret, a request goes on exactly when its last Authorization header is the name of
    the scheme, in any case, a space and the secret. *)
Theorem C60_only_with_the_secret : forall secret headers, secret <> [] ->
  authorized secret headers = true <-> exists before header, headers = before ++ [header] /\ opens secret header.
Proof. apply authorized_spec. Qed.
(** No header lets in a request with any other secret. *)
Theorem C60_one_secret : forall secret other headers, secret <> [] -> other <> [] ->
  authorized secret headers = true -> authorized other headers = true -> secret = other.
Proof.
  intros a b headers Na Nb A B. apply authorized_last in A as (_ & _ & A). apply authorized_last in B as (_ & _ & B). cbv zeta in *. congruence.
Qed.
Print Assumptions C60_only_with_the_secret.
Print Assumptions C60_one_secret.

Definition a_secret : bytes := PassModel.ascii "open sesame".
Example C60_cases :
  authorized a_secret [PassModel.ascii "Tahoe-LAFS open sesame"] = true /\
  authorized a_secret [PassModel.ascii "tahoe-lafs open sesam"] = false /\
  authorized a_secret [PassModel.ascii "tahoe-lafs open sesame!"] = false /\
  authorized a_secret [PassModel.ascii "tahoe-lafs  open sesame"] = false /\
  authorized a_secret [PassModel.ascii "basic open sesame"] = false /\
  authorized a_secret [PassModel.ascii "tahoe-lafs open sesame"; PassModel.ascii "tahoe-lafs"] = false /\
  authorized a_secret [] = false /\ authorized a_secret [[]] = false.
Proof. vm_compute. repeat split; reflexivity. Qed.
(** Why the secret must not be empty: then the scheme alone will do. *)
Example C60_empty_secret : authorized [] [PassModel.ascii "tahoe-lafs"] = true.
Proof. reflexivity. Qed.

Section Json.
Variable F : Type.
Variable float_of : text -> F.
Variable float_repr : F -> text.
Variable is_one : F -> bool.
Variable max_digits : nat.
Variable decode : bytes -> option text.
Notation loads := (loads float_of max_digits decode).
Notation json_body := (json_body float_of max_digits decode).
Notation calculate_price := (calculate_price float_of float_repr is_one max_digits decode).
Notation put_voucher := (put_voucher float_of max_digits decode).
Notation get_voucher := (get_voucher float_repr utf8_decode).
Notation on_message := (on_message float_of max_digits decode).

(** ** C61 *)
Section C61.
Variables needed total pass_value period : Z.
Notation fits n := (Z.abs n < 10 ^ Z.of_nat max_digits).

(** 200 exactly for the right content type and a request for a price, with this price. *)
Theorem C61_price_answered : forall depth types body answer,
  (1 <= max_digits)%nat -> 0 < needed -> 0 < pass_value -> 0 <= total ->
  calculate_price depth needed total pass_value period types body = Response 200 answer <->
  hd_error types = Some (str "application/json") /\
  exists j sizes, json_body depth body j /\ asks_price is_one j sizes /\
    let price := price_of needed total pass_value sizes in
    fits price /\ fits period /\ answer = dumps_utf8 float_repr (JObj [(str "price", JInt price); (str "period", JInt period)]).
Proof.
  intros depth types body answer M N P T. etransitivity; [now apply price_answered|].
  split; intros (Ty & j & sizes & L & X); (split; [exact Ty|]); exists j, sizes; (split; [now apply JsonTextProofs.loads_iff|exact X]).
Qed.

(** Down to bytes: a request written as JSON gets an answer that reads as the price. *)
Theorem C61_price_end_to_end : forall depth types j sizes,
  (1 <= max_digits)%nat -> 0 < needed -> 0 < pass_value -> 0 <= total -> decodes_ascii decode -> (1 <= depth)%nat ->
  hd_error types = Some (str "application/json") -> writable max_digits j -> (depth_of j <= depth)%nat -> asks_price is_one j sizes ->
  fits (price_of needed total pass_value sizes) -> fits period ->
  exists answer, calculate_price depth needed total pass_value period types (dumps_utf8 float_repr j) = Response 200 answer /\
    json_body depth answer (JObj [(str "price", JInt (price_of needed total pass_value sizes)); (str "period", JInt period)]).
Proof.
  intros depth types j sizes M N P T D Dp Ty W Dj A Fp Fr. eexists. split.
  - apply C61_price_answered; try assumption. split; [exact Ty|]. exists j, sizes. split; [now apply JsonTextProofs.loads_iff, loads_dumps|]. split; [exact A|]. cbv zeta. auto.
  - apply JsonTextProofs.loads_iff, loads_dumps; [exact D| |exact Dp]. apply writable_object; [vm_compute; reflexivity|].
    intros kv [<-|[<-|[]]]; apply int_writable; assumption.
Qed.

(** Any other request is refused with 400, unless it is nested too deeply or the numbers to
    answer with have too many digits. *)
Theorem C61_others_refused_partial : forall depth types body,
  (1 <= max_digits)%nat -> 0 < needed -> 0 < pass_value -> 0 <= total ->
  match calculate_price depth needed total pass_value period types body with
  | Response code _ => code = 200 \/ code = 400
  | Crash => hd_error types = Some (str "application/json") /\
      ((exists s, decode body = Some s /\ (depth < brackets s)%nat) \/ exists j sizes, json_body depth body j /\ asks_price is_one j sizes /\
         ~ (fits (price_of needed total pass_value sizes) /\ fits period))
  end.
Proof.
  intros depth types body M N P T.
  assert (X : match calculate_price depth needed total pass_value period types body with
    | Response code _ => code = 200 \/ code = 400
    | Crash => hd_error types = Some (str "application/json") /\
        (loads depth body = Err TooDeep \/ exists j sizes, loads depth body = Ok j /\ asks_price is_one j sizes /\
           ~ (fits (price_of needed total pass_value sizes) /\ fits period))
    end) by now apply price_refused.
  destruct (calculate_price depth needed total pass_value period types body); [exact X|]. destruct X as [Ty [X|(j & sizes & L & X)]]; (split; [exact Ty|]).
  - left. now apply JsonTextProofs.loads_too_deep in X.
  - right. exists j, sizes. split; [now apply JsonTextProofs.loads_iff|exact X].
Qed.

(** A body of many opening brackets is not refused: the request fails. *)
Theorem C61_never_a_crash_refuted : forall depth, decodes_ascii decode ->
  exists body, calculate_price depth needed total pass_value period [str "application/json"] body = Crash.
Proof. intros depth D. exists (repeat x5b (S depth)). unfold HttpModel.calculate_price. rewrite loads_deep by exact D. reflexivity. Qed.
End C61.

(** ** C62 *)

(** A PUT hands a voucher to the controller exactly if the body is an object with the one key
    "voucher" and a string of the shape of vouchers; it hands over this string. Every other
    request is refused. *)
Theorem C62_only_vouchers : forall depth body b,
  put_voucher depth body = Ok (Redeem b) <->
  json_body depth body (JObj [(str "voucher", JStr (ascii b))]) /\ voucher_text (ascii b).
Proof.
  intros depth body b. rewrite <- JsonTextProofs.loads_iff. destruct (put_spec float_of max_digits decode depth body) as [(b' & E & L & A & S) | (E & N)]; rewrite E.
  - apply syntactic_spec in S. split.
    + intros [= <-]. auto.
    + intros [L' _]. rewrite L in L'. injection L' as X. do 2 f_equal. apply (StreamProofs.ascii_inj _ _ X).
  - split; [discriminate|]. intros [L S]. apply N in L. apply (syntactic_spec F) in S. congruence.
Qed.
Theorem C62_others_refused : forall depth body,
  put_voucher depth body = Ok Refuse \/ exists b, put_voucher depth body = Ok (Redeem b).
Proof. intros depth body. destruct (put_spec float_of max_digits decode depth body) as [(b & E & _) | (E & _)]; eauto. Qed.
(** Down to bytes. *)
Theorem C62_end_to_end : forall depth s, decodes_ascii decode -> (1 <= depth)%nat -> voucher_text s ->
  put_voucher depth (dumps_utf8 float_repr (JObj [(str "voucher", JStr s)])) = Ok (Redeem (map zb s)).
Proof.
  intros depth s D Dp V.
  assert (C : forall c, In c s -> 0 <= c < 128).
  { destruct V as (_ & data & pad & -> & U & P). intros c I. apply in_app_or in I as [I|I]; [apply U in I; unfold urlsafe in I; lia|].
    destruct P as [-> | [-> | ->]]; cbn in I; intuition lia. }
  assert (E : ascii (map zb s) = s).
  { unfold ascii. rewrite map_map. rewrite <- (map_id s) at 2. apply map_ext_in. intros c I. rewrite bz_zb, Z.mod_small; [reflexivity|]. specialize (C c I). lia. }
  apply C62_only_vouchers. rewrite E. split; [|exact V]. apply JsonTextProofs.loads_iff, loads_dumps; [exact D| |exact Dp].
  apply writable_object; [vm_compute; reflexivity|]. intros kv [<-|[]]. cbn [snd writable]. rewrite <- E. apply ascii_string_ok.
  intros b I. apply in_map_iff in I as (c & <- & I). apply C in I. rewrite bz_zb, Z.mod_small; lia.
Qed.

(** ** C85 *)

(** Asking for a voucher: for a segment of the shape of vouchers, the voucher of this number
    in a form that reads as it, or 404; 400 for every other text. *)
Theorem C85_lookup_partial : forall depth get segment s,
  (1 <= max_digits)%nat -> decodes_ascii decode -> (2 <= depth)%nat ->
  utf8_text segment s ->
  (forall b v, get b = Some v -> valid_voucher v /\ all_ascii (number v) /\ printable max_digits v /\ plain_details v) ->
  (forall b, s = ascii b -> voucher_text s ->
     match get b with
     | None => get_voucher get segment = Response 404 []
     | Some v => exists body, get_voucher get segment = Response 200 body /\ from_json float_of max_digits decode depth body = Ok v
     end) /\
  (~ voucher_text s -> get_voucher get segment = Response 400 []).
Proof.
  intros depth get segment s M D Dp U G. apply JsonTextProofs.utf8_iff in U. unfold HttpModel.get_voucher. rewrite U. split.
  - intros b -> V. pose proof V as S. apply (syntactic_spec F) in S. rewrite S.
    assert (A : encode_ascii (ascii b) = Some b).
    { apply encode_ascii_ok. destruct V as (_ & data & pad & E & Us & P). intros c I.
      assert (I' : In (bz c) (data ++ pad)) by (rewrite <- E; now apply in_map).
      apply in_app_or in I' as [I'|I']; [apply Us in I'; unfold urlsafe in I'; lia|]. destruct P as [-> | [-> | ->]]; cbn in I'; intuition lia. }
    rewrite A. destruct (get b) as [v|] eqn:E; [|reflexivity].
    destruct (G b v E) as (V1 & V2 & V3 & V4).
    destruct (C59_json_roundtrip_partial F float_of float_repr max_digits decode depth v M D Dp V1 V2 V3 V4) as (body & T & Rd).
    rewrite T. eauto.
  - intros N. destruct (is_syntactic_voucher (JStr s)) eqn:S; [|reflexivity]. apply syntactic_spec in S. contradiction.
Qed.
(** A segment of ASCII characters stands for itself. *)
Theorem C85_segment : forall b, all_ascii b -> utf8_text b (ascii b).
Proof. intros b A. apply JsonTextProofs.utf8_iff. now apply utf8_decode_ascii. Qed.
(** A segment that is not UTF-8 is not refused: the request fails. *)
Theorem C85_never_a_crash_refuted : forall get, exists segment, get_voucher get segment = Crash.
Proof. intros get. exists [xff]. reflexivity. Qed.

(** ** C88 *)
Section C88.
Variable C : Type.
Variable parse_capability : text -> option C.
(** Recovery starts from a capability exactly if the message is an object with the one key
    "recovery-capability" and a string that stands for it. *)
Theorem C88_message : forall depth payload c,
  on_message depth parse_capability payload = Some c <->
  exists s, json_body depth payload (JObj [(str "recovery-capability", JStr s)]) /\ parse_capability s = Some c.
Proof.
  intros depth payload c. unfold HttpModel.on_message. split.
  - destruct (loads depth payload) as [j|] eqn:L; [|discriminate]. destruct j as [| | | | | |d]; try discriminate. destruct d as [|[k v] [|]]; try discriminate.
    destruct (text_eqb_spec k (str "recovery-capability")) as [->|]; [|discriminate]. destruct v as [| | | |s| |]; try discriminate. intros P. exists s. split; [now apply JsonTextProofs.loads_iff|exact P].
  - intros (s & L & P). apply JsonTextProofs.loads_iff in L. rewrite L. rewrite text_eqb_refl. exact P.
Qed.
Theorem C88_end_to_end : forall depth s, decodes_ascii decode -> (1 <= depth)%nat -> string_ok s = true ->
  on_message depth parse_capability (dumps_utf8 float_repr (JObj [(str "recovery-capability", JStr s)])) = parse_capability s.
Proof.
  intros depth s D Dp S.
  assert (L : loads depth (dumps_utf8 float_repr (JObj [(str "recovery-capability", JStr s)])) = Ok (JObj [(str "recovery-capability", JStr s)])).
  { apply loads_dumps; [exact D| |exact Dp]. apply writable_object; [vm_compute; reflexivity|]. intros kv [<-|[]]. exact S. }
  unfold HttpModel.on_message. rewrite L, text_eqb_refl. reflexivity.
Qed.
End C88.
End Json.
Print Assumptions C61_price_answered.
Print Assumptions C61_price_end_to_end.
Print Assumptions C61_others_refused_partial.
Print Assumptions C61_never_a_crash_refuted.
Print Assumptions C62_only_vouchers.
Print Assumptions C62_others_refused.
Print Assumptions C62_end_to_end.
Print Assumptions C85_lookup_partial.
Print Assumptions C85_segment.
Print Assumptions C85_never_a_crash_refuted.
Print Assumptions C88_message.
Print Assumptions C88_end_to_end.

Definition no_float (_ : text) : unit := tt.
Definition no_repr (_ : unit) : text := str "0.0".
Definition is_one_unit (_ : unit) : bool := false.

(** 3-of-10 and passes for 1000 bytes: two files of 5000 and 1 bytes. *)
Example C61_instance :
  let body := PassModel.ascii "{""version"": 1, ""sizes"": [5000, true]}" in
  (exists j, json_body no_float 4300 ascii_only 10 body j /\ asks_price is_one_unit j [5000; 1]) /\
  price_of 3 10 1000 [5000; 1] = 30 /\
  calculate_price no_float no_repr is_one_unit 4300 ascii_only 10 3 10 1000 2678400 [str "application/json"] body =
    Response 200 (PassModel.ascii "{""price"": 30, ""period"": 2678400}") /\
  (exists e, calculate_price no_float no_repr is_one_unit 4300 ascii_only 10 3 10 1000 2678400 [str "application/json"] (PassModel.ascii "{""version"": 1, ""sizes"": [5000, -1]}") = Response 400 e) /\
  (exists e, calculate_price no_float no_repr is_one_unit 4300 ascii_only 10 3 10 1000 2678400 [str "application/json"] (PassModel.ascii "{""version"": 2, ""sizes"": [5000, 1]}") = Response 400 e) /\
  (exists e, calculate_price no_float no_repr is_one_unit 4300 ascii_only 10 3 10 1000 2678400 [str "text/plain"] body = Response 400 e).
Proof.
  cbv zeta. split.
  - eexists. split; [apply JsonTextProofs.loads_iff; vm_compute; reflexivity|]. eexists; eexists; eexists. split; [reflexivity|]. split; [reflexivity|]. split; [left; reflexivity|].
    split; [reflexivity|]. repeat constructor. lia.
  - split; [reflexivity|]. split; [vm_compute; reflexivity|]. repeat split; eexists; vm_compute; reflexivity.
Qed.

Example C62_instance : voucher_text (ascii sample_number) /\
  put_voucher no_float 4300 ascii_only 10 (PassModel.ascii "{""voucher"": ""NXlb3RcNRhr_ww3ZZpKzWtgdVJpxoXkbqhDEgQ5tnXo=""}") = Ok (Redeem sample_number) /\
  put_voucher no_float 4300 ascii_only 10 (PassModel.ascii "{""voucher"": ""NXlb3RcNRhr_ww3ZZpKzWtgdVJpxoXkbqhDEgQ5tnXo=="" }") = Ok Refuse /\
  put_voucher no_float 4300 ascii_only 10 (PassModel.ascii "{""voucher"": ""NXlb3RcNRhr/ww3ZZpKzWtgdVJpxoXkbqhDEgQ5tnXo=""}") = Ok Refuse /\
  put_voucher no_float 4300 ascii_only 10 (PassModel.ascii "{""voucher"": ""NXlb3RcNRhr_ww3ZZpKzWtgdVJpxoXkbqhDEgQ5tnXo\n""}") = Ok Refuse /\
  put_voucher no_float 4300 ascii_only 10 (PassModel.ascii "{""voucher"": ""NXlb3RcNRhr_ww3ZZpKzWtgdVJpxoXkbqhDEgQ5tnXo="", ""x"": 1}") = Ok Refuse.
Proof. split; [apply (syntactic_spec unit); vm_compute; reflexivity|]. vm_compute. repeat split; reflexivity. Qed.

Example C85_instance :
  let get b := if bytes_eqb b sample_number then Some (sample (Pending 0)) else None in
  let view := get_voucher no_repr utf8_decode get in
  (exists body, view sample_number = Response 200 body) /\
  view (PassModel.ascii "NXlb3RcNRhr_ww3ZZpKzWtgdVJpxoXkbqhDEgQ5tnXO=") = Response 404 [] /\
  view (PassModel.ascii "NXlb3RcNRhr_ww3ZZpKzWtgdVJpxoXkbqhDEgQ5tnX") = Response 400 [] /\
  view [xc3; xa9] = Response 400 [].
Proof. cbv zeta. split; [eexists; vm_compute; reflexivity|]. vm_compute. repeat split; reflexivity. Qed.

Example C88_instance :
  let parse s := if text_eqb s (str "URI:DIR2-RO:x:y") then Some tt else None in
  let on := on_message no_float 4300 ascii_only 10 parse in
  on (PassModel.ascii "{""recovery-capability"": ""URI:DIR2-RO:x:y""}") = Some tt /\
  on (PassModel.ascii "{""recovery-capability"": ""URI:DIR2-RO:x:z""}") = None /\
  on (PassModel.ascii "{""recovery-capability"": 3}") = None /\
  on (PassModel.ascii "{""recovery-capability"": ""URI:DIR2-RO:x:y"", ""more"": null}") = None /\
  on (PassModel.ascii "[]") = None.
Proof. vm_compute. repeat split; reflexivity. Qed.

(** ** C86, C87 *)
Section Replication.
Variables W R : Type.
Variable reader : W -> R.
Variable danger_rw : W -> text.
Variable danger_ro : R -> text.
Variable parse_rw : text -> option W.
Variable parse_ro : text -> option R.
Variable digested : W -> text.
Notation setup_run := (setup_run reader danger_rw danger_ro parse_rw parse_ro digested).

(** Once there is a replica its capability stays. *)
Theorem C86_replica_stays : forall es es' c, config (setup_run es) = Some c -> config (setup_run (es ++ es')) = Some c.
Proof.
  intros es es' c H. unfold HttpModel.setup_run in *. rewrite fold_left_app. apply setup_steps_keep; [|exact H].
  apply setup_steps_inv. reflexivity.
Qed.
(** There is one exactly if a request was answered with 201; there is at most one such
    answer, and it holds the read capability of the replica. *)
Theorem C86_one_replica : forall es,
  match config (setup_run es) with
  | None => codes 201 (answers (setup_run es)) = []
  | Some c => exists w client, c = danger_rw w /\ codes 201 (answers (setup_run es)) = [(client, (201, Some (danger_ro (reader w))))]
  end.
Proof.
  intros es. assert (H : setup_inv reader danger_rw danger_ro (setup_run es)) by (apply setup_steps_inv; reflexivity).
  unfold setup_inv in H. destruct (config (setup_run es)); [destruct H as [_ H]|]; exact H.
Qed.

(** What a request is told when there is a replica depends on reading the digest of its
    capability as a capability: it should be told the read capability. *)
Theorem C87_told_the_capability_partial : forall s w client,
  busy s = None -> config s = Some (danger_rw w) -> parse_rw (danger_rw w) = Some w -> parse_ro (digested w) = Some (reader w) ->
  answers (setup_step reader danger_rw danger_ro parse_rw parse_ro digested s (AskSetup _ client)) =
    answers s ++ [(client, (409, Some (danger_ro (reader w))))].
Proof. intros s w client B C P D. cbn [setup_step]. unfold ask_setup. rewrite B, C, P, D. reflexivity. Qed.
(** With a digest that is not a capability no request is ever told. *)
Theorem C87_never_told_refuted : (forall w, parse_ro (digested w) = None) -> forall es, codes 409 (answers (setup_run es)) = [].
Proof. intros P es. apply no_conflict; [exact P|reflexivity]. Qed.
End Replication.
Print Assumptions C86_replica_stays.
Print Assumptions C86_one_replica.
Print Assumptions C87_told_the_capability_partial.
Print Assumptions C87_never_told_refuted.

(** A small library of capabilities: the number of the directory after a prefix. *)
Definition toy_parse (prefix : text) (s : text) : option Z :=
  match strip_prefix prefix s with Some [n] => Some n | _ => None end.
Definition toy_run := setup_run (fun w : Z => w) (fun w => str "URI:DIR2:" ++ [w]) (fun r => str "URI:DIR2-RO:" ++ [r])
  (toy_parse (str "URI:DIR2:")) (toy_parse (str "URI:DIR2-RO:")) (fun w => str "<digest>" ++ [w mod 7]).
Example C86_instance :
  let s := toy_run [AskSetup _ 1; AskSetup _ 2; DirectoryMade None; AskSetup _ 3; SetupRestart _; AskSetup _ 4; DirectoryMade (Some 50); AskSetup _ 5; SetupRestart _; AskSetup _ 6] in
  config s = Some (str "URI:DIR2:" ++ [50]) /\
  answers s = [(2, (500, None)); (1, (500, None)); (4, (201, Some (str "URI:DIR2-RO:" ++ [50]))); (5, (500, None)); (6, (500, None))].
Proof. vm_compute. split; reflexivity. Qed.
