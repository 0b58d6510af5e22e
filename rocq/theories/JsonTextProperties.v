(** What is read as JSON: C132. *)
From Verif Require Import Prelude PreludeFacts BytesModel CborModel StreamModel JsonModel JsonSpec JsonTextProofs.
From Verif Require PassModel RedeemSpec.
From Coq Require Strings.String.
Import Coq.Strings.String.StringSyntax.

Section Json.
Variable F : Type.
Variable float_of : text -> F.
Variable max_digits : nat.

(** A text is read as JSON exactly if it is JSON, with what is not JSON but commonly taken for it
    (NaN, Infinity), and it is read as what it says; of members with the same name the last one
    counts. *)
Theorem C132_exactly_the_texts_that_are_json : forall depth s j,
  loads_text float_of max_digits depth s = Ok j <-> json_document float_of max_digits depth s j.
Proof. apply loads_text_iff. Qed.
(** The same for a message. *)
Theorem C132_exactly_the_messages_that_are_json : forall decode depth b j,
  loads float_of max_digits decode depth b = Ok j <-> json_body float_of max_digits decode depth b j.
Proof. intros decode. apply loads_iff. Qed.
(** The object in an answer of the payment server. *)
Theorem C132_objects_in_answers : forall decode depth b o,
  RedeemSpec.object_in float_of max_digits decode depth b = Some o <-> json_body float_of max_digits decode depth b (JObj o).
Proof.
  intros decode depth b o. rewrite <- loads_iff. unfold RedeemSpec.object_in.
  destruct (loads float_of max_digits decode depth b) as [[| | | | | |o']|]; split; intros [= <-] || intros H; congruence.
Qed.
(** A text says one thing only. *)
Theorem C132_one_reading : forall depth s j j',
  json_document float_of max_digits depth s j -> json_document float_of max_digits depth s j' -> j = j'.
Proof. intros depth s j j' H H'. apply loads_text_iff in H, H'. congruence. Qed.
(** A text is too deep only if more arrays and objects begin in it than can be entered. *)
Theorem C132_deep_texts : forall depth s, loads_text float_of max_digits depth s = Err TooDeep -> (depth < brackets s)%nat.
Proof. intros depth s. apply loads_text_deep. Qed.
End Json.
(** Text is read from exactly the bytes that are UTF-8. *)
Theorem C132_exactly_the_utf8_is_text : forall b s, utf8_decode b = Some s <-> utf8_text b s.
Proof. apply utf8_iff. Qed.
Print Assumptions C132_exactly_the_utf8_is_text.
Print Assumptions C132_exactly_the_texts_that_are_json.
Print Assumptions C132_exactly_the_messages_that_are_json.
Print Assumptions C132_objects_in_answers.
Print Assumptions C132_one_reading.
Print Assumptions C132_deep_texts.

Example C132_utf8 :
  utf8_text [x41; xc3; xa9; xe2; x82; xac; xf0; x9f; x98; x80] [65; 233; 8364; 128512] /\
  (forall s, ~ utf8_text [xc0; x80] s) /\ (forall s, ~ utf8_text [xed; xa0; x80] s) /\ (forall s, ~ utf8_text [xe0; x80; x80] s) /\
  (forall s, ~ utf8_text [xf4; x90; x80; x80] s) /\ (forall s, ~ utf8_text [xc3] s) /\ (forall s, ~ utf8_text [xff] s).
Proof.
  split; [apply utf8_iff; reflexivity|]. repeat (split; [intros s H; apply utf8_iff in H; discriminate|]). intros s H; apply utf8_iff in H; discriminate.
Qed.

Definition jx_float (s : text) : text := s.
(** Escapes, a pair of surrogates, a name given twice and numbers. *)
Definition jx_text : text :=
  str " {""a"": [1, -20, 2.50e+1, true, null, []], ""b\/"": ""\ud83d\ude00\ud83dA"" , ""a"": -0.5, ""c"": {}} ".
Definition jx_value : json text :=
  JObj [(str "a", JFloat (str "-0.5")); (str "b/", JStr [128512; 55357; 65]); (str "c", JObj [])].
Example C132_instance :
  json_document jx_float 4300 3 jx_text jx_value /\ brackets jx_text = 4%nat /\
  loads_text jx_float 4300 2 jx_text = Err TooDeep /\
  (forall j, ~ json_document jx_float 4300 9 (str "{} x") j) /\
  (forall j, ~ json_document jx_float 4300 9 (str "01") j) /\
  (forall j, ~ json_document jx_float 4300 9 (str "{'a': 1}") j) /\
  (forall j, ~ json_document jx_float 4300 9 (str "[1,]") j) /\
  (forall j, ~ json_document jx_float 2 9 (str "123") j) /\
  json_document jx_float 2 9 (str "-99") (JInt (-99)).
Proof.
  split; [apply loads_text_iff; vm_compute; reflexivity|]. split; [vm_compute; reflexivity|]. split; [vm_compute; reflexivity|].
  repeat (split; [intros j H; apply loads_text_iff in H; vm_compute in H; discriminate|]).
  apply loads_text_iff. vm_compute. reflexivity.
Qed.
