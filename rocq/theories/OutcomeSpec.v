(** What the outcome of an operation on the grid says about what the node answered. *)
From Verif Require Import Prelude BytesModel CborModel StreamModel JsonModel JsonSpec GridModel GridSpec.
From Coq Require Strings.String.
Import Coq.Strings.String.StringSyntax.
Set Implicit Arguments.

(** The node gave a full response with this status and this text. *)
Definition said (a : answer) (code : Z) (s : text) : Prop := exists body, a = Answer code body /\ utf8_text body s.

(** The error tells what came back; [ok]: the statuses that mean success. *)
Definition tells (ok : Z -> Prop) (a : answer) (e : gexn) : Prop :=
  match e with
  | API x => said a (a_status x) (a_body x) /\ ~ ok (a_status x)
  | NotWriteable => exists s, said a 500 s /\ shows s (str "allmydata.mutable.common.NotWriteableError")
  | NotADirectory => exists s, said a 400 s /\ shows s (str "Files have no children named")
  | Refused => False                (* the request is made again *)
  | NotADirCap => False
  | NotRecognized | BadListing => exists code s, said a code s /\ ok code
  | NotAscii => exists code s, said a code s /\ ~ ok code
  | BadText => exists code body, a = Answer code body /\ forall s, ~ utf8_text body s
  | Disconnected => exists code, a = Cut code
  | Other n => a = Failure n
  end.

(** The outcome [r] comes from the answer to the last of [calls] requests, and no request before
    it was answered with success. *)
Definition comes_from {A} (ok : Z -> Prop) (reads : text -> A -> Prop) (answers : nat -> answer) (r : res gexn A) (calls : nat) : Prop :=
  exists n, calls = S n /\
    (forall i code s, (i < n)%nat -> said (answers i) code s -> ~ ok code) /\
    match r with
    | Ok x => exists code s, said (answers n) code s /\ ok code /\ reads s x
    | Err e => tells ok (answers n) e
    end.

(** The node does not accept connections until request [n], then says this. *)
Definition comes_up (answers : nat -> answer) (n : nat) (code : Z) (s : text) : Prop :=
  (forall i, (i < n)%nat -> answers i = Refusal) /\ said (answers n) code s.
