(** Vocabulary for C128: which uploads are in progress, from what was asked and answered only. *)
From Verif Require Import Prelude BytesModel ContainerModel TahoeModel ServerModel ServerSpec ConnModel.
Set Implicit Arguments.

(** An upload: its bucket writer, the connection it is made over, and the share. *)
Record ongoing := Ongoing { o_writer : Z; o_conn : Z; o_si : bytes; o_num : Z }.

(** The uploads that begin with a request that is answered with bucket writers for these shares. *)
Fixpoint begun (w conn : Z) (si : bytes) (nums : list Z) : list ongoing :=
  match nums with
  | [] => []
  | n :: rest => Ongoing w conn si n :: begun (w + 1) conn si rest
  end.

(** An upload goes on until its bucket writer closes or aborts it or its connection is lost. *)
Definition goes_on (e : front_event) (u : ongoing) : bool :=
  match e with
  | FClose w _ | FAbort w => negb (o_writer u =? w)
  | FLost conn => negb (o_conn u =? conn)
  | _ => true
  end.
Definition new_uploads (w : Z) (e : front_event) (o : option (res server_error reply)) : list ongoing :=
  match e, o with
  | FRequest conn _ _ _ (Allocate si _ _ _ _), Some (Ok (Allocated _ nums)) => begun w conn si nums
  | _, _ => []
  end.
(** Those in progress after a history, in the order in which they began, [w] bucket writers having been given before. *)
Fixpoint in_progress (w : Z) (us : list ongoing) (es : list front_event) (os : list (option (res server_error reply))) : list ongoing :=
  match es, os with
  | e :: es', o :: os' =>
      let new := new_uploads w e o in
      in_progress (w + Z.of_nat (length new)) (filter (goes_on e) us ++ new) es' os'
  | _, _ => us
  end.

(** The requests are as in ServerSpec. *)
Definition plain (e : front_event) : option event :=
  match e with FRequest _ now room passes q => Some (ERequest now room passes q) | _ => None end.
Definition proper_front (mut : bytes -> bool) (e : front_event) : Prop :=
  match plain e with Some e' => proper_event e' /\ separate mut e' | None => True end.
