(** Property theorems C128: an upload ends with its connection. *)
From Verif Require Import Prelude BytesModel PassModel ContainerModel TahoeModel ServerModel ServerSpec ServerProperties
  ConnModel ConnSpec ConnProofs.
From Coq Require Strings.String.
Import Coq.Strings.String.StringSyntax.

(** The server has room set aside for exactly the uploads in progress: those that were
    allowed and have been neither closed nor aborted, over connections that have not been lost since. *)
Theorem C128_uploads_are_those_in_progress :
  forall signed pv iv mv mut es os f,
  0 < pv -> Forall (proper_front mut) es -> front_run signed pv iv mv empty_front es = (os, f) ->
  map (fun u => (up_si u, up_num u)) (incoming (sv_storage (fr_server f))) =
  map (fun u => (o_si u, o_num u)) (in_progress 0 [] es os).
Proof.
  intros signed pv iv mv mut es os f Hv P R.
  destruct (@run_inv signed pv iv mv Hv mut es empty_front 0 [] os f empty_inv P R) as [w V]. apply V.
Qed.
Print Assumptions C128_uploads_are_those_in_progress.

(** What the server remembers of connections is what it needs for the uploads in progress: one entry
    for each and nothing more, however many uploads there have been. *)
Theorem C128_nothing_else_is_remembered :
  forall signed pv iv mv mut es os f,
  0 < pv -> Forall (proper_front mut) es -> front_run signed pv iv mv empty_front es = (os, f) ->
  fr_markers f = map (fun u => (o_writer u, o_conn u)) (in_progress 0 [] es os) /\
  fr_watchers f = map (fun u => (o_conn u, o_writer u)) (in_progress 0 [] es os) /\
  length (incoming (sv_storage (fr_server f))) = length (fr_markers f).
Proof.
  intros signed pv iv mv mut es os f Hv P R.
  destruct (@run_inv signed pv iv mv Hv mut es empty_front 0 [] os f empty_inv P R) as [w V].
  split; [apply V|]. split; [apply V|]. rewrite (i_markers V), map_length, <- (map_length (fun u => (up_si u, up_num u))), (i_incoming V). apply map_length.
Qed.
Print Assumptions C128_nothing_else_is_remembered.

(** The loss of a connection changes no share that is there, gives no pass back and is not counted
    as spending; what is left of the uploads is as it was. *)
Theorem C128_lost_connection_keeps_the_rest :
  forall signed pv iv mv conn f o f',
  front_step signed pv iv mv f (FLost conn) = (o, f') ->
  (forall si, dirs (sv_storage (fr_server f')) si = dirs (sv_storage (fr_server f)) si) /\
  incl (incoming (sv_storage (fr_server f'))) (incoming (sv_storage (fr_server f))) /\
  sv_spent (fr_server f') = sv_spent (fr_server f) /\ sv_metric (fr_server f') = sv_metric (fr_server f).
Proof. intros signed pv iv mv conn f o f' [= <- <-]. apply lost_forgets. Qed.
Print Assumptions C128_lost_connection_keeps_the_rest.

(** Nothing the server behind can come to is new: what is proved of it without connections holds with them. *)
Theorem C128_every_state_is_one_without_connections :
  forall signed pv iv mv mut es os f,
  iv = 1 \/ iv = 2 -> mv = 1 \/ mv = 2 -> Forall (proper_front mut) es ->
  front_run signed pv iv mv empty_front es = (os, f) -> reachable_server signed pv iv mv mut (fr_server f).
Proof.
  intros signed pv iv mv mut es os f Hi Hm P R.
  refine (@run_reach signed pv iv mv mut es empty_front os f _ P R).
  split; [exact Hi|]. split; [exact Hm|]. exists [], []. repeat constructor.
Qed.
Print Assumptions C128_every_state_is_one_without_connections.

(** Over connection 7 two buckets are allocated and one of them is closed; over connection 8 another one;
    connection 7 is lost; the upload that was lost is tried again over connection 9; the old bucket writer aborts late. *)
Definition cn_other : bytes := ascii "other".
Definition cn_history : list front_event :=
  [FRequest 7 vx_now vx_room (map vx_pass [x65; x66; x67; x68; x69; x6a]) vx_alloc;
   FClose 1 (repeat x7a 25);
   FRequest 8 vx_now vx_room (map vx_pass [x61]) (Allocate cn_other (ascii "renew") (ascii "cancel") [3] 5);
   FLost 7].
Definition cn_again : list front_event :=
  cn_history ++
  [FRequest 9 vx_soon vx_room (map vx_pass [x62; x63; x64; x6b; x6c; x6d]) vx_alloc;
   FAbort 0; FLost 7].
Definition cn_after (es : list front_event) : front := snd (front_run vx_signed 10 2 2 empty_front es).
Definition cn_answers (es : list front_event) := fst (front_run vx_signed 10 2 2 empty_front es).
Example C128_example :
  map (fun u => (up_si u, up_num u)) (incoming (sv_storage (fr_server (cn_after cn_history)))) = [(cn_other, 3)] /\
  map fst (dirs (sv_storage (fr_server (cn_after cn_history))) vx_bucket) = [5] /\
  length (sv_spent (fr_server (cn_after cn_history))) = 7%nat /\
  in_progress 0 [] cn_history (cn_answers cn_history) = [Ongoing 2 8 cn_other 3] /\
  in_progress 0 [] cn_again (cn_answers cn_again) = [Ongoing 2 8 cn_other 3; Ongoing 3 9 vx_bucket 0] /\
  map (fun u => (up_si u, up_num u)) (incoming (sv_storage (fr_server (cn_after cn_again)))) = [(cn_other, 3); (vx_bucket, 0)] /\
  fr_watchers (cn_after cn_again) = [(8, 2); (9, 3)].
Proof. repeat split; vm_compute; reflexivity. Qed.
Example C128_example_hypotheses : Forall (proper_front vx_mut) cn_again.
Proof. repeat constructor; cbn; intuition (try discriminate; try lia). Qed.
