(** Specification for C139: the life of a client that replicates its wallet, and
    an issuer that keeps its word over the loss of a node. *)
From Verif Require Import Prelude StoreModel StoreSpec ReplicaModel ReplicaStore ControllerModel ControllerSpec LossModel.
Set Implicit Arguments.

(** What replication does while the process runs. *)
Definition replicating_event (e : wevent) : Prop :=
  match e with WSetUp | WStart | WDone _ | WFail _ => True | _ => False end.
Definition starts (e : event) : Prop := match e with EStart | EKillInStart _ => True | _ => False end.
(** A history that begins with the start of the process. *)
Definition restarted (es : list timed) : Prop := exists te rest, es = te :: rest /\ starts (fst (fst te)).

Section Life.
Variables (text_size : mut -> Z) (stream_size : list (change mut) -> Z).
Variables (groups dflt : Z) (allowed : list Z).

(** The events of redemption in a node's life, and the events of its wallet that
    go with them.  Replication goes on between any two events of redemption. *)
Inductive node_life : list timed -> list wevent -> Prop :=
| life_new : node_life [] []
| life_redemption es ws te before applied :
    node_life es ws -> proper te -> Forall replicating_event before ->
    n_up (fst (wrun text_size stream_size empty_wallet ws)) = true \/ starts (fst (fst te)) ->
    node_life (es ++ [te])
      (ws ++ wallet_events groups dflt allowed (snd (controller_run groups dflt allowed new_node es)) te before applied)
| life_replication es ws e :
    node_life es ws -> replicating_event e -> node_life es (ws ++ [e]).

(** All the issuer's answers to requests for one voucher, in a history that
    starts with the given controller, are as they should be. *)
Definition answers_about (v : Z) (c0 : ctl) (es : list timed) (P : list output -> flight -> answer -> Prop) : Prop :=
  forall es1 i a now gen es2 out c f,
  (es = es1 ++ (EAnswer i a, now, gen) :: es2 \/ es = es1 ++ (EKillAfterAnswer i a, now, gen) :: es2) ->
  controller_run groups dflt allowed c0 es1 = (out, c) -> nth_error (c_flights c) i = Some f ->
  f_voucher f = v -> P out f a.
(** It says "already spent" only if it has seen another set of tokens for the
    same group, in this history or among what it had [seen] before, ... *)
Definition keeps_its_word v seen c0 es := answers_about v c0 es (fun out f a => honest_answer (seen ++ out) f a).
(** ... never says "not paid for", ... *)
Definition is_paid v c0 es := answers_about v c0 es (fun _ _ a => a <> AUnpaid).
(** ... and returns as many tokens as it was sent. *)
Definition answers_in_full v c0 es :=
  answers_about v c0 es (fun _ f a => match a with ASuccess toks _ => length toks = length (f_tokens f) | _ => True end).
End Life.
