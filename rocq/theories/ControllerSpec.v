(** Specification vocabulary for voucher redemption (C28-C30, C32-C38, C71).
    It speaks about events, outputs and table rows, and uses none of the
    functions of [ControllerModel] except the run of a history. *)
From Verif Require Import Prelude StoreModel StoreSpec ControllerModel.
Set Implicit Arguments.

(** Other users of the store spend tokens and record maintenance runs, but leave
    vouchers alone. *)
Definition wallet_call (o : op) : Prop :=
  match o with
  | OAdd _ _ _ _ _ | OInsert _ _ _ _ _ _ | ODouble _ _ | ORestart => False
  | o => fair o
  end.

(** The redeemer makes as many tokens as it is asked for. *)
Definition enough (gen : Z -> Z -> Z -> list Z) : Prop :=
  forall v c n, 0 <= n -> Z.of_nat (length (gen v c n)) = n.
(** ... all of them new and different. *)
Definition fresh_tokens (gen : Z -> Z -> Z -> list Z) (d : db) : Prop :=
  enough gen /\ (forall v c n, NoDup (gen v c n)) /\
  (forall v c n t, In t (gen v c n) -> ~ In t (map t_text (tokens d))) /\
  (forall v c n v' c' n' t, In t (gen v c n) -> In t (gen v' c' n') -> v = v').

Definition proper (te : timed) : Prop :=
  match te with
  | (EWallet o, _, gen) => wallet_call o /\ enough gen
  | (_, _, gen) => enough gen
  end.

(** A node's whole life so far. *)
Definition lived groups dflt allowed (es : list timed) (out : list output) (c : ctl) : Prop :=
  Forall proper es /\ controller_run groups dflt allowed new_node es = (out, c).

(** The persisted row of a voucher. *)
Definition row (c : ctl) (r : voucher_row) : Prop := In r (vouchers (c_db c)).

(** ** Reading the outputs *)

(** The groups of [v] stored, in order. *)
Definition credits (v : Z) (out : list output) : list (Z * list Z * bool) :=
  flat_map (fun o => match o with
                     | Credited v' c toks s => if v' =? v then [(c, toks, s)] else []
                     | _ => []
                     end) out.
Definition credited_counters (v : Z) (out : list output) : list Z :=
  map (fun x => fst (fst x)) (credits v out).
(** The number of spendable, or of sequestered, tokens received. *)
Definition received (spendable : bool) (v : Z) (out : list output) : Z :=
  sumZ (map (fun x => if Bool.eqb (snd x) spendable then Z.of_nat (length (snd (fst x))) else 0)
            (credits v out)).

(** Every request for [v] asks for the first group not received yet. *)
Definition in_order (v : Z) (out : list output) : Prop :=
  forall a c toks b, out = a ++ Requested v c toks :: b -> c = Z.of_nat (length (credits v a)).

(** The redeemer never answers "not paid for" to a request for [v]. *)
Definition paid groups dflt allowed (v : Z) (es : list timed) : Prop :=
  forall es1 i a now gen es2 out c f,
  (es = es1 ++ (EAnswer i a, now, gen) :: es2 \/ es = es1 ++ (EKillAfterAnswer i a, now, gen) :: es2) ->
  controller_run groups dflt allowed new_node es1 = (out, c) -> nth_error (c_flights c) i = Some f ->
  f_voucher f = v -> a <> AUnpaid.

(** The redeemer returns as many tokens as it was sent. *)
Definition full_answers groups dflt allowed (v : Z) (es : list timed) : Prop :=
  forall es1 i toks pk now gen es2 out c f,
  (es = es1 ++ (EAnswer i (ASuccess toks pk), now, gen) :: es2 \/
   es = es1 ++ (EKillAfterAnswer i (ASuccess toks pk), now, gen) :: es2) ->
  controller_run groups dflt allowed new_node es1 = (out, c) -> nth_error (c_flights c) i = Some f ->
  f_voucher f = v -> length toks = length (f_tokens f).

(** ** Attempts in progress *)

(** The vouchers whose request has not been answered. *)
Definition outstanding (c : ctl) : list Z := map f_voucher (c_flights c).

(** The same, read off the events and outputs alone: an answer settles the
    request it belongs to, the end of the process all of them. *)
Definition requested_vouchers (o : list output) : list Z :=
  flat_map (fun x => match x with Requested v _ _ => [v] | _ => [] end) o.
Definition without_nth {A} (i : nat) (l : list A) : list A := firstn i l ++ skipn (S i) l.
Definition open_after (l : list Z) (e : event) (o : list output) : list Z :=
  match e with
  | ESubmit _ _ | ETimer | EWallet _ => l ++ requested_vouchers o
  | EAnswer i _ => without_nth i l ++ requested_vouchers o
  | EStart => requested_vouchers o
  | EKillAfterAnswer _ _ | EKillInTimer _ | EKillInStart _ => []
  end.
Fixpoint open_requests groups dflt allowed (c : ctl) (l : list Z) (es : list timed) : list Z :=
  match es with
  | [] => l
  | (e, now, gen) :: rest =>
      let '(o, c1) := controller_step groups dflt allowed c (e, now, gen) in
      open_requests groups dflt allowed c1 (open_after l e o) rest
  end.

(** ** Storing what was received *)
Definition credited_tokens (o : list output) : list Z :=
  flat_map (fun x => match x with Credited _ _ toks _ => toks | _ => [] end) o.

(** ** Retrying *)

(** The events of a process that has been started and not been killed. *)
Definition alive (e : event) : Prop :=
  match e with ESubmit _ _ | EAnswer _ _ | ETimer | EWallet _ => True | _ => False end.
Definition running (es : list timed) : Prop :=
  exists es1 now gen es2, es = es1 ++ (EStart, now, gen) :: es2 /\ Forall (fun te => alive (fst (fst te))) es2.

(** The events that begin an attempt at a voucher, rather than carry one on. *)
Definition attempt (e : event) : Prop :=
  match e with EAnswer _ _ | EKillAfterAnswer _ _ | EWallet _ => False | _ => True end.
(** Those in which a new process begins. *)
Definition fresh_process (e : event) : Prop :=
  match e with EStart | EKillInStart _ => True | _ => False end.

(** ** What may happen to a voucher's row *)
Definition same_identity (r r' : voucher_row) : Prop :=
  v_number r' = v_number r /\ v_created r' = v_created r /\ v_expected r' = v_expected r.
Definition forward (r r' : voucher_row) : Prop :=
  same_identity r r' /\
  match v_state r, v_state r' with
  | SPending, SPending => v_counter r' = v_counter r \/ v_counter r' = v_counter r + 1
  | SPending, SRedeemed => v_counter r' = v_counter r + 1
  | SPending, SDoubleSpend => v_counter r' = v_counter r
  | _, _ => r' = r
  end.

(** Over several events: identity is kept, progress never decreases, and a
    finished voucher does not change at all. *)
Definition later (r r' : voucher_row) : Prop :=
  same_identity r r' /\ v_counter r <= v_counter r' /\ (v_state r <> SPending -> r' = r).

(** ** Requests *)

(** The secret tokens stored for group [k] of voucher [v]. *)
Definition random_tokens (v k : Z) (d : db) : list Z :=
  flat_map (fun t => if (t_voucher t =? v) && (t_counter t =? k) then [t_text t] else []) (tokens d).
(** The vouchers and groups requested. *)
Definition request_keys (o : list output) : list (Z * Z) :=
  flat_map (fun x => match x with Requested v k _ => [(v, k)] | _ => [] end) o.
Definition only_requests (o : list output) : Prop :=
  Forall (fun x => match x with Requested _ _ _ => True | _ => False end) o.

(** ** The reported state (C38) *)
Inductive reported (c : ctl) (r : voucher_row) : cstate -> Prop :=
| rep_redeemed f n : v_state r = SRedeemed -> v_finished r = Some f -> v_token_count r = Some n ->
    reported c r (CRedeemed f n)
| rep_double f : v_state r = SDoubleSpend -> v_finished r = Some f -> reported c r (CDoubleSpend f)
| rep_redeeming s k : v_state r = SPending -> In (v_number r, (s, k)) (c_active c) ->
    reported c r (CRedeeming s k)
| rep_unpaid f : v_state r = SPending -> ~ In (v_number r) (dkeys (c_active c)) ->
    In (v_number r, f) (c_unpaid c) -> reported c r (CUnpaid f)
| rep_error f x : v_state r = SPending -> ~ In (v_number r) (dkeys (c_active c)) ->
    ~ In (v_number r) (dkeys (c_unpaid c)) -> In (v_number r, (f, x)) (c_error c) ->
    reported c r (CError f x)
| rep_pending : v_state r = SPending -> ~ In (v_number r) (dkeys (c_active c)) ->
    ~ In (v_number r) (dkeys (c_unpaid c)) -> ~ In (v_number r) (dkeys (c_error c)) ->
    reported c r (CPending (v_counter r)).

(** ** An issuer that keeps its word (C71) *)

(** Before the answer [a] to the request [f], the issuer says "already spent"
    only if another set of tokens was submitted for that group before. *)
Definition honest_answer (out : list output) (f : flight) (a : answer) : Prop :=
  match a with
  | AAlreadySpent =>
      exists toks, In (Requested (f_voucher f) (f_counter f) toks) out /\ toks <> f_tokens f
  | _ => True
  end.
Definition honest groups dflt allowed (es : list timed) : Prop :=
  forall es1 i a now gen es2 out c f,
  (es = es1 ++ (EAnswer i a, now, gen) :: es2 \/ es = es1 ++ (EKillAfterAnswer i a, now, gen) :: es2) ->
  controller_run groups dflt allowed new_node es1 = (out, c) -> nth_error (c_flights c) i = Some f ->
  honest_answer out f a.
