(** Model of voucher redemption: [PaymentController] (controller.py:757-1103) on
    top of the store model.

    The redeemer is the outside world: a request to it is an output, its answer
    an event.  The stretch of a coroutine between two [await]s runs as one
    event; an [await] that does not suspend is a request whose answer is the very
    next event.  Voucher numbers, tokens, public keys, times and error texts are
    integers, as in [StoreModel]; all the clock readings of one event show the
    same time.  Log messages are left out. *)
From Verif Require Import Prelude PricingModel StoreModel.
Set Implicit Arguments.

(** controller.py:722-754 [token_count_for_group] *)
Definition token_count_for_group (num_groups total_tokens group_number : Z) : res exn Z :=
  if total_tokens <? num_groups then Err ValueError else
  if (group_number >=? num_groups) || (group_number <? 0) then Err ValueError else
  if num_groups =? 0 then Err ZeroDivisionError else
  let group_size := total_tokens / num_groups in
  let remainder := total_tokens mod num_groups in
  if group_number <? remainder then Ok (group_size + 1) else Ok group_size.

(** model.py:1063-1202, the six states: the three persistent ones and
    [Redeeming], [Unpaid], [Error]. *)
Inductive cstate :=
| CPending (counter : Z)
| CRedeeming (started counter : Z)
| CRedeemed (finished token_count : Z)
| CDoubleSpend (finished : Z)
| CUnpaid (finished : Z)
| CError (finished details : Z).

(** The [should_start_redemption] methods of the states, model.py:1074, 1098,
    1126, 1144, 1167, 1191 *)
Definition should_start_redemption (s : cstate) : bool :=
  match s with CPending _ | CUnpaid _ | CError _ _ => true | _ => false end.

(** The [start_at_counter] methods, model.py:1077, 1101, 1129, 1147, 1170, 1194 *)
Definition start_at_counter (s : cstate) : res exn Z :=
  match s with
  | CPending counter => Ok counter
  | CUnpaid _ => Ok 0
  | _ => Err ValueError
  end.

(** A coroutine suspended in [redeemWithCounter]: the locals of
    controller.py:946-969. *)
Record flight := Flight { f_voucher : Z; f_counter : Z; f_total : Z; f_tokens : list Z }.

(** The attributes of [PaymentController], controller.py:810-823, the suspended
    coroutines in the order they were started, and whether the retry loop is
    running (a [LoopingCall] stops when its function raises). *)
Record ctl := Ctl {
  c_db : db;
  c_error : dict (Z * Z);
  c_unpaid : dict Z;
  c_active : dict (Z * Z);
  c_flights : list flight;
  c_retrying : bool }.
Definition with_db d c := Ctl d (c_error c) (c_unpaid c) (c_active c) (c_flights c) (c_retrying c).
Definition with_error x c := Ctl (c_db c) x (c_unpaid c) (c_active c) (c_flights c) (c_retrying c).
Definition with_unpaid x c := Ctl (c_db c) (c_error c) x (c_active c) (c_flights c) (c_retrying c).
Definition with_active x c := Ctl (c_db c) (c_error c) (c_unpaid c) x (c_flights c) (c_retrying c).
Definition with_flights x c := Ctl (c_db c) (c_error c) (c_unpaid c) (c_active c) x (c_retrying c).
Definition with_retrying x c := Ctl (c_db c) (c_error c) (c_unpaid c) (c_active c) (c_flights c) x.

(** What the redeemer answers: a [RedemptionResult] or an exception. *)
Inductive answer :=
| ASuccess (unblinded_tokens : list Z) (public_key : Z)
| AAlreadySpent
| AUnpaid
| AError (details : Z).

(** What can be seen from outside: a request reaching the redeemer, and a
    received group of tokens having been stored. *)
Inductive output :=
| Requested (voucher counter : Z) (tokens : list Z)
| Credited (voucher counter : Z) (tokens : list Z) (spendable : bool)
| Died (e : exn).              (* an exception ended a coroutine *)

(** [del d[k]] for a key that is there *)
Definition ddel {V} (k : Z) (d : dict V) : dict V := filter (fun kv => negb (fst kv =? k)) d.

Section Controller.
(** controller.py:814-817 *)
Variables num_redemption_groups default_token_count : Z.
Variable allowed_public_keys : list Z.

Definition of_persistent (s : pstate) : cstate :=
  match s with
  | PPending n => CPending n
  | PRedeemed f n => CRedeemed f n
  | PDoubleSpend f => CDoubleSpend f
  end.

(** controller.py:1080-1103 [incorporate_transient_state], the new state *)
Definition incorporate_transient_state (c : ctl) (v : voucher) : cstate :=
  match state v with
  | PPending _ =>
      match dget (number v) (c_active c) with
      | Some (started, counter) => CRedeeming started counter
      | None =>
          match dget (number v) (c_unpaid c) with
          | Some finished => CUnpaid finished
          | None =>
              match dget (number v) (c_error c) with
              | Some (finished, details) => CError finished details
              | None => of_persistent (state v)
              end
          end
      end
  | s => of_persistent s
  end.

(** controller.py:1075-1078 [get_voucher]: the voucher and its state *)
Definition get_voucher (c : ctl) (v : Z) : res exn (voucher * cstate) :=
  match fst (with_cursor (get v) (c_db c)) with
  | Err e => Err e
  | Ok vo => Ok (vo, incorporate_transient_state c vo)
  end.

(** The clock, and the tokens the redeemer makes up when asked for new ones
    (voucher, counter, number): controller.py:887-902, 599-609. *)
Variable now : Z.
Variable gen : Z -> Z -> Z -> list Z.

(** One round of the loop of controller.py:946-975 up to the [await] of line
    1005, with [_get_random_tokens_for_voucher] (875-909) and the first half of
    [_perform_redeem] (977-1007).  A total so small that the [Voucher] of line
    893 cannot be built is refused by [token_count_for_group] before. *)
Definition start_group (v total counter : Z) (c : ctl) : list output * ctl :=
  if counter >=? num_redemption_groups then ([], c) else
  match token_count_for_group num_redemption_groups total counter with
  | Err e => ([Died e], c)
  | Ok token_count =>
  match with_cursor (add v total counter (gen v counter token_count) now) (c_db c) with
  | (Err e, d) => ([Died e], with_db d c)
  | (Ok tokens, d) =>
  match fst (with_cursor (get v) d) with
  | Err e => ([Died e], with_db d c)
  | Ok vo =>
  match state vo with
  | PPending k =>
      ([Requested v counter tokens],
       with_flights (c_flights c ++ [Flight v counter total tokens])
         (with_active (dset v (now, k) (c_active c)) (with_db d c)))
  | _ => ([Died ValueError], with_db d c)
  end end end end.

(** controller.py:911-975 [redeem] up to its first [await] *)
Definition redeem (v : Z) (num_tokens : option Z) (c : ctl) : list output * ctl :=
  match get_voucher c v with
  | Err KeyError =>
      start_group v (match num_tokens with Some n => n | None => default_token_count end) 0 c
  | Err e => ([Died e], c)
  | Ok (vo, s) =>
      if should_start_redemption s then
        match start_at_counter s with
        | Err e => ([Died e], c)
        | Ok counter_start => start_group v (expected_tokens vo) counter_start c
        end
      else ([], c)
  end.

(** The end of [_perform_redeem] (controller.py:1008-1022) when the redeemer has
    answered: [_redeem_success] (1024-1042), [_redeem_failure] (1044-1066) or
    [_final_redeem_error]; the flag says whether the loop of [redeem] goes on. *)
Definition settle (f : flight) (a : answer) (c : ctl) : bool * list output * ctl :=
  let v := f_voucher f in
  let done c := with_active (ddel v (c_active c)) c in
  match a with
  | ASuccess toks pk =>
      let spendable := memZ pk allowed_public_keys in
      match with_cursor (insert_unblinded_tokens_for_voucher v pk toks
                           (f_counter f + 1 =? num_redemption_groups) spendable now) (c_db c) with
      | (Ok _, d) => (true, [Credited v (f_counter f) toks spendable], done (with_db d c))
      | (Err _, d) => (false, [], done (with_db d c))
      end
  | AAlreadySpent =>
      match with_cursor (mark_voucher_double_spent v now) (c_db c) with
      | (Ok _, d) => (false, [], done (with_db d c))
      | (Err e, d) => (false, [Died e], done (with_db d c))
      end
  | AUnpaid => (false, [], done (with_unpaid (dset v now (c_unpaid c)) c))
  | AError details => (false, [], done (with_error (dset v (now, details) (c_error c)) c))
  end.

(** Take the [i]-th element out. *)
Fixpoint take_at {A} (i : nat) (l : list A) : option (A * list A) :=
  match i, l with
  | _, [] => None
  | O, x :: l' => Some (x, l')
  | S i', x :: l' => match take_at i' l' with Some (y, l'') => Some (y, x :: l'') | None => None end
  end.

(** The redeemer answers the [i]-th suspended coroutine, which runs to its next
    [await] or its end: controller.py:946-975. *)
Definition answered (i : nat) (a : answer) (c : ctl) : list output * ctl :=
  match take_at i (c_flights c) with
  | None => ([], c)
  | Some (f, rest) =>
      let '(go_on, o1, c1) := settle f a (with_flights rest c) in
      if go_on then
        let '(o2, c2) := start_group (f_voucher f) (f_total f) (f_counter f + 1) c1 in (o1 ++ o2, c2)
      else (o1, c1)
  end.

(** controller.py:849-854 [_retry_redemption] for the remaining keys *)
Fixpoint retry_loop (vs : list Z) (c : ctl) : list output * ctl :=
  match vs with
  | [] => ([], c)
  | v :: rest =>
      if memZ v (dkeys (c_active c)) then retry_loop rest c else
      match get_voucher c v with
      | Err e => ([Died e], with_retrying false c)
      | Ok (_, s) =>
          if should_start_redemption s then
            let '(o1, c1) := redeem v None c in
            let '(o2, c2) := retry_loop rest c1 in (o1 ++ o2, c2)
          else retry_loop rest c
      end
  end.
Definition retry_redemption (c : ctl) : list output * ctl :=
  if c_retrying c then retry_loop (dkeys (c_error c) ++ dkeys (c_unpaid c)) c else ([], c).

(** controller.py:856-873 [_check_pending_vouchers] for the remaining vouchers *)
Fixpoint check_loop (vs : list voucher) (c : ctl) : list output * ctl :=
  match vs with
  | [] => ([], c)
  | v :: rest =>
      if should_start_redemption (of_persistent (state v)) then
        let '(o1, c1) := redeem (number v) None c in
        let '(o2, c2) := check_loop rest c1 in (o1 ++ o2, c2)
      else check_loop rest c
  end.

(** The process has ended: coroutines and attributes are gone, the connection is
    new when the next one starts. *)
Definition killed (c : ctl) : ctl := Ctl (restart (c_db c)) [] [] [] [] false.

(** controller.py:825-847 [__attrs_post_init__] and [_schedule_retries]; the
    second argument bounds the number of vouchers looked at, for a process that
    is killed on the way. *)
Definition boot (upto : option nat) (c : ctl) : list output * ctl :=
  let c0 := killed c in
  match fst (with_cursor list_vouchers (c_db c0)) with
  | Err e => ([Died e], c0)
  | Ok vs =>
      match upto with
      | None => let '(o, c1) := check_loop vs c0 in (o, with_retrying true c1)
      | Some n => let '(o, c1) := check_loop (firstn n vs) c0 in (o, killed c1)
      end
  end.
End Controller.

(** ** Histories *)

(** What can happen: a voucher is submitted, the redeemer answers, the timer
    fires, the process starts (again), something else uses the wallet; and the
    process is killed after having stored an answer, or on its way through the
    vouchers to retry or to start. *)
Inductive event :=
| ESubmit (voucher : Z) (num_tokens : option Z)
| EAnswer (i : nat) (a : answer)
| ETimer
| EStart
| EWallet (o : op)
| EKillAfterAnswer (i : nat) (a : answer)
| EKillInTimer (n : nat)
| EKillInStart (n : nat).

Section Run.
Variables num_redemption_groups default_token_count : Z.
Variable allowed_public_keys : list Z.

(** An event with the clock and the redeemer's next random tokens. *)
Definition timed := (event * Z * (Z -> Z -> Z -> list Z))%type.

Definition controller_step (c : ctl) (te : timed) : list output * ctl :=
  let '(e, now, gen) := te in
  match e with
  | ESubmit v n => redeem num_redemption_groups default_token_count now gen v n c
  | EAnswer i a => answered num_redemption_groups allowed_public_keys now gen i a c
  | ETimer => retry_redemption num_redemption_groups default_token_count now gen c
  | EStart => boot num_redemption_groups default_token_count now gen None c
  | EWallet o => ([], with_db (snd (step (c_db c) o)) c)
  | EKillAfterAnswer i a =>
      match take_at i (c_flights c) with
      | None => ([], killed c)
      | Some (f, rest) =>
          let '(_, o, c1) := settle num_redemption_groups allowed_public_keys now f a (with_flights rest c) in
          (o, killed c1)
      end
  | EKillInTimer n =>
      let '(o, c1) := retry_loop num_redemption_groups default_token_count now gen
                        (firstn n (dkeys (c_error c) ++ dkeys (c_unpaid c))) c in (o, killed c1)
  | EKillInStart n => boot num_redemption_groups default_token_count now gen (Some n) c
  end.

Fixpoint controller_run (c : ctl) (es : list timed) : list output * ctl :=
  match es with
  | [] => ([], c)
  | e :: rest =>
      let '(o1, c1) := controller_step c e in
      let '(o2, c2) := controller_run c1 rest in (o1 ++ o2, c2)
  end.
End Run.

(** A node that has just been created, before its controller. *)
Definition new_node : ctl := Ctl empty_db [] [] [] [] false.
