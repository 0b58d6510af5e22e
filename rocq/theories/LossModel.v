(** A whole client: voucher redemption ([ControllerModel]) on a replicated
    wallet ([ReplicaStore]).

    The calls [PaymentController] makes on the store, event by event; the
    controller's functions are those of [ControllerModel], from which the lines
    of controller.py are taken again.  Calls that only read are left out. *)
From Verif Require Import Prelude StoreModel ControllerModel ReplicaModel ReplicaStore.
Set Implicit Arguments.

Section Calls.
Variables num_redemption_groups default_token_count : Z.
Variable allowed_public_keys : list Z.
Variable now : Z.
Variable gen : Z -> Z -> Z -> list Z.
Notation redeem := (redeem num_redemption_groups default_token_count now gen).
Notation settle := (settle num_redemption_groups allowed_public_keys now).

(** controller.py:887-902, on the way to the request for one group *)
Definition group_calls (v total counter : Z) : list op :=
  if counter >=? num_redemption_groups then [] else
  match token_count_for_group num_redemption_groups total counter with
  | Err _ => []
  | Ok n => [OAdd v total counter (gen v counter n) now]
  end.

(** controller.py:911-975 *)
Definition redeem_calls (v : Z) (num_tokens : option Z) (c : ctl) : list op :=
  match get_voucher c v with
  | Err KeyError => group_calls v (match num_tokens with Some n => n | None => default_token_count end) 0
  | Err _ => []
  | Ok (vo, s) =>
      if should_start_redemption s then
        match start_at_counter s with
        | Err _ => []
        | Ok counter_start => group_calls v (expected_tokens vo) counter_start
        end
      else []
  end.

(** controller.py:1008-1066 *)
Definition settle_calls (f : flight) (a : answer) : list op :=
  match a with
  | ASuccess toks pk =>
      [OInsert (f_voucher f) pk toks (f_counter f + 1 =? num_redemption_groups) (memZ pk allowed_public_keys) now]
  | AAlreadySpent => [ODouble (f_voucher f) now]
  | AUnpaid | AError _ => []
  end.

(** controller.py:946-975; the flag says whether the process lives on after the
    answer has been stored *)
Definition answer_calls (on : bool) (i : nat) (a : answer) (c : ctl) : list op :=
  match take_at i (c_flights c) with
  | None => []
  | Some (f, rest) =>
      settle_calls f a ++
      (if on && fst (fst (settle f a (with_flights rest c)))
       then group_calls (f_voucher f) (f_total f) (f_counter f + 1) else [])
  end.

(** controller.py:849-854 *)
Fixpoint retry_calls (vs : list Z) (c : ctl) : list op :=
  match vs with
  | [] => []
  | v :: rest =>
      if memZ v (dkeys (c_active c)) then retry_calls rest c else
      match get_voucher c v with
      | Err _ => []
      | Ok (_, s) =>
          if should_start_redemption s
          then redeem_calls v None c ++ retry_calls rest (snd (redeem v None c))
          else retry_calls rest c
      end
  end.

(** controller.py:856-873 *)
Fixpoint check_calls (vs : list voucher) (c : ctl) : list op :=
  match vs with
  | [] => []
  | v :: rest =>
      if should_start_redemption (of_persistent (state v))
      then redeem_calls (number v) None c ++ check_calls rest (snd (redeem (number v) None c))
      else check_calls rest c
  end.

(** controller.py:825-847, in the new process *)
Definition boot_calls (upto : option nat) (c : ctl) : list op :=
  match fst (with_cursor list_vouchers (c_db (killed c))) with
  | Err _ => []
  | Ok vs => check_calls (match upto with Some n => firstn n vs | None => vs end) (killed c)
  end.
End Calls.

(** The calls of one event of [ControllerModel]. *)
Definition controller_calls (groups dflt : Z) (allowed : list Z) (c : ctl) (te : timed) : list op :=
  let '(e, now, gen) := te in
  match e with
  | ESubmit v n => redeem_calls groups dflt now gen v n c
  | EAnswer i a => answer_calls groups allowed now gen true i a c
  | ETimer =>
      if c_retrying c then retry_calls groups dflt now gen (dkeys (c_error c) ++ dkeys (c_unpaid c)) c else []
  | EStart => boot_calls groups dflt now gen None c
  | EWallet o => [o]
  | EKillAfterAnswer i a => answer_calls groups allowed now gen false i a c
  | EKillInTimer n =>
      retry_calls groups dflt now gen (firstn n (dkeys (c_error c) ++ dkeys (c_unpaid c))) c
  | EKillInStart n => boot_calls groups dflt now gen (Some n) c
  end.

(** What happens to the wallet in the course of such an event: the calls, and
    where the process ends in between or at the end, that.  [before] is what
    replication does after the start and before the controller is made
    (_plugin.py:205-236), [applied] whether an operation on the grid
    was carried out all the same. *)
Definition wallet_events (groups dflt : Z) (allowed : list Z) (c : ctl) (te : timed)
  (before : list wevent) (applied : bool) : list wevent :=
  let calls := map WCall (controller_calls groups dflt allowed c te) in
  match fst (fst te) with
  | ESubmit _ _ | EAnswer _ _ | ETimer | EWallet _ => calls
  | EKillAfterAnswer _ _ | EKillInTimer _ => calls ++ [WKill applied]
  | EStart => WKill applied :: WOpen :: before ++ calls
  | EKillInStart _ => WKill applied :: WOpen :: before ++ calls ++ [WKill applied]
  end.

(** The controller of a node whose wallet has been filled by a recovery
    (recover.py:219-228), before the node is started again. *)
Definition recovered_node (d : db) : ctl := Ctl d [] [] [] [] false.
