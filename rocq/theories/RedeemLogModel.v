(** Model of what the voucher store and [PaymentController] write to the log
    (controller.py, model.py, resource.py): for every function of
    [ControllerModel] the messages of the same call, in order.

    Abstractions: those of [ControllerModel].  A message is its text, as a
    constructor, and its values.  Messages of the redeemer itself (controller.py:224,
    650-683: the public key, the proof and the number of signatures the issuer
    sent) are left out with the redeemer. *)
From Verif Require Import Prelude PricingModel StoreModel ControllerModel.
Set Implicit Arguments.

Inductive line :=
| LAccepting (voucher : Z)                                (* resource.py:697-699 *)
| LFoundNeeding (voucher : Z)                             (* controller.py:864-867 *)
| LFoundOther (voucher : Z)                               (* controller.py:870-873 *)
| LGenerating (voucher : Z)                               (* controller.py:888-891 *)
| LCannotRedeem (state : cstate)                          (* controller.py:933-936 *)
| LStarting (voucher start last num_tokens : Z)           (* controller.py:939-945 *)
| LSuspending (voucher : Z)                               (* controller.py:971-974 *)
| LRedeeming (voucher : voucher)                          (* controller.py:997-999 *)
| LInserting (voucher : Z)                                (* controller.py:1032-1035 *)
| LAlreadySpent (voucher : Z)                             (* controller.py:1046-1049 *)
| LUnpaid (voucher : Z)                                   (* controller.py:1052-1055 *)
| LFailed (voucher details : Z)                           (* controller.py:1058-1062 *)
| LEncountered (voucher : Z) (e : exn)                    (* controller.py:1069-1073 *)
| LLoaded (count voucher counter : Z)                     (* model.py:459-464 *)
| LPersisting (count voucher counter : Z)                 (* model.py:471-476 *)
| LRecording (count : Z) (spendable : bool) (public_key : Z). (* model.py:571-576 *)

(** [VoucherStore.add]: model.py:446-476; [get_tokens] is the list its callable
    argument returns, [asked] what the callable logs. *)
Definition log_add (asked : list line) (v counter : Z) (get_tokens : list Z) (d : db) : list line :=
  match filter (fun r => (t_voucher r =? v) && (t_counter r =? counter)) (tokens d) with
  | (_ :: _) as rows => [LLoaded (lenZ rows) v counter]
  | [] => asked ++ [LPersisting (lenZ get_tokens) v counter]
  end.

(** [VoucherStore.insert_unblinded_tokens_for_voucher]: model.py:562-576; nothing
    before the message can fail. *)
Definition log_insert (pk : Z) (toks : list Z) (spendable : bool) : list line :=
  [LRecording (lenZ toks) spendable pk].

Section Log.
Variables num_redemption_groups default_token_count : Z.
Variable allowed_public_keys : list Z.
Variable now : Z.
Variable gen : Z -> Z -> Z -> list Z.

(** [start_group]: controller.py:946-1007 *)
Definition log_start_group (v total counter : Z) (c : ctl) : list line :=
  if counter >=? num_redemption_groups then [] else
  match token_count_for_group num_redemption_groups total counter with
  | Err _ => []
  | Ok token_count =>
  log_add [LGenerating v] v counter (gen v counter token_count) (c_db c) ++
  match with_cursor (add v total counter (gen v counter token_count) now) (c_db c) with
  | (Err _, _) => []
  | (Ok _, d) =>
  match fst (with_cursor (get v) d) with
  | Err _ => []
  | Ok vo => match state vo with PPending _ => [LRedeeming vo] | _ => [] end
  end end end.

(** [redeem]: controller.py:911-945 *)
Definition log_redeem (v : Z) (num_tokens : option Z) (c : ctl) : list line :=
  match get_voucher c v with
  | Err KeyError =>
      let total := match num_tokens with Some n => n | None => default_token_count end in
      LStarting v 0 num_redemption_groups total :: log_start_group v total 0 c
  | Err _ => []
  | Ok (vo, s) =>
      if should_start_redemption s then
        match start_at_counter s with
        | Err _ => []
        | Ok counter_start =>
            LStarting v counter_start num_redemption_groups (expected_tokens vo)
            :: log_start_group v (expected_tokens vo) counter_start c
        end
      else [LCannotRedeem s]
  end.

(** The end of [_perform_redeem]: controller.py:1024-1073 *)
Definition log_settle (f : flight) (a : answer) (c : ctl) : list line :=
  let v := f_voucher f in
  match a with
  | ASuccess toks pk =>
      let spendable := memZ pk allowed_public_keys in
      [LInserting v] ++ log_insert pk toks spendable ++
      match fst (with_cursor (insert_unblinded_tokens_for_voucher v pk toks
                                (f_counter f + 1 =? num_redemption_groups) spendable now) (c_db c)) with
      | Ok _ => []
      | Err e => [LEncountered v e]
      end
  | AAlreadySpent => [LAlreadySpent v]
  | AUnpaid => [LUnpaid v]
  | AError details => [LFailed v details]
  end.

(** The loop of [redeem] after an answer: controller.py:969-975; an exception
    that ends the coroutine leaves no message. *)
Definition log_answered (i : nat) (a : answer) (c : ctl) : list line :=
  match take_at i (c_flights c) with
  | None => []
  | Some (f, rest) =>
      log_settle f a (with_flights rest c) ++
      match settle num_redemption_groups allowed_public_keys now f a (with_flights rest c) with
      | (true, _, c1) => log_start_group (f_voucher f) (f_total f) (f_counter f + 1) c1
      | (false, [Died _], _) => []
      | (false, _, _) => [LSuspending (f_voucher f)]
      end
  end.

(** [_retry_redemption]: controller.py:849-854 *)
Fixpoint log_retry_loop (vs : list Z) (c : ctl) : list line :=
  match vs with
  | [] => []
  | v :: rest =>
      if memZ v (dkeys (c_active c)) then log_retry_loop rest c else
      match get_voucher c v with
      | Err _ => []
      | Ok (_, s) =>
          if should_start_redemption s then
            log_redeem v None c ++
            log_retry_loop rest (snd (redeem num_redemption_groups default_token_count now gen v None c))
          else log_retry_loop rest c
      end
  end.

(** [_check_pending_vouchers]: controller.py:856-873 *)
Fixpoint log_check_loop (vs : list voucher) (c : ctl) : list line :=
  match vs with
  | [] => []
  | v :: rest =>
      if should_start_redemption (of_persistent (state v)) then
        LFoundNeeding (number v) :: log_redeem (number v) None c ++
        log_check_loop rest (snd (redeem num_redemption_groups default_token_count now gen (number v) None c))
      else LFoundOther (number v) :: log_check_loop rest c
  end.

(** [__attrs_post_init__]: controller.py:825-847 *)
Definition log_boot (upto : option nat) (c : ctl) : list line :=
  match fst (with_cursor list_vouchers (c_db (killed c))) with
  | Err _ => []
  | Ok vs => log_check_loop (match upto with None => vs | Some n => firstn n vs end) (killed c)
  end.

(** Direct uses of the store. *)
Definition log_wallet (o : op) (d : db) : list line :=
  match o with
  | OAdd v _ counter toks _ => log_add [] v counter toks d
  | OInsert _ pk toks _ spendable _ => log_insert pk toks spendable
  | _ => []
  end.
End Log.

Section Run.
Variables num_redemption_groups default_token_count : Z.
Variable allowed_public_keys : list Z.

(** [controller_step] *)
Definition log_step (c : ctl) (te : timed) : list line :=
  let '(e, now, gen) := te in
  match e with
  | ESubmit v n => LAccepting v :: log_redeem num_redemption_groups default_token_count now gen v n c
  | EAnswer i a => log_answered num_redemption_groups allowed_public_keys now gen i a c
  | ETimer =>
      if c_retrying c
      then log_retry_loop num_redemption_groups default_token_count now gen (dkeys (c_error c) ++ dkeys (c_unpaid c)) c
      else []
  | EStart => log_boot num_redemption_groups default_token_count now gen None c
  | EWallet o => log_wallet o (c_db c)
  | EKillAfterAnswer i a =>
      match take_at i (c_flights c) with
      | None => []
      | Some (f, rest) => log_settle num_redemption_groups allowed_public_keys now f a (with_flights rest c)
      end
  | EKillInTimer n =>
      log_retry_loop num_redemption_groups default_token_count now gen
        (firstn n (dkeys (c_error c) ++ dkeys (c_unpaid c))) c
  | EKillInStart n => log_boot num_redemption_groups default_token_count now gen (Some n) c
  end.

Fixpoint log_run (c : ctl) (es : list timed) : list line :=
  match es with
  | [] => []
  | e :: rest =>
      log_step c e ++
      log_run (snd (controller_step num_redemption_groups default_token_count allowed_public_keys c e)) rest
  end.
End Run.
