(** Model of what is written to the log while passes are spent (spending.py,
    _storage_client.py, eliot.py): the functions of [SpendModel] once more, each
    also giving the messages it logs, in order.

    Abstractions: those of [SpendModel].  A message is its type and its fields;
    the time, the task and the nesting level Eliot adds to every message are left
    out.  So is everything the remote method logs by itself. *)
From Verif Require Import Prelude PricingModel StoreModel SpendModel.
Set Implicit Arguments.

(** Messages: eliot.py:52-87 *)
Inductive line :=
| GetPasses (message count : Z)              (* GET_PASSES, eliot.py:52-56 *)
| SpentPasses (count : Z)                    (* SPENT_PASSES, eliot.py:58-62 *)
| InvalidPasses (reason count : Z)           (* INVALID_PASSES, eliot.py:64-68 *)
| ResetPasses (count : Z)                    (* RESET_PASSES, eliot.py:70-74 *)
| SignatureCheckFailed (count : Z)           (* SIGNATURE_CHECK_FAILED, eliot.py:76-80 *)
| CallStarted (count : Z)                    (* CALL_WITH_PASSES, eliot.py:82-87 *)
| CallSucceeded                              (* the same action ends well *)
| CallFailed (f : failure).                  (* or with an exception, whose name and text are logged *)

(** A result together with what was logged on the way. *)
Definition logged (A : Type) := (list line * A)%type.

Section Logging.
Variables P R : Type.
Variable to_pass : Z -> Z -> res exn P.

(** [SpendingController.get]: spending.py:209-216; the message is logged once
    there are passes. *)
Definition log_get (scan : list Z -> list Z) (message num_passes : Z) (d : db) : logged (res exn (group P) * db) :=
  match with_cursor (get_unblinded_tokens scan num_passes) d with
  | (Err e, d1) => ([], (Err e, d1))
  | (Ok toks, d1) =>
      match tokens_to_passes to_pass message toks with
      | Err e => ([], (Err e, d1))
      | Ok passes => ([GetPasses message num_passes], (Ok (combine toks passes), d1))
      end
  end.

(** [SpendingController.mark_spent]: spending.py:218-222; logged first *)
Definition log_mark_spent (g : group P) (d : db) : logged (res exn unit * db) :=
  ([SpentPasses (lenZ (unblinded_tokens g))],
   with_cursor (discard_unblinded_tokens (unblinded_tokens g)) d).

(** [SpendingController.mark_invalid]: spending.py:224-229; logged first *)
Definition log_mark_invalid (reason : Z) (g : group P) (d : db) : logged (res exn unit * db) :=
  ([InvalidPasses reason (lenZ (unblinded_tokens g))],
   with_cursor (invalidate_unblinded_tokens reason (unblinded_tokens g)) d).

(** [SpendingController.reset]: spending.py:231-235; logged first *)
Definition log_reset (g : group P) (d : db) : logged (res exn unit * db) :=
  ([ResetPasses (lenZ (unblinded_tokens g))],
   with_cursor (reset_unblinded_tokens (unblinded_tokens g)) d).

(** [PassGroup.expand]: spending.py:161-168 *)
Definition log_expand (scan : list Z -> list Z) (message : Z) (g : group P) (by_amount : Z) (d : db)
  : logged (res exn (group P) * db) :=
  match log_get scan message by_amount d with
  | (l, (Ok more, d1)) => (l, (Ok (g ++ more), d1))
  | (l, (Err e, d1)) => (l, (Err e, d1))
  end.

(** [invalidate_rejected_passes]: _storage_client.py:72-113 *)
Definition log_invalidate_rejected_passes (g : group P) (failed : list Z) (d : db)
  : logged (res exn (option (group P)) * db) :=
  if lenZ failed =? 0 then ([], (Ok None, d)) else
  let '(rejected, okay) := split (fun i => memZ i failed) g in
  match log_mark_invalid signature_check_failed rejected d with
  | (l, (Ok _, d1)) => (SignatureCheckFailed (lenZ failed) :: l, (Ok (Some okay), d1))
  | (l, (Err e, d1)) => (SignatureCheckFailed (lenZ failed) :: l, (Err e, d1))
  end.

Variable server : list (attempt P R) -> group P -> db -> list op * response R.
Variable scan : nat -> list Z -> list Z.
Variables message num_passes : Z.
Variable on_success : R -> group P -> db -> logged (res exn unit * db).

(** What a finished call leaves: the log, then what [SpendModel] says. *)
Definition finished := logged (res failure R * db * list (attempt P R)).

(** The [except: pass_group.reset(); raise] of _storage_client.py:175-180, after
    [l] was logged *)
Definition log_give_up (l : list line) (f : failure) (g : group P) (d : db) (tr : list (attempt P R)) : option finished :=
  match log_reset g d with
  | (l1, (Ok _, d1)) => Some (l ++ l1, (Err f, d1, tr))
  | (l1, (Err e, d1)) => Some (l ++ l1, (Err (Raised e), d1, tr))
  end.

(** The loop of [call_with_passes_with_manual_spend]: _storage_client.py:152-180;
    [l] was logged before. *)
Fixpoint log_attempts (fuel : nat) (l : list line) (past : list (attempt P R)) (g : group P) (d : db) : option finished :=
  match fuel with
  | O => None
  | S fuel' =>
      let '(others, resp) := server past g d in
      let d1 := snd (steps d others) in
      let tr := past ++ [(g, resp)] in
      match resp with
      | Fail e => log_give_up l (Remote e) g d1 tr
      | Accept r =>
          match on_success r g d1 with
          | (l1, (Ok _, d2)) => Some (l ++ l1, (Ok r, d2, tr))
          | (l1, (Err e, d2)) => log_give_up (l ++ l1) (Raised e) g d2 tr
          end
      | Refuse _ _ failed =>
          match log_invalidate_rejected_passes g failed d1 with
          | (l1, (Err e, d2)) => log_give_up (l ++ l1) (Raised e) g d2 tr
          | (l1, (Ok None, d2)) => log_give_up (l ++ l1) (MorePasses failed) g d2 tr
          | (l1, (Ok (Some okay), d2)) =>
              match log_expand (scan (length tr)) message okay (num_passes - lenZ okay) d2 with
              | (l2, (Err e, d3)) => log_give_up (l ++ l1 ++ l2) (Raised e) okay d3 tr
              | (l2, (Ok g', d3)) => log_attempts fuel' (l ++ l1 ++ l2) tr g' d3
              end
          end
      end
  end.

(** The last message of the action around the call *)
Definition action_end (r : res failure R) : line :=
  match r with Ok _ => CallSucceeded | Err f => CallFailed f end.

(** [call_with_passes_with_manual_spend]: _storage_client.py:116-183; the action
    is around everything. *)
Definition log_call_with_manual_spend (fuel : nat) (d : db) : option finished :=
  match log_get (scan 0) message num_passes d with
  | (l, (Err e, d1)) =>
      Some (CallStarted num_passes :: l ++ [CallFailed (Raised e)], (Err (Raised e), d1, []))
  | (l, (Ok g, d1)) =>
      match log_attempts fuel (CallStarted num_passes :: l) [] g d1 with
      | Some (l1, (r, d2, tr)) => Some (l1 ++ [action_end r], (r, d2, tr))
      | None => None
      end
  end.
End Logging.

(** The [on_success] of [call_with_passes]: _storage_client.py:198-203 *)
Definition log_spend_all {P R} (r : R) (g : group P) (d : db) : logged (res exn unit * db) := log_mark_spent g d.

(** [call_with_passes]: _storage_client.py:186-203 *)
Definition log_call_with_passes {P R} (to_pass : Z -> Z -> res exn P) server scan message num_passes
  : nat -> db -> option (finished P R) :=
  log_call_with_manual_spend to_pass server scan message num_passes log_spend_all.

(** [_spend_for_allocate_buckets]: _storage_client.py:435-466 *)
Definition log_spend_for_allocate_buckets {P} (pass_value allocated_size : Z)
  (result : list Z * dict Z) (g : group P) (d : db) : logged (res exn unit * db) :=
  match required_passes pass_value (repeat allocated_size (length (snd result))) with
  | Err _ => ([], (Err ZeroDivisionError, d))
  | Ok actual =>
      let '(to_spend, to_reset) := split (fun i => (0 <=? i) && (i <? actual)) g in
      match log_mark_spent to_spend d with
      | (l, (Err e, d1)) => (l, (Err e, d1))
      | (l, (Ok _, d1)) =>
          let '(l1, x) := log_reset to_reset d1 in (l ++ l1, x)
      end
  end.

(** [ZKAPAuthorizerStorageClient.allocate_buckets]: _storage_client.py:468-504 *)
Definition log_allocate_buckets {P} (to_pass : Z -> Z -> res exn P) server scan message
  (pass_value allocated_size : Z) (sharenums : list Z) (fuel : nat) (d : db)
  : option (finished P (list Z * dict Z)) :=
  match required_passes pass_value (repeat allocated_size (length sharenums)) with
  | Err _ => Some ([], (Err (Raised ZeroDivisionError), d, []))
  | Ok num_passes =>
      log_call_with_manual_spend to_pass server scan message num_passes
        (log_spend_for_allocate_buckets pass_value allocated_size) fuel d
  end.
