(** Model of spending passes on a storage call: [PassGroup] and
    [SpendingController] (spending.py) and the retry loop of
    _storage_client.py, on top of the store model.

    Abstractions, for the whole file: messages are integers, passes have an
    arbitrary type [P] and remote results an arbitrary type [R].  An [await] lets
    other tasks use the same store: the model runs an arbitrary list of store
    calls there.  Metrics and log messages are left out. *)
From Verif Require Import Prelude PricingModel StoreModel.
Set Implicit Arguments.

(** What ends a call with an exception: one raised by the store or the
    redeemer, MorePassesRequired (storage_common.py:30-47, only its index set is
    looked at by the client), or any other remote failure. *)
Inductive failure :=
| Raised (e : exn)
| MorePasses (failed : list Z)
| Remote (e : Z).

(** What one remote method call comes back with. *)
Inductive response (R : Type) :=
| Accept (r : R)
| Refuse (valid required : Z) (failed : list Z)   (* MorePassesRequired *)
| Fail (e : Z).
Arguments Accept {R} r.
Arguments Refuse {R} valid required failed.
Arguments Fail {R} e.

Section Spending.
Variables P R : Type.

(** [PassGroup._tokens]: spending.py:134-136.  The message and the factory are
    parameters of the model instead of attributes. *)
Definition group := list (Z * P).

(** [PassGroup.unblinded_tokens]: spending.py:144-146 *)
Definition unblinded_tokens (g : group) : list Z := map fst g.

(** [PassGroup.split]: spending.py:148-159.  [selected] is membership in
    [select_indices]; [idx] is the running index of [enumerate]. *)
Fixpoint split_from (idx : Z) (selected : Z -> bool) (g : group) : group * group :=
  match g with
  | [] => ([], [])
  | t :: g' =>
      let '(sel, unsel) := split_from (idx + 1) selected g' in
      if selected idx then (t :: sel, unsel) else (sel, t :: unsel)
  end.
Definition split (selected : Z -> bool) (g : group) : group * group := split_from 0 selected g.

(** The redeemer's [tokens_to_passes] for one token (controller.py:692-720 for
    the Ristretto one); it may raise. *)
Variable to_pass : Z -> Z -> res exn P.

(** [tokens_to_passes]: one pass per token, controller.py:692-720 *)
Definition tokens_to_passes (message : Z) (toks : list Z) : res exn (list P) :=
  map_res (to_pass message) toks.

(** [SpendingController.get]: spending.py:209-216 *)
Definition get (scan : list Z -> list Z) (message num_passes : Z) (d : db) : res exn group * db :=
  match with_cursor (get_unblinded_tokens scan num_passes) d with
  | (Err e, d1) => (Err e, d1)
  | (Ok toks, d1) =>
      match tokens_to_passes message toks with
      | Err e => (Err e, d1)
      | Ok passes => (Ok (combine toks passes), d1)
      end
  end.

(** [SpendingController.mark_spent]: spending.py:218-222, through
    [PassGroup.mark_spent]: 170-171 *)
Definition mark_spent (g : group) (d : db) : res exn unit * db :=
  with_cursor (discard_unblinded_tokens (unblinded_tokens g)) d.

(** "signature check failed", the reason of _storage_client.py:110 *)
Definition signature_check_failed : Z := 1.

(** [SpendingController.mark_invalid]: spending.py:224-229, through
    [PassGroup.mark_invalid]: 173-174 *)
Definition mark_invalid (g : group) (d : db) : res exn unit * db :=
  with_cursor (invalidate_unblinded_tokens signature_check_failed (unblinded_tokens g)) d.

(** [SpendingController.reset]: spending.py:231-235, through
    [PassGroup.reset]: 176-177 *)
Definition reset (g : group) (d : db) : res exn unit * db :=
  with_cursor (reset_unblinded_tokens (unblinded_tokens g)) d.

(** [PassGroup.expand] and [__add__]: spending.py:161-168 *)
Definition expand (scan : list Z -> list Z) (message : Z) (g : group) (by_amount : Z) (d : db)
  : res exn group * db :=
  match get scan message by_amount d with
  | (Ok more, d1) => (Ok (g ++ more), d1)
  | (Err e, d1) => (Err e, d1)
  end.

(** [invalidate_rejected_passes]: _storage_client.py:72-113; [Ok None] when the
    refusal names no pass. *)
Definition invalidate_rejected_passes (g : group) (failed : list Z) (d : db)
  : res exn (option group) * db :=
  if lenZ failed =? 0 then (Ok None, d) else
  let '(rejected, okay) := split (fun i => memZ i failed) g in
  match mark_invalid rejected d with
  | (Ok _, d1) => (Ok (Some okay), d1)
  | (Err e, d1) => (Err e, d1)
  end.

(** An attempt: the passes presented and what came back. *)
Definition attempt := (group * response R)%type.

(** The remote method together with everything else the process does with the
    store while waiting for it: after the attempts made so far, presented with
    this group, with these database contents. *)
Variable server : list attempt -> group -> db -> list op * response R.

(** The order of rows seen by each extraction. *)
Variable scan : nat -> list Z -> list Z.

Variable message : Z.
Variable num_passes : Z.

(** What to do with the passes on success. *)
Variable on_success : R -> group -> db -> res exn unit * db.

(** The [except: pass_group.reset(); raise] of _storage_client.py:175-180 *)
Definition give_up (f : failure) (g : group) (d : db) (tr : list attempt)
  : option (res failure R * db * list attempt) :=
  match reset g d with
  | (Ok _, d1) => Some (Err f, d1, tr)
  | (Err e, d1) => Some (Err (Raised e), d1, tr)
  end.

(** The loop of [call_with_passes_with_manual_spend]:
    _storage_client.py:139-181.  [None]: not finished within [fuel] attempts. *)
Fixpoint attempts (fuel : nat) (past : list attempt) (g : group) (d : db)
  : option (res failure R * db * list attempt) :=
  match fuel with
  | O => None
  | S fuel' =>
      let '(others, resp) := server past g d in
      let d1 := snd (steps d others) in
      let tr := past ++ [(g, resp)] in
      match resp with
      | Fail e => give_up (Remote e) g d1 tr
      | Accept r =>
          match on_success r g d1 with
          | (Ok _, d2) => Some (Ok r, d2, tr)
          | (Err e, d2) => give_up (Raised e) g d2 tr
          end
      | Refuse _ _ failed =>
          match invalidate_rejected_passes g failed d1 with
          | (Err e, d2) => give_up (Raised e) g d2 tr
          | (Ok None, d2) => give_up (MorePasses failed) g d2 tr
          | (Ok (Some okay), d2) =>
              match expand (scan (length tr)) message okay (num_passes - lenZ okay) d2 with
              | (Err e, d3) => give_up (Raised e) okay d3 tr
              | (Ok g', d3) => attempts fuel' tr g' d3
              end
          end
      end
  end.

(** [call_with_passes_with_manual_spend]: _storage_client.py:116-183; the first
    [get_passes] is outside the [try]. *)
Definition call_with_passes_with_manual_spend (fuel : nat) (d : db)
  : option (res failure R * db * list attempt) :=
  match get (scan 0) message num_passes d with
  | (Err e, d1) => Some (Err (Raised e), d1, [])
  | (Ok g, d1) => attempts fuel [] g d1
  end.
End Spending.

(** The [on_success] of [call_with_passes]: _storage_client.py:198-203 *)
Definition spend_all {P R} (r : R) (g : group P) (d : db) : res exn unit * db := mark_spent g d.

(** [call_with_passes]: _storage_client.py:186-203 *)
Definition call_with_passes {P R} (to_pass : Z -> Z -> res exn P) server scan message num_passes
  : nat -> db -> option (res failure R * db * list (attempt P R)) :=
  call_with_passes_with_manual_spend to_pass server scan message num_passes spend_all.

(** [_spend_for_allocate_buckets]: _storage_client.py:435-466; a bucket writer
    is an integer.  [result] is (already have, bucket writers). *)
Definition spend_for_allocate_buckets {P} (pass_value allocated_size : Z)
  (result : list Z * dict Z) (g : group P) (d : db) : res exn unit * db :=
  match required_passes pass_value (repeat allocated_size (length (snd result))) with
  | Err _ => (Err ZeroDivisionError, d)
  | Ok actual =>
      let '(to_spend, to_reset) := split (fun i => (0 <=? i) && (i <? actual)) g in
      match mark_spent to_spend d with
      | (Err e, d1) => (Err e, d1)
      | (Ok _, d1) => reset to_reset d1
      end
  end.

(** [ZKAPAuthorizerStorageClient.allocate_buckets]: _storage_client.py:468-504 *)
Definition client_allocate_buckets {P} (to_pass : Z -> Z -> res exn P) server scan message
  (pass_value allocated_size : Z) (sharenums : list Z) (fuel : nat) (d : db)
  : option (res failure (list Z * dict Z) * db * list (attempt P (list Z * dict Z))) :=
  match required_passes pass_value (repeat allocated_size (length sharenums)) with
  | Err _ => Some (Err (Raised ZeroDivisionError), d, [])
  | Ok num_passes =>
      call_with_passes_with_manual_spend to_pass server scan message num_passes
        (spend_for_allocate_buckets pass_value allocated_size) fuel d
  end.
