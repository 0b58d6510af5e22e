(** Model of any number of paid storage calls in progress at the same time, all
    drawing on one wallet.

    Each call is a coroutine running [call_with_passes_with_manual_spend]
    (_storage_client.py:116-183).  It gives up control only at
    [await method(pass_group)] (line 146), so that what it does between two
    answers of the server is one step.  The steps of different calls, and the
    other uses of the wallet, come in any order.  Twisted runs all of them in one
    thread.  The pieces of the loop are those of SpendModel. *)
From Verif Require Import Prelude PricingModel StoreModel SpendModel.
Set Implicit Arguments.

(** Which [on_success] the call was given: the one of [call_with_passes]
    (_storage_client.py:186-203) or the one of [allocate_buckets] (468-504).
    [call_with_passes] ignores the result of the method, so one type of results
    serves for both. *)
Inductive kind :=
| SpendAll
| SpendForBuckets (pass_value allocated_size : Z).
Definition result := (list Z * dict Z)%type.

(** The arguments of one call of [call_with_passes_with_manual_spend]. *)
Record call := Call { c_message : Z; c_num : Z; c_kind : kind }.

Section Concurrent.
Variable P : Type.
Variable to_pass : Z -> Z -> res exn P.

(** [on_success]: _storage_client.py:198-203 and 498-503 *)
Definition on_success (k : kind) (x : result) (g : group P) (d : db) : res exn unit * db :=
  match k with
  | SpendAll => spend_all x g d
  | SpendForBuckets pv size => spend_for_allocate_buckets pv size x g d
  end.

(** Where a coroutine is: at its [await], having presented a group, or over. *)
Inductive phase :=
| Waiting (g : group P)
| Done (r : res failure result).

(** A call, the attempts answered so far and where it is. *)
Record task := Task { t_call : call; t_past : list (attempt P result); t_phase : phase }.

(** The process: the wallet and all calls made so far. *)
Record system := System { s_db : db; s_tasks : list task }.

(** Up to the first [await]: _storage_client.py:152-158 *)
Definition begin (scan : list Z -> list Z) (c : call) (d : db) : task * db :=
  match get to_pass scan (c_message c) (c_num c) d with
  | (Err e, d1) => (Task c [] (Done (Err (Raised e))), d1)
  | (Ok g, d1) => (Task c [] (Waiting g), d1)
  end.

(** The [except: pass_group.reset(); raise] of _storage_client.py:178-181 *)
Definition fail (c : call) (tr : list (attempt P result)) (f : failure) (g : group P) (d : db) : task * db :=
  match reset g d with
  | (Ok _, d1) => (Task c tr (Done (Err f)), d1)
  | (Err e, d1) => (Task c tr (Done (Err (Raised e))), d1)
  end.

(** From an answer of the server to the next [await], or the end:
    _storage_client.py:156-183 *)
Definition resume (scan : list Z -> list Z) (c : call) (past : list (attempt P result)) (g : group P)
  (resp : response result) (d : db) : task * db :=
  let tr := past ++ [(g, resp)] in
  match resp with
  | Fail e => fail c tr (Remote e) g d
  | Accept x =>
      match on_success (c_kind c) x g d with
      | (Ok _, d1) => (Task c tr (Done (Ok x)), d1)
      | (Err e, d1) => fail c tr (Raised e) g d1
      end
  | Refuse _ _ failed =>
      match invalidate_rejected_passes g failed d with
      | (Err e, d1) => fail c tr (Raised e) g d1
      | (Ok None, d1) => fail c tr (MorePasses failed) g d1
      | (Ok (Some okay), d1) =>
          match expand to_pass scan (c_message c) okay (c_num c - lenZ okay) d1 with
          | (Err e, d2) => fail c tr (Raised e) okay d2
          | (Ok g', d2) => (Task c tr (Waiting g'), d2)
          end
      end
  end.

(** What can happen next: a call is made, a server answers the [i]-th call, or
    something else uses the wallet.  [scan] is the order of rows seen by the
    extraction, if there is one. *)
Inductive event :=
| Start (scan : list Z -> list Z) (c : call)
| Answer (scan : list Z -> list Z) (i : nat) (resp : response result)
| Other (o : op).

(** Replace the [i]-th element (no counterpart in /repo). *)
Fixpoint replace (i : nat) (t : task) (ts : list task) : list task :=
  match i, ts with
  | _, [] => []
  | O, _ :: rest => t :: rest
  | S i', t0 :: rest => t0 :: replace i' t rest
  end.

(** One event.  An answer nobody waits for is dropped. *)
Definition happen (s : system) (e : event) : system :=
  match e with
  | Start scan c =>
      let '(t, d1) := begin scan c (s_db s) in System d1 (s_tasks s ++ [t])
  | Answer scan i resp =>
      match nth_error (s_tasks s) i with
      | Some (Task c past (Waiting g)) =>
          let '(t, d1) := resume scan c past g resp (s_db s) in System d1 (replace i t (s_tasks s))
      | _ => s
      end
  | Other o => System (snd (step (s_db s) o)) (s_tasks s)
  end.

(** Any number of events. *)
Definition run (s : system) (es : list event) : system := fold_left happen es s.
End Concurrent.
Arguments Waiting {P} g.
Arguments Done {P} r.
