(** Specification vocabulary for the log of spending (C133).  Uses the types of
    the models but none of their functions. *)
From Verif Require Import Prelude PricingSpec StoreModel StoreSpec SpendModel SpendSpec LogModel.
Set Implicit Arguments.

(** ** What a log says happened, in passes *)
Definition says_got (l : line) : Z := match l with GetPasses _ n => n | _ => 0 end.
Definition says_spent (l : line) : Z := match l with SpentPasses n => n | _ => 0 end.
Definition says_invalid (l : line) : Z := match l with InvalidPasses _ n => n | _ => 0 end.
Definition says_returned (l : line) : Z := match l with ResetPasses n => n | _ => 0 end.
Fixpoint total (says : line -> Z) (log : list line) : Z :=
  match log with [] => 0 | l :: rest => says l + total says rest end.

(** The tokens a call took fall into three piles, found after it in the three
    places a token can be in; and their sizes are the totals of the log. *)
Definition adds_up {P R} (log : list line) (tr : list (attempt P R)) (d' : db) : Prop :=
  exists spent bad back,
    NoDup (spent ++ bad ++ back) /\
    (forall t, In t (spent ++ bad ++ back) <-> taken tr t) /\
    (forall t, In t spent -> is_spent d' t) /\
    (forall t, In t bad -> is_invalid d' t) /\
    (forall t, In t back -> is_available d' t) /\
    total says_got log = Z.of_nat (length (spent ++ bad ++ back)) /\
    total says_spent log = Z.of_nat (length spent) /\
    total says_invalid log = Z.of_nat (length bad) /\
    total says_returned log = Z.of_nat (length back).

(** ** The log as told by the server's answers *)

(** How many of [num] passes a refusal names. *)
Definition named (num : Z) (failed : list Z) : Z :=
  Z.of_nat (length (filter (fun i => (0 <=? i) && (i <? num)) (nodup Z.eq_dec failed))).

(** What follows the first message about getting passes; [pays] is what is logged
    when the server is content. *)
Fixpoint told {R} (pays : R -> list line) (message num : Z) (answers : list (response R)) : list line :=
  match answers with
  | [] => []
  | Accept x :: _ => pays x
  | Fail _ :: _ => [ResetPasses num]
  | Refuse _ _ [] :: _ => [ResetPasses num]
  | Refuse _ _ (i :: is) :: rest =>
      let bad := named num (i :: is) in
      [SignatureCheckFailed (Z.of_nat (length (i :: is))); InvalidPasses 1 bad] ++
      match rest with
      | [] => [ResetPasses (num - bad)]
      | _ => GetPasses message bad :: told pays message num rest
      end
  end.

(** The whole log of a call: its beginning, what happened, its end. *)
Definition whole_log {R} (pays : R -> list line) (message num : Z) (answers : list (response R)) (r : res failure R)
  : list line :=
  [CallStarted num] ++
  match answers with
  | [] => []
  | _ => GetPasses message num :: told pays message num answers
  end ++
  [match r with Ok _ => CallSucceeded | Err f => CallFailed f end].

(** An ordinary call spends all its passes. *)
Definition pays_all {R} (num : Z) (x : R) : list line := [SpentPasses num].
(** An allocation spends those for the buckets that were really made, and
    returns the others. *)
Definition pays_for_buckets (num pass_value size : Z) (x : list Z * dict Z) : list line :=
  let spent := Z.min num (Z.of_nat (length (snd x)) * cdiv size pass_value) in
  [SpentPasses spent; ResetPasses (num - spent)].
