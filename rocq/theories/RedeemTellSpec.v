(** Specification vocabulary for C136: reading the log of redemption.  Uses the
    types of the models but none of their functions. *)
From Verif Require Import Prelude StoreModel ControllerModel RedeemLogModel.
Set Implicit Arguments.

(** What a reader of the log takes for requests to the issuer: random tokens
    loaded or saved, and in the next line redemption begins.  Voucher, number of
    the group, number of tokens. *)
Fixpoint requests_told (log : list line) : list (Z * Z * Z) :=
  match log with
  | LLoaded n v k :: ((LRedeeming _ :: _) as rest) => (v, k, n) :: requests_told rest
  | LPersisting n v k :: ((LRedeeming _ :: _) as rest) => (v, k, n) :: requests_told rest
  | _ :: rest => requests_told rest
  | [] => []
  end.

(** What a reader takes for tokens received: they are recorded for a voucher, and
    the next line is no error.  Voucher, number of tokens, whether spendable. *)
Fixpoint credits_told (log : list line) : list (Z * Z * bool) :=
  match log with
  | LInserting v :: ((LRecording n s _ :: rest') as rest) =>
      match rest' with
      | LEncountered _ _ :: _ => credits_told rest
      | _ => (v, n, s) :: credits_told rest
      end
  | _ :: rest => credits_told rest
  | [] => []
  end.

(** What really was requested and received. *)
Definition requests_made (os : list output) : list (Z * Z * Z) :=
  flat_map (fun o => match o with Requested v k toks => [(v, k, Z.of_nat (length toks))] | _ => [] end) os.
Definition credits_made (os : list output) : list (Z * Z * bool) :=
  flat_map (fun o => match o with Credited v _ toks s => [(v, Z.of_nat (length toks), s)] | _ => [] end) os.

(** Nothing but redemption puts tokens into the store. *)
Definition by_redemption (te : timed) : Prop :=
  match fst (fst te) with EWallet (OInsert _ _ _ _ _ _) => False | _ => True end.
