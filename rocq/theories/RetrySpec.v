(** Specification for C138: which tokens a node asked the issuer to sign, and
    which groups of a voucher are behind it. *)
From Verif Require Import Prelude StoreModel ReplicaModel ReplicaStore.
Set Implicit Arguments.

(** In the course of the history the running node stored or looked up these
    tokens for a group of a voucher; they are what it sends to the issuer. *)
Definition asked text_size stream_size (es : list wevent) (voucher counter : Z) (ts : list Z) : Prop :=
  exists es1 expected toks now es2,
  es = es1 ++ WCall (OAdd voucher expected counter toks now) :: es2 /\
  n_up (fst (wrun text_size stream_size empty_wallet es1)) = true /\
  fst (StoreModel.step (n_db (fst (wrun text_size stream_size empty_wallet es1))) (OAdd voucher expected counter toks now)) = Ok (RTokens ts) /\
  ts <> [].

(** The wallet has stored the signed tokens of more groups of the voucher than that. *)
Definition behind (d : db) (voucher counter : Z) : Prop :=
  exists r, In r (vouchers d) /\ v_number r = voucher /\ counter < v_counter r.
