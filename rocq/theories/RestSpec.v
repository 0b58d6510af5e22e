(** Specification for C137: what a wallet has to have in common with another one
    for no voucher and no random token to be lost. *)
From Verif Require Import Prelude StoreModel ReplicaModel.
Set Implicit Arguments.

(** The same voucher; of the groups it is redeemed in the older wallet has seen
    no more than the newer one. *)
Definition same_voucher (old new : voucher_row) : Prop :=
  v_number old = v_number new /\ v_created old = v_created new /\ v_expected old = v_expected new /\
  v_counter old <= v_counter new.

(** The random tokens for a group of a voucher, in the order they were stored. *)
Definition random_tokens (d : db) (voucher counter : Z) : list Z :=
  map t_text (filter (fun t => (t_voucher t =? voucher) && (t_counter t =? counter)) (tokens d)).

(** Each voucher of one is a voucher of the other, in the same order, and all
    random tokens that have not been exchanged for signed ones are there. *)
Definition keeps (old new : db) : Prop :=
  Forall2 same_voucher (vouchers old) (vouchers new) /\
  forall v c, random_tokens new v c = [] \/ random_tokens old v c = random_tokens new v c.

(** A stream of changes is no shorter than the texts of its statements. *)
Definition sizes_fit {S : Type} (text_size : S -> Z) (stream_size : list (change S) -> Z) : Prop :=
  (forall s, 0 <= text_size s) /\ forall l, sumZ (map text_size (map (@statement S) l)) <= stream_size l.
