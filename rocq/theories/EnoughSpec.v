(** Vocabulary for C101: how many good tokens a wallet has, and what a server gives to anybody who
    pays. *)
From Verif Require Import Prelude BytesModel PassModel PricingModel ContainerModel TahoeModel ServerModel ServerSpec
  StoreModel StoreSpec SpendModel ClientModel.
Set Implicit Arguments.

Section Spec.
Variable signed : bytes -> bytes -> bytes -> bool.
Variable preimage : Z -> bytes.
Variable sign : bytes -> Z -> bytes.

(** The server will find the pass made of this token for this request valid. *)
Definition good_for (q : request) (t : Z) : Prop :=
  let m := make_message (kind_of q) (index_of q) in signed m (preimage t) (sign m t) = true.

(** The wallet has [n] good tokens that can be spent and are not in use. *)
Definition good_tokens (q : request) (d : db) (n : Z) : Prop :=
  exists toks, NoDup toks /\ Z.of_nat (length toks) = n /\
    forall t, In t toks -> stored d true t /\ ~ In t (in_use d) /\ good_for q t.

(** [x] is the server's answer to some well-formed passes, [n] of them or more valid. *)
Definition given_for (pv mv now : Z) (room : Z -> bool) (q : request) (sv : server) (n : Z) (x : res server_error reply) : Prop :=
  exists passes, (forall s, In s passes -> well_formed s) /\
    n <= Z.of_nat (length (filter (verifies signed q) passes)) /\
    fst (serve signed pv mv now room passes q sv) = x.
End Spec.
