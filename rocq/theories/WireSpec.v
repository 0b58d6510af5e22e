(** Specification vocabulary for C107 and C108: what a well-formed answer is and
    what a call cost.  Uses the types of the models only. *)
From Verif Require Import Prelude BytesModel PricingModel StoreModel SpendModel SpendSpec WireModel.
From Verif Require ContainerModel.
Set Implicit Arguments.

(** ** Values and their types *)

(** [v] is an int, [n]; True and False are ints in Python. *)
Inductive means_int : pyval -> Z -> Prop :=
| means_number n : means_int (PInt n) n
| means_true : means_int (PBool true) 1
| means_false : means_int (PBool false) 0.

(** Two keys a dict cannot hold both of. *)
Definition same_key (a b : pyval) : Prop :=
  a = b \/ exists n, means_int a n /\ means_int b n.

(** Every dict within holds each key once. *)
Fixpoint proper (v : pyval) : Prop :=
  match v with
  | PList l | PTuple l | PSet l => fold_right (fun x rest => proper x /\ rest) True l
  | PDict items =>
      ForallOrdPairs (fun a b => ~ same_key (fst a) (fst b)) items /\
      fold_right (fun x rest => proper (snd x) /\ rest) True items
  | PStat a b =>
      match a with Some x => proper x | None => True end /\
      match b with Some x => proper x | None => True end
  | _ => True
  end.

(** The types promised by the signatures of the client's methods. *)
Inductive ty :=
| TAny | TBool | TInt | TBytes | TStat
| TList (t : ty) | TPair (a b : ty) | TDict (k v : ty).
Fixpoint has_type (t : ty) (v : pyval) : Prop :=
  match t with
  | TAny => True
  | TBool => exists b, v = PBool b
  | TInt => exists n, means_int v n
  | TBytes => exists s, v = PBytes s
  | TStat => exists a b, v = PStat a b
  | TList t => exists l, v = PList l /\ forall x, In x l -> has_type t x
  | TPair ta tb => exists a b, v = PTuple [a; b] /\ has_type ta a /\ has_type tb b
  | TDict tk tv => exists items, v = PDict items /\ forall k x, In (k, x) items -> has_type tk k /\ has_type tv x
  end.

(** _storage_client.py:417 *)
Definition version_type := TDict TBytes TAny.
(** _storage_client.py:511 *)
Definition buckets_type := TDict TInt TAny.
(** _storage_client.py:559 *)
Definition stats_type := TList (TDict TInt TStat).
(** _storage_client.py:288 *)
Definition sizes_type := TDict TInt TInt.
(** _storage_client.py:592 *)
Definition writev_type := TPair TBool (TDict TInt (TList TBytes)).
(** _storage_client.py:670 *)
Definition readv_type := TDict TInt TBytes.

(** The sizes a server reported, in order. *)
Definition sizes_reported (v : pyval) (sizes : list Z) : Prop :=
  exists items, v = PDict items /\ Forall2 (fun kx n => means_int (snd kx) n) items sizes.
(** None of the share sizes a server reported is negative. *)
Definition no_negative_size (v : pyval) : Prop :=
  forall l items k s e n,
  v = PList l -> In (PDict items) l -> In (k, PStat (Some s) e) items -> means_int s n -> 0 <= n.

(** Every share of the answer has an expiration that is a number and, if it has not expired and
    is to be written, a size that is a number. *)
Definition readable_stats (now : Z) (tw : tw_vectors) (v : pyval) : Prop :=
  forall items k s e, v = PDict items -> In (k, PStat s e) items ->
  exists ev en, e = Some ev /\ means_int ev en /\
    forall m w, now < en * ContainerModel.hz -> means_int k m -> In (m, w) tw -> tw_data w <> [] ->
    exists sv sn, s = Some sv /\ means_int sv sn.

(** ** What a call cost *)

(** At most [n] of the tokens stored before are spent after. *)
Definition costs_at_most (d d' : db) (n : Z) : Prop :=
  forall l, NoDup l -> (forall t, In t l -> In t (map u_token (unblinded d)) /\ is_spent d' t) ->
  Z.of_nat (length l) <= n.
(** Every token that could be spent before is spent after. *)
Definition costs_everything (d d' : db) : Prop :=
  forall t, is_available d t -> is_spent d' t.
