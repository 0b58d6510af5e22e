(** Specification vocabulary for the storage server (C06-C14, C26).  Uses the
    data types of the models, the prices of [PricingSpec] and the request
    messages, but none of the functions of the server model. *)
From Verif Require Import Prelude BytesModel PassModel PricingModel PricingSpec ContainerModel TahoeModel ServerModel.
Set Implicit Arguments.

(** ** Passes *)

(** Two fields of 88 bytes separated by the only space. *)
Definition well_formed (s : bytes) : Prop :=
  exists a b, s = a ++ x20 :: b /\ length a = 88%nat /\ length b = 88%nat /\ ~ In x20 a /\ ~ In x20 b.
Definition preimage_of (s : bytes) : bytes := firstn 88 s.
Definition signature_of (s : bytes) : bytes := skipn 89 s.

(** The kind of an operation and the storage index it is about. *)
Definition kind_of (q : request) : kind :=
  match q with Allocate _ _ _ _ _ => KAllocate | AddLease _ _ _ => KLease | Writev _ _ _ _ _ _ => KWritev end.
Definition index_of (q : request) : bytes :=
  match q with Allocate si _ _ _ _ | AddLease si _ _ | Writev si _ _ _ _ _ => si end.

Section Spec.
Variable signed : bytes -> bytes -> bytes -> bool.

(** A (well-formed) pass is signed for this request. *)
Definition verifies (q : request) (s : bytes) : bool :=
  signed (make_message (kind_of q) (index_of q)) (preimage_of s) (signature_of s).

(** The preimages of the presented passes that verify, in order. *)
Definition verified (q : request) (passes : list bytes) : list bytes :=
  map preimage_of (filter (verifies q) passes).

(** [failed] are exactly the positions of the passes that do not verify. *)
Definition failed_positions (q : request) (passes : list bytes) (failed : list Z) : Prop :=
  NoDup failed /\
  forall i, In i failed <->
    0 <= i /\ exists s, nth_error passes (Z.to_nat i) = Some s /\ verifies q s = false.
End Spec.

(** ** Stored shares *)

Definition data_size (s : share) : Z := Z.of_nat (length (s_data s)).
Definition active (now : Z) (s : share) : Prop :=
  exists l, In l (s_leases s) /\ l_expiration l * hz > now.

(** The size a share counts with in the price of a write: its data if some
    lease is active, else nothing. *)
Definition paid_size (d : dict share) (now n sz : Z) : Prop :=
  (exists s, In (n, s) d /\ active now s /\ sz = data_size s) \/
  ((forall s, In (n, s) d -> ~ active now s) /\ sz = 0).

(** What containers of the storage server look like. *)
Definition wf_share (s : share) : Prop :=
  Z.of_nat (length (s_leases s)) < 2 ^ 32 /\
  match s_container s with
  | CImmutable v => (v = 1 \/ v = 2) /\ s_leases s <> []
  | CMutable v _ => (v = 1 \/ v = 2) /\ data_size s <= MAX_SIZE
  end.
Definition wf_dir (d : dict share) : Prop := dict_wf d /\ forall n s, In (n, s) d -> wf_share s.
Definition wf_storage (st : storage) : Prop := forall si, wf_dir (dirs st si).

Definition mutable (s : share) : Prop := exists v we, s_container s = CMutable v we.
(** All shares of a storage index are of one kind. *)
Definition homogeneous (d : dict share) : Prop :=
  (forall n s, In (n, s) d -> mutable s) \/ (forall n s, In (n, s) d -> ~ mutable s).

(** ** Prices *)

Definition price (v : Z) (st : storage) (now : Z) (q : request) (n : Z) : Prop :=
  match q with
  | Allocate _ _ _ sharenums sz => exact_price v (repeat sz (length sharenums)) n
  | AddLease si _ _ => exact_price v (map (fun ns => data_size (snd ns)) (dirs st si)) n
  | Writev si _ _ _ tw _ =>
      exists f g ks,
        (forall k, paid_size (dirs st si) now k (f k)) /\ written f tw g /\
        NoDup ks /\ incl (dkeys (dirs st si)) ks /\ incl (dkeys tw) ks /\
        n = total_price v ks g - total_price v ks f
  end.

(** Arguments the Python types and the remote interface guarantee: sets and
    dictionaries have no duplicates, sizes are not negative. *)
Definition proper (q : request) : Prop :=
  match q with
  | Allocate _ _ _ sharenums sz => NoDup sharenums /\ 0 <= sz
  | AddLease _ _ _ => True
  | Writev _ _ _ _ tw _ => dict_wf tw
  end.
(** The request uses no truncation. *)
Definition no_truncation (q : request) : Prop :=
  match q with
  | Writev _ _ _ _ tw _ => forall n w, In (n, w) tw -> tw_new_length w = None
  | _ => True
  end.

(** ** Leases *)

(** Every lease of [ls] is still in [ls'], in place, and no shorter. *)
Definition leases_kept (ls ls' : list lease) : Prop :=
  forall i l, nth_error ls i = Some l ->
  exists l', nth_error ls' i = Some l' /\ l_renew l' = l_renew l /\ l_cancel l' = l_cancel l /\
             l_expiration l <= l_expiration l'.

(** ** Histories *)

Definition proper_event (e : event) : Prop := match e with ERequest _ _ _ q => proper q | _ => True end.

(** Storage indexes are used for immutable or for mutable shares, not both. *)
Definition separate (mut : bytes -> bool) (e : event) : Prop :=
  match e with
  | ERequest _ _ _ (Allocate si _ _ _ _) => mut si = false
  | ERequest _ _ _ (Writev si _ _ _ _ _) => mut si = true
  | _ => True
  end.

(** What an answered event may add to the record of spent passes: a leading part
    of the verified passes of an accepted request. *)
Definition contributes (signed : bytes -> bytes -> bytes -> bool) (e : event)
  (r : option (res server_error reply)) (ps : list bytes) : Prop :=
  match e, r with
  | ERequest _ _ passes q, Some (Ok _) =>
      (forall s, In s passes -> well_formed s) /\ exists k, ps = firstn k (verified signed q passes)
  | _, _ => ps = []
  end.

(** A server after some history starting with an empty disk; the wrapped server
    writes containers of versions [iv] and [mv]. *)
Definition reachable_server signed pv iv mv (mut : bytes -> bool) (sv : server) : Prop :=
  (iv = 1 \/ iv = 2) /\ (mv = 1 \/ mv = 2) /\
  exists es os, Forall proper_event es /\ Forall (separate mut) es /\
                server_run signed pv iv mv empty_server es = (os, sv).
