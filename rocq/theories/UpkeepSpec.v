(** Vocabulary for C124: what it takes to keep everything leased. *)
From Verif Require Import Prelude BytesModel PassModel PricingModel PricingSpec ContainerModel TahoeModel ServerModel ServerSpec
  StoreModel StoreSpec SpendSpec LeaseModel LeaseSpec UpkeepModel.
Set Implicit Arguments.

(** [sis] are the storage indexes of everything that can be reached from the root. *)
Definition indexes_under (graph : Z -> node) (root : Z) (sis : list bytes) : Prop :=
  NoDup sis /\ forall si, In si sis <-> exists n, reachable graph [root] n /\ n_index (graph n) = Some si.
(** Everything under the root can be listed and is stored on the grid. *)
Definition all_stored (graph : Z -> node) (root : Z) : Prop :=
  forall n, reachable graph [root] n -> readable graph n /\ n_index (graph n) <> None.

(** The sizes of the shares of these storage indexes on a server, and on all of them. *)
Definition sizes_at (sv : ServerModel.server) (sis : list bytes) : list Z :=
  flat_map (fun si => map (fun ns => data_size (snd ns)) (dirs (sv_storage sv) si)) sis.
Definition sizes_everywhere (servers : list Z) (sis : list bytes) (w : world) : list Z :=
  flat_map (fun id => sizes_at (w_servers w id) sis) servers.

(** The numbers in the file of the share have their ranges, and [more] leases can be added. *)
Definition fits (more : Z) (s : share) : Prop :=
  Z.of_nat (length (s_leases s)) + more < 2 ^ 32 /\ forall l, In l (s_leases s) -> 0 <= l_expiration l < 2 ^ 32.

(** The wallet has [k] tokens that can be spent, are not in use, and make good passes for anything. *)
Definition fine_tokens (signed : bytes -> bytes -> bytes -> bool) (preimage : Z -> bytes) (sign : bytes -> Z -> bytes) (d : db) (k : Z) : Prop :=
  exists toks, NoDup toks /\ Z.of_nat (length toks) = k /\
    forall t, In t toks -> stored d true t /\ ~ In t (in_use d) /\ forall m, signed m (preimage t) (sign m t) = true.

(** Some lease lasts until then (in microseconds) or longer. *)
Definition lasts (until : Z) (s : share) : Prop :=
  exists l, In l (s_leases s) /\ until <= l_expiration l * 1000000.

(** Just short of the 31 days a lease lasts: expiration times are stored in whole seconds. *)
Definition nearly_a_month : Z := (31 * 86400 - 1) * 1000000.

(** These tokens could be spent before, and have been spent. *)
Definition spent_between (d d' : db) (ts : list Z) : Prop :=
  NoDup ts /\ forall t, In t ts -> stored d true t /\ is_spent d' t.

(** The row of a run in the table of the wallet that was not there before *)
Definition new_row (d d' : db) (m : maint_row) : Prop :=
  In m (maint d') /\ ~ In (m_id m) (map m_id (maint d)).
