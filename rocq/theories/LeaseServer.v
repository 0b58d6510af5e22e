(** Maintenance against the storage server of ServerModel: C53, C54, C79. *)
From Verif Require Import Prelude PreludeFacts BytesModel PricingModel ContainerModel TahoeModel ServerModel ServerSpec
  StoreModel LeaseModel LeaseSpec.
Set Implicit Arguments.

Section Visits.
Variable signed : bytes -> bytes -> bytes -> bool.
Variables pv iv mv : Z.
Variables file_renewal_secret_hash bucket_renewal_secret_hash : bytes -> bytes -> bytes.
Variables file_cancel_secret_hash bucket_cancel_secret_hash : bytes -> bytes -> bytes.
Variable lease_seed : Z -> bytes.
(** The lease secrets of the node and its configuration. *)
Variables renewal_secret cancel_secret : bytes.
Variable min_lease_remaining : Z.

(** One run's dealings with one server: the client's clock when it asks for the shares, in
    microseconds; the server's clock when it serves the renewal for a storage index, in
    ticks, with the room it has and the passes it gets. *)
Record visit := Visit {
  v_now : Z;
  v_at : bytes -> Z;
  v_room : bytes -> Z -> bool;
  v_passes : bytes -> list bytes;
  v_indexes : list bytes
}.

(** _storage_server.py:494-500 [remote_stat_shares] for a list of storage indexes *)
Definition server_stats (server : Z) (sis : list bytes) (sv : ServerModel.server)
  : res mexn (list (dict share_stat)) * ServerModel.server :=
  (match map_res (remote_stat_shares sv) sis with Ok l => Ok l | Err _ => Err RemoteError end, sv).
Definition server_add_lease (v : visit) (server : Z) (si renew cancel : bytes) (sv : ServerModel.server)
  : res mexn unit * ServerModel.server :=
  match serve signed pv mv (v_at v si) (v_room v si) (v_passes v si) (AddLease si renew cancel) sv with
  | (Ok _, sv') => (Ok tt, sv')
  | (Err _, sv') => (Err RemoteError, sv')
  end.

(** The world of [renew_leases_on_server] is one server. *)
Definition visit_server (v : visit) (id : Z) : M ServerModel.server unit :=
  renew_leases_on_server server_stats (server_add_lease v) (fun _ sv => (Ok tt, sv))
    file_renewal_secret_hash bucket_renewal_secret_hash file_cancel_secret_hash bucket_cancel_secret_hash lease_seed
    min_lease_remaining renewal_secret cancel_secret (map Some (v_indexes v)) id (v_now v).

(** What happens at a server: visits that do not fail, and anything else. *)
Inductive item := Visits (v : visit) | Others (e : event).
Inductive history (id : Z) : ServerModel.server -> list item -> ServerModel.server -> Prop :=
| h_nil sv : history id sv [] sv
| h_visit sv v sv1 t items sv2 : visit_server v id sv = (Ok tt, sv1, t) -> history id sv1 items sv2 ->
    history id sv (Visits v :: items) sv2
| h_other sv e o sv1 items sv2 : server_step signed pv iv mv sv e = (o, sv1) -> history id sv1 items sv2 ->
    history id sv (Others e :: items) sv2.
End Visits.

(** ** Vocabulary *)

Definition proper_item (mut : bytes -> bool) (i : item) : Prop :=
  match i with Visits _ => True | Others e => proper_event e /\ separate mut e end.
Definition deletes (si : bytes) (n : Z) (i : item) : Prop := i = Others (EDelete si n).
Definition visits (si : bytes) (i : item) : Prop := exists v, i = Visits v /\ In si (v_indexes v).

(** A time (of the server, in ticks) before the end of what a visit ensures: the
    configured minimum after the visit, the lease period after the renewal, less one second
    because expiration times are stored in whole seconds. *)
Definition covered (remaining : Z) (v : visit) (si : bytes) (b : Z) : Prop :=
  b * 1000000 < (v_now v + remaining) * hz /\ b <= v_at v si + (31 * 86400 - 1) * hz.

(** Every visit of [si] is served before the end of what the one before ensures. *)
Inductive spaced (remaining : Z) (si : bytes) : option visit -> list item -> Prop :=
| sp_nil last : spaced remaining si last []
| sp_visit last v items : In si (v_indexes v) ->
    (forall u, last = Some u -> covered remaining u si (v_at v si)) ->
    spaced remaining si (Some v) items -> spaced remaining si last (Visits v :: items)
| sp_other last i items : ~ visits si i -> spaced remaining si last items -> spaced remaining si last (i :: items).

(** There is a visit to come, and the first is served at [b] or later. *)
Inductive before_next (si : bytes) (b : Z) : list item -> Prop :=
| bn_visit v items : In si (v_indexes v) -> b <= v_at v si -> before_next si b (Visits v :: items)
| bn_other i items : ~ visits si i -> before_next si b items -> before_next si b (i :: items).
