(** A whole run of lease maintenance: the walk and the renewals of LeaseModel, with the
    storage servers of ServerModel at the other end, and paid for with the tokens of the wallet
    of StoreModel through the client of ClientModel.

    Nothing else uses the wallet and the servers during the run, and the servers' clocks
    agree with the client's. *)
From Verif Require Import Prelude BytesModel PassModel PricingModel ContainerModel TahoeModel ServerModel StoreModel SpendModel
  ClientModel LeaseModel.
Set Implicit Arguments.

(** The storage servers by number, the wallet, the time in ticks, and the row of the run in
    the wallet ([LeaseMaintenance._rowid], model.py:951). *)
Record world := World {
  w_servers : Z -> ServerModel.server;
  w_db : db;
  w_time : Z;
  w_run : option Z
}.
Definition put_server (id : Z) (sv : ServerModel.server) (f : Z -> ServerModel.server) (i : Z) : ServerModel.server :=
  if i =? id then sv else f i.

Section Upkeep.
Variable signed : bytes -> bytes -> bytes -> bool.
Variables pass_value mutable_version : Z.
Variable preimage : Z -> bytes.
Variable sign : bytes -> Z -> bytes.
(** Whether a server has room for one more lease on a share. *)
Variable room : Z -> Z -> bool.
Variable scan : nat -> list Z -> list Z.
(** When a remote call that is made at some time has been answered. *)
Variable later : Z -> Z.

(** _plugin.py:451-452 [get_now], in microseconds *)
Definition w_clock (w : world) : Z := w_time w * 1000000 / hz.

(** _storage_server.py:494-500 through _storage_client.py:558-577 [stat_shares] *)
Definition up_stat_shares (server : Z) (sis : list bytes) (w : world) : res mexn (list (dict share_stat)) * world :=
  (match map_res (remote_stat_shares (w_servers w server)) sis with Ok l => Ok l | Err _ => Err RemoteError end,
   World (w_servers w) (w_db w) (later (w_time w)) (w_run w)).

(** _storage_client.py:530-556 [add_lease].  A call makes no more attempts than there are
    tokens it can be made with, and one more (UpkeepProofs: [lease_call_ends]), so there is always an answer. *)
Definition up_add_lease (server : Z) (si renew cancel : bytes) (w : world) : res mexn unit * world :=
  match linked_add_lease signed pass_value mutable_version preimage sign (w_time w) (room server) scan si renew cancel
          (w_servers w server) (S (length (available (w_db w)))) (w_db w) with
  | None => (Err RemoteError, w)
  | Some (r, d, tr) =>
      (match r with Ok _ => Ok tt | Err _ => Err RemoteError end,
       World (put_server server (state_after signed pass_value mutable_version (w_time w) (room server) (AddLease si renew cancel)
                (w_servers w server) tr) (w_servers w))
             d (later (w_time w)) (w_run w))
  end.

(** model.py:881-890 [start_lease_maintenance], 955-969 [start] *)
Definition up_start (w : world) : res mexn unit * world :=
  match step (w_db w) (OMaintStart (w_clock w)) with
  | (Ok (RNum id), d) => (Ok tt, World (w_servers w) d (w_time w) (Some id))
  | (_, d) => (Err StoreError, World (w_servers w) d (w_time w) None)
  end.
(** model.py:971-985 [observe] *)
Definition up_observe (sizes : list Z) (w : world) : res mexn unit * world :=
  let '(r, d) := step (w_db w) (OMaintObserve pass_value (w_run w) sizes) in
  (match r with Ok _ => Ok tt | Err _ => Err StoreError end, World (w_servers w) d (w_time w) (w_run w)).
(** model.py:987-998 [finish], which forgets the row *)
Definition up_finish (w : world) : res mexn unit * world :=
  let '(r, d) := step (w_db w) (OMaintFinish (w_run w) (w_clock w)) in
  (match r with Ok _ => Ok tt | Err _ => Err StoreError end, World (w_servers w) d (w_time w) None).

(** lease_maintenance.py:691-738, on these servers *)
Definition upkeep (servers : list Z) := maintain_leases up_stat_shares up_add_lease up_start up_observe up_finish w_clock (fun _ => servers).

(** Runs that are due at these times; a run begins when it is due, or when the one before it has ended
    if that is later (lease_maintenance.py:368-390).  Nothing else happens meanwhile.  For every run:
    when it began, how it ended and what it left. *)
Fixpoint upkeeps servers frh brh fch bch seed order graph fuel remaining rs cs rootcap (due : list Z) (w : world)
  : option (list (Z * res mexn unit * world)) :=
  match due with
  | [] => Some []
  | now :: rest =>
      let w0 := World (w_servers w) (w_db w) (Z.max now (w_time w)) None in
      match upkeep servers frh brh fch bch seed order graph fuel remaining rs cs rootcap w0 with
      | None => None
      | Some (r, w1, _) =>
          option_map (cons (w_clock w0, r, w1)) (upkeeps servers frh brh fch bch seed order graph fuel remaining rs cs rootcap rest w1)
      end
  end.
End Upkeep.
