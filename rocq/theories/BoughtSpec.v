(** Specification vocabulary for C123: what it means that a lease was bought. *)
From Verif Require Import Prelude BytesModel PassModel PricingModel PricingSpec ContainerModel TahoeModel ServerModel ServerSpec.
Set Implicit Arguments.

(** The secret that can renew the leases a request makes. *)
Definition renew_secret (q : request) : bytes :=
  match q with Allocate _ renew _ _ _ | AddLease _ renew _ | Writev _ _ renew _ _ _ => renew end.

(** The shares a request can get a lease for: those to be uploaded, those that
    are stored, those that data are written to. *)
Definition asks_for (st : storage) (q : request) (n : Z) : Prop :=
  match q with
  | Allocate _ _ _ nums _ => In n nums
  | AddLease si _ _ => In n (dkeys (dirs st si))
  | Writev _ _ _ _ tw _ => exists w, In (n, w) tw /\ tw_data w <> []
  end.

(** The clock (in ticks) says [now]; a lease lasts for 31 days from then, in
    whole seconds. *)
Definition month_after (now : Z) : Z := Z.quot (now + 31 * 86400 * hz) hz.

Section Spec.
Variable signed : bytes -> bytes -> bytes -> bool.
Variable pv : Z.

(** A request comes with enough good passes and nothing but passes. *)
Definition paid (st : storage) (now : Z) (passes : list bytes) (q : request) : Prop :=
  (forall s, In s passes -> well_formed s) /\
  exists p, price pv st now q p /\ p <= Z.of_nat (length (filter (verifies signed q) passes)).

(** In the history [es] there is a paid request that gives this lease. *)
Definition lease_bought iv mv (es : list event) (si : bytes) (n : Z) (l : lease) : Prop :=
  exists es1 now room passes q es2 os1 sv1,
    es = es1 ++ ERequest now room passes q :: es2 /\
    server_run signed pv iv mv empty_server es1 = (os1, sv1) /\
    index_of q = si /\ asks_for (sv_storage sv1) q n /\
    l_renew l = renew_secret q /\ l_expiration l = month_after now /\
    paid (sv_storage sv1) now passes q.

(** In the history [es] there is a paid request to store this many bytes. *)
Definition space_bought iv mv (es : list event) (si : bytes) (n sz : Z) : Prop :=
  exists es1 now room passes renew cancel nums es2 os1 sv1,
    es = es1 ++ ERequest now room passes (Allocate si renew cancel nums sz) :: es2 /\
    server_run signed pv iv mv empty_server es1 = (os1, sv1) /\
    In n nums /\ paid (sv_storage sv1) now passes (Allocate si renew cancel nums sz).
End Spec.

(** The share has a lease under this secret until then or later. *)
Definition leased (renew : bytes) (until : Z) (s : share) : Prop :=
  exists l, In l (s_leases s) /\ l_renew l = renew /\ until <= l_expiration l.
