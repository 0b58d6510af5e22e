(** What the spending metric should say. *)
From Verif Require Import Prelude BytesModel PassModel PricingSpec TahoeModel ServerModel ServerSpec MetricModel.

(** How many of some values do not exceed a bound *)
Definition upto (b : bound) (xs : list Z) : Z :=
  Z.of_nat (length (filter (fun x => match b with Some z => x <=? z | None => true end) xs)).

Definition accepted (o : option (res server_error reply)) : bool :=
  match o with Some (Ok _) => true | _ => false end.
Definition is_mutable_write (e : event) : bool :=
  match e with ERequest _ _ _ (Writev _ _ _ _ _ _) => true | _ => false end.

(** The number observed for an accepted request: the price of the created buckets; the number
    of verified passes; the price of the write. *)
Definition observation (signed : bytes -> bytes -> bytes -> bool) (pv : Z) (sv : server) (now : Z) (passes : list bytes)
    (q : request) (x : reply) (k : Z) : Prop :=
  match q with
  | Allocate _ _ _ _ sz => exists a b, x = Allocated a b /\ exact_price pv (repeat sz (length b)) k
  | AddLease _ _ _ => k = Z.of_nat (length (verified signed q passes))
  | Writev _ _ _ _ _ _ => price pv (sv_storage sv) now q k
  end.
