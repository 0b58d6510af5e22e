(** Specification vocabulary for the pricing properties (C01-C06).
    It does not mention the model's functions, only the data types. *)
From Verif Require Import Prelude PricingModel.

(** [n] passes worth [v] bytes each are the fewest that cover [s] bytes. *)
Definition least_cover (v s n : Z) : Prop :=
  s <= n * v /\ forall m, s <= m * v -> n <= m.

(** A whole collection: each share is covered separately. *)
Inductive exact_price (v : Z) : list Z -> Z -> Prop :=
| exact_price_nil : exact_price v [] 0
| exact_price_cons s n rest m :
    least_cover v s n -> exact_price v rest m -> exact_price v (s :: rest) (n + m).

(** Every share of the first list is at most its counterpart, and the second
    list may have more shares. *)
Inductive grows : list Z -> list Z -> Prop :=
| grows_nil l : (forall x, In x l -> 0 <= x) -> grows [] l
| grows_cons a b la lb : a <= b -> grows la lb -> grows (a :: la) (b :: lb).

(** Ceiling division in closed form. *)
Definition cdiv (s v : Z) : Z := - ((- s) / v).

(** [e] is the end of the furthest write of a data vector (0 if none). *)
Definition write_end (dv : data_vector) (e : Z) : Prop :=
  (dv = [] /\ e = 0) \/
  ((exists o d, In (o, d) dv /\ e = o + Z.of_nat (length d)) /\
   forall o d, In (o, d) dv -> o + Z.of_nat (length d) <= e).

(** What a write makes of a share size: [None] for an unwritten share. *)
Definition size_after (before : Z) (w : option tw_vector) (after : Z) : Prop :=
  match w with
  | None => after = before
  | Some w =>
      exists e, write_end (tw_data w) e /\
        after = Z.max before (match tw_new_length w with None => e | Some n => Z.min n e end)
  end.

(** The sizes of all shares of a slot, 0 for absent ones. *)
Definition slot_sizes := Z -> Z.
Definition represents (d : dict Z) (f : slot_sizes) : Prop :=
  dict_wf d /\ forall k, dget_or 0 k d = f k.

(** Total price of the shares with numbers in [ks]. *)
Definition total_price (v : Z) (ks : list Z) (f : slot_sizes) : Z :=
  sumZ (map (fun k => cdiv (f k) v) ks).

(** The slot goes from [f] to [g] by the write [tw]. *)
Definition written (f : slot_sizes) (tw : tw_vectors) (g : slot_sizes) : Prop :=
  forall k, size_after (f k) (dget k tw) (g k).

(** A history of writes to one slot and the total charged for it, when each
    write is charged according to [price] (applied to any dictionary that
    represents the sizes at that moment). *)
Inductive charged (price : dict Z -> tw_vectors -> Z -> Prop)
  : slot_sizes -> list tw_vectors -> slot_sizes -> Z -> Prop :=
| charged_nil f : charged price f [] f 0
| charged_cons f cur tw g h tws n m :
    represents cur f -> dict_wf tw -> written f tw g ->
    price cur tw n ->
    charged price g tws h m -> charged price f (tw :: tws) h (n + m).
