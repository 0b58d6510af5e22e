(** The spending histogram a storage server exposes.  The observations are those of
    [ServerModel] ([sv_metric]). *)
From Verif Require Import Prelude.

(** An upper bound of a bucket; [None] is infinity. *)
Definition bound := option Z.
Definition within (x : Z) (b : bound) : bool := match b with Some z => x <=? z | None => true end.

(** _storage_server.py:279-297 [_get_spending_histogram_buckets] *)
Definition spending_buckets : list bound := map (fun n => Some (2 ^ Z.of_nat n)) (seq 0 11) ++ [None].

(** prometheus_client's Histogram (not in /repo): each bucket with the number of observations
    that went into it, the sum of all observations.  An observation goes into the first bucket
    whose bound it does not exceed. *)
Record histogram := Histogram { h_buckets : list (bound * Z); h_sum : Z }.
Definition new_histogram (bs : list bound) : histogram := Histogram (map (fun b => (b, 0)) bs) 0.
Fixpoint count_in (x : Z) (bs : list (bound * Z)) : list (bound * Z) :=
  match bs with
  | [] => []
  | (b, n) :: rest => if within x b then (b, n + 1) :: rest else (b, n) :: count_in x rest
  end.
Definition observe (h : histogram) (x : Z) : histogram := Histogram (count_in x (h_buckets h)) (h_sum h + x).

(** What is written to the file: for each bound the number of observations up to it; the
    number of all observations is that of the last bucket. *)
Fixpoint cumulate (acc : Z) (bs : list (bound * Z)) : list (bound * Z) :=
  match bs with [] => [] | (b, n) :: rest => (b, acc + n) :: cumulate (acc + n) rest end.
Record exposition := Exposition { x_buckets : list (bound * Z); x_count : Z; x_sum : Z }.
Definition expose (h : histogram) : exposition :=
  let bs := cumulate 0 (h_buckets h) in
  Exposition bs (last (map snd bs) 0) (h_sum h).

(** _storage_server.py:299-306 [_make_histogram], then 399, 467, 620 *)
Definition spending_metric (observations : list Z) : exposition :=
  expose (fold_left observe observations (new_histogram spending_buckets)).
