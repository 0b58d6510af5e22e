(** Specification vocabulary for the server's log (C134).  Uses the types of the
    models but none of their functions. *)
From Verif Require Import Prelude BytesModel PassModel PricingModel ContainerModel TahoeModel ServerModel ServerSpec
  ServerLogModel.
Set Implicit Arguments.

(** Two lists of the same length with related elements in the same places. *)
Definition pairwise {A B} (R : A -> B -> Prop) (a : list A) (b : list B) : Prop :=
  length a = length b /\ forall i x y, nth_error a i = Some x -> nth_error b i = Some y -> R x y.

(** The same places are compared and written, with as many bytes. *)
Definition alike_test (a b : Z * Z * bytes) : Prop := fst a = fst b /\ length (snd a) = length (snd b).
Definition alike_data (a b : Z * bytes) : Prop := fst a = fst b /\ length (snd a) = length (snd b).
Definition alike_vector (a b : Z * tw_vector) : Prop :=
  fst a = fst b /\ pairwise alike_test (tw_test (snd a)) (tw_test (snd b)) /\
  pairwise alike_data (tw_data (snd a)) (tw_data (snd b)) /\ tw_new_length (snd a) = tw_new_length (snd b).

(** Requests that differ only in secrets, contents and what is read. *)
Inductive alike : request -> request -> Prop :=
| alike_allocate si r1 c1 r2 c2 sharenums size :
    alike (Allocate si r1 c1 sharenums size) (Allocate si r2 c2 sharenums size)
| alike_lease si r1 c1 r2 c2 : alike (AddLease si r1 c1) (AddLease si r2 c2)
| alike_writev si we1 r1 c1 tw1 rv1 we2 r2 c2 tw2 rv2 : pairwise alike_vector tw1 tw2 ->
    alike (Writev si we1 r1 c1 tw1 rv1) (Writev si we2 r2 c2 tw2 rv2).

(** Shares of the same numbers and sizes, the same of which have an unexpired
    lease. *)
Definition alike_share (now1 now2 : Z) (a b : Z * share) : Prop :=
  fst a = fst b /\ length (s_data (snd a)) = length (s_data (snd b)) /\
  (active now1 (snd a) <-> active now2 (snd b)).

(** A summary of a vector. *)
Definition describes (a : Z * tw_summary) (b : Z * tw_vector) : Prop :=
  fst a = fst b /\ sm_new_length (snd a) = tw_new_length (snd b) /\
  pairwise (fun (x : Z * Z * Z) (y : Z * Z * bytes) => fst x = fst y /\ snd x = Z.of_nat (length (snd y)))
           (sm_test (snd a)) (tw_test (snd b)) /\
  pairwise (fun (x : Z * Z) (y : Z * bytes) => fst x = fst y /\ snd x = Z.of_nat (length (snd y)))
           (sm_data (snd a)) (tw_data (snd b)).

(** They end well both, or with the same error. *)
Definition end_alike (r1 r2 : res server_error reply) : Prop :=
  match r1, r2 with
  | Ok _, Ok _ => True
  | Err e1, Err e2 => e1 = e2
  | _, _ => False
  end.
