(** Shared vocabulary: results with exceptions as values, and Python
    dictionaries as insertion-ordered association lists.  Nothing here models
    a particular function of /repo; it fixes how Python values are read. *)
From Coq Require Export List ZArith Lia Bool Permutation.
From Coq Require Export ZifyBool.
Export ListNotations.
Open Scope Z_scope.
Set Implicit Arguments.

(** A Python call either returns a value or raises. *)
Inductive res (E A : Type) : Type :=
| Ok (a : A)
| Err (e : E).
Arguments Ok {E A} a.
Arguments Err {E A} e.

Definition bind {E A B} (r : res E A) (f : A -> res E B) : res E B :=
  match r with Ok a => f a | Err e => Err e end.
Notation "x <- r ;; k" := (bind r (fun x => k))
  (at level 61, r at next level, right associativity).

(** [dict] with integer keys, in insertion order. *)
Definition dict (V : Type) := list (Z * V).

(** [d.get(k)] *)
Fixpoint dget {V} (k : Z) (d : dict V) : option V :=
  match d with
  | [] => None
  | (k', v) :: d' => if k =? k' then Some v else dget k d'
  end.

(** [d.get(k, default)] *)
Definition dget_or {V} (dflt : V) (k : Z) (d : dict V) : V :=
  match dget k d with Some v => v | None => dflt end.

(** [d[k] = v]: an existing key keeps its position. *)
Fixpoint dset {V} (k : Z) (v : V) (d : dict V) : dict V :=
  match d with
  | [] => [(k, v)]
  | (k', v') :: d' => if k =? k' then (k', v) :: d' else (k', v') :: dset k v d'
  end.

(** [d.keys()], [d.values()] *)
Definition dkeys {V} (d : dict V) : list Z := map fst d.
Definition dvalues {V} (d : dict V) : list V := map snd d.

(** [dict(pairs)]: a later pair for the same key wins. *)
Definition dict_of {V} (l : list (Z * V)) : dict V :=
  fold_left (fun d kv => dset (fst kv) (snd kv) d) l [].

(** A dict has each key once. *)
Definition dict_wf {V} (d : dict V) : Prop := NoDup (dkeys d).

Fixpoint sumZ (l : list Z) : Z :=
  match l with [] => 0 | x :: l' => x + sumZ l' end.

(** [k in s] for a list of integers. *)
Definition memZ (k : Z) (l : list Z) : bool := existsb (Z.eqb k) l.
