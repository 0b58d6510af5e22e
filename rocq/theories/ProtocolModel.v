(** The remote interface of the storage server: foolscap.py.  What it takes from Foolscap
    (method schemas) is written from that library's behaviour, see below. *)
From Verif Require Import Prelude BytesModel PricingModel.
Set Implicit Arguments.

Section Protocol.
(** The values that can be sent; lists of byte strings are among them. *)
Variable V : Type.
Variable as_list : V -> option (list V).
Variable as_bytes : V -> option bytes.

(** A constraint is what it accepts; constraints on arguments that may be left out are marked. *)
Record constraint := Constraint { c_optional : bool; c_accepts : V -> bool }.
Definition names := list bytes.
Definition ndict (A : Type) := list (bytes * A).
Fixpoint nget {A} (k : bytes) (d : ndict A) : option A :=
  match d with [] => None | (k', a) :: rest => if bytes_eqb k k' then Some a else nget k rest end.
(** dict.__setitem__ *)
Fixpoint nset {A} (k : bytes) (a : A) (d : ndict A) : ndict A :=
  match d with [] => [(k, a)] | (k', a') :: rest => if bytes_eqb k k' then (k, a) :: rest else (k', a') :: nset k a rest end.

(** Foolscap's [RemoteMethodSchema]: the order of positional arguments, constraints by name,
    the names that must be given, what answers are accepted ([None]: any). *)
Record schema := Schema {
  argumentNames : names;
  argConstraints : ndict constraint;
  required : names;
  responseConstraint : option (V -> bool)
}.
(** Foolscap's [RemoteMethodSchema( **kwargs)] *)
Definition make_schema (kwargs : ndict constraint) : schema :=
  Schema (map fst kwargs) kwargs (map fst (filter (fun kc => negb (c_optional (snd kc))) kwargs)) None.

(** Foolscap's [checkAllArgs]: all arguments by name, or [None] for a violation. *)
Fixpoint positional (ns : names) (args : list V) (all : ndict V) : option (ndict V) :=
  match ns, args with
  | _, [] => Some all
  | [], _ :: _ => None
  | n :: ns', a :: args' => positional ns' args' (nset n a all)
  end.
Fixpoint keywords (kw : ndict V) (all : ndict V) : option (ndict V) :=
  match kw with
  | [] => Some all
  | (n, a) :: rest => match nget n all with Some _ => None | None => keywords rest (nset n a all) end
  end.
Definition acceptable (s : schema) (na : bytes * V) : bool :=
  match nget (fst na) (argConstraints s) with Some c => c_accepts c (snd na) | None => false end.
Definition given (all : ndict V) (n : bytes) : bool := match nget n all with Some _ => true | None => false end.
Definition check_all_args (s : schema) (args : list V) (kw : ndict V) : option (ndict V) :=
  match positional (argumentNames s) args [] with
  | None => None
  | Some all1 =>
  match keywords kw all1 with
  | None => None
  | Some all => if forallb (acceptable s) all && forallb (given all) (required s) then Some all else None
  end end.
(** Foolscap's [checkResults] *)
Definition check_results (s : schema) (v : V) : bool :=
  match responseConstraint s with Some c => c v | None => true end.

(** foolscap.py:104-132 [add_arguments] *)
Definition add_arguments (s : schema) (kwargs : ndict constraint) : schema :=
  let new_kwargs := fold_left (fun d kc => nset (fst kc) (snd kc) d) kwargs (argConstraints s) in
  let modified := make_schema new_kwargs in
  Schema (map fst kwargs ++ argumentNames s) (argConstraints modified) (required modified) (responseConstraint modified).

(** foolscap.py:78, 83 *)
Definition MAXIMUM_PASSES_PER_CALL : Z := 2 ^ 20.
Definition PASS_LENGTH : Z := 177.
(** foolscap.py:88-89 [_Pass], [_PassList]; Foolscap's [ByteStringConstraint] and [ListOf] *)
Definition pass_constraint (v : V) : bool :=
  match as_bytes v with Some b => (lenZ b <=? PASS_LENGTH) && (PASS_LENGTH <=? lenZ b) | None => false end.
Definition pass_list_constraint (v : V) : bool :=
  match as_list v with
  | Some l => (lenZ l <=? MAXIMUM_PASSES_PER_CALL) && forallb pass_constraint l
  | None => false
  end.

(** foolscap.py:92-101 [add_passes]; the name is the text [passes] *)
Definition PASSES : bytes := [x70; x61; x73; x73; x65; x73].
Definition add_passes (s : schema) : schema := add_arguments s [(PASSES, Constraint false pass_list_constraint)].
End Protocol.
