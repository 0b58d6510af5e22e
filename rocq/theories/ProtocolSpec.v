(** What callers of the remote interface rely on. *)
From Verif Require Import Prelude BytesModel ProtocolModel.
Set Implicit Arguments.

(** A schema as Foolscap makes it from an interface: different names, and the arguments that
    are not optional are required. *)
Definition schema_ok V (s : schema V) : Prop :=
  NoDup (argumentNames s) /\
  forall n, In n (required s) <-> exists c, In (n, c) (argConstraints s) /\ c_optional c = false.

(** No name occurs on both sides. *)
Definition apart (ns ms : list bytes) : Prop := forall n, In n ns -> ~ In n ms.

(** A list of byte strings of 177 bytes each, not more than [2 ^ 20] *)
Definition fits (passes : list bytes) : Prop :=
  (forall p, In p passes -> length p = 177%nat) /\ (Z.of_nat (length passes) <= 1048576).
