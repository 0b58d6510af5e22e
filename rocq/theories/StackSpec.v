(** Specification vocabulary for the stack limit (C120). *)
From Verif Require Import Prelude StackModel.

Definition at_most (a b : option Z) : bool :=
  match a, b with _, None => true | None, Some _ => false | Some x, Some y => x <=? y end.
(** The soft limit is within the hard limit. *)
Definition possible (l : limits) : Prop := at_most (fst l) (snd l) = true.

(** Where [setrlimit] raises the soft limit to the hard limit it also lowers it again. *)
Definition goes_back (accepts : limits -> limits -> bool) : Prop :=
  forall soft hard, possible (soft, hard) -> accepts (soft, hard) (hard, hard) = true -> accepts (hard, hard) (soft, hard) = true.

(** POSIX for a process without privileges: the soft limit up to the hard limit, the hard
    limit only down. *)
Definition posix (now new : limits) : bool := at_most (fst new) (snd new) && at_most (snd new) (snd now).
