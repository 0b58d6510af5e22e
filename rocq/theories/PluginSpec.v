(** What users of the plugin rely on. *)
From Verif Require Import Prelude PluginModel.

(** A store is in use. *)
Definition in_use (p : plugin) (i : nat) : Prop := p_maintenance p = Some i \/ In i (p_users p).

(** Somebody has used some store at any time since the first one was opened. *)
Fixpoint always_used (p : plugin) (es : list event) : Prop :=
  (p_opened p = 0%nat \/ exists i, in_use p i) /\
  match es with [] => True | e :: rest => always_used (step p e) rest end.
