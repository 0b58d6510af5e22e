(** Specification vocabulary for C126: everything a server holds. *)
From Verif Require Import Prelude BytesModel PassModel PricingModel PricingSpec ContainerModel TahoeModel ServerModel ServerSpec.
Set Implicit Arguments.

(** The sizes of all shares stored under the storage indexes [sis] and of all
    shares that are being uploaded. *)
Definition held (st : storage) (sis : list bytes) : list Z :=
  flat_map (fun si => map (fun ns => data_size (snd ns)) (dirs st si)) sis ++ map up_size (incoming st).

(** A write that the wrapped server gave up: it was paid for, it may have been
    carried out in part, but its passes were not recorded. *)
Definition abandoned_write (e : event) (o : option (res server_error reply)) : Prop :=
  match e, o with
  | ERequest _ _ _ (Writev _ _ _ _ _ _), Some (Err (FromTahoe _)) => True
  | _, _ => False
  end.
Definition no_abandoned_write (es : list event) (os : list (option (res server_error reply))) : Prop :=
  forall i e o, nth_error es i = Some e -> nth_error os i = Some o -> ~ abandoned_write e o.

(** What the abandoned writes of a history would have cost. *)
Inductive owed (signed : bytes -> bytes -> bytes -> bool) (pv iv mv : Z) : server -> list event -> Z -> Prop :=
| owed_nil sv : owed signed pv iv mv sv [] 0
| owed_other sv e es o sv1 n :
    server_step signed pv iv mv sv e = (o, sv1) -> ~ abandoned_write e o ->
    owed signed pv iv mv sv1 es n -> owed signed pv iv mv sv (e :: es) n
| owed_write sv now room passes q es o sv1 p n :
    server_step signed pv iv mv sv (ERequest now room passes q) = (o, sv1) ->
    abandoned_write (ERequest now room passes q) o -> price pv (sv_storage sv) now q p ->
    owed signed pv iv mv sv1 es n -> owed signed pv iv mv sv (ERequest now room passes q :: es) (p + n).
