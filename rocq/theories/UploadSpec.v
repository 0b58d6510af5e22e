(** Vocabulary for C130: uploads at the quoted price. *)
From Verif Require Import Prelude BytesModel PassModel PricingModel PricingSpec ContainerModel TahoeModel ServerModel ServerSpec
  StoreModel StoreSpec SpendSpec BoughtSpec UploadModel UpkeepModel.
Set Implicit Arguments.

(** The file has [total] shares, placed somewhere, none of them twice with one call. *)
Definition placed (total : Z) (f : file) : Prop :=
  Z.of_nat (length (concat (map snd (f_places f)))) = total /\
  forall id nums, In (id, nums) (f_places f) -> NoDup nums.
(** No share of the file goes to a server twice. *)
Definition placed_once (f : file) : Prop :=
  NoDup (flat_map (fun p => map (pair (fst p)) (snd p)) (f_places f)).
(** The call that places share [n] of [f] on the server. *)
Definition goes_to (f : file) (id n : Z) : Prop := exists nums, In (id, nums) (f_places f) /\ In n nums.

(** What a share that has been uploaded looks like: it has one lease (whose expiration, a number of 32 bits, is in
    range). *)
Definition uploaded (content : bytes -> Z -> bytes) (since : Z) (f : file) (n : Z) (s : share) : Prop :=
  s_data s = content (f_si f) n /\
  exists l, s_leases s = [l] /\ l_renew l = f_renew f /\ l_cancel l = f_cancel f /\ month_after since <= l_expiration l < 2 ^ 32.

(** The share on this server. *)
Definition has_share (w : world) (id : Z) (si : bytes) (n : Z) (s : share) : Prop :=
  In (n, s) (dirs (sv_storage (w_servers w id)) si).

(** The tokens of the one wallet that are spent in the other. *)
Definition spends (d d' : db) (ts : list Z) : Prop :=
  NoDup ts /\ forall t, In t ts <-> In t (map u_token (unblinded d)) /\ is_spent d' t.
