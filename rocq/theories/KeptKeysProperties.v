(** C143 for a node that goes on with the wallet of a lost one. *)
From Verif Require Import Prelude StoreModel StoreSpec StoreProofs ReplicaModel ReplicaSpec ReplicaStore ReplicaProperties RestSpec RestProperties RetrySpec
  ControllerModel ControllerSpec ControllerProofs ControllerRunProofs ControllerProperties LossModel LossSpec LossProofs LossProperties
  PurseSpec PurseProperties WorthProofs WorthProperties OutliveProperties KeysSpec KeysProperties.
Set Implicit Arguments.

Lemma issued_cut es eb t pk : cut es eb -> issued eb t pk -> issued es t pk.
Proof.
  intros (es1 & es2 & -> & [->|(te & te' & rest & -> & Sh & ->)]) I; [now apply issued_app_l|].
  apply issued_app in I as [I|I]; [now apply issued_app_l|]. apply issued_app_r. now apply (@issued_shorter te te' rest).
Qed.
Lemma restart_stored a b s t : restart a = restart b -> (stored a s t <-> stored b s t).
Proof. intros E. apply stored_same; [now apply (f_equal unblinded) in E|now apply (f_equal StoreModel.groups) in E]. Qed.
Lemma restart_invalid a b : restart a = restart b -> invalid a = invalid b.
Proof. intros E. now apply (f_equal invalid) in E. Qed.
Lemma restart_step groups n allowed c c' te : restart (c_db c) = restart (c_db c') -> starts (fst (fst te)) ->
  snd (controller_step groups n allowed c te) = snd (controller_step groups n allowed c' te).
Proof.
  intros E S. pose proof (@restart_runs groups n allowed c c' [te] E S ltac:(discriminate)) as R. cbn [controller_run] in R.
  destruct (controller_step groups n allowed c te), (controller_step groups n allowed c' te). cbn [snd]. congruence.
Qed.

Section Lost.
Variable text_size : mut -> Z.
Variable stream_size : list (change mut) -> Z.
Hypothesis fit : sizes_fit text_size stream_size.
(** A history that begins with the start of the process, with any settings. *)
Definition begun (h : list (settings * timed)) : Prop := exists k te rest, h = (k, te) :: rest /\ starts (fst (fst te)).

(** Let a node be lost while replication is at rest, and another one go on with its
    wallet and any settings.  What it holds may be spent exactly if it was signed with
    a key that was allowed on the node that received it; what was recovered stays as it
    is until a server takes or refuses it. *)
Theorem C143_on_a_recovered_node :
  forall groups dflt allowed es ws n r, node_life text_size stream_size groups dflt allowed es ws ->
  wall_along text_size stream_size wharmless empty_wallet ws ->
  wrun text_size stream_size empty_wallet ws = (n, r) -> n_work n = Idle ->
  exists a, recover sexec r = Ok a /\
  forall h t s, proper_life h -> begun h ->
  (stored (c_db (living groups (recovered_node a) h)) s t ->
     (exists pk, issued es t pk /\ (s = true <-> In pk allowed)) \/
     (exists pk now_allowed, received groups (recovered_node a) h t pk now_allowed /\ (s = true <-> In pk now_allowed))) /\
  (stored a s t -> ~ In t (map fst (invalid a)) -> ~ taken h t -> stored (c_db (living groups (recovered_node a) h)) s t).
Proof.
  intros groups dflt allowed es ws n r L H E Wk. destruct (lost_and_recovered fit L H E Wk) as (a & eb & Rc & C & Pb & Ra & _). exists a. split; [exact Rc|].
  intros h t s P (k & te & rest & -> & St). set (c := snd (controller_run groups dflt allowed new_node eb)) in *.
  assert (Lv : lived groups dflt allowed eb (fst (controller_run groups dflt allowed new_node eb)) c) by (split; [exact Pb|apply surjective_pairing]).
  assert (W : wf (c_db c)) by exact (i_wf (lived_inv Lv)).
  assert (Eq : forall h1, living groups (recovered_node a) ((k, te) :: h1) = living groups c ((k, te) :: h1)).
  { intros h1. cbn [living]. now rewrite (@restart_step groups (fst k) (snd k) (recovered_node a) c te (eq_sym Ra) St). }
  rewrite Eq. split.
  - intros X. destruct (@living_from groups _ t s c W P X) as [Y|(pk & al & (h1 & m & te' & h2 & toks & Eh & B & Ht) & K)].
    + left. apply (C140_the_purse Lv) in Y. destruct (C140_from_the_issuer _ _ _ _ _ _ Y) as (pk & I & K). exists pk. split; [exact (issued_cut C I)|exact K].
    + right. exists pk, al. split; [|exact K]. exists h1, m, te', h2, toks. split; [exact Eh|]. split; [|exact Ht].
      destruct h1 as [|x h1]; [|cbn [app] in Eh; injection Eh as <- _; now rewrite Eq].
      cbn [app] in Eh. injection Eh as _ <- _. destruct B as (i & f & now & gen & _ & [-> | ->]); contradiction.
  - intros X V N. apply living_keeps; [exact W|exact P|exact N|now rewrite (@restart_invalid _ _ Ra)|now apply (@restart_stored _ _ s t Ra)].
Qed.
End Lost.
Print Assumptions C143_on_a_recovered_node.

(** The node of C142's example submits another voucher, which carries its tokens to the
    replica, and is lost.  The recovered node allows no key: the tokens it found may
    still be spent, those of the other voucher are set aside. *)
Definition kk_te : timed := (ESubmit 8 (Some 2), 1002, ky_tokens 500).
Definition kk_es : list timed := wy_es ++ [kk_te].
Definition kk_ws : list wevent :=
  (oy_ws 3 ++ wallet_events 1 5 [55] (snd (controller_run 1 5 [55] new_node wy_es)) kk_te [] false) ++ dones 2.
Notation kk_wallet := (wrun size10 size100 empty_wallet kk_ws).
Definition kk_backup : db := match recover sexec (snd kk_wallet) with Ok a => a | Err _ => c_db new_node end.
Definition kk_h : list (settings * timed) := [((5, []), (EStart, 2000, ky_tokens 600)); ((5, []), (EAnswer 0 (ASuccess [13; 14] 55), 2001, ky_tokens 700))].
Notation kk_end := (c_db (living 1 (recovered_node kk_backup) kk_h)).
Example C143_example_recovered_hypotheses :
  sizes_fit size10 size100 /\ node_life size10 size100 1 5 [55] kk_es kk_ws /\
  wall_along size10 size100 wharmless empty_wallet kk_ws /\ n_work (fst kk_wallet) = Idle /\
  recover sexec (snd kk_wallet) = Ok kk_backup /\ proper_life kk_h /\ begun kk_h /\
  stored kk_backup true 11 /\ invalid kk_backup = [] /\ ~ taken kk_h 11.
Proof.
  split; [exact RestProperties.sizes|]. split.
  { apply life_more; [|apply dones_replicate]. apply life_redemption; [exact oy_life|exact (ky_enough 500)|constructor|]. left. vm_compute. reflexivity. }
  split; [harmless_tac|]. split; [vm_compute; reflexivity|]. split; [vm_compute; reflexivity|].
  split; [repeat constructor; apply ky_enough|]. split; [eexists _, _, _; split; [reflexivity|exact I]|].
  split; [exists 1, 7, 55; split; vm_compute; auto|]. split; [vm_compute; reflexivity|].
  intros (k & now & gen & [(ts & Ht & J)|(r & ts & Ht & J)]); unfold kk_h in J; cbn [In] in J; intuition discriminate.
Qed.
Example C143_example_recovered : stored kk_end true 11 /\ stored kk_end true 12 /\ stored kk_end false 13 /\ stored kk_end false 14 /\
  fst (StoreModel.step kk_end OCount) = Ok (RNum 2).
Proof.
  split; [|split; [|split; [|split]]].
  - exists 1, 7, 55; split; vm_compute; auto.
  - exists 1, 7, 55; split; vm_compute; auto.
  - exists 2, 8, 55; split; vm_compute; auto.
  - exists 2, 8, 55; split; vm_compute; auto.
  - vm_compute; reflexivity.
Qed.
