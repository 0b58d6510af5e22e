(** C100: a node has one connection to its database and at most one replication service. *)
From Verif Require Import Prelude PluginModel PluginSpec PluginProofs.

(** Whatever is attached, requested, dropped and set up in whatever order: everybody uses the
    same store at any one time, *)
Theorem C100_users_share_store : forall setup es i j,
  in_use (run (new_plugin setup) es) i -> in_use (run (new_plugin setup) es) j -> i = j.
Proof.
  intros setup es i j I J. destruct (sound_run es _ (sound_new setup)) as (H & _).
  apply H in I, J. congruence.
Qed.
Print Assumptions C100_users_share_store.

(** no connection has two replication services, the store in use has one if replication is set
    up, and there is none at all otherwise. *)
Theorem C100_one_service_per_connection : forall setup es,
  let p := run (new_plugin setup) es in
  NoDup (p_services p) /\
  (forall i, in_use p i -> (In i (p_services p) <-> p_setup p = true)) /\
  (p_setup p = false -> p_services p = []).
Proof.
  intros setup es p. destruct (sound_run es _ (sound_new setup)) as (_ & _ & H3 & _ & H5 & H6). fold p in H3, H5, H6.
  split; [exact H3|]. split; [|exact H5]. intros i U. split; [|intros S; apply H6; auto].
  intros I. destruct (p_setup p) eqn:S; [reflexivity|]. rewrite H5 in I by reflexivity. destruct I.
Qed.
Print Assumptions C100_one_service_per_connection.

(** If the store is never without users there is one connection and at most one service. *)
Theorem C100_one_connection_partial : forall setup es, always_used (new_plugin setup) es ->
  let p := run (new_plugin setup) es in
  (p_opened p <= 1)%nat /\ (length (p_services p) <= 1)%nat.
Proof.
  intros setup es A p.
  assert (L : (p_opened p <= 1)%nat) by (apply opened_run; [apply sound_new|cbn; lia|exact A]).
  split; [exact L|]. destruct (sound_run es _ (sound_new setup)) as (_ & _ & H3 & H4 & _). fold p in H3, H4.
  assert (H : incl (p_services p) [0%nat]).
  { intros i I. apply H4 in I. left. lia. }
  apply NoDup_incl_length in H; [exact H|exact H3].
Qed.
Print Assumptions C100_one_connection_partial.

(** That is so on a client node whose maintenance service is attached first: then there is one
    connection, and one service exactly if replication is set up. *)
Theorem C100_one_connection_client_node : forall setup es,
  let p := run (new_plugin setup) (InitStorage true true :: es) in
  p_opened p = 1%nat /\ p_services p = (if p_setup p then [0%nat] else []).
Proof.
  intros setup es p.
  assert (A : always_used (new_plugin setup) (InitStorage true true :: es)).
  { split; [left; reflexivity|]. apply (maintained_used es) with (i := 0%nat). destruct setup; reflexivity. }
  destruct (C100_one_connection_partial setup _ A) as [L1 L2]. fold p in L1, L2.
  destruct (sound_run (InitStorage true true :: es) _ (sound_new setup)) as (H1 & H2 & H3 & H4 & H5 & H6). fold p in H1, H2, H3, H4, H5, H6.
  assert (U : in_use p 0).
  { left. change p with (run (step (new_plugin setup) (InitStorage true true)) es). apply maintained_run. destruct setup; reflexivity. }
  assert (Li : (0 < p_opened p)%nat) by apply (H2 _ (H1 _ U)). split; [lia|].
  destruct (p_setup p) eqn:S; [|apply H5; reflexivity].
  specialize (H6 eq_refl _ U). destruct (p_services p) as [|x [|y l]]; cbn in H6, L2; [destruct H6| |lia].
  destruct H6 as [->|[]]. reflexivity.
Qed.
Print Assumptions C100_one_connection_client_node.

(** In general it is not: if everything that uses the store is dropped and then it is requested
    again a second connection and a second replication service join the first ones. *)
Theorem C100_one_connection_refuted : exists setup es,
  let p := run (new_plugin setup) es in
  p_opened p = 2%nat /\ p_services p = [0%nat; 1%nat].
Proof. exists true, [StorageClient; Release 0; StorageClient]. split; reflexivity. Qed.
Print Assumptions C100_one_connection_refuted.

(** A client node which is set up while it runs and goes through several clients. *)
Example client_node : run (new_plugin false) [InitStorage true true; StorageClient; ClientResource; SetUp 0; SetUp 0; Release 0; StorageClient] =
  Plugin true 1 (Some 0%nat) (Some 0%nat) [0; 0]%nat [0%nat].
Proof. reflexivity. Qed.
Example client_node_used : always_used (new_plugin false) [ClientResource; SetUp 0; StorageClient; Release 0].
Proof. cbn. repeat split; try (left; reflexivity); right; exists 0%nat; right; cbn; auto. Qed.
