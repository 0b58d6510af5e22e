(** Property theorem C127: a run of lease maintenance that ends well has kept everything. *)
From Verif Require Import Prelude PreludeFacts BytesModel BytesProofs PassModel PricingModel PricingSpec PricingProofs
  ContainerModel TahoeModel ServerModel ServerSpec ServerProofs ServerProperties
  StoreModel StoreSpec StoreProofs SpendModel SpendSpec SpendProofs SpendProperties ClientModel ClientProofs ClientProperties EnoughSpec
  LeaseModel LeaseSpec LeaseProofs LeaseProperties BoughtSpec UpkeepModel UpkeepSpec UpkeepProofs UpkeepProperties KeptProofs.
From Coq Require Strings.String.
Import Coq.Strings.String.StringSyntax.

(** Whatever tokens the wallet has, whatever room the servers have and whatever is under the root: if a
    run reports no error then every share of everything that can be reached from the root was there at its end
    if it was there at its start, with what was in it and a lease for the time that is to be kept (but a lease that is bought is never longer
    than 31 days). *)
Theorem C127_success_means_everything_is_leased :
  forall signed pv iv mv mut preimage sign room scan later servers frh brh fch bch seed order graph fuel remaining rs cs root w w' t,
  sound_passes preimage sign -> fair_scan scan -> 0 < pv ->
  (forall now, now <= later now) -> 0 < w_clock w -> 0 <= remaining -> (forall l, Permutation (order l) l) ->
  NoDup servers -> (forall id, In id servers -> reachable_server signed pv iv mv mut (w_servers w id)) -> fresh_reachable (w_db w) ->
  upkeep signed pv mv preimage sign room scan later servers frh brh fch bch seed order graph fuel remaining rs cs (Some root) w = Some (Ok tt, w', t) ->
  forall node id n s, reachable graph [root] node -> In id servers ->
  exists si, n_index (graph node) = Some si /\
    (In (n, s) (dirs (sv_storage (w_servers w id)) si) ->
     exists s', In (n, s') (dirs (sv_storage (w_servers w' id)) si) /\ s_data s' = s_data s /\ lasts (w_clock w + Z.min remaining nearly_a_month) s').
Proof.
  intros signed pv iv mv mut preimage sign room scan later servers frh brh fch bch seed order graph fuel remaining rs cs root w w' t
    Hs Hc Hv Hl Hn Hrem P Ns R F H node id n s Rn Ji.
  unfold upkeep, maintain_leases in H. destruct (iter_storage_indexes order graph fuel [root]) as [visited|] eqn:V; [|discriminate].
  injection H as H.
  assert (T0 : 0 <= w_time w).
  { unfold w_clock in Hn. destruct (Z.lt_ge_cases (w_time w) 0) as [C|C]; [|exact C]. exfalso.
    assert (w_time w * 1000000 / hz < 0) by (apply Z.div_lt_upper_bound; [reflexivity|nia]). lia. }
  destruct (@run_ok signed pv iv mv preimage sign scan mut Hs Hc Hv room later frh brh fch bch seed rs cs remaining servers Hl Hrem
              servers visited w w' t Hn Ns (fun i J => J)) as (osis & -> & X).
  - split; assumption.
  - intros osis ->. exact (proj1 (@C55_visits_exactly_what_is_reachable _ _ _ _ _ P V)).
  - exact H.
  - destruct X as (sis & -> & L); [intros ->; destruct Ji|].
    destruct (@C55_visits_exactly_what_is_reachable _ _ _ _ _ P V) as [_ Ho].
    assert (K : In (n_index (graph node)) (map Some sis)) by (apply Ho; eauto).
    apply in_map_iff in K as (si & E & K). exists si. split; [now rewrite E|]. intros Y. destruct (L id si Ji K n s Y) as (s' & Y' & Ls).
    exists s'. split; [exact Y'|]. split; [|exact Ls].
    destruct (@run_any signed pv iv mv preimage sign room scan later mut frh brh fch bch seed rs cs remaining Hs Hc Hv servers _ w _ _ _ R F H)
      as (m & _ & _ & _ & Sh & _ & _).
    refine (@same_contents _ _ si n s s' _ (Sh id si) Y Y'). eapply reachable_wf, R, Ji.
Qed.
Print Assumptions C127_success_means_everything_is_leased.

(** ** Example *)

(** The second server got the same shares 15 days later than the first, and has no room for another
    lease.  Leases are to be kept for 14 days: those of the first server last 11 more, those of the second 26. *)
Definition kx_room (id n : Z) : bool := negb (id =? 8).
Definition kx_history : list event :=
  [ERequest (vx_now + 15 * 86400 * hz) vx_room (map vx_pass [x61; x62; x63; x64])
     (vx_writev [(0, [(0, repeat x61 25)]); (1, [(0, repeat x62 7)])]);
   ERequest (vx_now + 15 * 86400 * hz) vx_room (vx_bad x30 :: map vx_pass [x65; x66; x67; x68; x69; x6a]) vx_alloc;
   EClose vx_bucket 5 (repeat x7a 25)].
Definition kx_server : server := snd (server_run vx_signed 10 2 2 empty_server kx_history).
Definition kx_world : world := World (fun id => if id =? 8 then kx_server else vx_server) ux_db ux_now None.
Definition kx_upkeep (remaining : Z) := upkeep vx_signed 10 2 lx_preimage ux_sign kx_room sx_scan ux_later [3; 8] ux_join ux_join ux_join ux_join
  (fun id => [zb id]) (@rev _) ux_graph 10 remaining (ascii "r") (ascii "c") (Some 0) kx_world.
Example C127_example_hypotheses :
  sound_passes lx_preimage ux_sign /\ fair_scan sx_scan /\ (forall now, now <= ux_later now) /\ 0 < w_clock kx_world /\
  NoDup [3; 8] /\ (forall id, In id [3; 8] -> reachable_server vx_signed 10 2 2 vx_mut (w_servers kx_world id)) /\
  fresh_reachable (w_db kx_world) /\ reachable ux_graph [0] 1.
Proof.
  destruct C124_example_hypotheses as (A & B & C & _ & _ & _ & _ & _ & Re & _ & F & _).
  split; [exact A|]. split; [exact B|]. split; [exact C|]. split; [vm_compute; reflexivity|].
  split; [repeat constructor; cbn; intuition discriminate|]. split; [|split; [exact F|exact ux_reach1]].
  intros id [<-|[<-|[]]]; [exact Re|]. cbn [kx_world w_servers]. change (8 =? 8) with true.
  split; [auto|]. split; [auto|]. exists kx_history, (fst (server_run vx_signed 10 2 2 empty_server kx_history)).
  split; [|split].
  - repeat constructor; cbn; intuition (try discriminate; try lia).
  - repeat constructor; cbn; intuition (try discriminate; try lia).
  - unfold kx_server. destruct (server_run vx_signed 10 2 2 empty_server kx_history). reflexivity.
Qed.
Example C127_example : exists w' t, kx_upkeep (14 * day) = Some (Ok tt, w', t) /\
  map (fun ns => map l_expiration (s_leases (snd ns))) (dirs (sv_storage (w_servers w' 3)) vx_bucket) = [[1000000 + 31 * 86400; 1000000 + 51 * 86400]] /\
  map (fun ns => map l_expiration (s_leases (snd ns))) (dirs (sv_storage (w_servers w' 8)) vx_bucket) = [[1000000 + 46 * 86400]].
Proof. do 2 eexists. split; [vm_compute; reflexivity|]. vm_compute. auto. Qed.
(** To keep leases for 28 days needs one on the second server, and the run does not end well. *)
Example C127_example_fails : exists w' t, kx_upkeep (28 * day) = Some (Err RemoteError, w', t).
Proof. do 2 eexists. vm_compute. reflexivity. Qed.
