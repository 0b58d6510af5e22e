(** Property theorems C124: a whole run of lease maintenance, between the wallet and the servers. *)
From Verif Require Import Prelude PreludeFacts BytesModel BytesProofs PassModel PricingModel PricingSpec PricingProofs
  ContainerModel ContainerProofs TahoeModel ServerModel ServerSpec ServerProofs ServerStateProofs ServerRequestProofs
  StoreModel StoreSpec StoreProofs SpendModel SpendSpec SpendProofs SpendProperties ClientModel ClientProofs ClientProperties EnoughSpec
  ServerProperties LeaseModel LeaseSpec LeaseProofs LeaseProperties BoughtSpec UpkeepModel UpkeepSpec UpkeepProofs.
From Coq Require Strings.String.
Import Coq.Strings.String.StringSyntax.

(** What the walk has found, if everything under the root is stored. *)
Lemma walk_indexes order graph fuel root osis sis : (forall l, Permutation (order l) l) ->
  iter_storage_indexes order graph fuel [root] = Some (Ok osis) -> all_stored graph root -> indexes_under graph root sis ->
  exists sis', osis = map Some sis' /\ NoDup sis' /\ Permutation sis' sis.
Proof.
  intros P H A [N U]. destruct (@C55_visits_exactly_what_is_reachable _ _ _ _ _ P H) as [No Ho].
  destruct (@all_Some osis) as [sis' ->].
  { intros J. apply Ho in J as (n & R & E). exact (proj2 (A n R) E). }
  exists sis'. split; [reflexivity|]. assert (N' : NoDup sis') by exact (NoDup_map_inv _ _ No). split; [exact N'|].
  apply NoDup_Permutation; [exact N'|exact N|]. intros si. rewrite U. split.
  - intros J. apply Ho. now apply in_map.
  - intros J. apply Ho in J. apply in_map_iff in J as (x & [= <-] & J). exact J.
Qed.

(** What is at a number, if nothing but leases has changed *)
Lemma same_contents sv sv' si n s s' : wf_dir (dirs (sv_storage sv) si) -> shape sv' si = shape sv si ->
  In (n, s) (dirs (sv_storage sv) si) -> In (n, s') (dirs (sv_storage sv') si) -> s_data s' = s_data s.
Proof.
  intros W E J J'. assert (K : In (n, s_data s') (shape sv' si)) by (apply in_map_iff; exists (n, s'); auto).
  rewrite E in K. apply in_map_iff in K as ([m s0] & [= -> Ed] & K). rewrite <- Ed.
  pose proof (dget_In_wf _ _ (proj1 W) J). pose proof (dget_In_wf _ _ (proj1 W) K). congruence.
Qed.

(** Everything under the root of a node is listed and stored, its servers have room, and its
    wallet has [k] good tokens that nothing else uses, [total] being the price of one more
    month for every share of it on every server.  Then the run succeeds; every share that
    was there at its start is there at its end, with what was in it and a lease for the time that is
    to be kept (but a lease that is bought is never longer than 31 days); and what is left are at
    least [k - total] good tokens. *)
Theorem C124_everything_reachable_is_leased :
  forall signed pv iv mv mut preimage sign room scan later servers frh brh fch bch seed order graph fuel remaining rs cs root
    sis w r w' t k total horizon,
  sound_passes preimage sign -> fair_scan scan -> 0 < pv ->
  (forall id n, room id n = true) ->
  (forall now, now <= later now) -> (forall now, now <= horizon -> later now <= horizon) ->
  w_time w <= horizon -> month_after horizon < 2 ^ 32 -> 0 < w_clock w -> 0 <= remaining ->
  (forall l, Permutation (order l) l) -> all_stored graph root -> indexes_under graph root sis ->
  NoDup servers -> (forall id, In id servers -> reachable_server signed pv iv mv mut (w_servers w id)) ->
  (forall id si n s, In id servers -> In si sis -> In (n, s) (dirs (sv_storage (w_servers w id)) si) -> fits 1 s) ->
  fresh_reachable (w_db w) -> fine_tokens signed preimage sign (w_db w) k ->
  exact_price pv (sizes_everywhere servers sis w) total -> total <= k -> total <= SQLITE3_INTEGER_MAX ->
  upkeep signed pv mv preimage sign room scan later servers frh brh fch bch seed order graph fuel remaining rs cs (Some root) w = Some (r, w', t) ->
  r = Ok tt /\
  (forall id si n s, In id servers -> In si sis -> In (n, s) (dirs (sv_storage (w_servers w id)) si) ->
   exists s', In (n, s') (dirs (sv_storage (w_servers w' id)) si) /\ s_data s' = s_data s /\ lasts (w_clock w + Z.min remaining nearly_a_month) s') /\
  fine_tokens signed preimage sign (w_db w') (k - total).
Proof.
  intros signed pv iv mv mut preimage sign room scan later servers frh brh fch bch seed order graph fuel remaining rs cs root
    sis w r w' t k total horizon Hs Hc Hv Hr Hl Hh Ht Hm Hn Hrem P A U Ns R Ft F Fi Pr Lk Mx H.
  unfold upkeep, maintain_leases in H. destruct (iter_storage_indexes order graph fuel [root]) as [visited|] eqn:V; [|discriminate].
  injection H as H. destruct visited as [osis|e].
  2:{ exfalso. unfold iter_storage_indexes, visit_storage_indexes in V. destruct (visit_loop graph fuel (rev [root])) as [[l|e']|] eqn:Vl; try discriminate.
      apply (@visit_loop_no_error graph fuel (rev [root])) with (e := e'); [|exact Vl]. intros n X. apply A. now apply reachable_rev. }
  destruct (@walk_indexes _ _ _ _ _ _ P V A U) as (sis' & -> & N' & Pm).
  pose proof (exact_cost Hv Pr) as ->. rewrite <- (cost_perm pv (@sizes_everywhere_perm servers _ _ w Pm)) in *.
  assert (T0 : 0 <= w_time w).
  { unfold w_clock in Hn. destruct (Z.lt_ge_cases (w_time w) 0) as [C|C]; [|exact C]. exfalso.
    assert (w_time w * 1000000 / hz < 0) by (apply Z.div_lt_upper_bound; [reflexivity|nia]). lia. }
  destruct (@run_good signed pv iv mv preimage sign room scan later mut frh brh fch bch seed rs cs remaining Hs Hc Hv servers horizon
              Hr Hl Hh Hm Hrem servers sis' w k Hn N' Ns (fun i J => J)) as (w1 & t1 & E & G & _ & _ & L).
  - split; auto.
  - intros id si J K n s. apply (Ft id si n s J). eapply Permutation_in; [exact Pm|exact K].
  - exact Lk.
  - exact Mx.
  - rewrite E in H. injection H as <- <- <-. split; [reflexivity|]. split.
    + destruct (@run_any signed pv iv mv preimage sign room scan later mut frh brh fch bch seed rs cs remaining Hs Hc Hv servers _ w _ _ _ R F E)
        as (m & _ & _ & _ & Sh & _ & _).
      intros id si n s J K X. destruct (L id si J ltac:(eapply Permutation_in; [apply Permutation_sym, Pm|exact K]) n s X) as (s' & X' & Ls).
      exists s'. split; [exact X'|]. split; [|exact Ls]. refine (@same_contents _ _ si n s s' _ (Sh id si) X X'). eapply reachable_wf, R, J.
    + exact (g_fine G).
Qed.
Print Assumptions C124_everything_reachable_is_leased.

(** Whatever tokens, room and time there are: a run leaves a row in the wallet, and of the
    tokens that could be spent at its start no more have been spent at its end than the row says.  No share
    appears, disappears or changes what is in it.  If the run succeeds its row has an end, and what it says
    is the price of one more month for everything under the root. *)
Theorem C124_no_more_is_spent_than_reported :
  forall signed pv iv mv mut preimage sign room scan later servers frh brh fch bch seed order graph fuel remaining rs cs root w r w' t,
  sound_passes preimage sign -> fair_scan scan -> 0 < pv ->
  (forall id, In id servers -> reachable_server signed pv iv mv mut (w_servers w id)) -> fresh_reachable (w_db w) ->
  upkeep signed pv mv preimage sign room scan later servers frh brh fch bch seed order graph fuel remaining rs cs (Some root) w = Some (r, w', t) ->
  exists m, new_row (w_db w) (w_db w') m /\
    (forall ts, spent_between (w_db w) (w_db w') ts -> Z.of_nat (length ts) <= m_count m) /\
    (forall id si, map (fun ns => (fst ns, s_data (snd ns))) (dirs (sv_storage (w_servers w' id)) si) =
                   map (fun ns => (fst ns, s_data (snd ns))) (dirs (sv_storage (w_servers w id)) si)) /\
    (r = Ok tt -> m_finished m <> None /\
     forall sis, (forall l, Permutation (order l) l) -> all_stored graph root -> indexes_under graph root sis ->
     exact_price pv (sizes_everywhere servers sis w) (m_count m)).
Proof.
  intros signed pv iv mv mut preimage sign room scan later servers frh brh fch bch seed order graph fuel remaining rs cs root w r w' t
    Hs Hc Hv R F H.
  unfold upkeep, maintain_leases in H. destruct (iter_storage_indexes order graph fuel [root]) as [visited|] eqn:V; [|discriminate].
  injection H as H.
  destruct (@run_any signed pv iv mv preimage sign room scan later mut frh brh fch bch seed rs cs remaining Hs Hc Hv servers visited w r w' t R F H)
    as (m & Nr & Sp & _ & Sh & _ & Ok0).
  exists m. split; [exact Nr|]. split; [exact Sp|]. split; [exact Sh|]. intros X. destruct (Ok0 X) as [Fn Ct]. split; [exact Fn|].
  intros sis P A U. destruct visited as [osis|e].
  - destruct (@walk_indexes _ _ _ _ _ _ P V A U) as (sis' & -> & _ & Pm). rewrite (Ct sis' eq_refl).
    rewrite (cost_perm pv (@sizes_everywhere_perm servers _ _ w Pm)). apply exact_price_sum, Hv.
  - exfalso. subst r. unfold renew_leases, mbind, call, mraise in H. destruct (up_start w) as [[x|e'] w1]; discriminate.
Qed.
Print Assumptions C124_no_more_is_spent_than_reported.

(** A wallet with enough tokens for as many months as there are runs keeps everything stored for as
    many runs: each of them succeeds, and leaves every share with a lease for the time that is to be
    kept from its beginning. *)
Theorem C125_enough_tokens_keep_everything :
  forall signed pv iv mv mut preimage sign room scan later servers frh brh fch bch seed order graph fuel remaining rs cs root
    sis k total horizon due w runs,
  sound_passes preimage sign -> fair_scan scan -> 0 < pv ->
  (forall id n, room id n = true) ->
  (forall now, now <= later now) -> (forall now, now <= horizon -> later now <= horizon) ->
  w_time w <= horizon -> (forall now, In now due -> now <= horizon) -> month_after horizon < 2 ^ 32 -> 0 < w_clock w -> 0 <= remaining ->
  (forall l, Permutation (order l) l) -> all_stored graph root -> indexes_under graph root sis ->
  NoDup servers -> (forall id, In id servers -> reachable_server signed pv iv mv mut (w_servers w id)) ->
  (forall id si n s, In id servers -> In si sis -> In (n, s) (dirs (sv_storage (w_servers w id)) si) -> fits (Z.of_nat (length due)) s) ->
  fresh_reachable (w_db w) -> fine_tokens signed preimage sign (w_db w) k ->
  exact_price pv (sizes_everywhere servers sis w) total -> total * Z.of_nat (length due) <= k -> total <= SQLITE3_INTEGER_MAX ->
  upkeeps signed pv mv preimage sign room scan later servers frh brh fch bch seed order graph fuel remaining rs cs (Some root) due w = Some runs ->
  length runs = length due /\
  (forall began r w', In (began, r, w') runs -> r = Ok tt /\
   forall id si n s, In id servers -> In si sis -> In (n, s) (dirs (sv_storage (w_servers w id)) si) ->
   exists s', In (n, s') (dirs (sv_storage (w_servers w' id)) si) /\ s_data s' = s_data s /\ lasts (began + Z.min remaining nearly_a_month) s') /\
  fine_tokens signed preimage sign (w_db (last (map snd runs) w)) (k - total * Z.of_nat (length due)).
Proof.
  intros signed pv iv mv mut preimage sign room scan later servers frh brh fch bch seed order graph fuel remaining rs cs root
    sis k total horizon due w runs Hs Hc Hv Hr Hl Hh Ht Hd Hm Hn Hrem P A U Ns R Ft F Fi Pr Lk Mx H.
  revert k w runs Ht Hd Hn R Ft F Fi Pr Lk H. induction due as [|now due IH]; intros k w runs Ht Hd Hn R Ft F Fi Pr Lk H.
  - injection H as <-. split; [reflexivity|]. split; [intros began r w' []|]. cbn. now rewrite Z.mul_0_r, Z.sub_0_r.
  - cbn [upkeeps] in H. set (w0 := World (w_servers w) (w_db w) (Z.max now (w_time w)) None) in H.
    destruct (upkeep signed pv mv preimage sign room scan later servers frh brh fch bch seed order graph fuel remaining rs cs (Some root) w0)
      as [[[r w1] t]|] eqn:E; [|discriminate].
    destruct (upkeeps signed pv mv preimage sign room scan later servers frh brh fch bch seed order graph fuel remaining rs cs (Some root) due w1)
      as [more|] eqn:E2; [|discriminate]. injection H as <-.
    assert (Tn : 0 <= total) by (eapply sumZ_le_nonneg; [exact Hv|apply sizes_everywhere_nonneg|exact Pr]).
    assert (Ln : Z.of_nat (length (now :: due)) = Z.of_nat (length due) + 1) by (cbn [length]; lia). rewrite Ln in *.
    assert (C0 : w_clock w <= w_clock w0) by (unfold w_clock; cbn [w0 w_time]; apply Z.div_le_mono; [reflexivity|lia]).
    unfold upkeep, maintain_leases in E. destruct (iter_storage_indexes order graph fuel [root]) as [visited|] eqn:V; [|discriminate].
    injection E as E. destruct visited as [osis|e].
    2:{ exfalso. unfold iter_storage_indexes, visit_storage_indexes in V. destruct (visit_loop graph fuel (rev [root])) as [[l|e']|] eqn:Vl; try discriminate.
        apply (@visit_loop_no_error graph fuel (rev [root])) with (e := e'); [|exact Vl]. intros n X. apply A. now apply reachable_rev. }
    destruct (@walk_indexes _ _ _ _ _ _ P V A U) as (sis' & -> & N' & Pm).
    assert (Ec : cost pv (sizes_everywhere servers sis' w0) = total).
    { rewrite (exact_cost Hv Pr). apply cost_perm. exact (@sizes_everywhere_perm servers _ _ w Pm). }
    assert (T0 : 0 <= w_time w).
    { unfold w_clock in Hn. destruct (Z.lt_ge_cases (w_time w) 0) as [C|C]; [|exact C]. exfalso.
      assert (w_time w * 1000000 / hz < 0) by (apply Z.div_lt_upper_bound; [reflexivity|nia]). lia. }
    pose proof (Hd now (or_introl eq_refl)) as Hd0.
    destruct (@run_good signed pv iv mv preimage sign room scan later mut frh brh fch bch seed rs cs remaining Hs Hc Hv servers horizon
                Hr Hl Hh Hm Hrem servers sis' w0 k ltac:(lia) N' Ns (fun i J => J)) as (w1' & t1 & E1 & G & T1 & F1 & L).
    + split; auto. cbn [w0 w_time]. lia.
    + intros id si J K n s X. eapply fits_less; [|apply (Ft id si n s J)]; [lia| |exact X]. eapply Permutation_in; [exact Pm|exact K].
    + rewrite Ec. nia.
    + rewrite Ec. exact Mx.
    + rewrite E1 in E. injection E as <- <- <-. rewrite Ec in G.
      assert (Ba : forall si, In si sis -> In si sis') by (intros si; apply Permutation_in, Permutation_sym, Pm).
      destruct (@run_any signed pv iv mv preimage sign room scan later mut frh brh fch bch seed rs cs remaining Hs Hc Hv servers _ w0 _ _ _ R F E1)
        as (m & _ & _ & _ & Sh & _ & _).
      assert (Sc : forall id si n s s1, In id servers -> In (n, s) (dirs (sv_storage (w_servers w id)) si) ->
        In (n, s1) (dirs (sv_storage (w_servers w1' id)) si) -> s_data s1 = s_data s).
      { intros id si n s s1 Ji. refine (@same_contents _ _ si n s s1 _ (Sh id si)). eapply reachable_wf, R, Ji. }
      destruct (IH (k - total) w1' more) as (Lm & Om & Fm).
      * apply (g_time G).
      * intros x J. apply Hd. now right.
      * unfold w_clock in *. eapply Z.lt_le_trans; [|apply Z.div_le_mono; [reflexivity|]]; [exact Hn|]. cbn [w0 w_time] in T1. lia.
      * exact (g_reach G).
      * intros id si n s J K X. refine (F1 (Z.of_nat (length due)) id si J (Ba si K) _ n s X). intros n' s' X'. exact (Ft id si n' s' J K X').
      * exact (g_fresh G).
      * exact (g_fine G).
      * replace (sizes_everywhere servers sis w1') with (sizes_everywhere servers sis w); [exact Pr|].
        unfold sizes_everywhere, sizes_at. apply flat_map_ext. intros id. apply flat_map_ext. intros si.
        rewrite !shape_sizes. now rewrite Sh.
      * lia.
      * exact E2.
      * split; [cbn [length]; lia|]. split.
        { intros began r w' [[= <- <- <-]|J].
          - split; [reflexivity|]. intros id si n s Ji K X. destruct (L id si Ji (Ba si K) n s X) as (s1 & X1 & Ls).
            exists s1. split; [exact X1|]. split; [exact (Sc id si n s s1 Ji X X1)|exact Ls].
          - destruct (Om began r w' J) as [Or Ol]. split; [exact Or|]. intros id si n s Ji K X.
            destruct (L id si Ji (Ba si K) n s X) as (s1 & X1 & _). destruct (Ol id si n s1 Ji K X1) as (s2 & X2 & E3 & Ls).
            exists s2. split; [exact X2|]. split; [rewrite E3; exact (Sc id si n s s1 Ji X X1)|exact Ls]. }
        { replace (k - total * (Z.of_nat (length due) + 1)) with (k - total - total * Z.of_nat (length due)) by lia.
          replace (last (map snd ((w_clock w0, Ok tt, w1') :: more)) w) with (last (map snd more) w1'); [exact Fm|].
          cbn [map snd]. clear. generalize (map snd more). intros l. revert w1'. induction l as [|x l IHl]; intros w1'; [reflexivity|].
          cbn [last] in IHl |- *. destruct l as [|y l]; [reflexivity|]. apply (IHl w1'). }
Qed.
Print Assumptions C125_enough_tokens_keep_everything.

(** ** Example *)

(** A directory in the slot of [vx_server], with a file in its bucket; two such servers; sixteen
    good tokens, of which one is in use by something else.  Leases are to be kept for 14 days and last 11 more. *)
Definition ux_graph (n : Z) : node :=
  if n =? 0 then Node (Some vx_si) (Some (Ok [([102], 1)])) else Node (Some vx_bucket) None.
Definition ux_history : list op :=
  [OAdd 7 7 0 [101; 102; 103] 1000;
   OInsert 7 55 [1; 2; 3; 4; 5; 6; 7; 8; 9; 10; 11; 12; 13; 14; 15; 16] false true 1001; OExtract (fun l => l) 1].
Definition ux_db := snd (steps empty_db ux_history).
Definition ux_sign (m : bytes) (t : Z) : bytes := lx_preimage t.
Definition ux_now : Z := vx_now + 20 * 86400 * hz.
Definition ux_world : world := World (fun _ => vx_server) ux_db ux_now None.
Definition ux_later (t : Z) : Z := if t <? ux_now + 100 then t + 1 else t.
Definition ux_join (a b : bytes) : bytes := a ++ b.
Definition ux_upkeep := upkeep vx_signed 10 2 lx_preimage ux_sign (fun _ _ => true) sx_scan ux_later [3; 8] ux_join ux_join ux_join ux_join
  (fun id => [zb id]) (@rev _) ux_graph 10 (14 * day) (ascii "r") (ascii "c") (Some 0) ux_world.

Lemma ux_child a b : child ux_graph a b -> a = 0 /\ b = 1.
Proof.
  intros (names & name & E & J). unfold ux_graph in E. destruct (Z.eqb_spec a 0) as [->|]; [|discriminate].
  injection E as <-. destruct J as [[= _ <-]|[]]. auto.
Qed.
Lemma ux_reach n : LeaseSpec.reachable ux_graph [0] n -> n = 0 \/ n = 1.
Proof.
  intros [[<-|[]]|(r & [<-|[]] & B)]; [now left|]. right. induction B as [a b C|a b c _ _ IH]; [apply (ux_child _ _ C)|exact IH].
Qed.
Lemma ux_reach1 : LeaseSpec.reachable ux_graph [0] 1.
Proof. right. exists 0. split; [now left|]. apply below_child. exists [([102], 1)], [102]. split; [reflexivity|now left]. Qed.

Example C124_example_hypotheses :
  sound_passes lx_preimage ux_sign /\ fair_scan sx_scan /\
  (forall now, now <= ux_later now) /\ (forall now, now <= ux_now + 100 -> ux_later now <= ux_now + 100) /\
  month_after (ux_now + 100) < 2 ^ 32 /\ 0 < w_clock ux_world /\
  all_stored ux_graph 0 /\ indexes_under ux_graph 0 [vx_si; vx_bucket] /\
  reachable_server vx_signed 10 2 2 vx_mut vx_server /\
  (forall si n s, In si [vx_si; vx_bucket] -> In (n, s) (dirs (sv_storage vx_server) si) -> fits 1 s) /\
  fresh_reachable ux_db /\ fine_tokens vx_signed lx_preimage ux_sign ux_db 15 /\
  exact_price 10 (sizes_everywhere [3; 8] [vx_si; vx_bucket] ux_world) 14.
Proof.
  split. { destruct lx_sound as [A _]. split; [exact A|]. intros m t. apply A. }
  split; [exact sx_fair|].
  split. { intros now. unfold ux_later. destruct (now <? ux_now + 100); lia. }
  split. { intros now H. unfold ux_later. destruct (Z.ltb_spec now (ux_now + 100)); lia. }
  split; [vm_compute; reflexivity|]. split; [vm_compute; reflexivity|].
  split. { intros n H. destruct (ux_reach n H) as [->| ->]; (split; [|discriminate]); intros e; cbn; discriminate. }
  split.
  { split; [repeat constructor; cbn; intuition discriminate|]. intros si. split.
    - intros [<-|[<-|[]]]; [exists 0|exists 1]; (split; [|reflexivity]); [left; now left|apply ux_reach1].
    - intros (n & H & E). destruct (ux_reach n H) as [->| ->]; injection E as <-; cbn; auto. }
  split; [exact vx_reachable|].
  split.
  { assert (D1 : exists a b, dirs (sv_storage vx_server) vx_si = [(0, a); (1, b)] /\ fits 1 a /\ fits 1 b).
    { eexists. eexists. split; [vm_compute; reflexivity|]. split; (split; [vm_compute; reflexivity|]); intros l [<-|[]]; cbn; lia. }
    assert (D2 : exists a, dirs (sv_storage vx_server) vx_bucket = [(5, a)] /\ fits 1 a).
    { eexists. split; [vm_compute; reflexivity|]. split; [vm_compute; reflexivity|]. intros l [<-|[]]; cbn; lia. }
    destruct D1 as (a & b & D1 & Fa & Fb). destruct D2 as (c & D2 & Fc).
    intros si n s [<-|[<-|[]]] J; [rewrite D1 in J|rewrite D2 in J]; repeat (destruct J as [[= <- <-]|J]; [assumption|]); destruct J. }
  split.
  { exists ux_history, (fst (steps empty_db ux_history)). split; [|split].
    - cbn. intuition (subst; cbn; auto).
    - cbn. intuition.
    - vm_compute. reflexivity. }
  split.
  { exists [2; 3; 4; 5; 6; 7; 8; 9; 10; 11; 12; 13; 14; 15; 16]. split; [repeat constructor; cbn; intuition discriminate|]. split; [reflexivity|].
    assert (U : unblinded ux_db = map (fun t => UR t 1) [1; 2; 3; 4; 5; 6; 7; 8; 9; 10; 11; 12; 13; 14; 15; 16]) by (vm_compute; reflexivity).
    assert (Iu : in_use ux_db = [1]) by (vm_compute; reflexivity).
    assert (Gr : groups ux_db = [GR 1 7 55 true]) by (vm_compute; reflexivity).
    intros t J. split; [|split].
    - exists 1, 7, 55. rewrite U, Gr. split; [|now left]. apply in_map_iff. exists t. split; [reflexivity|]. now right.
    - rewrite Iu. intros [<-|[]]. cbn in J. intuition discriminate.
    - intros m. unfold vx_signed. apply bytes_eqb_refl. }
  assert (Sz : sizes_everywhere [3; 8] [vx_si; vx_bucket] ux_world = [25; 7; 25; 25; 7; 25]) by (vm_compute; reflexivity).
  rewrite Sz. exact (@exact_price_sum 10 [25; 7; 25; 25; 7; 25] eq_refl).
Qed.
Example C124_example : exists w' t, ux_upkeep = Some (Ok tt, w', t) /\
  map (fun m => (m_count m, m_finished m)) (maint (w_db w')) = [(14, Some (w_clock w'))] /\
  map u_token (unblinded (w_db w')) = [1; 16] /\
  map (fun ns => map l_expiration (s_leases (snd ns))) (dirs (sv_storage (w_servers w' 8)) vx_si) =
    [[1000000 + 31 * 86400; 1000000 + 51 * 86400]; [1000000 + 31 * 86400; 1000000 + 51 * 86400]].
Proof. do 2 eexists. split; [vm_compute; reflexivity|]. vm_compute. auto. Qed.
(** With half of the tokens gone it fails, and has spent less than it reports. *)
Definition ux_poor := snd (steps ux_db [OExtract (fun l => l) 8]).
Example C124_example_poor : exists w' t,
  upkeep vx_signed 10 2 lx_preimage ux_sign (fun _ _ => true) sx_scan ux_later [3; 8] ux_join ux_join ux_join ux_join
    (fun id => [zb id]) (@rev _) ux_graph 10 (14 * day) (ascii "r") (ascii "c") (Some 0) (World (fun _ => vx_server) ux_poor ux_now None)
    = Some (Err RemoteError, w', t) /\
  map (fun m => (m_count m, m_finished m)) (maint (w_db w')) = [(10, None)] /\
  length (unblinded (w_db w')) = 9%nat.
Proof. do 2 eexists. split; [vm_compute; reflexivity|]. vm_compute. auto. Qed.
(** Two runs, twelve days apart, with the wallet of the first example and as many tokens again. *)
Definition ux_rich := snd (steps empty_db [OAdd 7 7 0 [101; 102; 103] 1000; OInsert 7 55 (map Z.of_nat (seq 1 30)) false true 1001]).
Definition ux_horizon : Z := ux_now + 40 * 86400 * hz.
Definition ux_slow (t : Z) : Z := if t <? ux_horizon then t + 1 else t.
Definition ux_due : list Z := [ux_now; ux_now + 12 * 86400 * hz].
Example C125_example_hypotheses :
  (forall now, now <= ux_slow now) /\ (forall now, now <= ux_horizon -> ux_slow now <= ux_horizon) /\
  (forall now, In now ux_due -> now <= ux_horizon) /\ month_after ux_horizon < 2 ^ 32 /\
  (forall si n s, In si [vx_si; vx_bucket] -> In (n, s) (dirs (sv_storage vx_server) si) -> fits 2 s) /\
  fresh_reachable ux_rich /\ fine_tokens vx_signed lx_preimage ux_sign ux_rich 30 /\ 14 * Z.of_nat (length ux_due) <= 30.
Proof.
  split. { intros now. unfold ux_slow. destruct (now <? ux_horizon); lia. }
  split. { intros now H. unfold ux_slow. destruct (Z.ltb_spec now ux_horizon); lia. }
  split. { intros now [<-|[<-|[]]]; vm_compute; discriminate. }
  split; [vm_compute; reflexivity|].
  split.
  { assert (D1 : exists a b, dirs (sv_storage vx_server) vx_si = [(0, a); (1, b)] /\ fits 2 a /\ fits 2 b).
    { eexists. eexists. split; [vm_compute; reflexivity|]. split; (split; [vm_compute; reflexivity|]); intros l [<-|[]]; cbn; lia. }
    assert (D2 : exists a, dirs (sv_storage vx_server) vx_bucket = [(5, a)] /\ fits 2 a).
    { eexists. split; [vm_compute; reflexivity|]. split; [vm_compute; reflexivity|]. intros l [<-|[]]; cbn; lia. }
    destruct D1 as (a & b & D1 & Fa & Fb). destruct D2 as (c & D2 & Fc).
    intros si n s [<-|[<-|[]]] J; [rewrite D1 in J|rewrite D2 in J]; repeat (destruct J as [[= <- <-]|J]; [assumption|]); destruct J. }
  split.
  { exists [OAdd 7 7 0 [101; 102; 103] 1000; OInsert 7 55 (map Z.of_nat (seq 1 30)) false true 1001],
      (fst (steps empty_db [OAdd 7 7 0 [101; 102; 103] 1000; OInsert 7 55 (map Z.of_nat (seq 1 30)) false true 1001])). split; [|split].
    - intros o [<-|[<-|[]]]; exact I.
    - cbn. intuition.
    - vm_compute. reflexivity. }
  split; [|vm_compute; discriminate].
  assert (U : unblinded ux_rich = map (fun t => UR t 1) (map Z.of_nat (seq 1 30))) by (vm_compute; reflexivity).
  assert (Iu : in_use ux_rich = []) by (vm_compute; reflexivity).
  assert (Gr : groups ux_rich = [GR 1 7 55 true]) by (vm_compute; reflexivity).
  exists (map Z.of_nat (seq 1 30)). split; [cbn; repeat constructor; cbn; intuition discriminate|]. split; [reflexivity|].
  intros t J. split; [|split].
  - exists 1, 7, 55. rewrite U, Gr. split; [|now left]. apply in_map_iff. exists t. auto.
  - rewrite Iu. exact (fun X => X).
  - intros m. unfold vx_signed. apply bytes_eqb_refl.
Qed.
Example C125_example : exists w1 w2,
  upkeeps vx_signed 10 2 lx_preimage ux_sign (fun _ _ => true) sx_scan ux_slow [3; 8] ux_join ux_join ux_join ux_join
    (fun id => [zb id]) (@rev _) ux_graph 10 (30 * day) (ascii "r") (ascii "c") (Some 0) ux_due (World (fun _ => vx_server) ux_rich ux_now None) =
  Some [((1000000 + 20 * 86400) * 1000000, Ok tt, w1); ((1000000 + 32 * 86400) * 1000000, Ok tt, w2)] /\
  map (fun m => m_count m) (maint (w_db w2)) = [14; 14] /\ length (unblinded (w_db w2)) = 2%nat /\
  map (fun ns => map l_expiration (s_leases (snd ns))) (dirs (sv_storage (w_servers w2 8)) vx_si) =
    [[1000000 + 31 * 86400; 1000000 + 63 * 86400]; [1000000 + 31 * 86400; 1000000 + 63 * 86400]].
Proof. do 2 eexists. split; [vm_compute; reflexivity|]. vm_compute. auto. Qed.
