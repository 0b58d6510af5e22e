(** Property theorems C131: uploaded files are kept for the quoted price, once to upload them and once for every run of
    lease maintenance. *)
From Verif Require Import Prelude PreludeFacts BytesModel BytesProofs PassModel PricingModel PricingSpec PricingProofs PricingProperties
  ContainerModel ContainerProofs TahoeModel CborModel StreamModel JsonModel RedeemModel RedeemSpec RedeemProofs RedeemProperties
  ServerModel ServerSpec ServerProofs ServerStateProofs ServerRequestProofs
  StoreModel StoreSpec StoreProofs SpendModel SpendSpec SpendProofs SpendProperties
  ClientModel ClientProofs ServerProperties ClientProperties EnoughSpec EnoughProofs EnoughProperties PaidSpec PaidProofs PaidProperties
  LeaseModel LeaseSpec LeaseProofs LeaseProperties BoughtSpec UpkeepModel UpkeepSpec UpkeepProofs UpkeepProperties WholeProperties
  UploadModel UploadSpec UploadProofs UploadProperties.
From Verif Require LeaseStoreProofs.
From Coq Require Strings.String.
Import Coq.Strings.String.StringSyntax.

(** ** What has been uploaded costs the price again *)

Lemma cost_same pv x l : (forall y, In y l -> y = x) -> cost pv l = Z.of_nat (length l) * cdiv x pv.
Proof.
  unfold cost. induction l as [|y l IH]; intros H; [reflexivity|]. cbn [map sumZ length]. rewrite (H y (or_introl eq_refl)).
  rewrite IH by (intros z J; apply H; now right). lia.
Qed.
Lemma length_pairs (A B : Type) (l : list (A * list B)) :
  length (flat_map (fun p => map (pair (fst p)) (snd p)) l) = length (concat (map snd l)).
Proof. induction l as [|[a b] l IH]; [reflexivity|]. cbn [flat_map map concat]. rewrite !app_length, map_length, IH. reflexivity. Qed.

Section Cost.
Variable pv : Z.
Variable servers : list Z.
Variable w : world.
Hypothesis Hv : 0 < pv.
Hypothesis Ns : NoDup servers.
Hypothesis Wf : forall id si, In id servers -> wf_dir (dirs (sv_storage (w_servers w id)) si).

Lemma file_cost f total : placed total f -> placed_once f -> (forall id n, goes_to f id n -> In id servers) ->
  (forall id n, goes_to f id n -> exists s, has_share w id (f_si f) n s) ->
  (forall id n s, In id servers -> has_share w id (f_si f) n s -> goes_to f id n /\ data_size s = f_share_size f) ->
  cost pv (sizes_everywhere servers [f_si f] w) = total * cdiv (f_share_size f) pv.
Proof.
  intros [Pt _] Po Gs Ge Gc.
  set (here := flat_map (fun id => map (fun ns => (id, fst ns)) (dirs (sv_storage (w_servers w id)) (f_si f))) servers).
  assert (Hh : forall id n, In (id, n) here <-> goes_to f id n).
  { intros id n. unfold here. rewrite in_flat_map. split.
    - intros (i & J & K). apply in_map_iff in K as ([m s] & [= -> ->] & K). exact (proj1 (Gc id n s J K)).
    - intros G. exists id. split; [exact (Gs id n G)|]. destruct (Ge id n G) as [s K]. apply in_map_iff. exists (n, s). auto. }
  assert (Nh : NoDup here).
  { unfold here. clear Hh here Gs Ge Gc. induction servers as [|id l IH]; [constructor|]. inversion Ns as [|? ? N1 N2]; subst. cbn [flat_map].
    apply NoDup_app_intro.
    - rewrite <- (map_map fst (pair id)). apply FinFun.Injective_map_NoDup; [intros a b [= ->]; reflexivity|].
      exact (proj1 (Wf id (f_si f) (or_introl eq_refl))).
    - apply IH; [exact N2|]. intros i si J. apply Wf. now right.
    - intros [i n] J K. apply in_map_iff in J as (x & [= <- _] & _). apply in_flat_map in K as (i & J & K).
      apply in_map_iff in K as (y & [= -> _] & _). contradiction. }
  assert (Pm : Permutation here (flat_map (fun p => map (pair (fst p)) (snd p)) (f_places f))).
  { apply NoDup_Permutation; [exact Nh|exact Po|]. intros [id n]. rewrite Hh, in_flat_map. split.
    - intros (nums & J & K). exists (id, nums). split; [exact J|]. cbn [fst snd]. now apply in_map.
    - intros ([i nums] & J & K). cbn [fst snd] in K. apply in_map_iff in K as (m & [= <- <-] & K). exists nums. auto. }
  apply Permutation_length in Pm. rewrite length_pairs in Pm. rewrite <- Pt, <- Pm.
  assert (Ll : length (sizes_everywhere servers [f_si f] w) = length here).
  { unfold sizes_everywhere, sizes_at, here. clear. induction servers as [|id l IH]; [reflexivity|]. cbn [flat_map]. rewrite app_nil_r, !app_length, !map_length.
    cbn [flat_map] in IH. rewrite IH. reflexivity. }
  rewrite <- Ll. apply cost_same. intros y J. unfold sizes_everywhere, sizes_at in J. apply in_flat_map in J as (id & Ji & J).
  cbn [flat_map] in J. rewrite app_nil_r in J. apply in_map_iff in J as ([n s] & <- & J). exact (proj2 (Gc id n s Ji J)).
Qed.
End Cost.

Lemma sizes_everywhere_app servers a b w pv : cost pv (sizes_everywhere servers (a ++ b) w) =
  cost pv (sizes_everywhere servers a w) + cost pv (sizes_everywhere servers b w).
Proof.
  induction servers as [|id l IH]; [reflexivity|]. rewrite !sizes_everywhere_cons, !cost_app, IH. unfold sizes_at. rewrite flat_map_app, cost_app. lia.
Qed.

Lemma files_cost pv servers w total : 0 < pv -> NoDup servers ->
  (forall id si, In id servers -> wf_dir (dirs (sv_storage (w_servers w id)) si)) -> forall files,
  (forall f, In f files -> placed total f /\ placed_once f) ->
  (forall f id n, In f files -> goes_to f id n -> In id servers) ->
  (forall f id n, In f files -> goes_to f id n -> exists s, has_share w id (f_si f) n s) ->
  (forall f id n s, In f files -> In id servers -> has_share w id (f_si f) n s -> goes_to f id n /\ data_size s = f_share_size f) ->
  cost pv (sizes_everywhere servers (map f_si files) w) = sumZ (map (call_cost pv) (calls_of files)).
Proof.
  intros Hv Ns Wf files P Gs Ge Gc. induction files as [|f files IH].
  - cbn [map]. unfold sizes_everywhere, sizes_at. cbn. clear. induction servers; [reflexivity|assumption].
  - change (map f_si (f :: files)) with ([f_si f] ++ map f_si files). rewrite sizes_everywhere_app.
    rewrite IH by (intros; eauto using in_cons).
    destruct (P f (or_introl eq_refl)) as [Pf Po].
    rewrite (@file_cost pv servers w Ns Wf f total Pf Po); [|intros; eauto using in_eq..].
    unfold calls_of. cbn [flat_map]. rewrite map_app, sumZ_app, place_costs. rewrite (proj1 Pf). reflexivity.
Qed.

(** ** The theorem *)

(** Files are uploaded, whose shares are placed on servers that have none of them; the tree of the node then has these files
    and [rest] (the directories they are in, and whatever else is there), one more month of which costs [others].  The wallet
    has enough good tokens for the quoted price, and for the quoted price and [others] as many times as there are runs of lease
    maintenance afterwards.  Then the upload succeeds, and so does each of the runs, and every share of every file
    is on its server at the end of it, with what was uploaded and a lease for the time that is to be kept (but a lease that
    is bought is never longer than 31 days); and what these prices leave of the tokens is left. *)
Theorem C131_files_are_kept_for_the_quoted_price :
  forall signed pv iv mv mut preimage sign room scan later content servers frh brh fch bch seed order graph remaining rs cs root
    needed total files sizes rest others due w k price horizon,
  sound_passes preimage sign -> fair_scan scan -> 0 < pv -> 0 < needed ->
  (forall id n, room id n = true) ->
  (forall t, t <= later t) -> (forall t, t <= horizon -> later t <= horizon) ->
  w_time w <= horizon -> (forall now, In now due -> now <= horizon) -> month_after horizon < 2 ^ 32 -> 0 < w_clock w -> 0 <= remaining ->
  NoDup servers ->
  (forall id, In id servers -> reachable_server signed pv iv mv mut (w_servers w id) /\ incoming (sv_storage (w_servers w id)) = []) ->
  NoDup (map f_si files) ->
  (forall f, In f files -> placed total f /\ placed_once f /\ mut (f_si f) = false /\ 0 <= f_share_size f) ->
  (forall f id n, In f files -> goes_to f id n -> Z.of_nat (length (content (f_si f) n)) = f_share_size f) ->
  (forall f id nums, In f files -> In (id, nums) (f_places f) -> In id servers) ->
  (forall f id n s, In f files -> In id servers -> ~ has_share w id (f_si f) n s) ->
  Forall2 (fun f size => least_cover needed size (f_share_size f)) files sizes ->
  calculate needed total pv sizes = Ok price ->
  (forall l, Permutation (order l) l) -> all_stored graph root -> indexes_under graph root (map f_si files ++ rest) ->
  (forall id si n s, In id servers -> In si rest -> has_share w id si n s -> fits (Z.of_nat (length due)) s) ->
  Z.of_nat (length due) + 1 < 2 ^ 32 ->
  exact_price pv (sizes_everywhere servers rest w) others ->
  price + (price + others) * Z.of_nat (length due) <= k -> price + others <= SQLITE3_INTEGER_MAX ->
  fresh_reachable (w_db w) -> fine_tokens signed preimage sign (w_db w) k ->
  exists w1, upload signed pv iv mv preimage sign room scan later content files w = Some (Ok tt, w1) /\
    forall fuel runs,
    upkeeps signed pv mv preimage sign room scan later servers frh brh fch bch seed order graph fuel remaining rs cs (Some root) due w1 = Some runs ->
    length runs = length due /\
    (forall began r w', In (began, r, w') runs -> r = Ok tt /\
     forall f id n, In f files -> goes_to f id n ->
     exists s, has_share w' id (f_si f) n s /\ s_data s = content (f_si f) n /\ lasts (began + Z.min remaining nearly_a_month) s) /\
    fine_tokens signed preimage sign (w_db (last (map snd runs) w1)) (k - price - (price + others) * Z.of_nat (length due)).
Proof.
  intros signed pv iv mv mut preimage sign room scan later content servers frh brh fch bch seed order graph remaining rs cs root
    needed total files sizes rest others due w k price horizon
    Hs Hc Hv Hn Hr Hl Hh Ht Hd Hm Hk Hrem Ns R Nf P Lc Ps New Sz C Po A U Ft Ld Pr Lk Mx F Fi.
  assert (T0 : 0 <= w_time w).
  { unfold w_clock in Hk. destruct (Z.lt_ge_cases (w_time w) 0) as [X|X]; [|exact X]. exfalso.
    assert (w_time w * 1000000 / hz < 0) by (apply Z.div_lt_upper_bound; [reflexivity|nia]). lia. }
  pose proof (@upload_cost pv needed total files Hv Hn sizes price Sz (fun f J => proj1 (P f J)) C) as Ec.
  assert (Ok_ : forall c, In c (calls_of files) -> call_ok mut content servers c).
  { intros [f [id nums]] J. apply in_calls in J as [J J2]. destruct (P f J) as (Pl & _ & Mu & Z0). split; [exact Mu|]. split; [exact Z0|].
    split; [exact (proj2 Pl id nums J2)|]. split; [exact (Ps f id nums J J2)|]. cbn [fst snd]. intros n K. apply (Lc f id n J). exists nums. auto. }
  assert (P0 : 0 <= price).
  { rewrite <- Ec. apply sumZ_nonneg. intros x J. apply in_map_iff in J as (c & <- & J). destruct (Ok_ c J) as (_ & Z0 & _). unfold call_cost.
    pose proof (@cdiv_nonneg pv (f_share_size (fst c)) Hv Z0). nia. }
  assert (O0 : 0 <= others) by (eapply sumZ_le_nonneg; [exact Hv|apply sizes_everywhere_nonneg|exact Pr]).
  destruct (@put_all_good signed pv iv mv preimage sign scan mut Hs Hc Hv content room later horizon Hr Hl Hh Hm servers (calls_of files) w k Ok_)
    as (w1 & E & Rd & Tw & _ & _ & Ke & Nw & Al).
  { split; auto; intros id J; apply R, J. }
  { rewrite Ec. nia. }
  { lia. }
  rewrite Ec in Rd. exists w1. split; [exact E|]. intros fuel runs H.
  assert (W1 : forall id si, In id servers -> wf_dir (dirs (sv_storage (w_servers w1 id)) si)).
  { intros id si J. eapply reachable_wf, (rd_reach Rd), J. }
  assert (Go : forall f id n, In f files -> goes_to f id n -> In id servers).
  { intros f id n J (nums & K & _). exact (Ps f id nums J K). }
  (* the shares of the files *)
  assert (Up : forall f id n s, In f files -> In id servers -> has_share w1 id (f_si f) n s -> goes_to f id n /\ uploaded content (w_time w) f n s).
  { intros f id n s J Ji X. apply Nw in X as [X|(f' & nums & Jc & Ef & Jn & X)]; [destruct (New f id n s J Ji X)|].
    apply in_calls in Jc as [J' J2]. rewrite (@LeaseStoreProofs.NoDup_map_inj _ _ _ _ _ _ Nf J J' Ef). split; [exists nums; auto|exact X]. }
  assert (Th : forall f id n, In f files -> goes_to f id n -> exists s, has_share w1 id (f_si f) n s).
  { intros f id n J G. apply Al. apply in_call_shares. exists f. auto. }
  (* the rest *)
  assert (Dj : forall f, In f files -> ~ In (f_si f) rest).
  { intros f J K. destruct U as [Nu _]. apply (proj2 (proj2 (ConcurrentProofs.NoDup_app_inv _ _ Nu)) (f_si f)); [now apply in_map|exact K]. }
  assert (Re : forall id si n s, In si rest -> (has_share w1 id si n s <-> has_share w id si n s)).
  { intros id si n s K. split; [|apply Ke]. intros X. apply Nw in X as [X|(f & nums & Jc & -> & _)]; [exact X|].
    apply in_calls in Jc as [J _]. destruct (Dj f J K). }
  assert (Cr : cost pv (sizes_everywhere servers rest w1) = others).
  { rewrite (exact_cost Hv Pr). apply cost_perm. unfold sizes_everywhere, sizes_at.
    assert (Rr : forall si, In si rest -> forall id, In id servers -> Permutation (dirs (sv_storage (w_servers w1 id)) si) (dirs (sv_storage (w_servers w id)) si)).
    { intros si K id Ji. apply NoDup_Permutation.
      - exact (NoDup_map_inv _ _ (proj1 (W1 id si Ji))).
      - assert (Wd : wf_dir (dirs (sv_storage (w_servers w id)) si)) by (eapply reachable_wf, R, Ji). exact (NoDup_map_inv _ _ (proj1 Wd)).
      - intros [n s]. exact (Re id si n s K). }
    clear - Rr. induction servers as [|id l IH]; [constructor|]. cbn [flat_map]. apply Permutation_app; [|apply IH; intros si K i J; apply Rr; [exact K|now right]].
    assert (Ri : forall si, In si rest -> Permutation (dirs (sv_storage (w_servers w1 id)) si) (dirs (sv_storage (w_servers w id)) si)).
    { intros si K. apply Rr; [exact K|now left]. }
    clear - Ri. induction rest as [|si more IH]; [constructor|]. cbn [flat_map]. apply Permutation_app.
    - apply Permutation_map, Ri. now left.
    - apply IH. intros x K. apply Ri. now right. }
  assert (Cf : cost pv (sizes_everywhere servers (map f_si files) w1) = price).
  { rewrite <- Ec. apply (@files_cost pv servers w1 total Hv Ns W1 files).
    - intros f J. destruct (P f J) as (A1 & A2 & _). auto.
    - exact Go.
    - exact Th.
    - intros f id n s J Ji X. destruct (Up f id n s J Ji X) as [G (D & _)]. split; [exact G|]. unfold data_size. rewrite D. exact (Lc f id n J G). }
  assert (Px : exact_price pv (sizes_everywhere servers (map f_si files ++ rest) w1) (price + others)).
  { rewrite <- Cf, <- Cr, <- sizes_everywhere_app. apply exact_price_sum, Hv. }
  assert (Mn : 0 <= month_after (w_time w)).
  { pose proof (@month_packable (w_time w) horizon (conj T0 Ht) Hm) as Pk. unfold packable in Pk. lia. }
  destruct (@C125_enough_tokens_keep_everything signed pv iv mv mut preimage sign room scan later servers frh brh fch bch seed order graph fuel
    remaining rs cs root (map f_si files ++ rest) (k - price) (price + others) horizon due w1 runs) as (L1 & L2 & L3); auto.
  - exact (proj2 (rd_time Rd)).
  - unfold w_clock in *. eapply Z.lt_le_trans; [exact Hk|]. apply Z.div_le_mono; [reflexivity|lia].
  - exact (rd_reach Rd).
  - intros id si n s Ji K X. apply in_app_or in K as [K|K].
    + apply in_map_iff in K as (f & <- & J). destruct (Up f id n s J Ji X) as (_ & _ & l & El & _ & _ & Le & Lm).
      unfold fits. rewrite El. cbn [length]. split; [lia|]. intros l' [<-|[]]. lia.
    + apply (Ft id si n s Ji K). now apply Re.
  - exact (rd_fresh Rd).
  - exact (rd_fine Rd).
  - lia.
  - split; [exact L1|]. split; [|exact L3]. intros began r w' J. destruct (L2 began r w' J) as [Er Ls]. split; [exact Er|].
    intros f id n Jf G. destruct (Th f id n Jf G) as [s X]. destruct (Up f id n s Jf (Go f id n Jf G) X) as (_ & D & _).
    destruct (Ls id (f_si f) n s (Go f id n Jf G)) as (s' & X' & D' & Ll); [apply in_or_app; left; now apply in_map|exact X|].
    exists s'. split; [exact X'|]. split; [congruence|exact Ll].
Qed.
Print Assumptions C131_files_are_kept_for_the_quoted_price.

(** The same with what was redeemed: a wallet filled by redemptions, with keys that belong to the servers' signing key.  If
    the directories have no cycle the runs also come to their end (with one they need not: C55). *)
Theorem C131_redeemed_tokens_keep_files :
  forall L F float_of float_repr float_zero max_digits decode depth token_text key_text allowed server_key
    pv iv mv mut room scan later content servers frh brh fch bch seed order graph (rank : Z -> nat) remaining rs cs root
    needed total files sizes rest others due w k price horizon,
  let signed := signed_by L server_key in
  let preimage := preimage_of L token_text in
  let sign := signature_for L token_text in
  lawful L -> sound_proofs L -> generates L ->
  (forall key, In key allowed -> public_key L key (smul L server_key (base_point L))) ->
  redeemed_wallet (F:=F) L float_of float_repr float_zero max_digits decode depth token_text key_text allowed (w_db w) ->
  available_count (w_db w) k ->
  fair_scan scan -> 0 < pv -> 0 < needed ->
  (forall id n, room id n = true) ->
  (forall t, t <= later t) -> (forall t, t <= horizon -> later t <= horizon) ->
  w_time w <= horizon -> (forall now, In now due -> now <= horizon) -> month_after horizon < 2 ^ 32 -> 0 < w_clock w -> 0 <= remaining ->
  NoDup servers ->
  (forall id, In id servers -> reachable_server signed pv iv mv mut (w_servers w id) /\ incoming (sv_storage (w_servers w id)) = []) ->
  NoDup (map f_si files) ->
  (forall f, In f files -> placed total f /\ placed_once f /\ mut (f_si f) = false /\ 0 <= f_share_size f) ->
  (forall f id n, In f files -> goes_to f id n -> Z.of_nat (length (content (f_si f) n)) = f_share_size f) ->
  (forall f id nums, In f files -> In (id, nums) (f_places f) -> In id servers) ->
  (forall f id n s, In f files -> In id servers -> ~ has_share w id (f_si f) n s) ->
  Forall2 (fun f size => least_cover needed size (f_share_size f)) files sizes ->
  calculate needed total pv sizes = Ok price ->
  (forall l, Permutation (order l) l) -> (forall a b, child graph a b -> (rank b < rank a)%nat) ->
  all_stored graph root -> indexes_under graph root (map f_si files ++ rest) ->
  (forall id si n s, In id servers -> In si rest -> has_share w id si n s -> fits (Z.of_nat (length due)) s) ->
  Z.of_nat (length due) + 1 < 2 ^ 32 ->
  exact_price pv (sizes_everywhere servers rest w) others ->
  price + (price + others) * Z.of_nat (length due) <= Z.of_nat k -> price + others <= SQLITE3_INTEGER_MAX ->
  exists w1, upload signed pv iv mv preimage sign room scan later content files w = Some (Ok tt, w1) /\
    exists fuel runs,
    upkeeps signed pv mv preimage sign room scan later servers frh brh fch bch seed order graph fuel remaining rs cs (Some root) due w1 = Some runs /\
    length runs = length due /\
    (forall began r w', In (began, r, w') runs -> r = Ok tt /\
     forall f id n, In f files -> goes_to f id n ->
     exists s, has_share w' id (f_si f) n s /\ s_data s = content (f_si f) n /\ lasts (began + Z.min remaining nearly_a_month) s) /\
    fine_tokens signed preimage sign (w_db (last (map snd runs) w1)) (Z.of_nat k - price - (price + others) * Z.of_nat (length due)).
Proof.
  intros * Law Sp G Hk W Av Sc Hv Hn Hr Hl Hh Ht Hd Hm Hc Hrem Ns R Nf P Lc Ps New Sz C Po Rk A U Ft Ld Pr Lk Mx.
  destruct (C55_ends_without_cycles_partial order graph [root] rank Rk (fun n H => proj1 (A n H))) as (fuel & visited & V).
  destruct (@C131_files_are_kept_for_the_quoted_price signed pv iv mv mut preimage sign room scan later content servers frh brh fch bch seed
    order graph remaining rs cs root needed total files sizes rest others due w (Z.of_nat k) price horizon (wallet_sound Law token_text)
    Sc Hv Hn Hr Hl Hh Ht Hd Hm Hc Hrem Ns R Nf P Lc Ps New Sz C Po A U Ft Ld Pr Lk Mx
    (wallet_fresh W) (@wallet_fine L Law Sp G F _ _ _ _ _ _ _ _ _ server_key _ k Hk W Av)) as (w1 & E & X).
  exists w1. split; [exact E|].
  destruct (@upkeeps_end signed pv mv preimage sign room scan later servers frh brh fch bch seed order graph fuel remaining rs cs root _ V due w1) as [runs Er].
  exists fuel, runs. split; [exact Er|]. exact (X fuel runs Er).
Qed.
Print Assumptions C131_redeemed_tokens_keep_files.

(** ** Example *)

(** The first file of C130 in a directory (one that cannot be changed) that has a share on one of the servers; two runs,
    twelve days apart.  The first has nothing to renew in the new file. *)
Definition life_graph (n : Z) : node :=
  if n =? 0 then Node (Some (f_si kx_b)) (Some (Ok [([102], 1)])) else Node (Some (f_si kx_a)) None.
Definition life_world : world := World (fun id => if id =? 8 then kx_server else empty_server) ux_rich ux_now None.
Definition life_upload := upload vx_signed 10 2 2 lx_preimage ux_sign (fun _ _ => true) sx_scan ux_slow kx_content [kx_a] life_world.
Definition life_upkeeps w := upkeeps vx_signed 10 2 lx_preimage ux_sign (fun _ _ => true) sx_scan ux_slow [3; 8] ux_join ux_join ux_join ux_join
  (fun id => [zb id]) (@rev _) life_graph 10 (30 * day) (PassModel.ascii "r") (PassModel.ascii "c") (Some 0) ux_due w.

Lemma life_child a b : child life_graph a b -> a = 0 /\ b = 1.
Proof.
  intros (names & name & E & J). unfold life_graph in E. destruct (Z.eqb_spec a 0) as [->|]; [|discriminate].
  injection E as <-. destruct J as [[= _ <-]|[]]. auto.
Qed.
Lemma life_reach n : LeaseSpec.reachable life_graph [0] n -> n = 0 \/ n = 1.
Proof.
  intros [[<-|[]]|(r & [<-|[]] & B)]; [now left|]. right. induction B as [a b C|a b c _ _ IH]; [apply (life_child _ _ C)|exact IH].
Qed.
Lemma life_reach1 : LeaseSpec.reachable life_graph [0] 1.
Proof. right. exists 0. split; [now left|]. apply below_child. exists [([102], 1)], [102]. split; [reflexivity|now left]. Qed.

Example C131_example_hypotheses :
  0 < w_clock life_world /\ w_time life_world <= ux_horizon /\
  (forall id, In id [3; 8] -> reachable_server vx_signed 10 2 2 (fun _ => false) (w_servers life_world id) /\
     incoming (sv_storage (w_servers life_world id)) = []) /\
  placed 3 kx_a /\ placed_once kx_a /\ (forall f, In f [kx_a] -> 0 <= f_share_size f) /\
  (forall id n s, In id [3; 8] -> ~ has_share life_world id (f_si kx_a) n s) /\
  calculate 2 3 10 [25] = Ok 6 /\
  all_stored life_graph 0 /\ indexes_under life_graph 0 ([f_si kx_a] ++ [f_si kx_b]) /\
  exact_price 10 (sizes_everywhere [3; 8] [f_si kx_b] life_world) 1 /\ 6 + (6 + 1) * Z.of_nat (length ux_due) <= 30.
Proof.
  split; [vm_compute; reflexivity|]. split; [vm_compute; discriminate|].
  split.
  { exact (proj1 C130_example_hypotheses). }
  split; [apply C130_example_hypotheses; now left|]. split; [apply C130_example_hypotheses; now left|].
  split; [intros f [<-|[]]; cbn; lia|].
  split.
  { assert (D : forall id, In id [3; 8] -> dirs (sv_storage (w_servers life_world id)) (f_si kx_a) = []).
    { intros id [<-|[<-|[]]]; vm_compute; reflexivity. }
    intros id n s J X. unfold has_share in X. rewrite (D id J) in X. destruct X. }
  split; [reflexivity|].
  split. { intros n H. destruct (life_reach n H) as [->| ->]; (split; [|discriminate]); intros e; cbn; discriminate. }
  split.
  { split; [repeat constructor; cbn; intuition discriminate|]. intros si. split.
    - intros [<-|[<-|[]]]; [exists 1|exists 0]; (split; [|reflexivity]); [apply life_reach1|left; now left].
    - intros (n & H & E). destruct (life_reach n H) as [->| ->]; injection E as <-; cbn; auto. }
  split; [|vm_compute; discriminate].
  assert (Sz : sizes_everywhere [3; 8] [f_si kx_b] life_world = [4]) by (vm_compute; reflexivity).
  rewrite Sz. exact (@exact_price_sum 10 [4] eq_refl).
Qed.
Example C131_example : exists w1 w2 w3, life_upload = Some (Ok tt, w1) /\
  life_upkeeps w1 = Some [((1000000 + 20 * 86400) * 1000000, Ok tt, w2); ((1000000 + 32 * 86400) * 1000000, Ok tt, w3)] /\
  length (unblinded (w_db w1)) = 24%nat /\ length (unblinded (w_db w2)) = 23%nat /\ length (unblinded (w_db w3)) = 16%nat /\
  map (fun ns => (fst ns, s_data (snd ns), map l_expiration (s_leases (snd ns)))) (dirs (sv_storage (w_servers w3 3)) (f_si kx_a)) =
    [(0, repeat x41 13, [1000000 + 51 * 86400; 1000000 + 63 * 86400]); (1, repeat x42 13, [1000000 + 51 * 86400; 1000000 + 63 * 86400])].
Proof. do 3 eexists. split; [vm_compute; reflexivity|]. split; [vm_compute; reflexivity|]. vm_compute. auto 10. Qed.

(** The two tokens of the wallet of C122: one uploads a file of seven bytes to a server that has nothing, the other keeps it when a run
    is due 25 days later. *)
Definition ry_file : file := File hx_si (PassModel.ascii "r") (PassModel.ascii "c") 7 [(3, [0])].
Definition ry_content (_ : bytes) (_ : Z) : bytes := repeat x7a 7.
Definition ry_world : world := World (fun _ => empty_server) px_db ux_now None.
Definition ry_due : list Z := [ux_now + 25 * 86400 * hz].
Definition ry_upload := upload hx_signed 10 2 2 (preimage_of small px_text) (signature_for small px_text) (fun _ _ => true) (fun _ l => l) ux_slow
  ry_content [ry_file] ry_world.
Definition ry_upkeeps w := upkeeps hx_signed 10 2 (preimage_of small px_text) (signature_for small px_text) (fun _ _ => true) (fun _ l => l) ux_slow [3]
  ux_join ux_join ux_join ux_join (fun id => [zb id]) (@rev _) hx_graph 5 (20 * day) (PassModel.ascii "r") (PassModel.ascii "c") (Some 0) ry_due w.

Example C131_example_redeemed_hypotheses :
  redeemed_wallet (F:=unit) small ex_float ex_repr ex_zero 100 ex_decode 5 px_text px_key [ex_key] (w_db ry_world) /\
  available_count (w_db ry_world) 2 /\
  0 < w_clock ry_world /\ w_time ry_world <= ux_horizon /\ (forall now, In now ry_due -> now <= ux_horizon) /\
  (reachable_server hx_signed 10 2 2 (fun _ => false) (w_servers ry_world 3) /\ incoming (sv_storage (w_servers ry_world 3)) = []) /\
  placed 1 ry_file /\ placed_once ry_file /\ Z.of_nat (length (ry_content hx_si 0)) = f_share_size ry_file /\
  (forall n s, ~ has_share ry_world 3 (f_si ry_file) n s) /\
  least_cover 1 7 (f_share_size ry_file) /\ calculate 1 1 10 [7] = Ok 1 /\
  (forall a b, child hx_graph a b -> (Z.to_nat b < Z.to_nat a)%nat) /\
  all_stored hx_graph 0 /\ indexes_under hx_graph 0 ([f_si ry_file] ++ []) /\
  exact_price 10 (sizes_everywhere [3] [] ry_world) 0 /\ 1 + (1 + 0) * Z.of_nat (length ry_due) <= 2.
Proof.
  destruct C129_example_hypotheses as (_ & _ & _ & _ & W & A & Rk & St & U & _).
  split; [exact W|]. split; [exact A|]. split; [vm_compute; reflexivity|]. split; [vm_compute; discriminate|].
  split; [intros now [<-|[]]; vm_compute; discriminate|].
  split. { split; [|reflexivity]. split; [auto|]. split; [auto|]. exists [], []. split; [constructor|]. split; [constructor|]. reflexivity. }
  split. { split; [reflexivity|]. intros id nums J; cbn in J; repeat (destruct J as [[= <- <-]|J]; [repeat constructor; cbn; intuition lia|]); destruct J. }
  split; [unfold placed_once; cbn; repeat constructor; intros []|].
  split; [reflexivity|]. split; [intros n s []|]. split; [split; [cbn; lia|intros m; cbn; lia]|]. split; [reflexivity|].
  split; [exact Rk|]. split; [exact St|]. split; [exact U|]. split; [exact (@exact_price_sum 10 [] eq_refl)|]. vm_compute. discriminate.
Qed.
Example C131_example_redeemed : exists w1 w2 a, ry_upload = Some (Ok tt, w1) /\ ry_upkeeps w1 = Some [(a, Ok tt, w2)] /\
  length (unblinded (w_db w1)) = 1%nat /\ unblinded (w_db w2) = [] /\
  map (fun ns => (s_data (snd ns), map l_expiration (s_leases (snd ns)))) (dirs (sv_storage (w_servers w2 3)) hx_si) =
    [(repeat x7a 7, [1000000 + (20 + 31) * 86400; 1000000 + (20 + 25 + 31) * 86400])].
Proof. do 3 eexists. split; [vm_compute; reflexivity|]. split; [vm_compute; reflexivity|]. vm_compute. auto. Qed.
