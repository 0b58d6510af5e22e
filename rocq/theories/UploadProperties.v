(** Property theorems C130: the quoted price is enough to upload, and what uploading costs. *)
From Verif Require Import Prelude PreludeFacts BytesModel BytesProofs PassModel PricingModel PricingSpec PricingProofs PricingProperties
  ContainerModel ContainerProofs TahoeModel CborModel StreamModel JsonModel RedeemModel RedeemSpec RedeemProofs RedeemProperties
  ServerModel ServerSpec ServerProofs ServerStateProofs ServerRequestProofs
  StoreModel StoreSpec StoreProofs SpendModel SpendSpec SpendProofs SpendProperties
  ClientModel ClientProofs ServerProperties ClientProperties EnoughSpec EnoughProofs EnoughProperties PaidSpec PaidProofs PaidProperties
  LeaseProperties BoughtSpec UpkeepModel UpkeepSpec UpkeepProofs UpkeepProperties WholeProperties UploadModel UploadSpec UploadProofs.
From Verif Require LeaseStoreProofs.
From Coq Require Strings.String.
Import Coq.Strings.String.StringSyntax.

(** ** The price of the calls *)

Lemma place_costs pv f : sumZ (map (call_cost pv) (map (pair f) (f_places f))) =
  Z.of_nat (length (concat (map snd (f_places f)))) * cdiv (f_share_size f) pv.
Proof.
  induction (f_places f) as [|[id nums] ps IH]; [reflexivity|]. cbn [map concat sumZ]. rewrite app_length, IH. unfold call_cost. cbn [fst snd]. lia.
Qed.

Lemma upload_cost pv needed total files : 0 < pv -> 0 < needed -> forall sizes price,
  Forall2 (fun f size => least_cover needed size (f_share_size f)) files sizes -> (forall f, In f files -> placed total f) ->
  calculate needed total pv sizes = Ok price -> sumZ (map (call_cost pv) (calls_of files)) = price.
Proof.
  intros Hv Hn sizes price S P C.
  assert (T : files = [] \/ 0 <= total).
  { destruct files as [|f files]; [now left|right]. destruct (P f (or_introl eq_refl)) as [<- _]. lia. }
  destruct T as [->|T].
  { inversion S; subst. injection C as <-. reflexivity. }
  destruct (C05_calculator_matches_upload_cost pv needed total sizes Hv Hn T) as (prices & E & F). rewrite E in C. injection C as <-.
  clear E. revert prices F. induction S as [|f size files sizes L S IH]; intros prices F; inversion F as [|? n ? ps H F']; subst; [reflexivity|].
  unfold calls_of. cbn [flat_map]. rewrite map_app, sumZ_app, place_costs. cbn [sumZ].
  unfold calls_of in IH. rewrite (IH (fun g J => P g (or_intror J)) ps F'). f_equal.
  destruct H as (_ & sz & L1 & _ & per & L2 & ->). rewrite (least_cover_unique L L1).
  rewrite (least_cover_unique L2 (cdiv_least sz Hv)). destruct (P f (or_introl eq_refl)) as [-> _]. reflexivity.
Qed.

Lemma in_calls files f id nums : In (f, (id, nums)) (calls_of files) <-> In f files /\ In (id, nums) (f_places f).
Proof.
  unfold calls_of. rewrite in_flat_map. split.
  - intros (g & J & K). apply in_map_iff in K as ([a b] & [= <- <- <-] & K). auto.
  - intros [J K]. exists f. split; [exact J|]. apply in_map_iff. exists (id, nums). auto.
Qed.
Lemma in_call_shares files i si n : In (i, si, n) (flat_map shares_of (calls_of files)) <-> exists f, In f files /\ si = f_si f /\ goes_to f i n.
Proof.
  rewrite in_flat_map. split.
  - intros ([f [id nums]] & J & K). apply in_shares in K as (-> & -> & K). apply in_calls in J as [J J2]. exists f. split; [exact J|]. split; [reflexivity|]. exists nums. auto.
  - intros (f & J & -> & nums & J2 & K). exists (f, (i, nums)). split; [apply in_calls; auto|]. apply in_shares. auto.
Qed.
Lemma file_shares f : flat_map shares_of (map (pair f) (f_places f)) =
  map (fun p => (fst p, f_si f, snd p)) (flat_map (fun p => map (pair (fst p)) (snd p)) (f_places f)).
Proof.
  induction (f_places f) as [|[id nums] ps IH]; [reflexivity|]. cbn [map flat_map]. rewrite map_app, IH, map_map. reflexivity.
Qed.
Lemma once_shares files : NoDup (map f_si files) -> (forall f, In f files -> placed_once f) -> NoDup (flat_map shares_of (calls_of files)).
Proof.
  induction files as [|f files IH]; intros N P; [constructor|]. inversion N as [|? ? Nf N']; subst.
  unfold calls_of. cbn [flat_map]. rewrite flat_map_app. apply NoDup_app_intro.
  - rewrite file_shares. apply FinFun.Injective_map_NoDup; [|apply P; now left]. intros [a b] [c d] [= -> ->]. reflexivity.
  - apply (IH N'). intros g J. apply P. now right.
  - intros [[i si] n] J K. apply Nf. rewrite file_shares in J. apply in_map_iff in J as ([a b] & [= <- <- <-] & _).
    change (In (a, f_si f, b) (flat_map shares_of (calls_of files))) in K. apply in_call_shares in K as (g & Jg & Eg & _). rewrite Eg. now apply in_map.
Qed.

(** A wallet with [k] good tokens that nothing else uses; files whose shares, encoded as the calculator supposes, are
    placed on servers that have room and are not in the middle of something; and a quoted price of no more than [k].
    Then the upload succeeds.  Every share is where it was to go: it was there before, or has the contents and a lease of
    (at least) a month from the start.  Nothing that was stored is lost, and nothing else is stored.  At least [k - price] good tokens are left, no more
    than [price] have been spent, and exactly [price] if none of the shares was there. *)
Theorem C130_the_quoted_price_is_enough :
  forall signed pv iv mv mut preimage sign room scan later content servers needed total files sizes w k price horizon,
  sound_passes preimage sign -> fair_scan scan -> 0 < pv -> 0 < needed ->
  (forall id n, room id n = true) ->
  (forall t, t <= later t) -> (forall t, t <= horizon -> later t <= horizon) ->
  0 <= w_time w <= horizon -> month_after horizon < 2 ^ 32 ->
  (forall id, In id servers -> reachable_server signed pv iv mv mut (w_servers w id) /\ incoming (sv_storage (w_servers w id)) = []) ->
  NoDup (map f_si files) ->
  (forall f, In f files -> placed total f /\ mut (f_si f) = false /\ 0 <= f_share_size f) ->
  (forall f id n, In f files -> goes_to f id n -> Z.of_nat (length (content (f_si f) n)) = f_share_size f) ->
  (forall f id nums, In f files -> In (id, nums) (f_places f) -> In id servers) ->
  Forall2 (fun f size => least_cover needed size (f_share_size f)) files sizes ->
  calculate needed total pv sizes = Ok price -> price <= k -> price <= SQLITE3_INTEGER_MAX ->
  fresh_reachable (w_db w) -> fine_tokens signed preimage sign (w_db w) k ->
  exists w', upload signed pv iv mv preimage sign room scan later content files w = Some (Ok tt, w') /\
    (forall f id n, In f files -> goes_to f id n ->
     exists s, has_share w' id (f_si f) n s /\ (has_share w id (f_si f) n s \/ uploaded content (w_time w) f n s)) /\
    (forall id si n s, has_share w id si n s -> has_share w' id si n s) /\
    (forall id si n s, has_share w' id si n s -> has_share w id si n s \/ exists f, In f files /\ si = f_si f /\ goes_to f id n) /\
    fine_tokens signed preimage sign (w_db w') (k - price) /\
    exists ts, spends (w_db w) (w_db w') ts /\ Z.of_nat (length ts) <= price /\
      ((forall f, In f files -> placed_once f) ->
       (forall f id n s, In f files -> goes_to f id n -> ~ has_share w id (f_si f) n s) -> Z.of_nat (length ts) = price).
Proof.
  intros signed pv iv mv mut preimage sign room scan later content servers needed total files sizes w k price horizon
    Hs Hc Hv Hn Hr Hl Hh Ht Hm R Nf P Lc Ps Sz C Lk Mx F Fi.
  pose proof (@upload_cost pv needed total files Hv Hn sizes price Sz (fun f J => proj1 (P f J)) C) as Ec.
  destruct (@put_all_good signed pv iv mv preimage sign scan mut Hs Hc Hv content room later horizon Hr Hl Hh Hm servers (calls_of files) w k)
    as (w' & E & Rd & _ & On & (ts & Sp & Lt & Xt) & Ke & Nw & Al).
  - intros [f [id nums]] J. apply in_calls in J as [J J2]. destruct (P f J) as (Pl & Mu & Z0). split; [exact Mu|]. split; [exact Z0|].
    split; [exact (proj2 Pl id nums J2)|]. split; [exact (Ps f id nums J J2)|]. cbn [fst snd]. intros n K. apply (Lc f id n J). exists nums. auto.
  - split; auto; intros id J; apply R, J.
  - lia.
  - lia.
  - rewrite Ec in *. exists w'. split; [exact E|]. split; [|split; [exact Ke|split; [|split; [exact (rd_fine Rd)|]]]].
    + intros f id n J G. destruct (Al id (f_si f) n) as [s X]; [apply in_call_shares; exists f; auto|]. exists s. split; [exact X|].
      apply Nw in X as [X|(f' & nums & Jc & Ef & _ & U)]; [now left|right]. apply in_calls in Jc as [J' _].
      rewrite (@LeaseStoreProofs.NoDup_map_inj _ _ _ _ _ _ Nf J J' Ef). exact U.
    + intros id si n s X. apply Nw in X as [X|(f & nums & Jc & -> & Jn & _)]; [now left|right]. apply in_calls in Jc as [J J2].
      exists f. split; [exact J|]. split; [reflexivity|]. exists nums. auto.
    + exists ts. split; [exact Sp|]. split; [exact Lt|]. intros Po Nh. apply Xt.
      * apply once_shares; assumption.
      * intros i si n s J. apply in_call_shares in J as (f & J & -> & G). exact (Nh f i n s J G).
Qed.
Print Assumptions C130_the_quoted_price_is_enough.

(** So with a wallet that was filled by redemptions, with keys that belong to the servers' signing key: the number of
    tokens which can be taken has only to reach the price. *)
Theorem C130_redeemed_tokens_upload :
  forall L F float_of float_repr float_zero max_digits decode depth token_text key_text allowed server_key
    pv iv mv mut room scan later content servers needed total files sizes w k price horizon,
  let signed := signed_by L server_key in
  let preimage := preimage_of L token_text in
  let sign := signature_for L token_text in
  lawful L -> sound_proofs L -> generates L ->
  (forall key, In key allowed -> public_key L key (smul L server_key (base_point L))) ->
  redeemed_wallet (F:=F) L float_of float_repr float_zero max_digits decode depth token_text key_text allowed (w_db w) ->
  available_count (w_db w) k ->
  fair_scan scan -> 0 < pv -> 0 < needed ->
  (forall id n, room id n = true) ->
  (forall t, t <= later t) -> (forall t, t <= horizon -> later t <= horizon) ->
  0 <= w_time w <= horizon -> month_after horizon < 2 ^ 32 ->
  (forall id, In id servers -> reachable_server signed pv iv mv mut (w_servers w id) /\ incoming (sv_storage (w_servers w id)) = []) ->
  NoDup (map f_si files) ->
  (forall f, In f files -> placed total f /\ mut (f_si f) = false /\ 0 <= f_share_size f) ->
  (forall f id n, In f files -> goes_to f id n -> Z.of_nat (length (content (f_si f) n)) = f_share_size f) ->
  (forall f id nums, In f files -> In (id, nums) (f_places f) -> In id servers) ->
  Forall2 (fun f size => least_cover needed size (f_share_size f)) files sizes ->
  calculate needed total pv sizes = Ok price -> price <= Z.of_nat k -> price <= SQLITE3_INTEGER_MAX ->
  exists w', upload signed pv iv mv preimage sign room scan later content files w = Some (Ok tt, w') /\
    (forall f id n, In f files -> goes_to f id n ->
     exists s, has_share w' id (f_si f) n s /\ (has_share w id (f_si f) n s \/ uploaded content (w_time w) f n s)) /\
    (forall id si n s, has_share w id si n s -> has_share w' id si n s) /\
    fine_tokens signed preimage sign (w_db w') (Z.of_nat k - price).
Proof.
  intros * Law Sp G Hk W Av Sc Hv Hn Hr Hl Hh Ht Hm R Nf P Lc Ps Sz C Lk Mx.
  destruct (@C130_the_quoted_price_is_enough signed pv iv mv mut preimage sign room scan later content servers needed total files sizes w
    (Z.of_nat k) price horizon (wallet_sound Law token_text) Sc Hv Hn Hr Hl Hh Ht Hm R Nf P Lc Ps Sz C Lk Mx
    (wallet_fresh W) (@wallet_fine L Law Sp G F _ _ _ _ _ _ _ _ _ server_key _ k Hk W Av)) as (w' & E & A & B & _ & D & _).
  exists w'. auto.
Qed.
Print Assumptions C130_redeemed_tokens_upload.

(** This is not so for shares that are larger than the calculator's, as those of Tahoe-LAFS are, which hold some hashes as well:
    however small the overhead, there is a file for which a server asks more than was quoted. *)
Theorem C130_overhead_is_not_quoted :
  forall pv needed total overhead, 0 < pv -> 0 < needed -> 0 < total -> 0 < overhead ->
  exists size share_size quoted asked,
    least_cover needed size share_size /\ calculate needed total pv [size] = Ok quoted /\
    exact_price pv (repeat (share_size + overhead) (Z.to_nat total)) asked /\ quoted < asked.
Proof.
  intros pv needed total overhead Hv Hn Ht Ho. exists (pv * needed), pv, total, (total * cdiv (pv + overhead) pv).
  assert (L : least_cover needed (pv * needed) pv) by (split; [lia|intros m X; nia]).
  split; [exact L|]. split; [|split].
  - destruct (C05_calculator_matches_upload_cost pv needed total [pv * needed] Hv Hn ltac:(lia)) as (prices & E & F).
    inversion F as [|? n ? l H F']; subst. inversion F'; subst. rewrite E. cbn [sumZ]. f_equal.
    destruct H as (_ & sz & L1 & _ & per & L2 & ->). rewrite <- (least_cover_unique L L1) in L2.
    assert (L3 : least_cover pv pv 1) by (split; [lia|intros m X; nia]). rewrite (least_cover_unique L2 L3). lia.
  - pose proof (exact_price_sum (repeat (pv + overhead) (Z.to_nat total)) Hv) as X. rewrite map_repeat, sumZ_repeat, Z2Nat.id in X by lia. exact X.
  - destruct (@cdiv_least pv (pv + overhead) Hv) as [U _]. nia.
Qed.
Print Assumptions C130_overhead_is_not_quoted.

(** ** Example *)

(** Two files of 25 and of 7 bytes, three shares each of which two are needed; the wallet has thirty tokens.  The second
    server has a share of the second file already. *)
Definition kx_a : file := File (PassModel.ascii "a") (PassModel.ascii "ra") (PassModel.ascii "ca") 13 [(3, [0; 1]); (8, [2])].
Definition kx_b : file := File (PassModel.ascii "b") (PassModel.ascii "rb") (PassModel.ascii "cb") 4 [(8, [0; 1; 2])].
Definition kx_content (si : bytes) (n : Z) : bytes := repeat (zb (65 + n)) (if bytes_eqb si (PassModel.ascii "a") then 13 else 4).
Definition kx_events : list event :=
  [ERequest vx_now vx_room [vx_pass x70] (Allocate (PassModel.ascii "b") (PassModel.ascii "r") (PassModel.ascii "c") [1] 4); EClose (PassModel.ascii "b") 1 (repeat x7a 4)].
Definition kx_server : server := snd (server_run vx_signed 10 2 2 empty_server kx_events).
Definition kx_world (sv : server) : world := World (fun id => if id =? 8 then sv else empty_server) ux_rich ux_now None.
Definition kx_upload (sv : server) := upload vx_signed 10 2 2 lx_preimage ux_sign (fun _ _ => true) sx_scan ux_slow kx_content [kx_a; kx_b] (kx_world sv).

Example C130_example_hypotheses :
  (forall id, In id [3; 8] -> reachable_server vx_signed 10 2 2 (fun _ => false) (w_servers (kx_world kx_server) id) /\
     incoming (sv_storage (w_servers (kx_world kx_server) id)) = []) /\
  NoDup (map f_si [kx_a; kx_b]) /\ (forall f, In f [kx_a; kx_b] -> placed 3 f /\ 0 <= f_share_size f /\ placed_once f) /\
  (forall f id n, In f [kx_a; kx_b] -> goes_to f id n -> Z.of_nat (length (kx_content (f_si f) n)) = f_share_size f) /\
  (forall f id nums, In f [kx_a; kx_b] -> In (id, nums) (f_places f) -> In id [3; 8]) /\
  Forall2 (fun f size => least_cover 2 size (f_share_size f)) [kx_a; kx_b] [25; 7] /\
  calculate 2 3 10 [25; 7] = Ok 9 /\ 0 <= w_time (kx_world kx_server) <= ux_horizon.
Proof.
  split.
  { intros id [<-|[<-|[]]]; (split; [|vm_compute; reflexivity]).
    - split; [auto|]. split; [auto|]. exists [], []. split; [constructor|]. split; [constructor|]. reflexivity.
    - split; [auto|]. split; [auto|]. exists kx_events, (fst (server_run vx_signed 10 2 2 empty_server kx_events)).
      split; [repeat constructor; cbn; intuition (try discriminate; try lia)|]. split; [repeat constructor|].
      change (w_servers (kx_world kx_server) 8) with kx_server. unfold kx_server. now destruct (server_run _ _ _ _ _ _). }
  split; [repeat constructor; cbn; intuition discriminate|].
  split.
  { intros f [<-|[<-|[]]]; (split; [split; [reflexivity|]|split; [cbn; lia|]]).
    1, 3: intros id nums J; cbn in J; repeat (destruct J as [[= <- <-]|J]; [repeat constructor; cbn; intuition lia|]); destruct J.
    1, 2: unfold placed_once; cbn; repeat constructor; cbn; intuition discriminate. }
  split; [intros f id n [<-|[<-|[]]] _; unfold kx_content; rewrite repeat_length; reflexivity|].
  split; [intros f id nums [<-|[<-|[]]] J; cbn in J; repeat (destruct J as [[= <- <-]|J]; [cbn; auto|]); destruct J|].
  split; [constructor; [|constructor; [|constructor]]; (split; [cbn; lia|intros m; cbn; lia])|]. split; [reflexivity|]. vm_compute. split; discriminate.
Qed.
Example C130_example : exists w', kx_upload kx_server = Some (Ok tt, w') /\
  length (unblinded (w_db w')) = 22%nat /\
  map (fun ns => (fst ns, s_data (snd ns))) (dirs (sv_storage (w_servers w' 3)) (PassModel.ascii "a")) = [(0, repeat x41 13); (1, repeat x42 13)] /\
  map (fun ns => (fst ns, s_data (snd ns), map l_expiration (s_leases (snd ns)))) (dirs (sv_storage (w_servers w' 8)) (PassModel.ascii "b")) =
    [(1, repeat x7a 4, [1000000 + 31 * 86400]); (0, repeat x41 4, [1000000 + 51 * 86400]); (2, repeat x43 4, [1000000 + 51 * 86400])].
Proof. eexists. split; [vm_compute; reflexivity|]. vm_compute. auto. Qed.
(** To servers that have nothing the price is what is paid. *)
Example C130_example_exact : exists w', kx_upload empty_server = Some (Ok tt, w') /\ length (unblinded (w_db w')) = 21%nat.
Proof. eexists. split; [vm_compute; reflexivity|]. reflexivity. Qed.
