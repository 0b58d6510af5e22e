(** Property theorem C129: what was redeemed keeps everything leased. *)
From Verif Require Import Prelude PreludeFacts BytesModel BytesProofs PassModel PricingModel PricingSpec PricingProofs
  ContainerModel ContainerProofs TahoeModel CborModel StreamModel JsonModel RedeemModel RedeemSpec RedeemProofs RedeemProperties
  ServerModel ServerSpec ServerProofs ServerStateProofs ServerRequestProofs
  StoreModel StoreSpec StoreProofs SpendModel SpendSpec SpendProofs SpendProperties
  ClientModel ClientProofs ServerProperties ClientProperties EnoughSpec EnoughProofs EnoughProperties PaidSpec PaidProofs PaidProperties
  LeaseModel LeaseSpec LeaseProofs LeaseProperties BoughtSpec UpkeepModel UpkeepSpec UpkeepProofs UpkeepProperties.
From Coq Require Strings.String.
Import Coq.Strings.String.StringSyntax.

Lemma wallet_fine L (Law : lawful L) (Hs : sound_proofs L) (Hg : generates L) F float_of float_repr float_zero max_digits decode depth
  token_text key_text allowed server_key d k :
  (forall key, In key allowed -> public_key L key (smul L server_key (base_point L))) ->
  redeemed_wallet (F:=F) L float_of float_repr float_zero max_digits decode depth token_text key_text allowed d -> available_count d k ->
  fine_tokens (signed_by L server_key) (preimage_of L token_text) (signature_for L token_text) d (Z.of_nat k).
Proof.
  intros Hk W (toks & N & A & <-). exists toks. split; [exact N|]. split; [reflexivity|]. intros t J. apply A in J. destruct J as [S U].
  split; [exact S|]. split; [exact U|]. intros m. exact (wallet_good Law Hs Hg server_key Hk m W S).
Qed.

(** If the directories have no cycle the runs come to their end. *)
Lemma upkeeps_end signed pv mv preimage sign room scan later servers frh brh fch bch seed order graph fuel remaining rs cs root visited :
  iter_storage_indexes order graph fuel [root] = Some visited ->
  forall due w, exists runs,
  upkeeps signed pv mv preimage sign room scan later servers frh brh fch bch seed order graph fuel remaining rs cs (Some root) due w = Some runs.
Proof.
  intros V. induction due as [|now due IH]; intros w; cbn [upkeeps]; [eexists; reflexivity|].
  match goal with |- context [match ?x with Some _ => _ | None => None end] => assert (X : exists y, x = Some y) by
    (unfold upkeep, maintain_leases; rewrite V; eexists; reflexivity) end.
  destruct X as [[[r w1] t] ->].
  destruct (IH w1) as [runs ->]. eexists. reflexivity.
Qed.

(** A wallet filled by redemptions, with keys that belong to the servers' signing key, and [k] tokens that
    can be taken: enough for as many runs as [k] pays for, at the exact price of what is under the root. *)
Theorem C129_redeemed_tokens_keep_everything :
  forall L F float_of float_repr float_zero max_digits decode depth token_text key_text allowed server_key
    pv iv mv mut room scan later servers frh brh fch bch seed order graph (rank : Z -> nat) remaining rs cs root
    sis k total horizon due w,
  let signed := signed_by L server_key in
  let preimage := preimage_of L token_text in
  let sign := signature_for L token_text in
  lawful L -> sound_proofs L -> generates L ->
  (forall key, In key allowed -> public_key L key (smul L server_key (base_point L))) ->
  redeemed_wallet (F:=F) L float_of float_repr float_zero max_digits decode depth token_text key_text allowed (w_db w) ->
  available_count (w_db w) k ->
  fair_scan scan -> 0 < pv -> (forall id n, room id n = true) ->
  (forall now, now <= later now) -> (forall now, now <= horizon -> later now <= horizon) ->
  w_time w <= horizon -> (forall now, In now due -> now <= horizon) -> month_after horizon < 2 ^ 32 -> 0 < w_clock w -> 0 <= remaining ->
  (forall l, Permutation (order l) l) -> (forall a b, child graph a b -> (rank b < rank a)%nat) ->
  all_stored graph root -> indexes_under graph root sis ->
  NoDup servers -> (forall id, In id servers -> reachable_server signed pv iv mv mut (w_servers w id)) ->
  (forall id si n s, In id servers -> In si sis -> In (n, s) (dirs (sv_storage (w_servers w id)) si) -> fits (Z.of_nat (length due)) s) ->
  exact_price pv (sizes_everywhere servers sis w) total ->
  total * Z.of_nat (length due) <= Z.of_nat k -> total <= SQLITE3_INTEGER_MAX ->
  exists fuel runs,
    upkeeps signed pv mv preimage sign room scan later servers frh brh fch bch seed order graph fuel remaining rs cs (Some root) due w = Some runs /\
    length runs = length due /\
    (forall began r w', In (began, r, w') runs -> r = Ok tt /\
     forall id si n s, In id servers -> In si sis -> In (n, s) (dirs (sv_storage (w_servers w id)) si) ->
     exists s', In (n, s') (dirs (sv_storage (w_servers w' id)) si) /\ s_data s' = s_data s /\ lasts (began + Z.min remaining nearly_a_month) s') /\
    fine_tokens signed preimage sign (w_db (last (map snd runs) w)) (Z.of_nat k - total * Z.of_nat (length due)).
Proof.
  intros * Law Sp G Hk W Av Sc Hv Hr Hl Hh Ht Hd Hm Hn Hrem P Rk A U Ns R Ft Pr Lk Mx.
  destruct (C55_ends_without_cycles_partial order graph [root] rank Rk (fun n H => proj1 (A n H))) as (fuel & visited & V).
  destruct (@upkeeps_end signed pv mv preimage sign room scan later servers frh brh fch bch seed order graph fuel remaining rs cs root _ V due w) as [runs E].
  exists fuel, runs. split; [exact E|].
  exact (@C125_enough_tokens_keep_everything signed pv iv mv mut preimage sign room scan later servers frh brh fch bch seed order graph fuel
    remaining rs cs root sis (Z.of_nat k) total horizon due w runs (wallet_sound Law token_text) Sc Hv Hr Hl Hh Ht Hd Hm Hn Hrem P A U Ns R Ft
    (wallet_fresh W) (@wallet_fine L Law Sp G F _ _ _ _ _ _ _ _ _ server_key _ k Hk W Av) Pr Lk Mx E).
Qed.
Print Assumptions C129_redeemed_tokens_keep_everything.

(** ** Example *)

(** A file of seven bytes on a server, uploaded with a pass of somebody else's; the wallet of C122 with its two tokens pays
    for two runs, twelve days apart. *)
Definition hx_si : bytes := PassModel.ascii "si".
Definition hx_signed := signed_by small T2.
Definition hx_other (_ : Z) : bytes := token_for small T2 (pre x21).
Definition hx_pass : bytes :=
  preimage_of small hx_other 0 ++ x20 :: signature_for small hx_other (make_message KAllocate hx_si) 0.
Definition hx_events : list event :=
  [ERequest vx_now vx_room [hx_pass] (Allocate hx_si (PassModel.ascii "r") (PassModel.ascii "c") [0] 7); EClose hx_si 0 (repeat x7a 7)].
Definition hx_server : server := snd (server_run hx_signed 10 2 2 empty_server hx_events).
Definition hx_graph (_ : Z) : node := Node (Some hx_si) None.
Definition hx_world : world := World (fun _ => hx_server) px_db ux_now None.
Definition hx_runs := upkeeps hx_signed 10 2 (preimage_of small px_text) (signature_for small px_text) (fun _ _ => true) (fun _ l => l) ux_slow [3]
  ux_join ux_join ux_join ux_join (fun id => [zb id]) (@rev _) hx_graph 5 (20 * day) (PassModel.ascii "r") (PassModel.ascii "c") (Some 0) ux_due hx_world.

Lemma hx_child a b : ~ child hx_graph a b.
Proof. intros (names & name & E & _). discriminate. Qed.
Lemma hx_reach n : LeaseSpec.reachable hx_graph [0] n -> n = 0.
Proof. intros [[<-|[]]|(r & _ & B)]; [reflexivity|]. exfalso. induction B as [a b C|]; [exact (hx_child _ _ C)|assumption]. Qed.

Example C129_example_hypotheses :
  lawful small /\ sound_proofs small /\ generates small /\
  (forall key, In key [ex_key] -> public_key small key (smul small T2 (base_point small))) /\
  redeemed_wallet (F:=unit) small ex_float ex_repr ex_zero 100 ex_decode 5 px_text px_key [ex_key] (w_db hx_world) /\
  available_count (w_db hx_world) 2 /\
  (forall a b, child hx_graph a b -> (Z.to_nat b < Z.to_nat a)%nat) /\ all_stored hx_graph 0 /\ indexes_under hx_graph 0 [hx_si] /\
  reachable_server hx_signed 10 2 2 (fun _ => false) hx_server /\
  (forall si n s, In si [hx_si] -> In (n, s) (dirs (sv_storage hx_server) si) -> fits 2 s) /\
  exact_price 10 (sizes_everywhere [3] [hx_si] hx_world) 1.
Proof.
  split; [exact small_lawful|]. split; [exact small_sound|]. split; [exact small_generates|].
  split; [exact (proj1 C122_example)|]. split; [exact px_wallet|]. split; [exact (proj1 (proj2 (proj2 (proj2 (proj2 C122_example)))))|].
  split; [intros a b C; destruct (hx_child _ _ C)|].
  split; [intros n H; split; [intros e; discriminate|discriminate]|].
  split.
  { split; [repeat constructor; intros []|]. intros si. split.
    - intros [<-|[]]. exists 0. split; [left; now left|reflexivity].
    - intros (n & _ & [= <-]). now left. }
  split.
  { split; [auto|]. split; [auto|]. exists hx_events, (fst (server_run hx_signed 10 2 2 empty_server hx_events)).
    split; [repeat constructor; cbn; intuition (try discriminate; try lia)|]. split; [repeat constructor|].
    unfold hx_server. now destruct (server_run _ _ _ _ _ _). }
  split.
  { assert (D : exists a, dirs (sv_storage hx_server) hx_si = [(0, a)] /\ fits 2 a).
    { eexists. split; [vm_compute; reflexivity|]. split; [vm_compute; reflexivity|]. intros l [<-|[]]; cbn; lia. }
    destruct D as (a & D & Fa). intros si n s [<-|[]] J. rewrite D in J. destruct J as [[= <- <-]|[]]. exact Fa. }
  assert (Sz : sizes_everywhere [3] [hx_si] hx_world = [7]) by (vm_compute; reflexivity). rewrite Sz. exact (@exact_price_sum 10 [7] eq_refl).
Qed.
Example C129_example : exists a b w1 w2, hx_runs = Some [(a, Ok tt, w1); (b, Ok tt, w2)] /\
  unblinded (w_db w2) = [] /\
  map (fun ns => map l_expiration (s_leases (snd ns))) (dirs (sv_storage (w_servers w2 3)) hx_si) =
    [[1000000 + 31 * 86400; 1000000 + 63 * 86400]].
Proof. do 4 eexists. split; [vm_compute; reflexivity|]. vm_compute. auto. Qed.
