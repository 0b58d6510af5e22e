(** Property theorems C142: a voucher keeps its worth when its node is lost. *)
From Verif Require Import Prelude PreludeFacts BytesModel BytesProofs PassModel PricingModel PricingSpec PricingProofs PricingProperties
  ContainerModel ContainerProofs TahoeModel CborModel StreamModel JsonModel RedeemModel RedeemSpec RedeemProofs RedeemProperties
  ServerModel ServerSpec ServerProofs ServerStateProofs ServerRequestProofs
  StoreModel StoreSpec StoreProofs StoreProperties SpendModel SpendSpec SpendProofs SpendProperties
  ClientModel ClientProofs ServerProperties ClientProperties EnoughSpec EnoughProofs EnoughProperties PaidSpec PaidProofs PaidProperties
  LeaseModel LeaseSpec LeaseProofs LeaseProperties BoughtSpec UpkeepModel UpkeepSpec UpkeepProofs UpkeepProperties WholeProperties
  UploadModel UploadSpec UploadProofs UploadProperties LifeProperties.
From Verif Require Import ReplicaModel ReplicaSpec ReplicaStore ReplicaProperties RestSpec RestProperties RetrySpec
  ControllerModel ControllerSpec ControllerProofs ControllerRunProofs ControllerProperties LossModel LossSpec LossProofs LossProperties
  PurseSpec PurseProperties WorthSpec WorthProofs WorthProperties OutliveSpec.
From Coq Require Import Permutation.

(** ** The history up to the backup *)
Lemma unused_cut es eb : cut es eb -> unused es -> unused eb.
Proof.
  intros (es1 & es2 & -> & [->|(te & te' & rest & -> & Sh & ->)]) U t o J.
  - apply U, in_or_app. now left.
  - apply in_app_or in J as [J|[<-|[]]]; [apply U, in_or_app; now left|].
    destruct te as [[e now] gen]. destruct e; cbn in Sh; try contradiction; first [subst te' | destruct Sh as [? ->]]; discriminate.
Qed.
Lemma unused_app es es2 : unused es -> unused es2 -> unused (es ++ es2).
Proof. intros U1 U2 t o J. apply in_app_or in J as [J|J]; auto. Qed.
Lemma issued_app_l es es' t pk : issued es t pk -> issued (es ++ es') t pk.
Proof. intros (i & toks & now & gen & J & K). exists i, toks, now, gen. split; [exact J|]. destruct K as [K|K]; [left|right]; apply in_or_app; now left. Qed.
Lemma issued_app_r es es' t pk : issued es' t pk -> issued (es ++ es') t pk.
Proof. intros (i & toks & now & gen & J & K). exists i, toks, now, gen. split; [exact J|]. destruct K as [K|K]; [left|right]; apply in_or_app; now right. Qed.
Lemma issued_app es es' t pk : issued (es ++ es') t pk -> issued es t pk \/ issued es' t pk.
Proof.
  intros (i & toks & now & gen & J & K). destruct K as [K|K]; apply in_app_or in K as [K|K]; [left|right|left|right]; exists i, toks, now, gen; auto.
Qed.
Lemma issued_shorter te te' rest t pk : shorter te te' -> issued [te'] t pk -> issued (te :: rest) t pk.
Proof.
  intros Sh (i & toks & now & gen & J & K). exists i, toks, now, gen. split; [exact J|]. left. left.
  destruct te as [[e n0] g0]. destruct e; cbn in Sh; try contradiction; first [subst te' | destruct Sh as [? ->]];
    destruct K as [[K|[]]|[K|[]]]; try discriminate K. now injection K as <- <- <- <-.
Qed.
Lemma never_cut es eb es2 : cut es eb -> never_again (es ++ es2) -> never_again (eb ++ es2).
Proof.
  intros C N e1 reason ts now gen e2 t pk E J I.
  destruct (prefix_app _ _ _ _ E) as [(z & Hz)|(z & -> & Hz)].
  2:{ apply (N (es ++ z) reason ts now gen e2 t pk); [now rewrite <- app_assoc, Hz|exact J|exact I]. }
  destruct z as [|x z].
  { rewrite app_nil_r in Hz. subst e1. apply app_inv_head in E. subst es2. exact (N es reason ts now gen e2 t pk eq_refl J I). }
  rewrite Hz, <- app_assoc in E. apply app_inv_head in E. cbn in E. injection E as -> E. subst e2. set (inv := (EWallet (OInvalidate reason ts), now, gen)) in *.
  destruct C as (es1 & es3 & -> & [->|(te & te' & rest & -> & Sh & ->)]).
  - subst es1. apply (N e1 reason ts now gen (z ++ es3 ++ es2) t pk); [now rewrite <- !app_assoc|exact J|].
    apply issued_app in I as [I|I]; [now apply issued_app_l|now apply issued_app_r, issued_app_r].
  - destruct (rev_case z) as [->|(y & z' & ->)].
    + apply app_inj_tail in Hz as [-> ->]. exfalso. destruct te as [[e n0] g0]. destruct e; cbn in Sh; try contradiction; first [discriminate Sh | destruct Sh as [? Sh]; discriminate Sh].
    + rewrite app_comm_cons, app_assoc in Hz. apply app_inj_tail in Hz as [-> <-].
      apply (N e1 reason ts now gen (z' ++ (te :: rest) ++ es2) t pk); [now rewrite <- !app_assoc|exact J|].
      apply issued_app in I as [I|I]; [|now apply issued_app_r, issued_app_r]. apply issued_app in I as [I|I]; [now apply issued_app_l|].
      apply issued_app_r, issued_app_l. now apply (@issued_shorter te te' rest).
Qed.

(** ** The lost node and the recovered one as one node *)
Section Joined.
Variable text_size : mut -> Z.
Variable stream_size : list (change mut) -> Z.
Hypothesis fit : sizes_fit text_size stream_size.
Variable L : library.
Variable F : Type.
Variable float_of : text -> F.
Variable float_repr : F -> text.
Variable float_zero : F -> bool.
Variable max_digits : nat.
Variable decode : bytes -> option text.
Variable depth : nat.
Variable token_text : Z -> bytes.
Variable key_text : Z -> text.
Variable random_text : Z -> bytes.
Variable voucher_text : Z -> bytes.
Variables (groups dflt : Z) (allowed : list Z).
Notation real := (really_redeemed (F:=F) L float_of float_repr float_zero max_digits decode depth token_text key_text random_text voucher_text groups dflt allowed).
Notation at_work := (redeemer_at_work (F:=F) L float_of float_repr float_zero max_digits decode depth token_text key_text random_text voucher_text groups dflt allowed).

Lemma one_node es ws n r :
  node_life text_size stream_size groups dflt allowed es ws ->
  wall_along text_size stream_size wharmless empty_wallet ws ->
  wrun text_size stream_size empty_wallet ws = (n, r) -> n_work n = Idle ->
  at_work new_node es ->
  exists a eb, recover sexec r = Ok a /\ cut es eb /\
  forall es2 out2 c2, Forall proper es2 -> restarted es2 ->
  controller_run groups dflt allowed (recovered_node a) es2 = (out2, c2) -> at_work (recovered_node a) es2 ->
  exists out, lived groups dflt allowed (eb ++ es2) out c2 /\ real (eb ++ es2) /\
  (forall v, is_paid groups dflt allowed v new_node es -> is_paid groups dflt allowed v (recovered_node a) es2 -> paid groups dflt allowed v (eb ++ es2)) /\
  (forall v, signed_as_allowed groups dflt allowed v new_node es -> signed_as_allowed groups dflt allowed v (recovered_node a) es2 ->
     allowed_keys_only groups dflt allowed v (eb ++ es2)).
Proof.
  intros Lf H E Wk Re. destruct (lost_and_recovered fit Lf H E Wk) as (a & eb & Rc & C & Pb & Ra & _). exists a, eb. split; [exact Rc|]. split; [exact C|].
  intros es2 out2 c2 P2 (te & rest & -> & St) R2 Re2.
  exists (fst (controller_run groups dflt allowed new_node eb) ++ out2).
  split; [exact (@joined_lived groups dflt allowed a eb Pb Ra (te :: rest) out2 c2 P2 St ltac:(discriminate) R2)|].
  pose proof (fun v P => @joined_answers groups dflt allowed a eb Ra (te :: rest) St v P) as J.
  pose proof (fun v P => @answers_cut groups dflt allowed v es eb P C) as K.
  split; [|split].
  - intros es1 i toks pk now gen es3 out c f Ev Rn N.
    assert (X : at_work new_node (eb ++ te :: rest)).
    { intros v. apply J; [intros ? ? ? ? Y; exact Y|exact (K _ _ (Re v))|exact (Re2 v)]. }
    exact (X (f_voucher f) es1 i _ now gen es3 out c f Ev Rn N eq_refl).
  - intros v H1 H2. exact (J v (fun _ _ x => x <> AUnpaid) (fun _ _ _ _ X => X) (K _ _ H1) H2).
  - intros v H1 H2 es1 i toks pk now gen es3 out c f Ev Rn N Vf.
    assert (X : signed_as_allowed groups dflt allowed v new_node (eb ++ te :: rest)).
    { apply J; [intros ? ? ? ? Y; exact Y|exact (K _ _ H1)|exact H2]. }
    exact (X es1 i _ now gen es3 out c f Ev Rn N Vf).
Qed.
End Joined.

(** ** The theorems *)

(** The node is lost while replication is at rest, and another one recovers its wallet and is started.  Once vouchers are shown redeemed
    there, the user is shown at least as many tokens as they were submitted for, whether they were redeemed before or after the loss. *)
Theorem C142_recovered_vouchers_are_worth_their_tokens :
  forall text_size stream_size, sizes_fit text_size stream_size ->
  forall L F float_of float_repr float_zero max_digits decode depth token_text key_text random_text voucher_text groups dflt allowed es ws n r,
  lawful L -> sound_proofs L -> good_random L random_text ->
  node_life text_size stream_size groups dflt allowed es ws ->
  wall_along text_size stream_size wharmless empty_wallet ws ->
  wrun text_size stream_size empty_wallet ws = (n, r) -> n_work n = Idle ->
  unused es ->
  redeemer_at_work (F:=F) L float_of float_repr float_zero max_digits decode depth token_text key_text random_text voucher_text groups dflt allowed new_node es ->
  exists a, recover sexec r = Ok a /\
  forall es2 out2 c2 rows, Forall proper es2 -> restarted es2 -> unused es2 ->
  controller_run groups dflt allowed (recovered_node a) es2 = (out2, c2) ->
  redeemer_at_work (F:=F) L float_of float_repr float_zero max_digits decode depth token_text key_text random_text voucher_text groups dflt allowed (recovered_node a) es2 ->
  NoDup (map v_number rows) ->
  (forall vr, In vr rows -> row c2 vr /\ v_state vr = SRedeemed /\
     is_paid groups dflt allowed (v_number vr) new_node es /\ is_paid groups dflt allowed (v_number vr) (recovered_node a) es2 /\
     signed_as_allowed groups dflt allowed (v_number vr) new_node es /\ signed_as_allowed groups dflt allowed (v_number vr) (recovered_node a) es2) ->
  exists k, shows (c_db c2) k /\ worth rows <= k.
Proof.
  intros text_size stream_size fit L F float_of float_repr float_zero max_digits decode depth token_text key_text random_text voucher_text groups dflt allowed
    es ws n r Law Sp Iv Lf H E Wk U Re.
  destruct (@one_node text_size stream_size fit L F float_of float_repr float_zero max_digits decode depth token_text key_text random_text voucher_text groups dflt allowed
    es ws n r Lf H E Wk Re) as (a & eb & Rc & C & J). exists a. split; [exact Rc|].
  intros es2 out2 c2 rows P2 S2 U2 R2 Re2 N Hr. destruct (J es2 out2 c2 P2 S2 R2 Re2) as (out & Lv & Rl & Pd & Ak).
  eapply C141_vouchers_are_worth_their_tokens; [exact Law|exact Sp|exact Iv|exact Lv|apply unused_app; [exact (unused_cut _ _ C U)|exact U2]|exact Rl|exact N|].
  intros vr Jr. destruct (Hr vr Jr) as (X1 & X2 & X3 & X4 & X5 & X6). auto.
Qed.
Print Assumptions C142_recovered_vouchers_are_worth_their_tokens.

(** With as many tokens as the user of the recovered node is shown, files can be uploaded and kept; provided that what was declared invalid
    was never given again. *)
Theorem C142_recovered_tokens_store_files :
  forall text_size stream_size, sizes_fit text_size stream_size ->
  forall L F float_of float_repr float_zero max_digits decode depth token_text key_text random_text voucher_text groups dflt allowed es ws n r server_key,
  lawful L -> sound_proofs L -> generates L -> good_random L random_text ->
  (forall pk, In pk allowed -> public_key L (key_text pk) (smul L server_key (base_point L))) ->
  (forall pk, In (key_text pk) (map key_text allowed) -> In pk allowed) ->
  node_life text_size stream_size groups dflt allowed es ws ->
  wall_along text_size stream_size wharmless empty_wallet ws ->
  wrun text_size stream_size empty_wallet ws = (n, r) -> n_work n = Idle ->
  redeemer_at_work (F:=F) L float_of float_repr float_zero max_digits decode depth token_text key_text random_text voucher_text groups dflt allowed new_node es ->
  exists a, recover sexec r = Ok a /\
  forall es2 out2 c2 k
    pv iv mv mut room scan later content servers frh brh fch bch seed order graph (rank : Z -> nat) remaining rs cs root
    needed total files sizes rest others due w price horizon,
  let signed := signed_by L server_key in
  let preimage := preimage_of L token_text in
  let sign := signature_for L token_text in
  Forall proper es2 -> restarted es2 -> never_again (es ++ es2) ->
  controller_run groups dflt allowed (recovered_node a) es2 = (out2, c2) ->
  redeemer_at_work (F:=F) L float_of float_repr float_zero max_digits decode depth token_text key_text random_text voucher_text groups dflt allowed (recovered_node a) es2 ->
  shows (c_db c2) k -> w_db w = c_db c2 ->
  fair_scan scan -> 0 < pv -> 0 < needed ->
  (forall id n, room id n = true) ->
  (forall t, t <= later t) -> (forall t, t <= horizon -> later t <= horizon) ->
  w_time w <= horizon -> (forall now, In now due -> now <= horizon) -> month_after horizon < 2 ^ 32 -> 0 < w_clock w -> 0 <= remaining ->
  NoDup servers ->
  (forall id, In id servers -> reachable_server signed pv iv mv mut (w_servers w id) /\ incoming (sv_storage (w_servers w id)) = []) ->
  NoDup (map f_si files) ->
  (forall f, In f files -> placed total f /\ placed_once f /\ mut (f_si f) = false /\ 0 <= f_share_size f) ->
  (forall f id n, In f files -> goes_to f id n -> Z.of_nat (length (content (f_si f) n)) = f_share_size f) ->
  (forall f id nums, In f files -> In (id, nums) (f_places f) -> In id servers) ->
  (forall f id n s, In f files -> In id servers -> ~ has_share w id (f_si f) n s) ->
  Forall2 (fun f size => least_cover needed size (f_share_size f)) files sizes ->
  calculate needed total pv sizes = Ok price ->
  (forall l, Permutation (order l) l) -> (forall a b, child graph a b -> (rank b < rank a)%nat) ->
  all_stored graph root -> indexes_under graph root (map f_si files ++ rest) ->
  (forall id si n s, In id servers -> In si rest -> has_share w id si n s -> fits (Z.of_nat (length due)) s) ->
  Z.of_nat (length due) + 1 < 2 ^ 32 ->
  exact_price pv (sizes_everywhere servers rest w) others ->
  price + (price + others) * Z.of_nat (length due) <= k -> price + others <= SQLITE3_INTEGER_MAX ->
  exists w1, upload signed pv iv mv preimage sign room scan later content files w = Some (Ok tt, w1) /\
    exists fuel runs,
    upkeeps signed pv mv preimage sign room scan later servers frh brh fch bch seed order graph fuel remaining rs cs (Some root) due w1 = Some runs /\
    length runs = length due /\
    (forall began r w', In (began, r, w') runs -> r = Ok tt /\
     forall f id n, In f files -> goes_to f id n ->
     exists s, has_share w' id (f_si f) n s /\ s_data s = content (f_si f) n /\ lasts (began + Z.min remaining nearly_a_month) s) /\
    fine_tokens signed preimage sign (w_db (last (map snd runs) w1)) (k - price - (price + others) * Z.of_nat (length due)).
Proof.
  intros text_size stream_size fit L F float_of float_repr float_zero max_digits decode depth token_text key_text random_text voucher_text groups dflt allowed
    es ws n r server_key Law Sp G Iv Hk Kt Lf H E Wk Re.
  destruct (@one_node text_size stream_size fit L F float_of float_repr float_zero max_digits decode depth token_text key_text random_text voucher_text groups dflt allowed
    es ws n r Lf H E Wk Re) as (a & eb & Rc & C & J). exists a. split; [exact Rc|].
  intros es2 out2 c2 k pv iv mv mut room scan later content servers frh brh fch bch seed order graph rank remaining rs cs root
    needed total files sizes rest others due w price horizon signed preimage sign P2 S2 Na R2 Re2.
  destruct (J es2 out2 c2 P2 S2 R2 Re2) as (out & Lv & Rl & _).
  exact (@C141_shown_tokens_store_files L F float_of float_repr float_zero max_digits decode depth token_text key_text random_text voucher_text groups dflt allowed
    (eb ++ es2) out c2 k server_key pv iv mv mut room scan later content servers frh brh fch bch seed order graph rank remaining rs cs root
    needed total files sizes rest others due w price horizon Law Sp G Iv Hk Kt Lv (never_cut _ _ _ C Na) Rl).
Qed.
Print Assumptions C142_recovered_tokens_store_files.

(** ** Example *)

(** The node of C141's example is lost after it received its tokens and before that reached the replica.  The recovered node asks again,
    with the same random tokens, and gets the tokens that upload and keep the file. *)
Definition oy_at (i : nat) : ctl := snd (controller_run 1 5 [55] new_node (firstn i wy_es)).
Definition oy_te (i : nat) : timed := nth i wy_es (EStart, 0, wy_gen).
Fixpoint oy_ws (i : nat) : list wevent :=
  match i with
  | O => []
  | S j => (oy_ws j ++ wallet_events 1 5 [55] (oy_at j) (oy_te j) (lost_before j) false) ++ dones (match j with 1%nat => 2 | _ => 0 end)
  end.
Notation oy_wallet := (wrun size10 size100 empty_wallet (oy_ws 3)).
Definition oy_backup : db := match recover sexec (snd oy_wallet) with Ok a => a | Err _ => c_db new_node end.
Definition oy_es : list timed := [(EStart, 2000, wy_gen); (EAnswer 0 (ASuccess [11; 12] 55), 2001, wy_gen)].
Definition oy_run := controller_run 1 5 [55] (recovered_node oy_backup) oy_es.
Definition oy_world : world := World (fun _ => empty_server) (c_db (snd oy_run)) ux_now None.
Definition oy_upload := upload hx_signed 10 2 2 (preimage_of small px_text) (signature_for small px_text) (fun _ _ => true) (fun _ l => l) ux_slow
  ry_content [ry_file] oy_world.
Lemma oy_enough : enough wy_gen.
Proof. intros v c n Hn; unfold wy_gen; rewrite map_length, seq_length; lia. Qed.
Lemma oy_life : node_life size10 size100 1 5 [55] wy_es (oy_ws 3).
Proof.
  assert (Fi : forall i, (i <= 3)%nat -> node_life size10 size100 1 5 [55] (firstn i wy_es) (oy_ws i)).
  { intros i. induction i as [|j IH]; intros Hi; [constructor|]. specialize (IH ltac:(lia)).
    assert (E : firstn (S j) wy_es = firstn j wy_es ++ [oy_te j]) by (do 3 (destruct j as [|j]; [reflexivity|]); lia).
    rewrite E. cbn [oy_ws]. apply life_more; [|apply dones_replicate].
    apply life_redemption; [exact IH| | |].
    - do 3 (destruct j as [|j]; [exact oy_enough|]). lia.
    - destruct j; [|constructor]. constructor; [exact I|]. apply dones_replicate.
    - do 3 (destruct j as [|j]; [vm_compute; auto|]). lia. }
  exact (Fi 3%nat ltac:(lia)).
Qed.
(** The answers there are *)
Lemma oy_answers v es c0 (P : list output -> flight -> answer -> Prop) : (es = wy_es /\ c0 = new_node \/ es = oy_es /\ c0 = recovered_node oy_backup) ->
  (forall out, P out (Flight 7 0 2 [101; 102]) (ASuccess [11; 12] 55)) -> answers_about 1 5 [55] v c0 es P.
Proof.
  intros W H es1 i a now gen es2 out c f E R N _.
  assert (X : f = Flight 7 0 2 [101; 102] /\ a = ASuccess [11; 12] 55); [|destruct X as [-> ->]; apply H].
  destruct W as [[-> ->]|[-> ->]].
  - unfold wy_es in E. destruct E as [E|E]; destruct es1 as [|x [|y [|z [|u es1]]]]; cbn in E; try discriminate E.
    injection E as <- <- <- <- <- <- <-. split; [|reflexivity]. vm_compute in R. injection R as <- <-. cbn in N. now injection N.
  - unfold oy_es in E. destruct E as [E|E]; destruct es1 as [|x [|y [|z es1]]]; cbn in E; try discriminate E.
    injection E as <- <- <- <- <- <-. split; [|reflexivity]. vm_compute in R. injection R as <- <-. cbn in N. now injection N.
Qed.
Example C142_example_hypotheses :
  sizes_fit size10 size100 /\ node_life size10 size100 1 5 [55] wy_es (oy_ws 3) /\
  wall_along size10 size100 wharmless empty_wallet (oy_ws 3) /\ n_work (fst oy_wallet) = Idle /\
  recover sexec (snd oy_wallet) = Ok oy_backup /\ unused wy_es /\
  redeemer_at_work (F:=unit) small ex_float ex_repr ex_zero 100 ex_decode 5 px_text wy_key wy_random wy_voucher 1 5 [55] new_node wy_es /\
  Forall proper oy_es /\ restarted oy_es /\ unused oy_es /\ never_again (wy_es ++ oy_es) /\
  redeemer_at_work (F:=unit) small ex_float ex_repr ex_zero 100 ex_decode 5 px_text wy_key wy_random wy_voucher 1 5 [55] (recovered_node oy_backup) oy_es /\
  (** the backup has no token yet *)
  unblinded oy_backup = [] /\ map v_state (vouchers oy_backup) = [SPending] /\
  shows (c_db (snd oy_run)) 2 /\
  exists vr, row (snd oy_run) vr /\ v_state vr = SRedeemed /\ worth [vr] = 2 /\
    is_paid 1 5 [55] (v_number vr) new_node wy_es /\ is_paid 1 5 [55] (v_number vr) (recovered_node oy_backup) oy_es /\
    signed_as_allowed 1 5 [55] (v_number vr) new_node wy_es /\ signed_as_allowed 1 5 [55] (v_number vr) (recovered_node oy_backup) oy_es.
Proof.
  assert (U1 : unused wy_es) by (intros te o [<-|[<-|[<-|[]]]]; discriminate).
  assert (U2 : unused oy_es) by (intros te o [<-|[<-|[]]]; discriminate).
  assert (Re : forall c0 es, (es = wy_es /\ c0 = new_node \/ es = oy_es /\ c0 = recovered_node oy_backup) ->
    redeemer_at_work (F:=unit) small ex_float ex_repr ex_zero 100 ex_decode 5 px_text wy_key wy_random wy_voucher 1 5 [55] c0 es).
  { intros c0 es W v. apply oy_answers; [exact W|]. intros _. exists ex_answer. vm_compute. reflexivity. }
  split; [exact RestProperties.sizes|]. split; [exact oy_life|]. split; [harmless_tac|]. split; [vm_compute; reflexivity|]. split; [vm_compute; reflexivity|].
  split; [exact U1|]. split; [apply Re; auto|]. split; [repeat constructor; exact oy_enough|]. split; [eexists _, _; split; [reflexivity|exact I]|]. split; [exact U2|].
  split. { intros es1 reason ts now gen es2 t pk E _ _. exact (unused_app _ _ U1 U2 (EWallet (OInvalidate reason ts), now, gen) (OInvalidate reason ts) ltac:(rewrite E; apply in_elt) eq_refl). }
  split; [apply Re; auto|]. split; [vm_compute; reflexivity|]. split; [vm_compute; reflexivity|]. split; [vm_compute; reflexivity|].
  eexists. split; [left; vm_compute; reflexivity|]. cbn [v_state v_number worth map sumZ v_expected]. split; [reflexivity|]. split; [reflexivity|].
  split; [apply oy_answers; [auto|discriminate]|]. split; [apply oy_answers; [auto|discriminate]|].
  split; apply oy_answers; auto; intros _; now left.
Qed.
Example C142_example : exists w1 w2 a, oy_upload = Some (Ok tt, w1) /\ ry_upkeeps w1 = Some [(a, Ok tt, w2)] /\
  shows (w_db w1) 1 /\ shows (w_db w2) 0 /\
  map (fun ns => s_data (snd ns)) (dirs (sv_storage (w_servers w2 3)) hx_si) = [repeat x7a 7].
Proof. do 3 eexists. split; [vm_compute; reflexivity|]. split; [vm_compute; reflexivity|]. vm_compute. auto. Qed.
