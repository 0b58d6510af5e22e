(** The client's prices, and client and server together. *)
From Verif Require Import Prelude PreludeFacts BytesModel BytesProofs PassModel PricingModel PricingSpec PricingProofs
  ContainerModel ContainerProofs TahoeModel ServerModel ServerSpec ServerProofs ServerStateProofs ServerRequestProofs
  StoreModel StoreSpec StoreProofs SpendModel SpendSpec SpendProofs ClientModel.
Set Implicit Arguments.

(** ** Prices *)

(** A dictionary of the sizes of the shares written to prices like the sizes of
    all shares. *)
Lemma restricted_price pv cur tw f g ks : 0 < pv -> dict_wf tw -> (forall k, 0 <= f k) -> written f tw g ->
  dict_wf cur -> (forall k, dget_or 0 k cur = if memZ k (get_write_sharenums tw) then f k else 0) ->
  NoDup ks -> incl (dkeys cur) ks -> incl (dkeys tw) ks ->
  get_required_new_passes_for_mutable_write pv cur tw = Ok (total_price pv ks g - total_price pv ks f).
Proof.
  intros Hv Wt Fp G Wc Cg N I1 I2. set (ws := get_write_sharenums tw) in *.
  set (f' := fun k => if memZ k ws then f k else 0).
  assert (R : represents cur f') by (split; [exact Wc|exact Cg]).
  assert (Unw : forall k, memZ k ws = false -> forall w, dget k tw = Some w -> tw_data w = []).
  { intros k M w D. apply memZ_not_In in M. destruct (tw_data w) eqn:X; [reflexivity|].
    exfalso. apply M. apply (write_sharenums_In k Wt). exists w. split; [exact D|congruence]. }
  set (g' := fun k => if memZ k ws then g k else 0).
  assert (G' : written f' tw g').
  { intros k. unfold f', g'. destruct (memZ k ws) eqn:M; [apply G|].
    specialize (Unw k M). destruct (dget k tw) as [w|]; cbn; [|reflexivity].
    exists 0. rewrite (Unw w eq_refl). split; [left; auto|]. destruct (tw_new_length w); lia. }
  erewrite (@mutable_price_growth pv cur tw f' g' ks Hv Wt R);
    [|intros k; unfold f'; destruct (memZ k ws); [apply Fp|lia]|exact G'|exact N|exact I1|exact I2].
  f_equal. rewrite sumZ_map_sub. unfold total_price. rewrite <- !sumZ_map_sub. apply sumZ_map_ext.
  intros k _. unfold f', g'. destruct (memZ k ws) eqn:M; [reflexivity|].
  rewrite (written_unwritten _ Fp G (Unw k M)). rewrite cdiv_0 by exact Hv. lia.
Qed.

Lemma fold_max_spec l : forall x, x <= fold_left Z.max l x /\ (forall y, In y l -> y <= fold_left Z.max l x) /\
  (fold_left Z.max l x = x \/ In (fold_left Z.max l x) l).
Proof.
  induction l as [|a l IH]; intros x; cbn; [split; [lia|split; [intros ? []|auto]]|].
  destruct (IH (Z.max x a)) as (A & B & C). split; [lia|]. split.
  - intros y [<-|I]; [lia|auto].
  - destruct C as [C|C]; [|auto]. rewrite C. destruct (Z.max_spec x a) as [[_ ->]|[_ ->]]; auto.
Qed.

(** The latest expiration decides whether a share is active. *)
Lemma stat_active now s : 0 <= now -> (lease_expiration (stat_of s) * hz >? now) = activeb now s.
Proof.
  intros Hn. unfold stat_of, activeb. cbn [lease_expiration]. destruct (s_leases s) as [|l ls]; cbn [map or_0 existsb].
  - unfold hz. lia.
  - destruct (fold_max_spec (map l_expiration ls) (l_expiration l)) as (A & B & C).
    set (m := fold_left Z.max (map l_expiration ls) (l_expiration l)) in *.
    apply Bool.eq_iff_eq_true. rewrite orb_true_iff, existsb_exists. split.
    + intros H. destruct C as [C|C]; [left; rewrite <- C; exact H|right].
      apply in_map_iff in C. destruct C as (l' & E & I). exists l'. split; [exact I|]. rewrite E. exact H.
    + intros [H|(l' & I & H)].
      * unfold hz in *. lia.
      * specialize (B _ (in_map l_expiration _ _ I)). unfold hz in *. lia.
Qed.

Lemma stat_shares_eq sv si : wf_dir (dirs (sv_storage sv) si) -> homogeneous (dirs (sv_storage sv) si) ->
  remote_stat_shares sv si = Ok (map (fun ns => (fst ns, stat_of (snd ns))) (dirs (sv_storage sv) si)).
Proof.
  intros W H. unfold remote_stat_shares, dir_of. rewrite (share_stats_dir (fun _ _ _ => true) None W H). cbn [bind].
  assert (Wn : wanted_shares None (dirs (sv_storage sv) si) = dirs (sv_storage sv) si).
  { unfold wanted_shares. cbn. induction (dirs (sv_storage sv) si) as [|x d IH]; cbn; [reflexivity|].
    rewrite IH; [reflexivity| |].
    - destruct W as [W1 W2]. split; [inversion W1; assumption|]. intros n s I. apply (W2 n). right. exact I.
    - destruct H as [H|H]; [left|right]; intros n s I; apply (H n); right; exact I. }
  rewrite Wn. rewrite dict_of_id by (rewrite keys_map_snd; apply W). reflexivity.
Qed.

Lemma share_sizes_eq sv si : wf_dir (dirs (sv_storage sv) si) -> homogeneous (dirs (sv_storage sv) si) ->
  remote_share_sizes sv si None = Ok (map (fun ns => (fst ns, data_size (snd ns))) (dirs (sv_storage sv) si)).
Proof.
  intros W H. unfold remote_share_sizes, dir_of. rewrite (share_sizes_dir (fun _ _ _ => true) None W H). cbn [bind].
  assert (Wn : wanted_shares None (dirs (sv_storage sv) si) = dirs (sv_storage sv) si).
  { unfold wanted_shares. cbn. induction (dirs (sv_storage sv) si) as [|x d IH]; cbn; [reflexivity|].
    rewrite IH; [reflexivity| |].
    - destruct W as [W1 W2]. split; [inversion W1; assumption|]. intros n s I. apply (W2 n). right. exact I.
    - destruct H as [H|H]; [left|right]; intros n s I; apply (H n); right; exact I. }
  rewrite Wn. rewrite dict_of_id by (rewrite keys_map_snd; apply W). reflexivity.
Qed.

Lemma client_price_writev pv sv si stats now we renew cancel tw rv n :
  0 < pv -> 0 <= now -> wf_dir (dirs (sv_storage sv) si) -> homogeneous (dirs (sv_storage sv) si) -> dict_wf tw ->
  remote_stat_shares sv si = Ok stats ->
  price pv (sv_storage sv) now (Writev si we renew cancel tw rv) n ->
  client_write_price pv stats now tw = Ok n.
Proof.
  intros Hv Hn W H Wt Es (f & g & ks & F & G & N & I1 & I2 & ->).
  rewrite stat_shares_eq in Es by assumption. injection Es as <-.
  set (d := dirs (sv_storage sv) si) in *.
  assert (Fp : forall k, 0 <= f k) by (intros k; rewrite (paid_unique (proj1 W) (F k)); apply paid_nonneg).
  unfold client_write_price. set (ws := get_write_sharenums tw).
  destruct (Z.gtb_spec (lenZ ws) 0) as [L|L].
  - set (cur := map (fun ns => (fst ns, size (snd ns))) _).
    assert (Ecur : cur = map (fun ns => (fst ns, data_size (snd ns)))
              (filter (fun ns => activeb now (snd ns) && memZ (fst ns) ws) d)).
    { unfold cur. clear - Hn. induction d as [|[m s] d IH]; cbn -[stat_of]; [reflexivity|].
      rewrite stat_active by exact Hn. destruct (activeb now s && memZ m ws); cbn -[stat_of]; rewrite IH; reflexivity. }
    assert (Cw : dict_wf cur).
    { rewrite Ecur. unfold dict_wf, dkeys. rewrite keys_map_snd. apply NoDup_filter_keys, W. }
    apply restricted_price; try assumption.
    + intros k. unfold dget_or. rewrite (paid_unique (proj1 W) (F k)). unfold paid. fold d ws.
      rewrite Ecur. assert (Wd := proj1 W). clear - Wd.
      induction d as [|[m s] d IH]; cbn; [destruct (memZ k ws); reflexivity|].
      inversion Wd as [|? ? N1 N2]; subst. specialize (IH N2).
      destruct (activeb now s && memZ m ws) eqn:B; cbn.
      * destruct (Z.eqb_spec k m) as [->|Nk]; [|exact IH]. apply andb_true_iff in B. destruct B as [-> ->]. reflexivity.
      * destruct (Z.eqb_spec k m) as [->|Nk]; [|exact IH].
        assert (X : dget m d = None) by (apply dget_None; exact N1).
        rewrite X in IH. rewrite IH. destruct (memZ m ws); [|reflexivity].
        rewrite andb_true_r in B. rewrite B. reflexivity.
    + rewrite Ecur. unfold dkeys. rewrite keys_map_snd. intros k K. apply I1. unfold dkeys in *.
      apply in_map_iff in K. destruct K as (x & <- & K). apply filter_In in K. apply in_map, K.
  - f_equal. assert (E : ws = []) by (unfold lenZ in L; destruct ws; [reflexivity|cbn in L; lia]).
    assert (Eq : forall k, g k = f k).
    { intros k. apply (written_unwritten _ Fp G). intros w D. destruct (tw_data w) eqn:X; [reflexivity|].
      exfalso. assert (In k ws); [|rewrite E in *; contradiction].
      apply (write_sharenums_In k Wt). exists w. split; [exact D|congruence]. }
    unfold total_price. rewrite (@sumZ_map_ext _ (fun k => cdiv (g k) pv) (fun k => cdiv (f k) pv)); [lia|].
    intros k _. rewrite Eq. reflexivity.
Qed.

Lemma client_price_lease pv sv si sizes now renew cancel n :
  0 < pv -> wf_dir (dirs (sv_storage sv) si) -> homogeneous (dirs (sv_storage sv) si) ->
  remote_share_sizes sv si None = Ok sizes ->
  price pv (sv_storage sv) now (AddLease si renew cancel) n ->
  client_lease_price pv sizes = Ok n.
Proof.
  intros Hv W H Es P. rewrite share_sizes_eq in Es by assumption. injection Es as <-. unfold client_lease_price.
  apply required_passes_exact; [exact Hv|]. cbn in P. unfold dvalues. rewrite map_map. exact P.
Qed.

Lemma no_writes_free pv stats now tw : get_write_sharenums tw = [] -> client_write_price pv stats now tw = Ok 0.
Proof. intros E. unfold client_write_price. rewrite E. reflexivity. Qed.

(** ** Client and server together *)

Lemma refusal_changes_nothing signed pv mv now room passes q sv v n failed sv' :
  serve signed pv mv now room passes q sv = (Err (MorePassesRequired v n failed), sv') -> sv' = sv.
Proof.
  destruct q as [si renew cancel nums sz|si renew cancel|si we renew cancel tw rv]; cbn.
  - unfold remote_allocate_buckets. destruct (validate_passes _ _ _); [|congruence].
    destruct (check_pass_quantity_for_write _ _ _ _); [|congruence].
    destruct (tahoe_allocate_buckets _ _ _ _ _ _ _ _) as [[[x y]|e] st]; [|discriminate].
    destruct (required_passes _ _); discriminate.
  - unfold remote_add_lease. destruct (validate_passes _ _ _); [|congruence].
    destruct (check_pass_quantity_for_lease _ _ _); [|congruence].
    destruct (tahoe_add_lease _ _ _ _ _ _) as [[x|e] st]; discriminate.
  - unfold remote_slot_writev. destruct (first_new_length tw); [discriminate|].
    destruct (validate_passes _ _ _); [|congruence].
    destruct (get_writev_price _ _ _ _); [|congruence].
    destruct (_ >? _); [congruence|]. destruct (tahoe_writev _ _ _ _ _ _) as [[[x y]|e] st]; [|discriminate].
    unfold add_leases_for_writev.
    destruct (add_leases_loop room renew cancel tw now (dirs st si)) as [[u|e] d'] eqn:Al; [discriminate|].
    intros [= -> _]. exfalso. revert d' Al. induction (dirs st si) as [|[m s] d IH]; intros d' Al; cbn in Al; [discriminate|].
    destruct (dget m tw) as [w|].
    2:{ destruct (add_leases_loop room renew cancel tw now d) as [r0 d0]. injection Al as -> <-. eapply IH. reflexivity. }
    destruct (is_write w).
    2:{ destruct (add_leases_loop room renew cancel tw now d) as [r0 d0]. injection Al as -> <-. eapply IH. reflexivity. }
    destruct (existsb _ _).
    1:{ destruct (add_leases_loop room renew cancel tw now d) as [r0 d0]. injection Al as -> <-. eapply IH. reflexivity. }
    destruct (add_or_renew_lease _ _ _ _ _ _); [|discriminate].
    destruct (add_leases_loop room renew cancel tw now d) as [r0 d0]. injection Al as -> <-. eapply IH. reflexivity.
Qed.

Section Together.
Variable signed : bytes -> bytes -> bytes -> bool.
Variables pv mv : Z.
Variable preimage : Z -> bytes.
Variable sign : bytes -> Z -> bytes.
Variable now : Z.
Variable room : Z -> bool.

(** What the Ristretto library guarantees: 64 bytes in base64 have 88
    characters, none a space. *)
Definition sound_passes : Prop :=
  (forall t, length (preimage t) = 88%nat /\ ~ In x20 (preimage t)) /\
  (forall m t, length (sign m t) = 88%nat /\ ~ In x20 (sign m t)).
(** The tokens presented during a call have different preimages. *)
Definition different_preimages {R} (tr : list (attempt pass R)) : Prop :=
  forall t t', taken tr t -> taken tr t' -> preimage t = preimage t' -> t = t'.
Hypothesis Hs : sound_passes.

Lemma ristretto_pass_eq m t : ristretto_pass preimage sign m t = Ok (Pass (preimage t) (sign m t)).
Proof.
  unfold ristretto_pass, make_pass, base64_bytes. destruct Hs as (A & B). rewrite (proj1 (A t)), (proj1 (B m t)). reflexivity.
Qed.

Lemma encoded_wf m t : well_formed (pass_bytes (Pass (preimage t) (sign m t))).
Proof. destruct Hs as (A & B). exists (preimage t), (sign m t). repeat split; try apply A; apply B. Qed.
Lemma encoded_preimage m t : preimage_of (pass_bytes (Pass (preimage t) (sign m t))) = preimage t.
Proof. unfold preimage_of, pass_bytes. cbn [p_preimage]. destruct Hs as (A & _). apply firstn_app_exact. apply A. Qed.

Variable q : request.
Notation msg := (make_message (kind_of q) (index_of q)).
Notation to_pass := (fun _ : Z => ristretto_pass preimage sign msg).
Notation serve := (serve signed pv mv).

Lemma encode_group g : Forall (fun tp => to_pass 0 (fst tp) = Ok (snd tp)) g ->
  encode_passes g = map (fun t => pass_bytes (Pass (preimage t) (sign msg t))) (map fst g).
Proof.
  induction 1 as [|[t p] g E F IH]; cbn; [reflexivity|]. cbn in E. rewrite ristretto_pass_eq in E. injection E as <-.
  f_equal. exact IH.
Qed.

Lemma encode_wf g : Forall (fun tp => to_pass 0 (fst tp) = Ok (snd tp)) g -> forall s, In s (encode_passes g) -> well_formed s.
Proof. intros F s I. rewrite (encode_group F) in I. apply in_map_iff in I. destruct I as (t & <- & _). apply encoded_wf. Qed.

Lemma filter_all A (f : A -> bool) l : (length l <= length (filter f l))%nat -> filter f l = l.
Proof.
  induction l as [|x l IH]; cbn; [reflexivity|]. pose proof (ServerRequestProofs.filter_length_le f l).
  destruct (f x); cbn; intros L; [rewrite IH by lia; reflexivity|lia].
Qed.

Lemma verified_group g : Forall (fun tp => to_pass 0 (fst tp) = Ok (snd tp)) g ->
  lenZ g <= Z.of_nat (length (filter (verifies signed q) (encode_passes g))) ->
  verified signed q (encode_passes g) = map preimage (map fst g).
Proof.
  intros F L. unfold verified. rewrite filter_all.
  - rewrite (encode_group F), map_map. apply map_ext. intros t. apply encoded_preimage.
  - unfold lenZ in L. unfold encode_passes at 1. rewrite map_length. lia.
Qed.

Section Call.
Variable R : Type.
Variable conv : reply -> R.
Variable sv : server.
Variable num : Z.
Variable on_success : R -> group pass -> db -> res exn unit * db.
Variable spends : R -> group pass -> list Z.
Notation link := (link signed pv mv now room q conv sv).
Notation state_after := (state_after signed pv mv now room q sv).

Lemma link_lone : lone_server link.
Proof. intros past g d. reflexivity. Qed.
Lemma link_polite : polite_server link.
Proof. intros past g d. exact I. Qed.
Lemma conv_ok : convertible to_pass 0.
Proof. intros t. rewrite ristretto_pass_eq. eauto. Qed.

Lemma answer_refuse sv0 g v n f : answer signed pv mv now room q conv sv0 g = Refuse v n f ->
  snd (serve now room (encode_passes g) q sv0) = sv0.
Proof.
  unfold answer. destruct (serve now room (encode_passes g) q sv0) as [[r|e] sv1] eqn:E; cbn; [discriminate|].
  destruct e; try discriminate. intros _. eapply refusal_changes_nothing. exact E.
Qed.

Lemma state_after_app (pre : list (attempt pass R)) a :
  state_after (pre ++ [a]) = snd (serve now room (encode_passes (fst a)) q (state_after pre)).
Proof. unfold ClientModel.state_after. rewrite fold_left_app. reflexivity. Qed.

Lemma answers_past tr r : asked link on_success [] tr r -> forall pre post, tr = pre ++ post -> post <> [] -> state_after pre = sv.
Proof.
  intros (A1 & A2 & _) pre. induction pre as [|a pre IH] using rev_ind; intros post E N; [reflexivity|].
  rewrite <- app_assoc in E. cbn in E. specialize (IH _ E ltac:(discriminate)).
  rewrite state_after_app, IH.
  destruct (A1 _ _ _ E) as [d0 E0]. destruct (A2 _ _ _ E N) as (v & n & f & Ef). rewrite Ef in E0.
  unfold ClientModel.link in E0. cbn [app snd] in E0. rewrite IH in E0. eapply answer_refuse. exact E0.
Qed.

Definition agrees (r : res failure R) (d' : db) (tr : list (attempt pass R)) : Prop :=
  exists ps, sv_spent (state_after tr) = sv_spent sv ++ ps /\ NoDup ps /\
    (forall t, taken tr t -> (is_spent d' t <-> In (preimage t) ps)) /\
    (forall p, In p ps -> exists t, taken tr t /\ p = preimage t).

Lemma map_NoDup_on A B (f : A -> B) l : (forall x y, In x l -> In y l -> f x = f y -> x = y) -> NoDup l -> NoDup (map f l).
Proof.
  intros H. induction 1 as [|x l N1 N2 IH]; cbn; constructor.
  - intros I. apply in_map_iff in I. destruct I as (y & E & I).
    rewrite (H y x (or_intror I) (or_introl eq_refl) E) in I. contradiction.
  - apply IH. intros y z I J. apply H; right; assumption.
Qed.

Lemma call_agrees d r d' tr : different_preimages tr ->
  (forall x g t, In t (spends x g) -> In t (map fst g)) ->
  (forall x g, NoDup (map fst g) -> NoDup (spends x g)) ->
  asked link on_success [] tr r -> outcome to_pass 0 num spends tr r d d' ->
  (forall x g d, StoreProofs.wf d -> NoDup (map fst g) -> exists d2, on_success x g d = (Ok tt, d2)) ->
  (forall g x sv', (0 <= num -> lenZ g = num) -> NoDup (map fst g) -> Forall (fun tp => to_pass 0 (fst tp) = Ok (snd tp)) g ->
     serve now room (encode_passes g) q sv = (Ok x, sv') ->
     sv_spent sv' = sv_spent sv ++ map preimage (spends (conv x) g)) ->
  agrees r d' tr.
Proof.
  intros Hdp Hsp Hnd As O Hok Hrec. pose proof (outcome_spent O) as Os. pose proof (answers_past As) as Past.
  assert (Gd : Forall (good_attempt to_pass 0 num) tr) by apply O. assert (Ne : tr <> []) by apply O.
  destruct (exists_last Ne) as (pre & [g resp] & Etr). specialize (Past pre [(g, resp)] Etr ltac:(discriminate)).
  assert (St : state_after tr = snd (serve now room (encode_passes g) q sv)).
  { rewrite Etr, state_after_app, Past. reflexivity. }
  assert (Rs : resp = answer signed pv mv now room q conv sv g).
  { destruct As as (A1 & _). destruct (A1 _ _ _ Etr) as [d0 E0]. unfold ClientModel.link in E0. cbn [app fst snd] in E0. rewrite Past in E0. symmetry. exact E0. }
  assert (Gg : good_attempt to_pass 0 num (g, resp)).
  { rewrite Forall_forall in Gd. apply Gd. rewrite Etr. apply in_or_app. right. left. reflexivity. }
  destruct Gg as (Lg & Ng & Fg). cbn [fst] in *.
  destruct (serve now room (encode_passes g) q sv) as [rr sv'] eqn:Es. cbn [snd] in St.
  destruct rr as [x|e].
  - assert (Ea : resp = Accept (conv x)) by (rewrite Rs; unfold answer; rewrite Es; reflexivity).
    assert (Er : r = Ok (conv x)).
    { destruct As as (_ & _ & A3). eapply A3; [|exact Hok]. rewrite Etr, Ea. reflexivity. }
    subst r. destruct Os as (g' & (p' & Eg') & Sp). rewrite Etr, Ea in Eg'. apply app_inj_tail in Eg'.
    destruct Eg' as [_ Eg']. injection Eg' as <-.
    assert (Tk : forall t, In t (spends (conv x) g) -> taken tr t).
    { intros t J. apply Hsp in J. apply in_map_iff in J. destruct J as ([t' p] & E & J). cbn in E. subst t'.
      exists g, resp, p. split; [|exact J]. rewrite Etr. apply in_or_app. right. left. reflexivity. }
    exists (map preimage (spends (conv x) g)). rewrite St. split; [eapply Hrec; eauto|]. split; [|split].
    + apply map_NoDup_on; [|apply Hnd, Ng]. intros y z Y Z. apply Hdp; apply Tk; assumption.
    + intros t T. rewrite (Sp t T). rewrite in_map_iff. split; [intros J; exists t; auto|].
      intros (t' & E & J). apply Hdp in E; [subst t'; exact J|apply Tk, J|exact T].
    + intros p J. apply in_map_iff in J. destruct J as (t & <- & J). exists t. split; [apply Tk, J|reflexivity].
  - assert (Na : forall y, resp <> Accept y).
    { intros y. rewrite Rs. unfold answer. rewrite Es. cbn. destruct e; discriminate. }
    exists []. rewrite app_nil_r, St. split; [|split; [constructor|split; [|intros ? []]]].
    + destruct (serve_effect _ _ _ _ _ _ _ _ Es) as [[-> _]|(_ & _ & ps & Sps & Er & _)]; [reflexivity|].
      rewrite Sps, (Er ltac:(discriminate)), app_nil_r. reflexivity.
    + intros t T. split; [|intros []]. intros X. destruct r as [y|f]; [|exfalso; eapply Os; eauto].
      destruct Os as (g' & (p' & Eg') & _). rewrite Etr in Eg'. apply app_inj_tail in Eg'.
      destruct Eg' as [_ Eg']. injection Eg' as _ Eg'. exfalso. eapply Na. exact Eg'.
Qed.

Lemma nothing_agrees d r : agrees r d [].
Proof.
  exists []. cbn. rewrite app_nil_r. split; [reflexivity|]. split; [constructor|]. split; [|intros ? []].
  intros t (? & ? & ? & [] & _).
Qed.
End Call.

(** The client presented the price and the server accepted: every pass verified. *)
Lemma all_verified sv g n x sv' : 0 < pv -> wf_dir (dirs (sv_storage sv) (index_of q)) ->
  kind_of q = KAllocate \/ homogeneous (dirs (sv_storage sv) (index_of q)) -> proper q -> no_truncation q ->
  ServerSpec.price pv (sv_storage sv) now q n -> lenZ g = n ->
  Forall (fun tp => to_pass 0 (fst tp) = Ok (snd tp)) g ->
  serve now room (encode_passes g) q sv = (Ok x, sv') ->
  verified signed q (encode_passes g) = map preimage (map fst g).
Proof.
  intros Hv W H P T Pr L F E. rewrite (serve_eq signed mv now room (encode_passes g) q sv n Hv W H P T (encode_wf F) Pr) in E.
  apply verified_group; [exact F|]. destruct (Z.gtb_spec n (lenZ (verified signed q (encode_passes g)))) as [X|X]; [discriminate|].
  unfold verified, lenZ in X. rewrite map_length in X. rewrite L. exact X.
Qed.
End Together.

(** ** The three calls *)
Lemma sumZ_le_nonneg v l : 0 < v -> (forall x, In x l -> 0 <= x) -> forall n, exact_price v l n -> 0 <= n.
Proof.
  intros Hv. induction l as [|x l IH]; intros Hl n H; inversion H; subst; [lia|].
  match goal with K : exact_price _ l _ |- _ => specialize (IH (fun y I => Hl y (or_intror I)) _ K) end.
  match goal with K : least_cover _ _ _ |- _ => destruct K end.
  specialize (Hl x (or_introl eq_refl)). nia.
Qed.

Section Instances.
Variable signed : bytes -> bytes -> bytes -> bool.
Variables pv mv : Z.
Variable preimage : Z -> bytes.
Variable sign : bytes -> Z -> bytes.
Variable now : Z.
Variable room : Z -> bool.
Variable scan : nat -> list Z -> list Z.
Hypothesis Hs : sound_passes preimage sign.
Hypothesis Hscan : fair_scan scan.
Hypothesis Hv : 0 < pv.

Lemma allocate_agrees si renew cancel nums sz sv fuel d r d' tr :
  NoDup nums -> 0 <= sz -> wf_dir (dirs (sv_storage sv) si) -> fresh_reachable d ->
  linked_allocate signed pv mv preimage sign now room scan si renew cancel nums sz sv fuel d = Some (r, d', tr) ->
  different_preimages preimage tr ->
  agrees signed pv mv preimage now room (Allocate si renew cancel nums sz) sv r d' tr.
Proof.
  intros N Z0 W F E Dp. unfold linked_allocate in E. set (q := Allocate si renew cancel nums sz) in *.
  set (srv := link _ _ _ _ _ _ _ _) in E.
  assert (C : convertible (fun _ : Z => ristretto_pass preimage sign (make_message KAllocate si)) 0)
    by (apply (conv_ok Hs q)).
  pose proof (@allocate_call_story _ _ srv scan 0 pv sz nums fuel d r d' tr (@link_polite _ _ _ _ _ _ _ _ _) Hscan C Hv Z0 F E)
    as (num & En & [(-> & _)|O]).
  { apply nothing_agrees. }
  unfold client_allocate_buckets in E. rewrite En in E.
  assert (Pn : 0 <= num) by (eapply required_repeat_nonneg; eauto).
  assert (Ok1 : forall x g d, StoreProofs.wf d -> NoDup (map fst g) ->
            exists d2, spend_for_allocate_buckets (P := pass) pv sz x g d = (Ok tt, d2)).
  { intros x g d0 W0 N0. unfold spend_for_allocate_buckets. rewrite (@required_passes_pos pv _ Hv).
    unfold split. rewrite split_prefix_from by lia. rewrite mark_spent_eq by exact W0.
    rewrite reset_eq by (apply wf_remove; exact W0). eauto. }
  assert (Sb : forall x (g : group pass) t, In t (allocation_spends pv sz x g) -> In t (map fst g)).
  { intros x g t I. unfold allocation_spends in I. destruct (required_passes pv (repeat sz (length (snd x)))); [|destruct I].
    apply in_map_iff in I. destruct I as (y & <- & I). apply in_map. eapply firstn_In. exact I. }
  eapply (@call_agrees signed pv mv preimage sign now room q _ buckets_of sv num) with (spends := allocation_spends pv sz);
    try exact O; try exact Sb; try exact Ok1; try exact Dp.
  - intros x g Ng. unfold allocation_spends. destruct (required_passes pv (repeat sz (length (snd x)))); [|constructor].
    rewrite <- firstn_map. apply NoDup_firstn. exact Ng.
  - eapply call_asked; [apply link_polite|exact Hscan|exact C|exact Sb|exact F|exact E].
  - intros g x sv' Lg Ng Fg Es. specialize (Lg Pn).
    assert (Pr : price pv (sv_storage sv) now q num).
    { cbn. apply required_passes_exact; assumption. }
    pose proof (@all_verified signed pv mv preimage sign now room Hs q sv g num x sv' Hv W (or_introl eq_refl) (conj N Z0) I Pr Lg Fg Es) as Vf.
    assert (Sh : exists a b, x = Allocated a b).
    { unfold q in Es. cbn in Es. unfold remote_allocate_buckets in Es. destruct (validate_passes _ _ _); [|discriminate].
      destruct (check_pass_quantity_for_write _ _ _ _); [|discriminate].
      destruct (tahoe_allocate_buckets _ _ _ _ _ _ _ _) as [[[y z]|e] st]; [|discriminate].
      destruct (required_passes pv (repeat sz (length z))); [|discriminate]. injection Es as <- _. eauto. }
    destruct Sh as (a & b & ->).
    destruct (@allocate_charge signed pv mv now room (encode_passes g) si renew cancel nums sz sv a b sv' Hv N Z0 Es)
      as (_ & _ & _ & k & Ek & Rk & Sp & _).
    rewrite Sp. f_equal. fold q. rewrite Vf. unfold allocation_spends, buckets_of. cbn [snd]. rewrite map_length.
    rewrite (proj2 (required_passes_exact (repeat sz (length b)) k Hv) Ek).
    rewrite !firstn_map. reflexivity.
Qed.

Lemma whole_group_agrees q num sv fuel d r d' tr : 0 <= num -> fresh_reachable d ->
  wf_dir (dirs (sv_storage sv) (index_of q)) -> homogeneous (dirs (sv_storage sv) (index_of q)) -> proper q ->
  price pv (sv_storage sv) now q num -> kind_of q <> KAllocate ->
  call_with_passes (fun _ => ristretto_pass preimage sign (make_message (kind_of q) (index_of q)))
    (link signed pv mv now room q (fun r => r) sv) scan 0 num fuel d = Some (r, d', tr) ->
  different_preimages preimage tr ->
  agrees signed pv mv preimage now room q sv r d' tr.
Proof.
  intros Pn F W H P Pr Nk E Dp.
  assert (C : convertible (fun _ : Z => ristretto_pass preimage sign (make_message (kind_of q) (index_of q))) 0)
    by (apply (conv_ok Hs q)).
  pose proof (@spend_call_story _ _ _ _ scan 0 num (@link_polite _ _ _ _ _ _ _ _ _) Hscan C fuel d r d' tr F E)
    as [(-> & _)|O].
  { apply nothing_agrees. }
  unfold call_with_passes in E.
  eapply (@call_agrees signed pv mv preimage sign now room q _ (fun r => r) sv num) with (spends := fun _ g => map fst g);
    try exact O; try exact Dp.
  - auto.
  - auto.
  - eapply call_asked with (spends := fun _ g => map fst g); [apply link_polite|exact Hscan|exact C|auto|exact F|exact E].
  - intros x g d0 W0 N0. unfold spend_all. rewrite mark_spent_eq by exact W0. eauto.
  - intros g x sv' Lg Ng Fg Es. specialize (Lg Pn).
    assert (T : no_truncation q).
    { destruct q as [| |si we renew cancel tw rv]; cbn; try exact I. intros n w J.
      cbn in Es. unfold remote_slot_writev in Es.
      destruct (first_new_length tw) eqn:Ft; [discriminate|]. revert n w J. apply first_new_length_None. exact Ft. }
    pose proof (@all_verified signed pv mv preimage sign now room Hs q sv g num x sv' Hv W (or_intror H) P T Pr Lg Fg Es) as Vf.
    destruct (serve_effect _ _ _ _ _ _ _ _ Es) as [[_ X]|(_ & _ & ps & Sp & _ & k & _ & X)]; [exfalso; eapply X; reflexivity|].
    rewrite Sp. f_equal. destruct q; [exfalso; apply Nk; reflexivity| |]; rewrite X by eauto; exact Vf.
Qed.

Lemma add_lease_agrees si renew cancel sv fuel d r d' tr :
  wf_dir (dirs (sv_storage sv) si) -> homogeneous (dirs (sv_storage sv) si) -> fresh_reachable d ->
  linked_add_lease signed pv mv preimage sign now room scan si renew cancel sv fuel d = Some (r, d', tr) ->
  different_preimages preimage tr ->
  agrees signed pv mv preimage now room (AddLease si renew cancel) sv r d' tr.
Proof.
  intros W H F E Dp. unfold linked_add_lease in E.
  destruct (remote_share_sizes sv si None) as [sizes|e] eqn:Es; [|injection E as <- <- <-; apply nothing_agrees].
  destruct (@price_exists pv (sv_storage sv) now (AddLease si renew cancel) Hv W I) as [n Pr].
  rewrite (@client_price_lease pv sv si sizes now renew cancel n Hv W H Es Pr) in E.
  eapply whole_group_agrees with (num := n); try eassumption; try exact I; try discriminate.
  eapply sumZ_le_nonneg; [exact Hv| |exact Pr]. intros x J. cbn in J. apply in_map_iff in J.
  destruct J as (y & <- & _). unfold data_size. lia.
Qed.

Lemma writev_agrees si we renew cancel tw rv sv fuel d r d' tr :
  0 <= now -> wf_dir (dirs (sv_storage sv) si) -> homogeneous (dirs (sv_storage sv) si) -> dict_wf tw -> fresh_reachable d ->
  linked_writev signed pv mv preimage sign now room scan si we renew cancel tw rv sv fuel d = Some (r, d', tr) ->
  different_preimages preimage tr ->
  agrees signed pv mv preimage now room (Writev si we renew cancel tw rv) sv r d' tr.
Proof.
  intros Hn W H Wt F E Dp. unfold linked_writev in E.
  destruct (@price_exists pv (sv_storage sv) now (Writev si we renew cancel tw rv) Hv W Wt) as [n Pr].
  assert (En : (if lenZ (get_write_sharenums tw) >? 0 then
      match remote_stat_shares sv si with
      | Err _ => Err (Remote 0)
      | Ok stats =>
          match client_write_price pv stats now tw with
          | Err _ => Err (Raised ZeroDivisionError)
          | Ok n => Ok n
          end
      end else Ok 0) = Ok n).
  { pose proof (@stat_shares_eq sv si W H) as Es.
    pose proof (@client_price_writev pv sv si _ now we renew cancel tw rv n Hv Hn W H Wt Es Pr) as Ec.
    rewrite Es, Ec. destruct (lenZ (get_write_sharenums tw) >? 0) eqn:G; [reflexivity|].
    unfold client_write_price in Ec. rewrite G in Ec. injection Ec as <-. reflexivity. }
  rewrite En in E. eapply whole_group_agrees with (num := n); try eassumption; try discriminate.
  destruct Pr as (f & g & ks & _ & G & _ & _ & _ & ->). unfold total_price. rewrite <- sumZ_map_sub.
  apply sumZ_nonneg. intros x J. apply in_map_iff in J. destruct J as (k & <- & _).
  pose proof (@cdiv_mono pv (f k) (g k) Hv (@written_ge _ _ _ k G)). lia.
Qed.
End Instances.
