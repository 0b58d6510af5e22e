(** Lemmas for C106. *)
From Verif Require Import Prelude PreludeFacts BytesModel BytesProofs PassModel PricingModel PricingSpec PricingProofs
  ContainerModel ContainerProofs TahoeModel ServerModel ServerSpec ServerProofs ServerStateProofs ServerRequestProofs
  StoreModel StoreSpec StoreProofs SpendModel SpendSpec SpendProofs ClientModel ClientProofs EnoughSpec EnoughProofs MixedModel.
Set Implicit Arguments.

Section Under.
Variable signed : bytes -> bytes -> bytes -> bool.
Variables pv mv : Z.
Variable preimage : Z -> bytes.
Variable sign : bytes -> Z -> bytes.
Variable now : Z.
Variable room : Z -> bool.
Variable scan : nat -> list Z -> list Z.
Hypothesis Hs : sound_passes preimage sign.
Hypothesis Hscan : fair_scan scan.
Hypothesis Hv : 0 < pv.
Variable R : Type.
Variable q : request.
Variable conv : reply -> R.
Variable sv : server.
Variables n num : Z.
Variable on_success : R -> group pass -> db -> res exn unit * db.
Variable spends : R -> group pass -> list Z.
Hypothesis Hsub : forall x g t, In t (spends x g) -> In t (map fst g).
Hypothesis Hok : success_ok on_success spends.
Hypothesis Hsuccess : forall x g d, StoreProofs.wf d -> NoDup (map fst g) -> exists d2, on_success x g d = (Ok tt, d2).
Hypothesis Hw : wf_dir (dirs (sv_storage sv) (index_of q)).
Hypothesis Hh : kind_of q = KAllocate \/ homogeneous (dirs (sv_storage sv) (index_of q)).
Hypothesis Hp : proper q.
Hypothesis Hprice : price pv (sv_storage sv) now q n.
Hypothesis Hnum : 0 <= num < n.

Notation msg := (make_message (kind_of q) (index_of q)).
Notation to_pass := (fun _ : Z => ristretto_pass preimage sign msg).
Notation srv := (link signed pv mv now room q conv sv).
Notation made g := (Forall (fun tp => to_pass 0 (fst tp) = Ok (snd tp)) g).

Lemma too_few g : lenZ g = num -> made g ->
  exists e, serve signed pv mv now room (encode_passes g) q sv = (Err e, sv).
Proof.
  intros L F. destruct (truncation_or_not q) as [T|T].
  - rewrite (serve_eq signed mv now room (encode_passes g) q sv n Hv Hw Hh Hp T (encode_wf Hs q F) Hprice).
    destruct (Z.gtb_spec n (lenZ (verified signed q (encode_passes g)))) as [X|X]; [eauto|exfalso].
    unfold verified, lenZ in X. rewrite map_length in X.
    assert (Y : (length (filter (verifies signed q) (encode_passes g)) <= length (encode_passes g))%nat) by apply filter_length_le.
    unfold encode_passes in Y at 2. rewrite map_length in Y. unfold lenZ in L. lia.
  - destruct (@serve_malformed signed pv mv now room (encode_passes g) q sv (or_intror T)) as (e & E & _). eauto.
Qed.

Lemma under_story d r d' tr :
  asked srv on_success [] tr r ->
  (tr = [] /\ r = Err (Raised NotEnoughTokens) /\ d' = d) \/ outcome to_pass 0 num spends tr r d d' ->
  (exists f, r = Err f) /\ state_after signed pv mv now room q sv tr = sv /\ (forall t, taken tr t -> ~ is_spent d' t).
Proof.
  intros As [(-> & -> & ->)|O].
  { split; [eauto|]. split; [reflexivity|]. intros t (? & ? & ? & [] & _). }
  pose proof (outcome_spent O) as Os. pose proof (answers_past As) as Past.
  assert (Gd : Forall (good_attempt to_pass 0 num) tr) by apply O. assert (Ne : tr <> []) by apply O.
  destruct (exists_last Ne) as (pre & [g resp] & Etr). specialize (Past pre [(g, resp)] Etr ltac:(discriminate)).
  assert (Gg : good_attempt to_pass 0 num (g, resp)).
  { rewrite Forall_forall in Gd. apply Gd. rewrite Etr. apply in_or_app. right. left. reflexivity. }
  destruct Gg as (Lg & Ng & Fg). cbn [fst] in *. destruct (too_few (Lg (proj1 Hnum)) Fg) as [e Es].
  assert (Rs : resp = answer signed pv mv now room q conv sv g).
  { destruct As as (A1 & _). destruct (A1 _ _ _ Etr) as [d0 E0]. unfold ClientModel.link in E0. cbn [app fst snd] in E0.
    rewrite Past in E0. symmetry. exact E0. }
  assert (Na : forall y, resp <> Accept y).
  { intros y. rewrite Rs. unfold answer. rewrite Es. cbn. destruct e; discriminate. }
  assert (Nr : exists f, r = Err f).
  { destruct r as [y|f]; [exfalso|eauto]. destruct Os as (g' & (p' & Eg') & _). rewrite Etr in Eg'.
    apply app_inj_tail in Eg'. destruct Eg' as [_ Eg']. injection Eg' as _ Eg'. eapply Na. exact Eg'. }
  split; [exact Nr|]. split.
  - rewrite Etr, state_after_app, Past. cbn [fst]. rewrite Es. reflexivity.
  - destruct Nr as [f ->]. exact Os.
Qed.

Lemma under_ends d k : fresh_reachable d -> available_count d k -> forall fuel, (k < fuel)%nat ->
  exists r d' tr, call_with_passes_with_manual_spend to_pass srv scan 0 num on_success fuel d = Some (r, d', tr).
Proof.
  intros Fr Av fuel Lf.
  destruct (@call_ends_lone _ _ to_pass srv scan 0 num on_success spends (@link_polite _ _ _ _ _ _ _ _ _) Hscan (conv_ok Hs q) Hsub Hok
              d (@link_honest signed pv mv now room R q conv sv on_success spends Hsub Hsuccess) (@link_lone _ _ _ _ _ _ _ _ _) Fr (proj1 Hnum) k Av fuel Lf)
    as (r & d' & tr & E & _). eauto.
Qed.
End Under.

Lemma spend_all_success x (g : group pass) d : StoreProofs.wf d -> NoDup (map fst g) ->
  exists d2, spend_all (R := reply) x g d = (Ok tt, d2).
Proof. intros W N. unfold spend_all. rewrite mark_spent_eq by exact W. eauto. Qed.

Lemma allocate_success pv sz x (g : group pass) d : 0 < pv -> 0 <= sz -> StoreProofs.wf d -> NoDup (map fst g) ->
  exists d2, spend_for_allocate_buckets pv sz x g d = (Ok tt, d2).
Proof.
  intros Hv Z0 W N. unfold spend_for_allocate_buckets. rewrite (@required_passes_pos pv _ Hv).
  unfold split. rewrite split_prefix_from by lia. rewrite mark_spent_eq by exact W.
  rewrite reset_eq by (apply wf_remove; exact W). eauto.
Qed.

(** The client's own price *)
Lemma client_prices_lease cpv sv si now renew cancel m : 0 < cpv ->
  wf_dir (dirs (sv_storage sv) si) -> homogeneous (dirs (sv_storage sv) si) ->
  price cpv (sv_storage sv) now (AddLease si renew cancel) m ->
  exists sizes, remote_share_sizes sv si None = Ok sizes /\ client_lease_price cpv sizes = Ok m /\ 0 <= m.
Proof.
  intros Hv W H Pr. pose proof (@share_sizes_eq sv si W H) as Es. eexists. split; [exact Es|]. split.
  - exact (@client_price_lease cpv sv si _ now renew cancel m Hv W H Es Pr).
  - eapply sumZ_le_nonneg; [exact Hv| |exact Pr]. intros x J. cbn in J. apply in_map_iff in J.
    destruct J as (y & <- & _). unfold data_size. lia.
Qed.

Lemma client_prices_write cpv sv si now we renew cancel tw rv m : 0 < cpv -> 0 <= now -> dict_wf tw ->
  wf_dir (dirs (sv_storage sv) si) -> homogeneous (dirs (sv_storage sv) si) ->
  price cpv (sv_storage sv) now (Writev si we renew cancel tw rv) m ->
  (if lenZ (get_write_sharenums tw) >? 0 then
      match remote_stat_shares sv si with
      | Err _ => Err (Remote 0)
      | Ok stats =>
          match client_write_price cpv stats now tw with
          | Err _ => Err (Raised ZeroDivisionError)
          | Ok n => Ok n
          end
      end else Ok 0) = Ok m /\ 0 <= m.
Proof.
  intros Hv Hn Wt W H Pr. split.
  - pose proof (@stat_shares_eq sv si W H) as Es.
    pose proof (@client_price_writev cpv sv si _ now we renew cancel tw rv m Hv Hn W H Wt Es Pr) as Ec.
    rewrite Es, Ec. destruct (lenZ (get_write_sharenums tw) >? 0) eqn:G0; [reflexivity|].
    unfold client_write_price in Ec. rewrite G0 in Ec. injection Ec as <-. reflexivity.
  - destruct Pr as (f & g & ks & _ & G1 & _ & _ & _ & ->). unfold total_price. rewrite <- sumZ_map_sub.
    apply sumZ_nonneg. intros x J. apply in_map_iff in J. destruct J as (k0 & <- & _).
    pose proof (@cdiv_mono cpv (f k0) (g k0) Hv (@written_ge _ _ _ k0 G1)). lia.
Qed.

Section Instances.
Variable signed : bytes -> bytes -> bytes -> bool.
Variables cpv spv mv : Z.
Variable preimage : Z -> bytes.
Variable sign : bytes -> Z -> bytes.
Variable now : Z.
Variable room : Z -> bool.
Variable scan : nat -> list Z -> list Z.
Hypothesis Hs : sound_passes preimage sign.
Hypothesis Hscan : fair_scan scan.
Hypothesis Hc : 0 < cpv.
Hypothesis Hv : 0 < spv.

Definition failed_unchanged {R} q sv (c : option (res failure R * db * list (attempt pass R))) : Prop :=
  exists f d' tr, c = Some (Err f, d', tr) /\ state_after signed spv mv now room q sv tr = sv /\
    (forall t, taken tr t -> ~ is_spent d' t).

Lemma allocate_under si renew cancel nums sz sv m n d k fuel :
  let q := Allocate si renew cancel nums sz in
  NoDup nums -> 0 <= sz -> wf_dir (dirs (sv_storage sv) si) -> fresh_reachable d ->
  price cpv (sv_storage sv) now q m -> price spv (sv_storage sv) now q n -> m < n ->
  available_count d k -> (k < fuel)%nat ->
  failed_unchanged q sv (mixed_allocate signed cpv spv mv preimage sign now room scan si renew cancel nums sz sv fuel d).
Proof.
  intros q N Z0 W F Pm Pn Lt Av Lf. unfold mixed_allocate, client_allocate_buckets.
  assert (En : required_passes cpv (repeat sz (length nums)) = Ok m) by (apply required_passes_exact; [exact Hc|exact Pm]).
  rewrite En.
  assert (Hm : 0 <= m < n) by (split; [exact (required_repeat_nonneg _ Hc Z0 En)|exact Lt]).
  assert (Sb : forall x (g : group pass) t, In t (allocation_spends cpv sz x g) -> In t (map fst g)) by (intros x g t; apply allocation_sub).
  destruct (@under_ends signed spv mv preimage sign now room scan Hs Hscan _ q buckets_of sv n m
              (spend_for_allocate_buckets cpv sz) (allocation_spends cpv sz) Sb
              (@allocation_ok _ cpv sz) (fun x g d => @allocate_success cpv sz x g d Hc Z0) Hm d k F Av fuel Lf) as (r & d' & tr & E).
  assert (As : asked (link signed spv mv now room q buckets_of sv) (spend_for_allocate_buckets cpv sz) [] tr r).
  { eapply call_asked; [apply link_polite|exact Hscan|apply (conv_ok Hs q)|exact Sb|exact F|exact E]. }
  assert (E' : client_allocate_buckets (fun _ : Z => ristretto_pass preimage sign (make_message KAllocate si))
            (link signed spv mv now room q buckets_of sv) scan 0 cpv sz nums fuel d = Some (r, d', tr)).
  { unfold client_allocate_buckets. rewrite En. exact E. }
  destruct (@allocate_call_story _ _ _ scan 0 cpv sz nums fuel d r d' tr (@link_polite _ _ _ _ _ _ _ _ _) Hscan (conv_ok Hs q) Hc Z0 F E')
    as (num & En' & St).
  rewrite En in En'. injection En' as <-.
  destruct (@under_story signed spv mv preimage sign now room Hs Hv _ q buckets_of sv n m _ _ Sb (fun x g d => @allocate_success cpv sz x g d Hc Z0) W (or_introl eq_refl) (conj N Z0) Pn Hm
              d r d' tr As St) as ((f & ->) & X & Y).
  exists f, d', tr. auto.
Qed.

Lemma group_under q sv m n d k fuel :
  wf_dir (dirs (sv_storage sv) (index_of q)) -> homogeneous (dirs (sv_storage sv) (index_of q)) -> proper q -> fresh_reachable d ->
  price spv (sv_storage sv) now q n -> 0 <= m < n -> available_count d k -> (k < fuel)%nat ->
  failed_unchanged q sv
    (call_with_passes (fun _ => ristretto_pass preimage sign (make_message (kind_of q) (index_of q)))
      (link signed spv mv now room q (fun r => r) sv) scan 0 m fuel d).
Proof.
  intros W H P F Pn Hm Av Lf. unfold call_with_passes.
  destruct (@under_ends signed spv mv preimage sign now room scan Hs Hscan _ q (fun r => r) sv n m
              _ (fun _ g => map fst g) (fun _ _ _ X => X) (@spend_all_ok _ _) spend_all_success Hm d k F Av fuel Lf) as (r & d' & tr & E).
  assert (As : asked (link signed spv mv now room q (fun r => r) sv) spend_all [] tr r).
  { eapply call_asked with (spends := fun _ g => map fst g);
      [apply link_polite|exact Hscan|apply (conv_ok Hs q)|auto|exact F|exact E]. }
  pose proof (@spend_call_story _ _ _ _ scan 0 m (@link_polite _ _ _ _ _ _ _ _ _) Hscan (conv_ok Hs q) fuel d r d' tr F E) as St.
  destruct (@under_story signed spv mv preimage sign now room Hs Hv _ q (fun r => r) sv n m _ _ (fun _ _ _ X => X) spend_all_success W (or_intror H) P Pn Hm
              d r d' tr As St) as ((f & ->) & X & Y).
  exists f, d', tr. auto.
Qed.

Lemma add_lease_under si renew cancel sv m n d k fuel :
  let q := AddLease si renew cancel in
  wf_dir (dirs (sv_storage sv) si) -> homogeneous (dirs (sv_storage sv) si) -> fresh_reachable d ->
  price cpv (sv_storage sv) now q m -> price spv (sv_storage sv) now q n -> m < n -> available_count d k -> (k < fuel)%nat ->
  failed_unchanged q sv (mixed_add_lease signed cpv spv mv preimage sign now room scan si renew cancel sv fuel d).
Proof.
  intros q W H F Pm Pn Lt Av Lf. unfold mixed_add_lease.
  destruct (@client_prices_lease cpv sv si now renew cancel m Hc W H Pm) as (sizes & -> & -> & M0).
  exact (@group_under q sv m n d k fuel W H I F Pn (conj M0 Lt) Av Lf).
Qed.

Lemma writev_under si we renew cancel tw rv sv m n d k fuel :
  let q := Writev si we renew cancel tw rv in
  0 <= now -> dict_wf tw -> wf_dir (dirs (sv_storage sv) si) -> homogeneous (dirs (sv_storage sv) si) -> fresh_reachable d ->
  price cpv (sv_storage sv) now q m -> price spv (sv_storage sv) now q n -> m < n -> available_count d k -> (k < fuel)%nat ->
  failed_unchanged q sv (mixed_writev signed cpv spv mv preimage sign now room scan si we renew cancel tw rv sv fuel d).
Proof.
  intros q Hn Wt W H F Pm Pn Lt Av Lf. unfold mixed_writev.
  destruct (@client_prices_write cpv sv si now we renew cancel tw rv m Hc Hn Wt W H Pm) as (-> & M0).
  exact (@group_under q sv m n d k fuel W H Wt F Pn (conj M0 Lt) Av Lf).
Qed.

(** ** More than the price *)

Lemma group_over q sv m n good d k fuel :
  wf_dir (dirs (sv_storage sv) (index_of q)) -> homogeneous (dirs (sv_storage sv) (index_of q)) -> proper q -> fresh_reachable d ->
  price spv (sv_storage sv) now q n -> n <= m -> 0 <= m <= SQLITE3_INTEGER_MAX ->
  good_tokens signed preimage sign q d good -> m <= good -> available_count d k -> (k < fuel)%nat ->
  exists r d' tr x,
    call_with_passes (fun _ => ristretto_pass preimage sign (make_message (kind_of q) (index_of q)))
      (link signed spv mv now room q (fun r => r) sv) scan 0 m fuel d = Some (r, d', tr) /\
    given_for signed spv mv now room q sv n x /\ r = as_client (fun y => y) x /\
    ((exists y, r = Ok y) -> exists l, NoDup l /\ lenZ l = m /\ forall t, taken tr t -> (is_spent d' t <-> In t l)).
Proof.
  intros W H P F Pn Le Hm G Lg Av Lf.
  destruct (@served signed spv mv preimage sign now room scan Hs Hscan Hv _ q (fun r => r) sv n m _
            (fun _ g => map fst g) (fun _ _ _ X => X) (@spend_all_ok _ _) spend_all_success W (or_intror H) P Pn Le Hm d good k F G Lg Av fuel Lf)
    as (r & d' & tr & x & E & _ & Gx & Er).
  exists r, d', tr, x. split; [exact E|]. split; [exact Gx|]. split; [exact Er|]. intros [y ->].
  destruct (@spend_call_story _ _ _ _ scan 0 m (@link_polite _ _ _ _ _ _ _ _ _) Hscan (conv_ok Hs q) fuel d _ d' tr F E) as [(_ & X & _)|O]; [discriminate X|].
  pose proof (outcome_spent O) as (g & (p & Et) & Sp). exists (map fst g).
  assert (Gd : Forall (good_attempt _ 0 m) tr) by apply O. rewrite Forall_forall in Gd.
  specialize (Gd (g, Accept y)). destruct Gd as (Lg' & Ng & _); [rewrite Et; apply in_or_app; right; left; reflexivity|].
  split; [exact Ng|]. split; [|exact Sp]. specialize (Lg' (proj1 Hm)). unfold lenZ in *. rewrite map_length. exact Lg'.
Qed.

Lemma allocate_over si renew cancel nums sz sv m n good d k fuel :
  let q := Allocate si renew cancel nums sz in
  NoDup nums -> 0 <= sz -> wf_dir (dirs (sv_storage sv) si) -> fresh_reachable d ->
  price cpv (sv_storage sv) now q m -> price spv (sv_storage sv) now q n -> n <= m -> m <= SQLITE3_INTEGER_MAX ->
  good_tokens signed preimage sign q d good -> m <= good -> available_count d k -> (k < fuel)%nat ->
  exists r d' tr x,
    mixed_allocate signed cpv spv mv preimage sign now room scan si renew cancel nums sz sv fuel d = Some (r, d', tr) /\
    given_for signed spv mv now room q sv n x /\ r = as_client buckets_of x /\
    (forall have buckets, r = Ok (have, buckets) ->
       exists l c, NoDup l /\ exact_price cpv (repeat sz (length buckets)) c /\ lenZ l = Z.min c m /\
         forall t, taken tr t -> (is_spent d' t <-> In t l)).
Proof.
  intros q N Z0 W F Pm Pn Le Mx G Lg Av Lf. unfold mixed_allocate.
  assert (En : required_passes cpv (repeat sz (length nums)) = Ok m) by (apply required_passes_exact; [exact Hc|exact Pm]).
  assert (M0 : 0 <= m) by exact (required_repeat_nonneg _ Hc Z0 En).
  destruct (@served signed spv mv preimage sign now room scan Hs Hscan Hv _ q buckets_of sv n m (spend_for_allocate_buckets cpv sz)
            (allocation_spends cpv sz) (fun x g t => @allocation_sub _ cpv sz x g t) (@allocation_ok _ cpv sz)
            (fun x g d => @allocate_success cpv sz x g d Hc Z0) W (or_introl eq_refl) (conj N Z0) Pn Le (conj M0 Mx) d good k F G Lg Av fuel Lf)
    as (r & d' & tr & x & E & _ & Gx & Er).
  assert (E' : client_allocate_buckets (fun _ : Z => ristretto_pass preimage sign (make_message KAllocate si))
            (link signed spv mv now room q buckets_of sv) scan 0 cpv sz nums fuel d = Some (r, d', tr)).
  { unfold client_allocate_buckets. rewrite En. exact E. }
  exists r, d', tr, x. split; [exact E'|]. split; [exact Gx|]. split; [exact Er|]. intros have buckets ->.
  destruct (@allocate_call_story _ _ _ scan 0 cpv sz nums fuel d _ d' tr (@link_polite _ _ _ _ _ _ _ _ _) Hscan (conv_ok Hs q) Hc Z0 F E')
    as (num & En' & [(_ & X & _)|O]); [discriminate X|].
  rewrite En in En'. injection En' as <-.
  pose proof (outcome_spent O) as (g & (p & Et) & Sp).
  unfold allocation_spends in Sp. cbn [snd] in Sp.
  assert (Gd : Forall (good_attempt _ 0 m) tr) by apply O. rewrite Forall_forall in Gd.
  specialize (Gd (g, Accept (have, buckets))). destruct Gd as (Lg' & Ng & _); [rewrite Et; apply in_or_app; right; left; reflexivity|]. cbn [fst] in *. specialize (Lg' M0).
  rewrite required_passes_pos in Sp by exact Hc. cbn beta iota in Sp.
  pose proof (@exact_price_sum cpv (repeat sz (length buckets)) Hc) as Ec.
  match type of Sp with context [Z.to_nat ?c0] => set (c := c0) in * end.
  exists (map fst (firstn (Z.to_nat c) g)), c.
  assert (C0 : 0 <= c) by (eapply sumZ_le_nonneg; [exact Hc| |exact Ec]; intros y J; apply repeat_spec in J; lia).
  split; [rewrite <- firstn_map; apply NoDup_firstn; exact Ng|]. split; [exact Ec|]. split; [|exact Sp].
  unfold lenZ in *. rewrite map_length, firstn_length. lia.
Qed.

Lemma add_lease_over si renew cancel sv m n good d k fuel :
  let q := AddLease si renew cancel in
  wf_dir (dirs (sv_storage sv) si) -> homogeneous (dirs (sv_storage sv) si) -> fresh_reachable d ->
  price cpv (sv_storage sv) now q m -> price spv (sv_storage sv) now q n -> n <= m -> m <= SQLITE3_INTEGER_MAX ->
  good_tokens signed preimage sign q d good -> m <= good -> available_count d k -> (k < fuel)%nat ->
  exists r d' tr x,
    mixed_add_lease signed cpv spv mv preimage sign now room scan si renew cancel sv fuel d = Some (r, d', tr) /\
    given_for signed spv mv now room q sv n x /\ r = as_client (fun y => y) x /\
    ((exists y, r = Ok y) -> exists l, NoDup l /\ lenZ l = m /\ forall t, taken tr t -> (is_spent d' t <-> In t l)).
Proof.
  intros q W H F Pm Pn Le Mx G Lg Av Lf. unfold mixed_add_lease.
  destruct (@client_prices_lease cpv sv si now renew cancel m Hc W H Pm) as (sizes & -> & -> & M0).
  exact (@group_over q sv m n good d k fuel W H I F Pn Le (conj M0 Mx) G Lg Av Lf).
Qed.

Lemma writev_over si we renew cancel tw rv sv m n good d k fuel :
  let q := Writev si we renew cancel tw rv in
  0 <= now -> dict_wf tw -> wf_dir (dirs (sv_storage sv) si) -> homogeneous (dirs (sv_storage sv) si) -> fresh_reachable d ->
  price cpv (sv_storage sv) now q m -> price spv (sv_storage sv) now q n -> n <= m -> m <= SQLITE3_INTEGER_MAX ->
  good_tokens signed preimage sign q d good -> m <= good -> available_count d k -> (k < fuel)%nat ->
  exists r d' tr x,
    mixed_writev signed cpv spv mv preimage sign now room scan si we renew cancel tw rv sv fuel d = Some (r, d', tr) /\
    given_for signed spv mv now room q sv n x /\ r = as_client (fun y => y) x /\
    ((exists y, r = Ok y) -> exists l, NoDup l /\ lenZ l = m /\ forall t, taken tr t -> (is_spent d' t <-> In t l)).
Proof.
  intros q Hn Wt W H F Pm Pn Le Mx G Lg Av Lf. unfold mixed_writev.
  destruct (@client_prices_write cpv sv si now we renew cancel tw rv m Hc Hn Wt W H Pm) as (-> & M0).
  exact (@group_over q sv m n good d k fuel W H Wt F Pn Le (conj M0 Mx) G Lg Av Lf).
Qed.
End Instances.
