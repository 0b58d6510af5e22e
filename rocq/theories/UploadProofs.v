(** Lemmas for C130. *)
From Verif Require Import Prelude PreludeFacts BytesModel BytesProofs PassModel PricingModel PricingSpec PricingProofs
  ContainerModel ContainerProofs TahoeModel ServerModel ServerSpec ServerProofs ServerStateProofs ServerRequestProofs
  StoreModel StoreSpec StoreProofs SpendModel SpendSpec SpendProofs ClientModel ClientProofs EnoughSpec EnoughProofs
  ServerProperties BoughtSpec BoughtProofs UpkeepModel UpkeepSpec UpkeepProofs UploadModel UploadSpec.
From Verif Require ConcurrentProofs.
Set Implicit Arguments.

(** ** What a call may do to a wallet *)

Record onward (d d' : db) : Prop := {
  on_goes : goes d d';
  on_stored : forall t, In t (map u_token (unblinded d')) -> In t (map u_token (unblinded d));
  on_invalid : forall t, In t (map fst (invalid d)) -> In t (map fst (invalid d'));
  on_spent : forall t, is_spent d t -> is_spent d' t
}.
Lemma onward_refl d : onward d d.
Proof. split; auto. apply goes_refl. Qed.
Lemma onward_trans a b c : onward a b -> onward b c -> onward a c.
Proof. intros [A1 A2 A3 A4] [B1 B2 B3 B4]. split; auto. exact (goes_trans A1 B1). Qed.

Lemma spends_refl d : wf d -> spends d d [].
Proof. intros W. split; [constructor|]. intros t. split; [intros []|]. intros [A [B _]]. exact (B A). Qed.
Lemma spends_trans a b c ts us : onward a b -> onward b c -> spends a b ts -> spends b c us -> spends a c (ts ++ us).
Proof.
  intros A B [N1 S1] [N2 S2]. split.
  - apply NoDup_app_intro; [exact N1|exact N2|]. intros t I J. apply S1 in I as [_ [I _]]. apply S2 in J as [J _]. exact (I J).
  - intros t. rewrite in_app_iff, S1, S2. split.
    + intros [[I S]|[I S]]; [split; [exact I|exact (on_spent B S)]|split; [exact (on_stored A _ I)|exact S]].
    + intros [I S]. destruct (in_dec Z.eq_dec t (map u_token (unblinded b))) as [J|J]; [right; auto|left].
      split; [exact I|]. split; [exact J|]. intros K. exact (proj2 S (on_invalid B _ K)).
Qed.

Lemma pack_s_exact w s : length s = w -> pack_s w s = s.
Proof. intros <-. unfold pack_s. rewrite firstn_app, Nat.sub_diag, firstn_all, firstn_O, app_nil_r. reflexivity. Qed.

Section Lease.
Variable signed : bytes -> bytes -> bytes -> bool.
Variables pv iv mv : Z.
Variable preimage : Z -> bytes.
Variable sign : bytes -> Z -> bytes.
Variable scan : nat -> list Z -> list Z.
Variable mut : bytes -> bool.
Hypothesis Hs : sound_passes preimage sign.
Hypothesis Hscan : fair_scan scan.
Hypothesis Hv : 0 < pv.
Notation reach := (reachable_server signed pv iv mv mut).
Notation serve := (serve signed pv mv).

Lemma reach_kinds sv : reach sv -> kinds mut (sv_storage sv).
Proof.
  intros (Hi & Hm & es & os & P & S & R).
  exact (@run_kinds signed pv iv mv mut es empty_server os sv Hi Hm P S empty_wf (empty_kinds mut) R).
Qed.
Lemma reach_immutable sv si : reach sv -> mut si = false -> existsb (fun '(_, s) => is_mutable s) (dirs (sv_storage sv) si) = false.
Proof.
  intros R M. destruct (existsb _ _) eqn:E; [|reflexivity]. exfalso. apply existsb_exists in E as ([n s] & J & X).
  destruct (reach_kinds R) as [K _]. assert (Ms : mutable s).
  { unfold is_mutable in X. unfold mutable. destruct (s_container s); [discriminate|eauto]. }
  apply (K _ _ _ J) in Ms. congruence.
Qed.

Section Call.
Variable now : Z.
Variable room : Z -> bool.
Variables si renew cancel : bytes.
Variable nums : list Z.
Variable sz : Z.
Variable sv : ServerModel.server.
Variable n : Z.
Notation q := (Allocate si renew cancel nums sz).
Notation lk := (link signed pv mv now room q buckets_of sv).
Notation to_pass := (fun _ : Z => ristretto_pass preimage sign (make_message KAllocate si)).
Notation call := (linked_allocate signed pv mv preimage sign now room scan si renew cancel nums sz sv).
Hypothesis Hr : reach sv.
Hypothesis Hm : mut si = false.
Hypothesis Hnd : NoDup nums.
Hypothesis Hsz : 0 <= sz.
Hypothesis Hp : exact_price pv (repeat sz (length nums)) n.
Hypothesis Hroom : forall m, room m = true.
Hypothesis Hpk : packable (month_after now) = true.

(** The shares the server has, and the ones that can be written. *)
Definition got : list Z := dkeys (dirs (sv_storage sv) si).
Definition writers : list Z := filter (fun m => negb (memZ m got) && negb (is_incoming (sv_storage sv) si m) && room m) nums.
Definition allocated : storage :=
  Storage (dirs (sv_storage sv)) (incoming (sv_storage sv) ++
    map (fun m => Upload si m sz (Lease 0 renew cancel (month_after now))) writers).

Lemma allocate_ok : tahoe_allocate_buckets room now si renew cancel nums sz (sv_storage sv) = (Ok (got, writers), allocated).
Proof.
  unfold tahoe_allocate_buckets. rewrite (@reach_immutable sv si Hr Hm). rewrite month_after_eq in Hpk.
  cbv zeta. rewrite Hpk, andb_false_r. unfold allocated. rewrite month_after_eq. reflexivity.
Qed.

Lemma allocate_wf : wf_dir (dirs (sv_storage sv) si).
Proof. apply (@reachable_wf _ _ _ _ _ _ Hr). Qed.

Lemma allocate_price_nonneg : 0 <= n.
Proof.
  eapply sumZ_le_nonneg; [exact Hv| |exact Hp]. intros x J. apply repeat_spec in J. lia.
Qed.

Lemma allocate_serve passes : n <= lenZ (verified signed q passes) -> (forall s, In s passes -> well_formed s) ->
  exists sv', serve now room passes q sv = (Ok (Allocated got writers), sv') /\ sv_storage sv' = allocated.
Proof.
  intros Ln Wp. rewrite (serve_eq signed mv now room passes q sv n Hv allocate_wf (or_introl eq_refl) (conj Hnd Hsz) I Wp Hp).
  destruct (Z.gtb_spec n (lenZ (verified signed q passes))) as [X|X]; [lia|]. cbn [effect]. rewrite allocate_ok.
  rewrite (@required_passes_pos pv _ Hv). eexists. split; [reflexivity|]. reflexivity.
Qed.

Lemma goes_allocation x (g : group pass) d : goes d (snd (spend_for_allocate_buckets pv sz x g d)).
Proof.
  unfold spend_for_allocate_buckets. destruct (required_passes _ _) as [a|e]; [|apply goes_refl].
  destruct (split _ g) as [to_spend to_reset]. pose proof (goes_mark_spent to_spend d) as G.
  destruct (mark_spent to_spend d) as [[u|e] d1]; cbn [snd] in *; [|exact G].
  exact (goes_trans G (goes_reset to_reset d1)).
Qed.

Lemma allocate_call d k : fresh_reachable d -> fine_tokens signed preimage sign d k -> n <= k -> n <= SQLITE3_INTEGER_MAX ->
  exists d' tr, call (S (length (available d))) d = Some (Ok (buckets_of (Allocated got writers)), d', tr) /\
    (exists passes, serve now room passes q sv = (Ok (Allocated got writers), state_after signed pv mv now room q sv tr)) /\
    sv_storage (state_after signed pv mv now room q sv tr) = allocated /\
    fine_tokens signed preimage sign d' (k - n) /\ onward d d' /\
    exists ts, spends d d' ts /\ exact_price pv (repeat sz (length writers)) (Z.of_nat (length ts)).
Proof.
  intros F (toks & Nt & Lt & Ht) Lk Mx. destruct (fresh_clean F) as [W C].
  assert (G : good_tokens signed preimage sign q d k).
  { exists toks. split; [exact Nt|]. split; [exact Lt|]. intros t I. destruct (Ht t I) as (A & B & D). split; [exact A|]. split; [exact B|]. apply D. }
  assert (Av : available_count d (length (available d))).
  { exists (available d). split; [apply available_NoDup, W|]. split; [intros t; apply in_available|reflexivity]. }
  destruct (@allocate_served signed pv mv preimage sign now room scan Hs Hscan Hv si renew cancel nums sz sv n k d (length (available d))
              (S (length (available d))) Hnd Hsz allocate_wf F Hp Mx G Lk Av (Nat.lt_succ_diag_r _)) as (r & d' & tr & x & E & _ & Gv & Er).
  assert (Ex : x = Ok (Allocated got writers)).
  { destruct Gv as (passes & Wp & Ln & <-). destruct (@allocate_serve passes) as (sv' & -> & _); [|exact Wp|reflexivity].
    unfold verified, lenZ. rewrite map_length. exact Ln. }
  subst x. cbn [as_client] in Er. subst r. exists d', tr.
  pose proof (proj2 (required_passes_exact (repeat sz (length nums)) n Hv) Hp) as En.
  pose proof E as E0. unfold linked_allocate, client_allocate_buckets in E0. rewrite En in E0.
  assert (Sub : forall x (g : group pass) t, In t (allocation_spends pv sz x g) -> In t (map fst g)) by (intros x g t; apply allocation_sub).
  destruct (@call_story _ _ to_pass lk scan 0 n (spend_for_allocate_buckets pv sz) (allocation_spends pv sz) (@link_polite _ _ _ _ _ _ _ _ _) Hscan (conv_ok Hs q)
              Sub (@allocation_ok _ _ _) _ d _ d' tr F E0) as [(_ & X & _)|O]; [discriminate X|].
  pose proof (@call_asked _ _ to_pass lk scan 0 n (spend_for_allocate_buckets pv sz) (allocation_spends pv sz) (@link_polite _ _ _ _ _ _ _ _ _) Hscan (conv_ok Hs q)
             Sub _ d _ d' tr F E0) as As.
  pose proof (answers_past As) as Past.
  destruct (outcome_spent O) as (g & (past & A) & Sp).
  assert (Gg : (lenZ g = n /\ NoDup (map fst g)) /\ Forall (fun tp => to_pass 0 (fst tp) = Ok (snd tp)) g).
  { pose proof (proj1 (proj2 O)) as Gd. rewrite Forall_forall in Gd. destruct (Gd (g, Accept (buckets_of (Allocated got writers)))) as (L & Nd & Mk).
    { rewrite A. apply in_or_app. right. now left. }
    cbn [fst] in L, Nd, Mk. specialize (L allocate_price_nonneg). auto. }
  destruct Gg as [[Lg Ndg] Mkg].
  destruct (@call_others _ _ to_pass lk scan 0 n (spend_for_allocate_buckets pv sz) (allocation_spends pv sz)
           (@link_polite _ _ _ _ _ _ _ _ _) Hscan (conv_ok Hs q) Sub (@allocation_ok _ _ _) _ d _ d' tr
           (@link_lone _ _ _ _ _ _ _ _ _) F E0) as (_ & Un & Tk & Iu).
  assert (D : forall t, taken tr t \/ ~ taken tr t).
  { clear. intros t. induction tr as [|[g0 resp] new IH]; [right; apply not_taken_nil|].
    rewrite taken_cons. cbn [fst]. destruct (in_dec Z.eq_dec t (map fst g0)); tauto. }
  assert (Gt : forall t, In t (map fst g) -> taken tr t).
  { intros t I. rewrite in_map_iff in I. destruct I as ([t' p] & Et & I). cbn in Et. subst t'.
    exists g, (Accept (buckets_of (Allocated got writers))), p. split; [|exact I]. rewrite A. apply in_or_app. right. now left. }
  split; [exact E|].
  assert (Sa : state_after signed pv mv now room q sv tr = snd (serve now room (encode_passes g) q sv)).
  { rewrite A. unfold state_after. rewrite fold_left_app. cbn [fold_left fst].
    pose proof (Past past [(g, Accept (buckets_of (Allocated got writers)))] A ltac:(discriminate)) as Pp. unfold state_after in Pp. rewrite Pp. reflexivity. }
  assert (Ln : n <= lenZ (verified signed q (encode_passes g))).
  { destruct As as (As1 & _). destruct (As1 past (g, Accept (buckets_of (Allocated got writers))) [] A) as [d0 X].
    unfold link in X. cbn [app fst snd] in X. rewrite (Past past [(g, Accept (buckets_of (Allocated got writers)))] A ltac:(discriminate)) in X. unfold answer in X.
    rewrite (serve_eq signed mv now room (encode_passes g) q sv n Hv allocate_wf (or_introl eq_refl) (conj Hnd Hsz) I (encode_wf Hs q Mkg) Hp) in X.
    destruct (Z.gtb_spec n (lenZ (verified signed q (encode_passes g)))) as [Y|Y]; [discriminate X|exact Y]. }
  destruct (@allocate_serve (encode_passes g) Ln (encode_wf Hs q Mkg)) as (sv' & Es & St).
  split; [exists (encode_passes g); rewrite Sa, Es; reflexivity|].
  split; [rewrite Sa, Es; exact St|].
  assert (Al : exists c, exact_price pv (repeat sz (length writers)) c /\ 0 <= c <= n /\
            allocation_spends pv sz (buckets_of (Allocated got writers)) g = map fst (firstn (Z.to_nat c) g)).
  { exists (sumZ (map (fun s => cdiv s pv) (repeat sz (length writers)))). split; [apply exact_price_sum, Hv|]. split.
    - split; [apply cost_nonneg; [exact Hv|]; intros y J; apply repeat_spec in J; lia|].
      rewrite (exact_cost Hv Hp), !map_repeat, !sumZ_repeat.
      assert (Lw : (length writers <= length nums)%nat) by apply filter_length_le.
      pose proof (@cdiv_nonneg pv sz Hv Hsz). nia.
    - unfold allocation_spends, buckets_of. cbn [snd]. rewrite map_length, (@required_passes_pos pv _ Hv). reflexivity. }
  destruct Al as (c & Ec & Lc & Ea).
  assert (On : onward d d').
  { split.
    - exact (@goes_manual _ _ to_pass lk scan 0 n (@link_lone _ _ _ _ _ _ _ _ _) Hscan (spend_for_allocate_buckets pv sz) goes_allocation _ _ _ _ _ E0).
    - intros t I. destruct (D t) as [T|T]; [apply Tk in T as [T _]; exact (stored_in T)|].
      destruct (Un t T) as (U & _). assert (W' : wf d') by (apply (fresh_clean (goes_fresh F (@goes_manual _ _ to_pass lk scan 0 n (@link_lone _ _ _ _ _ _ _ _ _) Hscan
        (spend_for_allocate_buckets pv sz) goes_allocation _ _ _ _ _ E0)))).
      destruct (@in_stored d' t W' I) as [b B]. apply U in B. exact (stored_in B).
    - intros t I. destruct (D t) as [T|T]; [|apply (Un t T), I]. exfalso. destruct (Tk t T) as [S _].
      apply stored_in in S. exact (C t S I).
    - intros t [S1 S2]. assert (T : ~ taken tr t) by (intros T; apply Tk in T as [T _]; apply S1; exact (stored_in T)).
      assert (W' : wf d') by (apply (fresh_clean (goes_fresh F (@goes_manual _ _ to_pass lk scan 0 n (@link_lone _ _ _ _ _ _ _ _ _) Hscan
        (spend_for_allocate_buckets pv sz) goes_allocation _ _ _ _ _ E0)))).
      destruct (Un t T) as (U & V & Y). split.
      + intros I. destruct (@in_stored d' t W' I) as [b B]. apply U in B. apply S1. exact (stored_in B).
      + intros I. apply S2, Y, I. }
  split; [|split; [exact On|]].
  - set (left := filter (fun t => negb (memZ t (map fst g))) toks).
    assert (Ll : (length toks <= length left + length (map fst g))%nat).
    { rewrite <- app_length. apply NoDup_incl_length; [exact Nt|]. intros t I. apply in_or_app.
      destruct (memZ t (map fst g)) eqn:M; [right; now apply memZ_In|left]. apply filter_In. split; [exact I|]. now rewrite M. }
    rewrite map_length in Ll. unfold lenZ in Lg.
    exists (firstn (Z.to_nat (k - n)) left). split; [|split].
    + apply NoDup_firstn. unfold left. apply NoDup_filter, Nt.
    + rewrite firstn_length. lia.
    + intros t I. apply firstn_In in I. unfold left in I. apply filter_In in I as [I M]. apply negb_true_iff in M.
      assert (Ng : ~ In t (map fst g)) by (apply memZ_not_In; exact M).
      destruct (Ht t I) as (St' & Nu & Fn). split; [|split; [rewrite Iu; exact Nu|exact Fn]].
      destruct (D t) as [T|T]; [|apply (Un t T), St'].
      pose proof (outcome_accounted O T) as (_ & [(S1 & _)|[(_ & Iv & _)|(_ & _ & S3)]]).
      * exfalso. apply Ng. apply (Sub (buckets_of (Allocated got writers))). apply Sp; assumption.
      * exfalso. apply (outcome_rejected O T) in Iv. destruct Iv as (g0 & v & q0 & f & i & p & J & Ni & Jf).
        apply in_split in J as (pre & post & Etr). destruct As as (As1 & _). destruct (As1 _ _ _ Etr) as [d0 X].
        unfold link in X. cbn [app fst snd] in X. rewrite (Past pre ((g0, Refuse v q0 f) :: post) Etr ltac:(discriminate)) in X.
        unfold answer in X.
        destruct (serve now room (encode_passes g0) q sv) as [[y|e] sv1] eqn:Es0; cbn [fst] in X; [discriminate X|].
        destruct e as [v' k' f'| | | | |]; try discriminate X. injection X as -> -> ->.
        apply refusal_indices in Es0. rewrite Es0 in Jf.
        apply (@failed_from_In signed (verifies signed q) (encode_passes g0) 0 (Z.of_nat i) (Z.le_refl 0)) in Jf.
        destruct Jf as (_ & s & N1 & N2). rewrite Z.sub_0_r, Nat2Z.id in N1.
        pose proof (proj1 (proj2 O)) as Gd. rewrite Forall_forall in Gd. destruct (Gd (g0, Refuse v q0 f)) as (_ & _ & Mk).
        { rewrite Etr. apply in_or_app. right. now left. }
        cbn [fst] in Mk. rewrite (encode_group Hs q Mk), nth_error_map, nth_error_map, Ni in N1. cbn [option_map fst] in N1.
        injection N1 as <-. pose proof (@verifies_token signed preimage sign room Hs q t) as Vt. cbn [kind_of index_of] in Vt. rewrite Vt in N2. clear Vt. unfold bad in N2. rewrite negb_involutive in N2.
        rewrite Fn in N2. discriminate N2.
      * apply S3.
  - exists (map fst (firstn (Z.to_nat c) g)). split.
    + split; [rewrite <- firstn_map; apply NoDup_firstn, Ndg|]. intros t. rewrite <- Ea. split.
      * intros I. pose proof (Gt t (Sub _ _ _ I)) as T. split; [exact (stored_in (proj1 (Tk t T)))|]. apply Sp; assumption.
      * intros [I S]. destruct (D t) as [T|T]; [apply Sp; assumption|]. exfalso. apply (proj1 S).
        destruct (@in_stored d t W I) as [b B]. apply stored_in with b. apply (Un t T), B.
    + rewrite map_length, firstn_length. unfold lenZ in Lg. rewrite Nat.min_l by lia. rewrite Z2Nat.id by lia. exact Ec.
Qed.
End Call.

(** ** Writing the shares *)

Variable content : bytes -> Z -> bytes.
Notation write := (write_shares signed pv iv mv content).

Definition new_share (si : bytes) (sz : Z) (l : lease) (m : Z) : Z * share :=
  (m, Share (CImmutable iv) (pack_s (Z.to_nat sz) (content si m)) [l]).

Lemma write_reach si (ws : dict Z) : mut si = false -> forall sv, reach sv -> reach (write si ws sv).
Proof.
  intros Hm. unfold write_shares. induction (dkeys ws) as [|n ns IH]; intros sv R; cbn [fold_left]; [exact R|].
  apply IH. destruct (server_step signed pv iv mv sv (EClose si n (content si n))) as [o sv1] eqn:S. cbn [snd].
  refine (@BoughtProofs.reachable_step signed pv iv mv mut sv (EClose si n (content si n)) o sv1 R Logic.I Logic.I S).
Qed.

Lemma write_all si sz l ns : NoDup ns -> forall sv,
  incoming (sv_storage sv) = map (fun m => Upload si m sz l) ns -> (forall m, In m ns -> ~ In m (dkeys (dirs (sv_storage sv) si))) ->
  let sv' := fold_left (fun sv n => snd (server_step signed pv iv mv sv (EClose si n (content si n)))) ns sv in
  incoming (sv_storage sv') = [] /\ dirs (sv_storage sv') si = dirs (sv_storage sv) si ++ map (new_share si sz l) ns /\
  forall si', si' <> si -> dirs (sv_storage sv') si' = dirs (sv_storage sv) si'.
Proof.
  induction ns as [|n ns IH]; intros N sv Hi Hd; cbn [fold_left]; [cbn; rewrite app_nil_r; auto|].
  inversion N as [|? ? Nn N']; subst. cbn [server_step snd].
  assert (Ec : close_bucket iv si n (content si n) (sv_storage sv) =
     set_dir si (dirs (sv_storage sv) si ++ [new_share si sz l n]) (Storage (dirs (sv_storage sv)) (map (fun m => Upload si m sz l) ns))).
  { unfold close_bucket. rewrite Hi. cbn [map find up_si up_num]. rewrite bytes_eqb_refl, Z.eqb_refl. cbn [andb up_size up_lease].
    unfold drop_incoming. rewrite Hi. cbn [map filter up_si up_num]. rewrite bytes_eqb_refl, Z.eqb_refl. cbn [andb negb].
    rewrite dset_app_fresh by (apply Hd; now left). f_equal. f_equal.
    clear - Nn. induction ns as [|m ns IH]; [reflexivity|]. cbn [map filter up_si up_num]. rewrite bytes_eqb_refl.
    destruct (Z.eqb_spec m n) as [->|X]; [exfalso; apply Nn; now left|]. cbn [andb negb]. f_equal. apply IH. intros J. apply Nn. now right. }
  rewrite Ec. cbv zeta in IH. specialize (IH N' (with_storage (set_dir si (dirs (sv_storage sv) si ++ [new_share si sz l n])
     (Storage (dirs (sv_storage sv)) (map (fun m => Upload si m sz l) ns))) sv)).
  cbn [sv_storage with_storage] in IH. rewrite set_dir_same in IH. specialize (IH eq_refl).
  destruct IH as (A & B & C).
  - intros m J. unfold dkeys. rewrite map_app, in_app_iff. intros [X|[X|[]]]; [exact (Hd m (or_intror J) X)|]. cbn in X. subst m. contradiction.
  - split; [exact A|]. split.
    + refine (eq_trans B _). rewrite <- app_assoc. reflexivity.
    + intros si' X. refine (eq_trans (C si' X) _). rewrite set_dir_other by exact X. reflexivity.
Qed.

(** ** One call and the writing *)

Variable room : Z -> Z -> bool.
Variable later : Z -> Z.
Variable horizon : Z.
Hypothesis Hroom : forall id m, room id m = true.
Hypothesis Hl : forall t, t <= later t.
Hypothesis Hh : forall t, t <= horizon -> later t <= horizon.
Hypothesis Hmonth : month_after horizon < 2 ^ 32.
Variable servers : list Z.
Notation put := (put_shares signed pv iv mv preimage sign room scan later content).
Notation put_all := (put_all signed pv iv mv preimage sign room scan later content).
Notation fine := (fine_tokens signed preimage sign).

Record ready (w : world) (k : Z) : Prop := {
  rd_reach : forall id, In id servers -> reach (w_servers w id);
  rd_idle : forall id, In id servers -> incoming (sv_storage (w_servers w id)) = [];
  rd_fresh : fresh_reachable (w_db w);
  rd_fine : fine (w_db w) k;
  rd_time : 0 <= w_time w <= horizon
}.

Definition call_cost (c : file * (Z * list Z)) : Z := Z.of_nat (length (snd (snd c))) * cdiv (f_share_size (fst c)) pv.
Definition call_ok (c : file * (Z * list Z)) : Prop :=
  mut (f_si (fst c)) = false /\ 0 <= f_share_size (fst c) /\ NoDup (snd (snd c)) /\ In (fst (snd c)) servers /\
  forall n, In n (snd (snd c)) -> Z.of_nat (length (content (f_si (fst c)) n)) = f_share_size (fst c).

Lemma call_cost_nonneg c : call_ok c -> 0 <= call_cost c.
Proof. intros (_ & Z0 & _). unfold call_cost. pose proof (@cdiv_nonneg pv (f_share_size (fst c)) Hv Z0). nia. Qed.
Lemma call_cost_exact c : exact_price pv (repeat (f_share_size (fst c)) (length (snd (snd c)))) (call_cost c).
Proof.
  unfold call_cost. pose proof (exact_price_sum (repeat (f_share_size (fst c)) (length (snd (snd c)))) Hv) as X.
  rewrite map_repeat, sumZ_repeat in X. exact X.
Qed.

Lemma put_good f id nums w k : call_ok (f, (id, nums)) -> ready w k ->
  call_cost (f, (id, nums)) <= k -> call_cost (f, (id, nums)) <= SQLITE3_INTEGER_MAX ->
  exists w', put f id nums w = Some (Ok tt, w') /\ ready w' (k - call_cost (f, (id, nums))) /\ w_time w <= w_time w' /\
    onward (w_db w) (w_db w') /\
    (exists ts, spends (w_db w) (w_db w') ts /\ Z.of_nat (length ts) <= call_cost (f, (id, nums)) /\
       ((forall n s, In n nums -> ~ has_share w id (f_si f) n s) -> Z.of_nat (length ts) = call_cost (f, (id, nums)))) /\
    (forall i si n s, has_share w i si n s -> has_share w' i si n s) /\
    (forall i si n s, has_share w' i si n s -> has_share w i si n s \/
       i = id /\ si = f_si f /\ In n nums /\ uploaded content (w_time w) f n s) /\
    (forall n, In n nums -> exists s, has_share w' id (f_si f) n s).
Proof.
  intros (Hm & Hz & Hnd & Hid & Hc) [R Id Fr Fi Ti] Lk Mx. cbn [fst snd] in *.
  assert (Pk : packable (month_after (w_time w)) = true) by (eapply month_packable; [exact Ti|exact Hmonth]).
  destruct (@allocate_call (w_time w) (room id) (f_si f) (f_renew f) (f_cancel f) nums (f_share_size f) (w_servers w id)
              (call_cost (f, (id, nums))) (R id Hid) Hm Hnd Hz (call_cost_exact (f, (id, nums))) (Hroom id) Pk (w_db w) k Fr Fi Lk Mx)
    as (d' & tr & E & (passes & Es) & St & Fi' & On & ts & Sp & Ep).
  unfold put_shares. rewrite E. cbn [buckets_of]. set (ws := writers _ _ _ _) in *. set (sv1 := state_after _ _ _ _ _ _ _ _) in *.
  assert (Nw : NoDup ws) by apply NoDup_filter, Hnd.
  assert (Iw : forall n, In n ws <-> In n nums /\ ~ In n (dkeys (dirs (sv_storage (w_servers w id)) (f_si f)))).
  { intros n. unfold ws, writers. rewrite filter_In, !andb_true_iff, !negb_true_iff. unfold got.
    unfold is_incoming. rewrite (Id id Hid). cbn [existsb]. rewrite Hroom. split.
    - intros (J & (X & _) & _). split; [exact J|]. now apply memZ_not_In.
    - intros (J & X). split; [exact J|]. split; [split; [now apply memZ_not_In|reflexivity]|reflexivity]. }
  assert (Kw : dkeys (map (fun n : Z => (n, n)) ws) = ws) by (unfold dkeys; rewrite map_map; apply map_id).
  set (l := Lease 0 (f_renew f) (f_cancel f) (month_after (w_time w))).
  destruct (@write_all (f_si f) (f_share_size f) l ws Nw sv1) as (A & B & C).
  { rewrite St. unfold allocated. cbn [incoming]. rewrite (Id id Hid). reflexivity. }
  { intros m J. rewrite St. cbn [allocated dirs]. apply Iw, J. }
  set (sv2 := write (f_si f) (map (fun n : Z => (n, n)) ws) sv1).
  assert (E2 : sv2 = fold_left (fun sv n => snd (server_step signed pv iv mv sv (EClose (f_si f) n (content (f_si f) n)))) ws sv1).
  { unfold sv2, write_shares. rewrite Kw. reflexivity. }
  rewrite <- E2 in A, B, C. rewrite St in B, C. cbn [allocated dirs] in B, C.
  assert (R1 : reach sv1).
  { refine (@BoughtProofs.reachable_step signed pv iv mv mut (w_servers w id) (ERequest (w_time w) (room id) passes
              (Allocate (f_si f) (f_renew f) (f_cancel f) nums (f_share_size f))) (Some (Ok (Allocated (got (f_si f) (w_servers w id)) ws))) sv1 (R id Hid) _ _ _).
    - exact (conj Hnd Hz).
    - exact Hm.
    - cbn [server_step]. rewrite Es. reflexivity. }
  assert (R2 : reach sv2) by (apply write_reach; assumption).
  eexists. split; [reflexivity|]. split; [|split; [|split; [exact On|split; [|split; [|split]]]]].
  - split; cbn [w_servers w_db w_time].
    + intros i J. unfold put_server. destruct (Z.eqb_spec i id) as [->|X]; [exact R2|exact (R i J)].
    + intros i J. unfold put_server. destruct (Z.eqb_spec i id) as [->|X]; [exact A|exact (Id i J)].
    + exact (goes_fresh Fr (on_goes On)).
    + exact Fi'.
    + pose proof (Hl (w_time w)). pose proof (Hh (proj2 Ti)). lia.
  - cbn [w_time]. apply Hl.
  - exists ts. split; [exact Sp|]. rewrite (exact_cost Hv Ep), map_repeat, sumZ_repeat. unfold call_cost. cbn [fst snd].
    assert (Lw : (length ws <= length nums)%nat) by apply filter_length_le.
    pose proof (@cdiv_nonneg pv (f_share_size f) Hv Hz). split; [nia|]. intros Nh.
    assert (Ew : length ws = length nums).
    { apply Nat.le_antisymm; [exact Lw|]. apply NoDup_incl_length; [exact Hnd|]. intros n J. apply Iw. split; [exact J|].
      intros K. apply in_map_iff in K as ([n' s] & En & K). cbn in En. subst n'. exact (Nh n s J K). }
    rewrite Ew. reflexivity.
  - intros i si n s J. unfold has_share in *. cbn [w_servers]. unfold put_server. destruct (Z.eqb_spec i id) as [->|X]; [|exact J].
    destruct (bytes_eqb_spec si (f_si f)) as [->|Y]; [fold sv2; rewrite B; apply in_or_app; now left|fold sv2; rewrite C by exact Y; exact J].
  - intros i si n s J. unfold has_share in *. cbn [w_servers] in J. unfold put_server in J. destruct (Z.eqb_spec i id) as [->|X]; [|now left].
    destruct (bytes_eqb_spec si (f_si f)) as [->|Y]; [|left; fold sv2 in J; rewrite C in J by exact Y; exact J].
    fold sv2 in J. rewrite B in J. apply in_app_or in J as [J|J]; [now left|right].
    apply in_map_iff in J as (m & [= <- <-] & J). apply Iw in J as [J _]. split; [reflexivity|]. split; [reflexivity|]. split; [exact J|].
    split; cbn [s_data s_leases].
    + apply pack_s_exact. rewrite <- (Hc m J). now rewrite Nat2Z.id.
    + exists l. split; [reflexivity|]. cbn [l l_renew l_cancel l_expiration]. split; [reflexivity|]. split; [reflexivity|].
      pose proof (@month_mono (w_time w) horizon Ti). lia.
  - intros n J. unfold has_share. cbn [w_servers]. unfold put_server. rewrite Z.eqb_refl. fold sv2. rewrite B.
    destruct (in_dec Z.eq_dec n (dkeys (dirs (sv_storage (w_servers w id)) (f_si f)))) as [K|K].
    + apply in_map_iff in K as ([n' s] & En & K). cbn in En. subst n'. exists s. apply in_or_app. now left.
    + eexists. apply in_or_app. right. apply in_map_iff. exists n. split; [reflexivity|]. apply Iw. auto.
Qed.

(** ** All calls *)

Definition shares_of (c : file * (Z * list Z)) : list (Z * bytes * Z) := map (fun n => (fst (snd c), f_si (fst c), n)) (snd (snd c)).
Lemma in_shares c i si n : In (i, si, n) (shares_of c) <-> i = fst (snd c) /\ si = f_si (fst c) /\ In n (snd (snd c)).
Proof.
  unfold shares_of. rewrite in_map_iff. split.
  - intros (m & [= <- <- <-] & J). auto.
  - intros (-> & -> & J). exists n. auto.
Qed.

Lemma put_all_good calls : forall w k, (forall c, In c calls -> call_ok c) -> ready w k ->
  sumZ (map call_cost calls) <= k -> sumZ (map call_cost calls) <= SQLITE3_INTEGER_MAX ->
  exists w', put_all calls w = Some (Ok tt, w') /\ ready w' (k - sumZ (map call_cost calls)) /\ w_time w <= w_time w' /\
    onward (w_db w) (w_db w') /\
    (exists ts, spends (w_db w) (w_db w') ts /\ Z.of_nat (length ts) <= sumZ (map call_cost calls) /\
       (NoDup (flat_map shares_of calls) -> (forall i si n s, In (i, si, n) (flat_map shares_of calls) -> ~ has_share w i si n s) ->
        Z.of_nat (length ts) = sumZ (map call_cost calls))) /\
    (forall i si n s, has_share w i si n s -> has_share w' i si n s) /\
    (forall i si n s, has_share w' i si n s -> has_share w i si n s \/
       exists f nums, In (f, (i, nums)) calls /\ si = f_si f /\ In n nums /\ uploaded content (w_time w) f n s) /\
    (forall i si n, In (i, si, n) (flat_map shares_of calls) -> exists s, has_share w' i si n s).
Proof.
  induction calls as [|[f [id nums]] calls IH]; intros w k Ok_ Rd Lk Mx.
  - exists w. cbn [UploadModel.put_all map sumZ flat_map]. rewrite Z.sub_0_r. split; [reflexivity|]. split; [exact Rd|]. split; [lia|].
    split; [apply onward_refl|]. split; [|split; [auto|split; [auto|intros i si n []]]].
    exists []. split; [apply spends_refl, (fresh_clean (rd_fresh Rd))|]. cbn. split; [lia|auto].
  - cbn [map sumZ] in Lk, Mx.
    assert (P0 : 0 <= call_cost (f, (id, nums))) by (apply call_cost_nonneg, Ok_; now left).
    assert (P1 : 0 <= sumZ (map call_cost calls)).
    { apply sumZ_nonneg. intros x J. apply in_map_iff in J as (c & <- & J). apply call_cost_nonneg, Ok_. now right. }
    destruct (@put_good f id nums w k) as (w1 & E1 & Rd1 & T1 & On1 & (ts & Sp1 & L1 & X1) & K1 & N1 & H1);
      [apply Ok_; now left|exact Rd|lia|lia|].
    destruct (IH w1 (k - call_cost (f, (id, nums)))) as (w2 & E2 & Rd2 & T2 & On2 & (us & Sp2 & L2 & X2) & K2 & N2 & H2);
      [intros c J; apply Ok_; now right|exact Rd1|lia|lia|].
    exists w2. cbn [UploadModel.put_all map sumZ flat_map]. rewrite E1. split; [exact E2|].
    replace (k - (call_cost (f, (id, nums)) + sumZ (map call_cost calls))) with (k - call_cost (f, (id, nums)) - sumZ (map call_cost calls)) by lia.
    split; [exact Rd2|]. split; [lia|]. split; [exact (onward_trans On1 On2)|]. split; [|split; [auto|split]].
    + exists (ts ++ us). split; [exact (spends_trans On1 On2 Sp1 Sp2)|]. rewrite app_length, Nat2Z.inj_add. split; [lia|].
      intros N Nh. rewrite X1, X2; [reflexivity| | |].
      * apply (ConcurrentProofs.NoDup_app_inv _ _ N).
      * intros i si n s J K. apply N1 in K as [K|(-> & -> & K & _)].
        -- exact (Nh i si n s (in_or_app _ _ _ (or_intror J)) K).
        -- refine (proj2 (proj2 (ConcurrentProofs.NoDup_app_inv _ _ N)) (id, f_si f, n) _ J). apply in_shares. auto.
      * intros n s J. apply Nh. apply in_or_app. left. apply in_shares. auto.
    + intros i si n s J. apply N2 in J as [J|(f' & nums' & J & -> & Jn & U)].
      * apply N1 in J as [J|(-> & -> & Jn & U)]; [now left|right]. exists f, nums. split; [now left|]. auto.
      * right. exists f', nums'. split; [now right|]. split; [reflexivity|]. split; [exact Jn|].
        destruct U as (U1 & l & U2 & U3 & U4 & U5). split; [exact U1|]. exists l. split; [exact U2|]. split; [exact U3|]. split; [exact U4|].
        pose proof (rd_time Rd). pose proof (@month_mono (w_time w) (w_time w1)). lia.
    + intros i si n J. apply in_app_or in J as [J|J]; [|exact (H2 i si n J)].
      apply in_shares in J as (-> & -> & J). cbn [fst snd] in *. destruct (H1 n J) as [s X]. exists s. exact (K2 _ _ _ _ X).
Qed.
End Lease.
