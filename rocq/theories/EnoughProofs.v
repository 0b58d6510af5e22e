(** Lemmas for C101. *)
From Verif Require Import Prelude PreludeFacts BytesModel BytesProofs PassModel PricingModel PricingSpec PricingProofs
  ContainerModel ContainerProofs TahoeModel ServerModel ServerSpec ServerProofs ServerStateProofs ServerRequestProofs
  StoreModel StoreSpec StoreProofs SpendModel SpendSpec SpendProofs ClientModel ClientProofs EnoughSpec.
Set Implicit Arguments.

Section Loop.
Variables P R : Type.
Variable to_pass : Z -> Z -> res exn P.
Variable server : list (attempt P R) -> group P -> db -> list op * response R.
Variable scan : nat -> list Z -> list Z.
Variables message num_passes : Z.
Variable on_success : R -> group P -> db -> res exn unit * db.
Variable bad : Z -> bool.
Variable before : list (attempt P R) -> Prop.

Hypothesis Hlone : lone_server server.
Hypothesis Hscan : fair_scan scan.
Hypothesis Hconv : convertible to_pass message.
Hypothesis Hsuccess : forall x g d, wf d -> NoDup (map fst g) -> exists d2, on_success x g d = (Ok tt, d2).
Notation made g := (Forall (fun tp => to_pass message (fst tp) = Ok (snd tp)) g).
(** Refusals name the bad ones, and there are some. *)
Hypothesis Hrefuse : forall past g d v q f, before past -> lenZ g = num_passes -> made g ->
  snd (server past g d) = Refuse v q f ->
  f <> [] /\ (forall i t p, nth_error g i = Some (t, p) -> (In (Z.of_nat i) f <-> bad t = true)).
Hypothesis Hbefore : forall past g d v q f, before past -> snd (server past g d) = Refuse v q f ->
  before (past ++ [(g, Refuse v q f)]).
Hypothesis Hhonest : honest_indices server.
Hypothesis Hmax : num_passes <= SQLITE3_INTEGER_MAX.

Notation loop := (attempts to_pass server scan message num_passes on_success).

Definition supply (toks : list Z) (g : group P) (d : db) : Prop :=
  NoDup toks /\ num_passes <= lenZ toks /\
    forall t, In t toks -> bad t = false /\ (In t (available d) \/ In t (map fst g)).

Definition ended (r : res failure R) (tr : list (attempt P R)) : Prop :=
  exists past g resp d0, tr = past ++ [(g, resp)] /\ before past /\ lenZ g = num_passes /\ made g /\
    snd (server past g d0) = resp /\
    match resp with Accept x => r = Ok x | Fail e => r = Err (Remote e) | Refuse _ _ _ => False end.

Lemma get_enough sc n d : wf d -> (forall l, Permutation (sc l) l) -> 0 <= n -> n <= SQLITE3_INTEGER_MAX -> n <= lenZ (available d) ->
  exists g, get to_pass sc message n d = (Ok g, set_in_use (in_use d ++ map fst g) d) /\
    NoDup (map fst g) /\ (forall t, In t (map fst g) -> In t (available d)) /\ lenZ g = n /\ made g.
Proof.
  intros W Sc Hn L1 L2. destruct (@get_cases P to_pass sc message n d W Sc Hconv) as [E|H];
    [exfalso|destruct H as (g & H1 & H2 & H3 & H4 & H5); exists g; repeat apply conj; auto].
  rewrite get_step in E. destruct (@extract_success sc n d W Sc L1 L2) as (toks & E' & _). rewrite E' in E.
  destruct (@tokens_to_passes_ok P to_pass message toks Hconv) as (ps & Ep & _). rewrite Ep in E. discriminate.
Qed.

(** The tokens of a supply are in [g] or available. *)
Lemma supply_size toks g d : supply toks g d -> (length toks <= length (available d) + length g)%nat.
Proof.
  intros (Nt & Le & H).
  assert (I : incl toks (available d ++ map fst g)).
  { intros t J. apply in_or_app. apply H in J. tauto. }
  apply NoDup_incl_length in I; [|exact Nt]. rewrite app_length, map_length in I. exact I.
Qed.

Lemma supply_available toks g d : supply toks g d -> num_passes - lenZ g <= lenZ (available d).
Proof. intros H. pose proof (supply_size H). destruct H as (_ & Le & _). unfold lenZ in *. lia. Qed.

Lemma available_count_eq d k : wf d -> available_count d k -> length (available d) = k.
Proof.
  intros W (l & N & H & <-). apply Permutation_length, NoDup_Permutation; [apply available_NoDup; exact W|exact N|].
  intros t. rewrite in_available. symmetry. apply H.
Qed.

Lemma taken_count (more : group P) d : wf (set_in_use (in_use d ++ map fst more) d) -> NoDup (map fst more) -> (forall t, In t (map fst more) -> In t (available d)) ->
  (length (available (set_in_use (in_use d ++ map fst more) d)) + length more <= length (available d))%nat.
Proof.
  intros W N A. rewrite <- (map_length fst more), <- app_length. apply NoDup_incl_length.
  - apply NoDup_app_intro; [apply available_NoDup; exact W|exact N|].
    intros t I J. apply in_available in I. destruct I as [_ I]. apply I. cbn. apply in_or_app. right. exact J.
  - intros t I. apply in_app_or in I as [I|I]; [|exact (A t I)].
    apply in_available in I. destruct I as [I1 I2]. apply in_available. split; [exact I1|].
    intros X. apply I2. cbn. apply in_or_app. left. exact X.
Qed.

Lemma enough_loop fuel : forall toks past g d r d' tr,
  before past -> held_ok g d -> lenZ g = num_passes -> made g -> supply toks g d ->
  loop fuel past g d = Some (r, d', tr) ->
  ended r tr /\ (length tr + length toks <= S (length past) + (length (available d) + length g))%nat.
Proof.
  induction fuel as [|fuel IH]; intros toks past g d r d' tr Bf H L B Su; cbn [attempts]; [discriminate|].
  pose proof (Hlone past g d) as Lone. destruct (server past g d) as [others resp] eqn:Es. cbn [fst] in Lone. subst others.
  assert (Es' : snd (server past g d) = resp) by (rewrite Es; reflexivity).
  change (snd (steps d [])) with d. destruct H as [W C N U].
  assert (H : held_ok g d) by (split; auto).
  destruct resp as [x|v q failed|e].
  - destruct (Hsuccess x g W N) as (d2 & E2). rewrite E2. intros [= <- <- <-].
    split; [exists past, g, (Accept x), d; repeat split; auto|].
    pose proof (supply_size Su). rewrite app_length. cbn [length]. lia.
  - destruct (@Hrefuse _ _ _ _ _ _ Bf L B Es') as [Ne Nm].
    destruct (@invalidate_cases P R to_pass (fun _ g => map fst g) (fun _ _ _ X => X) g failed d H) as [[-> E]|(_ & rej & okay & E & Sp)]; [congruence|]. rewrite E.
    unfold split in Sp. destruct (@split_from_spec P to_pass _ _ _ _ _ Sp) as (Srej & Sok & Pm).
    destruct (@invalid_facts P g rej okay d H Pm) as (H2 & Inv2 & I2).
    set (d2 := after_invalid d (map fst rej)) in *.
    assert (Lo : 0 <= num_passes - lenZ okay).
    { apply Permutation_length in Pm. rewrite app_length in Pm. unfold lenZ in *. lia. }
    assert (Bo : made okay).
    { rewrite Forall_forall in *. intros tp Htp. apply B. eapply Permutation_in; [apply Permutation_sym; exact Pm|].
      apply in_or_app. auto. }
    assert (Rj : (S (length okay) <= length g)%nat).
    { destruct (@Hhonest _ _ _ _ _ _ Es' Ne) as (i & Ii & I0 & I1).
      destruct (nth_error g (Z.to_nat i)) as [[t p]|] eqn:Ni; [|apply nth_error_None in Ni; lia].
      pose proof (Permutation_length Pm) as Lp. rewrite app_length in Lp. destruct rej as [|x rej]; [|cbn [length] in Lp; lia].
      exfalso. assert (X : In (t, p) (@nil (Z * P))) by (apply Srej; exists (Z.to_nat i); split; [exact Ni|];
        cbn; rewrite Z2Nat.id by exact I0; apply memZ_In; exact Ii). destruct X. }
    assert (Ad : (length (available d2) <= length (available d))%nat).
    { apply NoDup_incl_length; [apply available_NoDup; exact (h_wf H2)|]. intros t I. apply in_available in I. destruct I as [J1 J2].
      apply stored_after_invalid in J1. destruct J1 as [J1 J3]. apply in_available. split; [exact J1|].
      intros X. destruct (in_dec Z.eq_dec t (map fst rej)) as [Y|Y]; [apply J3; apply in_or_app; auto|].
      apply J2. cbn. apply in_minus. auto. }
    assert (Su2 : supply toks okay d2).
    { destruct Su as (Nt & Le & Ht). split; [exact Nt|]. split; [exact Le|]. intros t J.
      destruct (Ht t J) as [Gd Pl]. split; [exact Gd|].
      assert (Nrej : ~ In t (map fst rej)).
      { intros X. apply in_map_fst in X. destruct X as (p & X). apply Srej in X. destruct X as (i & X & Y).
        apply memZ_In in Y. cbn in Y. apply (Nm _ _ _ X) in Y. congruence. }
      destruct Pl as [A|A].
      - left. apply in_available in A. destruct A as [A1 A2]. apply in_available. split.
        + apply stored_after_invalid. split; [exact A1|]. intros X. apply in_app_or in X as [X|X]; [|contradiction].
          eapply C; [eapply stored_in; exact A1|exact X].
        + intros X. apply A2. cbn in X. apply in_minus in X. apply X.
      - right. apply in_map_fst in A. destruct A as (p & A). apply in_map_fst. exists p.
        eapply Permutation_in in A; [|exact Pm]. apply in_app_or in A as [A|A]; [|exact A].
        exfalso. apply Nrej, in_map_fst. eauto. }
    unfold expand.
    destruct (@get_enough (scan (length (past ++ [(g, Refuse v q failed)]))) (num_passes - lenZ okay) d2 (h_wf H2) (Hscan _) Lo)
      as (more & Eg & Nm' & Am & Lm & Bm).
    + unfold lenZ in *. lia.
    + exact (supply_available Su2).
    + pose proof (@taken_count more d2 (h_wf (@extend_facts P okay more d2 H2 Nm' Am)) Nm' Am) as Tk.
      rewrite Eg. intros Ev. match type of Ev with loop _ ?p ?g0 ?d0 = _ =>
        enough (X : ended r tr /\ (length tr + length toks <= S (length p) + (length (available d0) + length g0))%nat) end.
      { destruct X as [X1 X2]. split; [exact X1|]. rewrite !app_length in X2. cbn [length] in X2. lia. }
      eapply IH; [| | | | |exact Ev].
      * apply Hbefore with d; [exact Bf|exact Es'].
      * now apply extend_facts.
      * unfold lenZ in *. rewrite app_length. lia.
      * apply Forall_app. auto.
      * destruct Su2 as (Nt & Le & Ht). split; [exact Nt|]. split; [exact Le|]. intros t J.
        destruct (Ht t J) as [Gd Pl]. split; [exact Gd|]. rewrite map_app.
        destruct (in_dec Z.eq_dec t (map fst more)) as [Y|Y]; [right; apply in_or_app; auto|].
        destruct Pl as [A|A]; [left|right; apply in_or_app; auto]. apply in_available in A. destruct A as [A1 A2].
        apply in_available. split; [exact A1|]. cbn. intros X. apply in_app_or in X as [X|X]; contradiction.
  - intros Ev. unfold give_up in Ev. rewrite reset_eq in Ev by exact W. injection Ev as <- <- <-.
    split; [exists past, g, (Fail e), d; repeat split; auto|].
    pose proof (supply_size Su). rewrite app_length. cbn [length]. lia.
Qed.

Lemma enough_call fuel toks d r d' tr : before [] -> wf d -> clean d -> 0 <= num_passes ->
  supply toks [] d -> call_with_passes_with_manual_spend to_pass server scan message num_passes on_success fuel d = Some (r, d', tr) ->
  ended r tr /\ (length tr + length toks <= S (length (available d)))%nat.
Proof.
  intros Bf W C Hn Su. unfold call_with_passes_with_manual_spend.
  assert (Av : num_passes <= lenZ (available d)).
  { pose proof (supply_available Su) as X. cbn in X. change (lenZ (@nil (Z * P))) with 0 in X. lia. }
  destruct (@get_enough (scan 0%nat) num_passes d W (Hscan _) Hn Hmax Av) as (g & -> & N & A & L & B).
  pose proof (@taken_count g d (h_wf (@extend_facts P [] g d (held_nil P W C) N A)) N A) as Tk.
  intros Ev. match type of Ev with loop _ ?p ?g0 ?d0 = _ =>
    enough (X : ended r tr /\ (length tr + length toks <= S (length p) + (length (available d0) + length g0))%nat) end.
  { destruct X as [X1 X2]. split; [exact X1|]. cbn [length] in X2. lia. }
  eapply enough_loop; [exact Bf| |exact L|exact B| |exact Ev].
  - change g with ([] ++ g). apply extend_facts; [|exact N|exact A]. apply held_nil; assumption.
  - destruct Su as (Nt & Le & Ht). split; [exact Nt|]. split; [exact Le|]. intros t J.
    destruct (Ht t J) as [Gd Pl]. split; [exact Gd|]. cbn in Pl. destruct Pl as [Pl|[]].
    destruct (in_dec Z.eq_dec t (map fst g)) as [Y|Y]; [right; exact Y|].
    left. apply in_available in Pl. destruct Pl as [A1 A2]. apply in_available. split; [exact A1|]. cbn.
    intros X. apply in_app_or in X as [X|X]; contradiction.
Qed.
End Loop.

(** ** Against the server *)

Lemma leases_never_refuse room renew cancel tw now l : forall d' v n f,
  add_leases_loop room renew cancel tw now l <> (Err (MorePassesRequired v n f), d').
Proof.
  induction l as [|[m s] d IH]; intros d' v n f Al; cbn in Al; [discriminate|].
  assert (K : forall s0, (let '(r', rest') := add_leases_loop room renew cancel tw now d in (r', (m, s0) :: rest'))
                <> (Err (MorePassesRequired v n f), d')).
  { intros s0 X. destruct (add_leases_loop room renew cancel tw now d) as [r0 d0] eqn:E. injection X as -> <-. exact (IH _ _ _ _ eq_refl). }
  destruct (dget m tw) as [w|]; [|exact (K _ Al)]. destruct (is_write w); [|exact (K _ Al)].
  destruct (existsb _ _); [exact (K _ Al)|]. destruct (add_or_renew_lease _ _ _ _ _ _); [exact (K _ Al)|discriminate].
Qed.

Lemma refusal_indices signed pv mv now room passes q sv v n f sv' :
  serve signed pv mv now room passes q sv = (Err (MorePassesRequired v n f), sv') ->
  f = failed_from (verifies signed q) 0 passes.
Proof.
  assert (Cq : forall vd sizes, check_pass_quantity pv vd sizes = Err (MorePassesRequired v n f) -> f = ServerModel.signature_check_failed vd).
  { intros vd sizes. unfold check_pass_quantity. destruct (required_passes pv sizes); cbn; [|discriminate].
    destruct (_ <? _); [|discriminate]. unfold raise_for. congruence. }
  destruct (validate_cases signed q passes) as [[_ V]|[_ V]];
    destruct q as [si renew cancel nums sz|si renew cancel|si we renew cancel tw rv];
    cbn [serve kind_of index_of] in *; unfold remote_allocate_buckets, remote_add_lease, remote_slot_writev; rewrite V.
  4:{ discriminate. }
  4:{ discriminate. }
  4:{ destruct (first_new_length tw); discriminate. }
  - destruct (check_pass_quantity_for_write _ _ _ _) eqn:C.
    + destruct (tahoe_allocate_buckets _ _ _ _ _ _ _ _) as [[[x y]|e] st]; [|discriminate].
      destruct (required_passes _ _); discriminate.
    + intros [= -> _]. exact (Cq _ _ C).
  - destruct (check_pass_quantity_for_lease _ _ _) eqn:C.
    + destruct (tahoe_add_lease _ _ _ _ _ _) as [[x|e] st]; discriminate.
    + intros [= -> _]. unfold check_pass_quantity_for_lease in C.
      destruct (get_share_sizes _ _) as [s|e]; cbn in C; [|discriminate].
      match type of C with context [check_pass_quantity pv ?a ?b] => destruct (check_pass_quantity pv a b) eqn:C2 end; cbn in C; [discriminate|].
      injection C as ->. exact (Cq _ _ C2).
  - destruct (first_new_length tw); [discriminate|]. destruct (get_writev_price _ _ _ _) as [k|e] eqn:G.
    + destruct (_ >? _).
      * unfold raise_for. intros [= _ _ <- _]. reflexivity.
      * destruct (tahoe_writev _ _ _ _ _ _) as [[[x y]|e] st]; [|discriminate].
        unfold add_leases_for_writev.
        destruct (add_leases_loop room renew cancel tw now (dirs st si)) as [[u|e] d'] eqn:Al; [discriminate|].
        intros [= -> _]. exfalso. exact (leases_never_refuse _ _ _ _ _ _ Al).
    + intros [= -> _]. exfalso. unfold get_writev_price in G.
      destruct (get_share_sizes _ _) as [s|e]; cbn in G; [|discriminate].
      destruct (inactive_shares _ _ _) as [i|e]; cbn in G; [|discriminate].
      destruct (get_required_new_passes_for_mutable_write _ _ _); discriminate.
Qed.

Lemma truncation_or_not q : no_truncation q \/ ~ no_truncation q.
Proof.
  destruct q as [| |si we renew cancel tw rv]; cbn; auto. destruct (first_new_length tw) eqn:E.
  - right. intros H. apply first_new_length_None in H. congruence.
  - left. apply first_new_length_None. exact E.
Qed.

Lemma effect_answer pv mv now room q n vs vs' sv :
  fst (effect pv mv now room q n vs sv) = fst (effect pv mv now room q n vs' sv).
Proof.
  destruct q as [si renew cancel nums sz|si renew cancel|si we renew cancel tw rv]; cbn.
  - destruct (tahoe_allocate_buckets _ _ _ _ _ _ _ _) as [[[x y]|e] st]; [|reflexivity].
    destruct (required_passes _ _); reflexivity.
  - destruct (tahoe_add_lease _ _ _ _ _ _) as [[x|e] st]; reflexivity.
  - destruct (tahoe_writev _ _ _ _ _ _) as [[[x y]|e] st]; [|reflexivity].
    destruct (add_leases_for_writev _ _ _ _ _ _ _) as [[u|e] st']; reflexivity.
Qed.

Section Link.
Variable signed : bytes -> bytes -> bytes -> bool.
Variables pv mv : Z.
Variable preimage : Z -> bytes.
Variable sign : bytes -> Z -> bytes.
Variable now : Z.
Variable room : Z -> bool.
Variable scan : nat -> list Z -> list Z.
Hypothesis Hs : sound_passes preimage sign.
Hypothesis Hscan : fair_scan scan.
Hypothesis Hv : 0 < pv.
Variable R : Type.
Variable q : request.
Variable conv : reply -> R.
Variable sv : server.
(** the price, and how many passes the client presents *)
Variables n num : Z.
Variable on_success : R -> group pass -> db -> res exn unit * db.
Variable spends : R -> group pass -> list Z.
Hypothesis Hsub : forall x g t, In t (spends x g) -> In t (map fst g).
Hypothesis Hok : success_ok on_success spends.
Hypothesis Hsuccess : forall x g d, StoreProofs.wf d -> NoDup (map fst g) -> exists d2, on_success x g d = (Ok tt, d2).
Hypothesis Hw : wf_dir (dirs (sv_storage sv) (index_of q)).
Hypothesis Hh : kind_of q = KAllocate \/ homogeneous (dirs (sv_storage sv) (index_of q)).
Hypothesis Hp : proper q.
Hypothesis Hprice : price pv (sv_storage sv) now q n.
Hypothesis Hnum : n <= num.
Hypothesis Hn : 0 <= num <= SQLITE3_INTEGER_MAX.

Notation msg := (make_message (kind_of q) (index_of q)).
Notation to_pass := (fun _ : Z => ristretto_pass preimage sign msg).
Notation srv := (link signed pv mv now room q conv sv).
Notation given := (given_for signed pv mv now room q sv n).
Definition bad (t : Z) : bool := negb (signed msg (preimage t) (sign msg t)).
Definition untouched (past : list (attempt pass R)) : Prop := state_after signed pv mv now room q sv past = sv.

Lemma verifies_token t : verifies signed q (pass_bytes (Pass (preimage t) (sign msg t))) = negb (bad t).
Proof.
  unfold verifies, bad. rewrite negb_involutive. rewrite (encoded_preimage Hs msg t). f_equal.
  unfold signature_of, pass_bytes. cbn [p_preimage p_signature]. destruct Hs as (A & B).
  destruct (A t) as [A1 _], (B msg t) as [B1 _]. rewrite skipn_app, A1. rewrite skipn_all2 by lia. cbn. reflexivity.
Qed.

Lemma verified_count g : Forall (fun tp => to_pass 0 (fst tp) = Ok (snd tp)) g ->
  verified signed q (encode_passes g) = map preimage (filter (fun t => negb (bad t)) (map fst g)).
Proof.
  intros F. unfold verified. rewrite (encode_group Hs q F). induction (map fst g) as [|t l IH]; [reflexivity|]. cbn [map filter].
  rewrite verifies_token. destruct (negb (bad t)); [|exact IH]. cbn [map]. rewrite (encoded_preimage Hs). f_equal. exact IH.
Qed.

Lemma link_refuses past g d v k f : untouched past -> lenZ g = num -> Forall (fun tp => to_pass 0 (fst tp) = Ok (snd tp)) g ->
  snd (srv past g d) = Refuse v k f ->
  f <> [] /\ (forall i t p, nth_error g i = Some (t, p) -> (In (Z.of_nat i) f <-> bad t = true)).
Proof.
  intros U L F E. unfold link in E. cbn [snd] in E. unfold untouched in U. rewrite U in E. unfold answer in E.
  destruct (serve signed pv mv now room (encode_passes g) q sv) as [r sv1] eqn:Es. cbn [fst] in E.
  destruct r as [y|e]; [discriminate|]. destruct e as [v' k' f'| | | | |]; try discriminate. injection E as -> -> ->.
  destruct (truncation_or_not q) as [T|T].
  2:{ exfalso. destruct (@serve_malformed signed pv mv now room (encode_passes g) q sv (or_intror T)) as (e & E' & X).
      rewrite E' in Es. injection Es as -> _. destruct X as [X|[m X]]; discriminate X. }
  rewrite (serve_eq signed mv now room (encode_passes g) q sv n Hv Hw Hh Hp T (encode_wf Hs q F) Hprice) in Es.
  destruct (Z.gtb_spec n (lenZ (verified signed q (encode_passes g)))) as [X|X].
  2:{ exfalso. destruct q as [si renew cancel nums sz|si renew cancel|si we renew cancel tw rv]; cbn in Es.
      - destruct (tahoe_allocate_buckets _ _ _ _ _ _ _ _) as [[[x y]|e] st]; [|discriminate]. destruct (required_passes _ _); discriminate.
      - destruct (tahoe_add_lease _ _ _ _ _ _) as [[x|e] st]; discriminate.
      - destruct (tahoe_writev _ _ _ _ _ _) as [[[x y]|e] st]; [|discriminate].
        destruct (add_leases_for_writev _ _ _ _ _ _ _) as [[u|e] st'] eqn:Al; [discriminate|]. injection Es as -> _.
        unfold add_leases_for_writev in Al. destruct (add_leases_loop room renew cancel tw now (dirs st si)) as [[u|e] d'] eqn:Al2; [discriminate|].
        injection Al as -> _. exact (leases_never_refuse _ _ _ _ _ _ Al2). }
  injection Es as _ _ Ef _. rewrite <- Ef.
  assert (Ix : forall i t p, nth_error g i = Some (t, p) ->
            (In (Z.of_nat i) (failed_from (verifies signed q) 0 (encode_passes g)) <-> bad t = true)).
  { intros i t p Ni. rewrite (@failed_from_In signed (verifies signed q) (encode_passes g) 0 (Z.of_nat i) (Z.le_refl 0)). rewrite Z.sub_0_r, Nat2Z.id.
    assert (Ne : nth_error (encode_passes g) i = Some (pass_bytes (Pass (preimage t) (sign msg t)))).
    { rewrite (encode_group Hs q F). rewrite nth_error_map, nth_error_map, Ni. reflexivity. }
    split.
    - intros (_ & s & N1 & N2). rewrite Ne in N1. injection N1 as <-. rewrite verifies_token in N2. destruct (bad t); [reflexivity|discriminate].
    - intros B. split; [lia|]. eexists. split; [exact Ne|]. rewrite verifies_token, B. reflexivity. }
  split; [|exact Ix]. intros Nil. assert (Al : forall t, In t (map fst g) -> bad t = false).
  { intros t I. apply in_map_iff in I. destruct I as ([t' p] & Et & I). cbn in Et. subst t'. apply In_nth_error in I. destruct I as [i I].
    destruct (bad t) eqn:B; [|reflexivity]. apply (Ix _ _ _ I) in B. rewrite Nil in B. destruct B. }
  rewrite (verified_count F) in X. unfold lenZ in X, L. rewrite map_length in X.
  assert (Ef' : filter (fun t => negb (bad t)) (map fst g) = map fst g).
  { clear - Al. induction (map fst g) as [|t l IH]; cbn; [reflexivity|]. rewrite (Al t (or_introl eq_refl)). cbn. f_equal. apply IH. intros u I. apply Al. right. exact I. }
  rewrite Ef', map_length in X. lia.
Qed.

Lemma link_keeps past g d v k f : untouched past -> snd (srv past g d) = Refuse v k f -> untouched (past ++ [(g, Refuse v k f)]).
Proof.
  intros U E. unfold untouched in *. rewrite state_after_app. cbn [fst]. rewrite U.
  unfold link in E. cbn [snd] in E. rewrite U in E. eapply answer_refuse. exact E.
Qed.

Lemma link_honest : honest_indices srv.
Proof.
  intros past g d v k f E Ne. unfold link in E. cbn [snd] in E. unfold answer in E.
  destruct (serve signed pv mv now room (encode_passes g) q _) as [r sv1] eqn:Es. cbn [fst] in E.
  destruct r as [y|e]; [discriminate|]. destruct e as [v' k' f'| | | | |]; try discriminate. injection E as -> -> ->.
  apply refusal_indices in Es. destruct f as [|i f]; [congruence|]. exists i. split; [left; reflexivity|].
  assert (I : In i (failed_from (verifies signed q) 0 (encode_passes g))) by (rewrite <- Es; left; reflexivity).
  apply (@failed_from_In signed (verifies signed q) (encode_passes g) 0 i (Z.le_refl 0)) in I. destruct I as (I0 & s & N1 & _). split; [exact I0|].
  assert (X : (Z.to_nat (i - 0) < length (encode_passes g))%nat) by (apply nth_error_Some; congruence).
  unfold encode_passes in X. rewrite map_length in X. lia.
Qed.

Definition as_client (x : res server_error reply) : res failure R :=
  match x with Ok y => Ok (conv y) | Err _ => Err (Remote 0) end.

Lemma given_unique x y : given x -> given y -> x = y.
Proof.
  intros (ps & Wf & Le & <-) (ps' & Wf' & Le' & <-). destruct (truncation_or_not q) as [T|T].
  - rewrite (serve_eq signed mv now room ps q sv n Hv Hw Hh Hp T Wf Hprice).
    rewrite (serve_eq signed mv now room ps' q sv n Hv Hw Hh Hp T Wf' Hprice).
    unfold verified, lenZ. rewrite !map_length.
    destruct (Z.gtb_spec n (Z.of_nat (length (filter (verifies signed q) ps)))); [lia|].
    destruct (Z.gtb_spec n (Z.of_nat (length (filter (verifies signed q) ps')))); [lia|]. apply effect_answer.
  - destruct q as [| |si we renew cancel tw rv]; cbn in T; try (exfalso; apply T; exact I).
    cbn. unfold remote_slot_writev. destruct (first_new_length tw) eqn:E; [reflexivity|].
    exfalso. apply T. apply first_new_length_None. exact E.
Qed.

Lemma served d good k : fresh_reachable d -> good_tokens signed preimage sign q d good -> num <= good ->
  available_count d k -> forall fuel, (k < fuel)%nat ->
  exists r d' tr x, call_with_passes_with_manual_spend to_pass srv scan 0 num on_success fuel d = Some (r, d', tr) /\
    (length tr <= S (k - Z.to_nat good))%nat /\ given x /\ r = as_client x.
Proof.
  intros Fr (toks & Nt & Lt & Ht) Le Av fuel Lf. destruct (fresh_clean Fr) as [W C].
  destruct (@call_ends_lone _ _ to_pass srv scan 0 num on_success spends (@link_polite _ _ _ _ _ _ _ _ _) Hscan (conv_ok Hs q) Hsub Hok
              d link_honest (@link_lone _ _ _ _ _ _ _ _ _) Fr (proj1 Hn) k Av fuel Lf) as (r & d' & tr & E & Lr).
  exists r, d', tr.
  assert (En : ended to_pass srv 0 num untouched r tr /\ (length tr + length toks <= S (length (available d)))%nat).
  { refine (@enough_call pass R to_pass srv scan 0 num on_success bad untouched (@link_lone _ _ _ _ _ _ _ _ _) Hscan (conv_ok Hs q) Hsuccess
              link_refuses link_keeps link_honest (proj2 Hn) fuel toks d r d' tr eq_refl W C (proj1 Hn) _ E).
    split; [exact Nt|]. split; [unfold lenZ; lia|]. intros t I. destruct (Ht t I) as (A & B & G). split.
    - unfold bad. unfold good_for in G. rewrite G. reflexivity.
    - left. apply in_available. auto. }
  destruct En as [En Lb]. rewrite (available_count_eq W Av) in Lb.
  assert (Lr2 : (length tr <= S (k - Z.to_nat good))%nat) by lia. clear Lr Lb. rename Lr2 into Lr.
  destruct En as (past & g & resp & d0 & -> & U & L & F & Er & X). unfold link in Er. cbn [snd] in Er.
  rewrite U in Er. exists (fst (serve signed pv mv now room (encode_passes g) q sv)). split; [exact E|]. split; [exact Lr|].
  assert (Ans : resp = answer signed pv mv now room q conv sv g) by (symmetry; exact Er).
  split; cycle 1.
  { unfold answer in Ans. destruct (fst (serve signed pv mv now room (encode_passes g) q sv)) as [y|[v0 k0 f0| | | | |]]; rewrite Ans in X; [exact X|destruct X|exact X..]. }
  destruct (truncation_or_not q) as [T|T].
  - exists (encode_passes g). split; [apply (encode_wf Hs q F)|]. split; [|reflexivity].
    unfold answer in Ans. rewrite (serve_eq signed mv now room (encode_passes g) q sv n Hv Hw Hh Hp T (encode_wf Hs q F) Hprice) in Ans.
    destruct (Z.gtb_spec n (lenZ (verified signed q (encode_passes g)))) as [Y|Y]; [cbn [fst] in Ans; rewrite Ans in X; destruct X|].
    unfold verified, lenZ in Y. rewrite map_length in Y. exact Y.
  - set (ps := map (fun t => pass_bytes (Pass (preimage t) (sign msg t))) toks).
    exists ps. split; [intros s I; apply in_map_iff in I as (t & <- & _); apply (encoded_wf Hs)|]. split.
    + assert (Ef : filter (verifies signed q) ps = ps).
      { unfold ps. clear Lt Nt ps. induction toks as [|t l IH]; [reflexivity|]. cbn [map filter].
        rewrite verifies_token. destruct (Ht t (or_introl eq_refl)) as (_ & _ & G). unfold good_for in G. unfold bad. rewrite G. cbn [negb].
        f_equal. apply IH. intros u I. apply Ht. right. exact I. }
      rewrite Ef. unfold ps. rewrite map_length. lia.
    + destruct q as [| |si we renew cancel tw rv]; cbn in T; try (exfalso; apply T; exact I).
      cbn. unfold remote_slot_writev. destruct (first_new_length tw) eqn:E1; [reflexivity|].
      exfalso. apply T. apply first_new_length_None. exact E1.
Qed.
End Link.

Section Instances.
Variable signed : bytes -> bytes -> bytes -> bool.
Variables pv mv : Z.
Variable preimage : Z -> bytes.
Variable sign : bytes -> Z -> bytes.
Variable now : Z.
Variable room : Z -> bool.
Variable scan : nat -> list Z -> list Z.
Hypothesis Hs : sound_passes preimage sign.
Hypothesis Hscan : fair_scan scan.
Hypothesis Hv : 0 < pv.

Lemma allocate_served si renew cancel nums sz sv n good d k fuel :
  let q := Allocate si renew cancel nums sz in
  NoDup nums -> 0 <= sz -> wf_dir (dirs (sv_storage sv) si) -> fresh_reachable d ->
  price pv (sv_storage sv) now q n -> n <= SQLITE3_INTEGER_MAX ->
  good_tokens signed preimage sign q d good -> n <= good -> available_count d k -> (k < fuel)%nat ->
  exists r d' tr x,
    linked_allocate signed pv mv preimage sign now room scan si renew cancel nums sz sv fuel d = Some (r, d', tr) /\
    (length tr <= S (k - Z.to_nat good))%nat /\ given_for signed pv mv now room q sv n x /\ r = as_client buckets_of x.
Proof.
  intros q N Z0 W F Pr Le G Lg Av Lf. unfold linked_allocate, client_allocate_buckets.
  assert (En : required_passes pv (repeat sz (length nums)) = Ok n) by (apply required_passes_exact; [exact Hv|exact Pr]).
  rewrite En.
  assert (Pn : 0 <= n) by (eapply required_repeat_nonneg; eauto).
  refine (@served signed pv mv preimage sign now room scan Hs Hscan Hv _ q buckets_of sv n n (spend_for_allocate_buckets pv sz)
            (allocation_spends pv sz) _ _ _ W (or_introl eq_refl) (conj N Z0) Pr (Z.le_refl n) (conj Pn Le) d good k F G Lg Av fuel Lf).
  - intros x g t. apply allocation_sub.
  - apply allocation_ok; assumption.
  - intros x g d0 W0 N0. unfold spend_for_allocate_buckets. rewrite (@required_passes_pos pv _ Hv).
    unfold split. rewrite split_prefix_from by lia. rewrite mark_spent_eq by exact W0.
    rewrite reset_eq by (apply wf_remove; exact W0). eauto.
Qed.

Lemma group_served q n sv good d k fuel :
  wf_dir (dirs (sv_storage sv) (index_of q)) -> homogeneous (dirs (sv_storage sv) (index_of q)) -> proper q -> fresh_reachable d ->
  price pv (sv_storage sv) now q n -> 0 <= n <= SQLITE3_INTEGER_MAX ->
  good_tokens signed preimage sign q d good -> n <= good -> available_count d k -> (k < fuel)%nat ->
  exists r d' tr x,
    call_with_passes (fun _ => ristretto_pass preimage sign (make_message (kind_of q) (index_of q)))
      (link signed pv mv now room q (fun r => r) sv) scan 0 n fuel d = Some (r, d', tr) /\
    (length tr <= S (k - Z.to_nat good))%nat /\ given_for signed pv mv now room q sv n x /\ r = as_client (fun y => y) x.
Proof.
  intros W H P F Pr Hn G Lg Av Lf. unfold call_with_passes.
  refine (@served signed pv mv preimage sign now room scan Hs Hscan Hv _ q (fun r => r) sv n n _
            (fun _ g => map fst g) _ _ _ W (or_intror H) P Pr (Z.le_refl n) Hn d good k F G Lg Av fuel Lf).
  - auto.
  - apply spend_all_ok.
  - intros x g d0 W0 N0. unfold spend_all. rewrite mark_spent_eq by exact W0. eauto.
Qed.

Lemma add_lease_served si renew cancel sv n good d k fuel :
  let q := AddLease si renew cancel in
  wf_dir (dirs (sv_storage sv) si) -> homogeneous (dirs (sv_storage sv) si) -> fresh_reachable d ->
  price pv (sv_storage sv) now q n -> n <= SQLITE3_INTEGER_MAX ->
  good_tokens signed preimage sign q d good -> n <= good -> available_count d k -> (k < fuel)%nat ->
  exists r d' tr x,
    linked_add_lease signed pv mv preimage sign now room scan si renew cancel sv fuel d = Some (r, d', tr) /\
    (length tr <= S (k - Z.to_nat good))%nat /\ given_for signed pv mv now room q sv n x /\ r = as_client (fun y => y) x.
Proof.
  intros q W H F Pr Le G Lg Av Lf. unfold linked_add_lease. pose proof (@share_sizes_eq sv si W H) as Es. rewrite Es.
  rewrite (@client_price_lease pv sv si _ now renew cancel n Hv W H Es Pr).
  refine (@group_served q n sv good d k fuel W H _ F Pr (conj _ Le) G Lg Av Lf).
  - exact I.
  - eapply sumZ_le_nonneg; [exact Hv| |exact Pr]. intros x J. cbn in J. apply in_map_iff in J.
    destruct J as (y & <- & _). unfold data_size. lia.
Qed.

Lemma writev_served si we renew cancel tw rv sv n good d k fuel :
  let q := Writev si we renew cancel tw rv in
  0 <= now -> dict_wf tw -> wf_dir (dirs (sv_storage sv) si) -> homogeneous (dirs (sv_storage sv) si) -> fresh_reachable d ->
  price pv (sv_storage sv) now q n -> n <= SQLITE3_INTEGER_MAX ->
  good_tokens signed preimage sign q d good -> n <= good -> available_count d k -> (k < fuel)%nat ->
  exists r d' tr x,
    linked_writev signed pv mv preimage sign now room scan si we renew cancel tw rv sv fuel d = Some (r, d', tr) /\
    (length tr <= S (k - Z.to_nat good))%nat /\ given_for signed pv mv now room q sv n x /\ r = as_client (fun y => y) x.
Proof.
  intros q Hn Wt W H F Pr Le G Lg Av Lf. unfold linked_writev.
  assert (En : (if lenZ (get_write_sharenums tw) >? 0 then
      match remote_stat_shares sv si with
      | Err _ => Err (Remote 0)
      | Ok stats =>
          match client_write_price pv stats now tw with
          | Err _ => Err (Raised ZeroDivisionError)
          | Ok n => Ok n
          end
      end else Ok 0) = Ok n).
  { pose proof (@stat_shares_eq sv si W H) as Es.
    pose proof (@client_price_writev pv sv si _ now we renew cancel tw rv n Hv Hn W H Wt Es Pr) as Ec.
    rewrite Es, Ec. destruct (lenZ (get_write_sharenums tw) >? 0) eqn:G0; [reflexivity|].
    unfold client_write_price in Ec. rewrite G0 in Ec. injection Ec as <-. reflexivity. }
  rewrite En.
  refine (@group_served q n sv good d k fuel W H Wt F Pr (conj _ Le) G Lg Av Lf).
  destruct Pr as (f & g & ks & _ & G1 & _ & _ & _ & ->). unfold total_price. rewrite <- sumZ_map_sub.
  apply sumZ_nonneg. intros x J. apply in_map_iff in J. destruct J as (k0 & <- & _).
  pose proof (@cdiv_mono pv (f k0) (g k0) Hv (@written_ge _ _ _ k0 G1)). lia.
Qed.
End Instances.
