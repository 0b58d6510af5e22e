(** Proofs about the log of spending (C133). *)
From Verif Require Import Prelude PreludeFacts PricingModel PricingSpec PricingProofs
  StoreModel StoreSpec StoreProofs SpendModel SpendSpec SpendProofs LogModel LogSpec.
Set Implicit Arguments.

(** ** Logging changes nothing *)
Section Erase.
Variables P R : Type.
Variable to_pass : Z -> Z -> res exn P.
Implicit Types (g : group P).

Lemma erase_get sc m n d : snd (log_get to_pass sc m n d) = get to_pass sc m n d.
Proof.
  unfold log_get, get. destruct (with_cursor _ d) as [[toks|e] d1]; [|reflexivity].
  destruct (tokens_to_passes to_pass m toks); reflexivity.
Qed.
Lemma erase_expand sc m g n d : snd (log_expand to_pass sc m g n d) = expand to_pass sc m g n d.
Proof.
  unfold log_expand, expand. rewrite <- erase_get. destruct (log_get to_pass sc m n d) as [l [[more|e] d1]]; reflexivity.
Qed.
Lemma erase_invalidate g f d : snd (log_invalidate_rejected_passes g f d) = invalidate_rejected_passes g f d.
Proof.
  unfold log_invalidate_rejected_passes, invalidate_rejected_passes.
  destruct (lenZ f =? 0); [reflexivity|]. destruct (split _ g) as [rej okay].
  unfold log_mark_invalid, mark_invalid. destruct (with_cursor _ d) as [[x|e] d1]; reflexivity.
Qed.

Variable server : list (attempt P R) -> group P -> db -> list op * response R.
Variable scan : nat -> list Z -> list Z.
Variables message num_passes : Z.
Variable on_success : R -> group P -> db -> res exn unit * db.
Variable log_on_success : R -> group P -> db -> logged (res exn unit * db).
Hypothesis Herase : forall x g d, snd (log_on_success x g d) = on_success x g d.

Lemma erase_give_up l f g d (tr : list (attempt P R)) : option_map snd (log_give_up l f g d tr) = give_up f g d tr.
Proof.
  unfold log_give_up, give_up, log_reset, reset. destruct (with_cursor _ d) as [[x|e] d1]; reflexivity.
Qed.
Lemma erase_attempts fuel : forall l past g d,
  option_map snd (log_attempts to_pass server scan message num_passes log_on_success fuel l past g d) =
  attempts to_pass server scan message num_passes on_success fuel past g d.
Proof.
  induction fuel as [|fuel IH]; intros l past g d; cbn [log_attempts attempts]; [reflexivity|].
  destruct (server past g d) as [others resp]. destruct resp as [x|v q failed|e].
  - rewrite <- Herase. destruct (log_on_success x g _) as [l1 [[y|e] d2]]; cbn [snd]; [reflexivity|apply erase_give_up].
  - rewrite <- erase_invalidate. destruct (log_invalidate_rejected_passes g failed _) as [l1 [[[okay|]|e] d2]]; cbn [snd];
      [|apply erase_give_up|apply erase_give_up].
    rewrite <- erase_expand. destruct (log_expand _ _ _ _ _ _) as [l2 [[g'|e] d3]]; cbn [snd]; [apply IH|apply erase_give_up].
  - apply erase_give_up.
Qed.
Lemma erase_call fuel d :
  option_map snd (log_call_with_manual_spend to_pass server scan message num_passes log_on_success fuel d) =
  call_with_passes_with_manual_spend to_pass server scan message num_passes on_success fuel d.
Proof.
  unfold log_call_with_manual_spend, call_with_passes_with_manual_spend. rewrite <- erase_get.
  destruct (log_get to_pass (scan 0%nat) message num_passes d) as [l [[g|e] d1]]; cbn [snd]; [|reflexivity].
  rewrite <- (erase_attempts fuel (CallStarted num_passes :: l) [] g d1).
  destruct (log_attempts _ _ _ _ _ _ _ _ _ _ _) as [[l1 [[r d2] tr]]|]; reflexivity.
Qed.
End Erase.

Lemma erase_spend_all P R (x : R) (g : group P) d : snd (log_spend_all x g d) = spend_all x g d.
Proof. reflexivity. Qed.
Lemma erase_for_buckets P pv size x (g : group P) d :
  snd (log_spend_for_allocate_buckets pv size x g d) = spend_for_allocate_buckets pv size x g d.
Proof.
  unfold log_spend_for_allocate_buckets, spend_for_allocate_buckets.
  destruct (required_passes _ _) as [k|e]; [|reflexivity]. destruct (split _ g) as [a b].
  unfold log_mark_spent, mark_spent. destruct (with_cursor _ d) as [[y|e] d1]; reflexivity.
Qed.

(** ** Counting *)
Lemma total_app s a b : total s (a ++ b) = total s a + total s b.
Proof. induction a as [|l a IH]; cbn [app total]; lia. Qed.

Lemma split_count P sel (g : group P) rej okay : split_from 0 sel g = (rej, okay) ->
  length rej = length (filter sel (map Z.of_nat (seq 0 (length g)))).
Proof.
  assert (G : forall (g : group P) k rej okay, split_from (Z.of_nat k) sel g = (rej, okay) ->
    length rej = length (filter sel (map Z.of_nat (seq k (length g))))).
  { clear. induction g as [|t g IH]; intros k rej okay; cbn [split_from length seq map filter].
    - intros [= <- <-]. reflexivity.
    - replace (Z.of_nat k + 1) with (Z.of_nat (S k)) by lia.
      destruct (split_from (Z.of_nat (S k)) sel g) as [s u] eqn:E. apply IH in E.
      destruct (sel (Z.of_nat k)); intros [= <- <-]; cbn [length]; congruence. }
  apply (G g 0%nat).
Qed.

Lemma NoDup_filter A (f : A -> bool) l : NoDup l -> NoDup (filter f l).
Proof.
  induction 1 as [|a l N H IH]; cbn [filter]; [constructor|]. destruct (f a); [|exact IH].
  constructor; [|exact IH]. rewrite filter_In. tauto.
Qed.

Lemma nodup_app_parts A (a b : list A) : NoDup (a ++ b) -> NoDup b /\ forall x, In x a -> ~ In x b.
Proof.
  induction a as [|y a IH]; cbn [app]; intros N; [split; [exact N|intros x []]|].
  inversion N as [|? ? Ny Na]; subst. destruct (IH Na) as [Nb D]. split; [exact Nb|].
  intros x [->|Hx]; [|now apply D]. intros X. apply Ny, in_or_app. auto.
Qed.

Lemma same_members_length (a b : list Z) : NoDup a -> NoDup b -> (forall x, In x a <-> In x b) -> length a = length b.
Proof. intros Na Nb H. apply Nat.le_antisymm; apply NoDup_incl_length; auto; intros x; apply H. Qed.

Lemma named_rejected P (g : group P) failed num rej okay :
  lenZ g = num -> split_from 0 (fun i => memZ i failed) g = (rej, okay) -> lenZ rej = named num failed.
Proof.
  intros <- E. apply split_count in E. unfold lenZ, named. f_equal. rewrite E. apply same_members_length.
  - apply NoDup_filter. apply FinFun.Injective_map_NoDup; [|apply seq_NoDup]. intros x y H. lia.
  - apply NoDup_filter, NoDup_nodup.
  - intros x. rewrite !filter_In, nodup_In, memZ_true, in_map_iff, andb_true_iff, Z.leb_le, Z.ltb_lt. split.
    + intros ((k & <- & K) & F). apply in_seq in K. unfold lenZ. split; [exact F|lia].
    + intros (F & K). split; [|exact F]. exists (Z.to_nat x). split; [lia|]. apply in_seq. unfold lenZ in K. lia.
Qed.

(** ** The loop *)
Section Loop.
Variables P R : Type.
Implicit Types (g : group P).
Variable to_pass : Z -> Z -> res exn P.
Variable server : list (attempt P R) -> group P -> db -> list op * response R.
Variable scan : nat -> list Z -> list Z.
Variables message num_passes : Z.
Variable on_success : R -> group P -> db -> res exn unit * db.
Variable log_on_success : R -> group P -> db -> logged (res exn unit * db).
Variable spends : R -> group P -> list Z.
Variable pays : R -> list line.
Hypothesis Hpolite : polite_server server.
Hypothesis Hscan : fair_scan scan.
Hypothesis Hconv : convertible to_pass message.
Hypothesis Hnum : 0 <= num_passes.
Hypothesis Herase : forall x g d, snd (log_on_success x g d) = on_success x g d.
Hypothesis Hspends : forall x g t, In t (spends x g) -> In t (map fst g).
Hypothesis Hspends_nodup : forall x g, NoDup (map fst g) -> NoDup (spends x g).
Hypothesis Hsuccess : forall x g d, wf d -> NoDup (map fst g) -> exists d2, on_success x g d = (Ok tt, d2).
(** The lines logged on success say what it does. *)
Hypothesis Hpays : forall x g d, wf d -> lenZ g = num_passes -> fst (log_on_success x g d) = pays x.
Hypothesis Hpays_got : forall x, total says_got (pays x) = 0.
Hypothesis Hpays_invalid : forall x, total says_invalid (pays x) = 0.
Hypothesis Hpays_spent : forall x g, lenZ g = num_passes -> total says_spent (pays x) = lenZ (spends x g).
Hypothesis Hpays_back : forall x g, lenZ g = num_passes -> total says_returned (pays x) = num_passes - lenZ (spends x g).

Notation loop := (log_attempts to_pass server scan message num_passes log_on_success).

(** The piles of a run from between two attempts: [more] were taken on the way. *)
Definition piles (new : list (attempt P R)) (r : res failure R) g (d : db) (lines : list line) : Prop :=
  exists spent bad back more,
    Permutation (spent ++ bad ++ back) (map fst g ++ more) /\ NoDup (map fst g ++ more) /\
    (forall t, In t more -> ~ In t (map fst (invalid d))) /\
    (forall t, taken new t <-> In t (map fst g ++ more)) /\
    (forall t, In t bad <-> rejected new t) /\
    (forall t, In t spent <-> spent_by spends r new t) /\
    total says_got lines = lenZ more /\ total says_spent lines = lenZ spent /\
    total says_invalid lines = lenZ bad /\ total says_returned lines = lenZ back.

Lemma reset_line g d : wf d -> log_reset g d = ([ResetPasses (lenZ g)], (Ok tt, after_release d (map fst g))).
Proof.
  intros W. unfold log_reset. f_equal; [|exact (reset_eq g W)]. unfold unblinded_tokens, lenZ. now rewrite map_length.
Qed.

Lemma taken_one g (resp : response R) t : taken [(g, resp)] t <-> In t (map fst g).
Proof. rewrite taken_cons. cbn [fst]. pose proof (@not_taken_nil P R t). tauto. Qed.

(** Giving up at once returns everything. *)
Lemma piles_give_up g resp d f : NoDup (map fst g) -> lenZ g = num_passes ->
  (forall t, ~ rejected [(g, resp)] t) -> piles [(g, resp)] (Err f) g d [ResetPasses num_passes].
Proof.
  intros N L Nr. exists [], [], (map fst g), []. cbn [app]. rewrite app_nil_r.
  split; [reflexivity|]. split; [exact N|]. split; [intros t []|]. split; [intros t; apply taken_one|].
  split; [intros t; split; [intros []|intros X; now apply Nr in X]|].
  split; [intros t; split; [intros []|intros (x & g0 & E & _); discriminate]|].
  unfold lenZ in *. cbn [total says_got says_spent says_invalid says_returned length]. rewrite map_length. repeat split; lia.
Qed.

Lemma give_up_log l f g d (tr : list (attempt P R)) x : wf d -> log_give_up l f g d tr = Some x ->
  x = (l ++ [ResetPasses (lenZ g)], (Err f, after_release d (map fst g), tr)).
Proof. intros W. unfold log_give_up. rewrite reset_line by exact W. intros [= <-]. reflexivity. Qed.

Lemma log_get_cases sc n d : wf d -> (forall l, Permutation (sc l) l) ->
  (log_get to_pass sc message n d = ([], (Err NotEnoughTokens, d))) \/
  (exists g, log_get to_pass sc message n d = ([GetPasses message n], (Ok g, set_in_use (in_use d ++ map fst g) d)) /\
    NoDup (map fst g) /\ (forall t, In t (map fst g) -> In t (available d)) /\ (0 <= n -> lenZ g = n) /\
    Forall (fun tp => to_pass message (fst tp) = Ok (snd tp)) g).
Proof.
  intros W Sc. pose proof (erase_get to_pass sc message n d) as Er.
  assert (Ln : forall l x, log_get to_pass sc message n d = (l, x) ->
     l = match fst x with Ok _ => [GetPasses message n] | Err _ => [] end).
  { intros l x. unfold log_get. destruct (with_cursor _ d) as [[toks|e] d1]; [|intros [= <- <-]; reflexivity].
    destruct (tokens_to_passes to_pass message toks); intros [= <- <-]; reflexivity. }
  destruct (log_get to_pass sc message n d) as [l x]. specialize (Ln _ _ eq_refl). cbn [snd] in Er. subst x.
  destruct (@get_cases P to_pass sc message n d W Sc Hconv) as [E|(g & E & H)]; rewrite E in *; cbn [fst] in Ln; subst l;
    [left; reflexivity|right; exists g; split; [reflexivity|exact H]].
Qed.


Lemma loop_log fuel : forall l past g d lg r d' tr,
  held_ok g d -> lenZ g = num_passes -> Forall (fun tp => to_pass message (fst tp) = Ok (snd tp)) g ->
  loop fuel l past g d = Some (lg, (r, d', tr)) ->
  exists new, new <> [] /\ tr = past ++ new /\ hd_error (map fst new) = Some g /\
    lg = l ++ told pays message num_passes (map snd new) /\
    piles new r g d (told pays message num_passes (map snd new)).
Proof.
  induction fuel as [|fuel IH]; intros l past g d lg r d' tr H L B; cbn [log_attempts]; [discriminate|].
  pose proof (Hpolite past g d) as Pl. destruct (server past g d) as [others resp]. cbn [fst] in Pl.
  destruct H as [W C N U].
  pose proof (@polite_steps (map fst g) others d W C Pl) as Ps. cbv zeta in Ps.
  set (d1 := snd (steps d others)) in *. destruct Ps as (W1 & C1 & U1 & I1).
  assert (H1 : held_ok g d1) by (split; auto).
  destruct resp as [x|v q failed|e].
  - (* Accept *)
    destruct (@Hsuccess x g d1 W1 N) as (d2 & E). rewrite <- Herase in E. pose proof (@Hpays x g d1 W1 L) as Ep.
    destruct (log_on_success x g d1) as [l1 y]. cbn [fst snd] in E, Ep. subst l1 y.
    intros [= <- <- <- <-]. exists [(g, Accept x)]. split; [discriminate|]. split; [reflexivity|]. split; [reflexivity|].
    cbn [map snd told]. split; [reflexivity|].
    exists (spends x g), [], (minus (map fst g) (spends x g)), []. rewrite app_nil_r. cbn [app].
    assert (Pm : Permutation (spends x g ++ minus (map fst g) (spends x g)) (map fst g)).
    { apply NoDup_Permutation; [|exact N|].
      - apply NoDup_app_intro; [now apply Hspends_nodup|unfold minus; now apply NoDup_filter|].
        intros t X Y. unfold minus in Y. apply filter_In in Y. destruct Y as [_ Y].
        apply negb_true_iff, memZ_false in Y. contradiction.
      - intros t. rewrite in_app_iff. unfold minus. rewrite filter_In, negb_true_iff, memZ_false. split.
        + intros [X|[X _]]; [eapply Hspends; exact X|exact X].
        + intros X. destruct (in_dec Z.eq_dec t (spends x g)); auto. }
    split; [exact Pm|]. split; [exact N|]. split; [intros t []|]. split; [intros t; apply taken_one|].
    split; [intros t; split; [intros []|intros X; now apply not_rejected_accept in X]|].
    split.
    { intros t. split.
      - intros S. exists x, g. split; [reflexivity|]. split; [now exists []|exact S].
      - intros (x' & g' & [= <-] & (p' & E2) & S).
        assert (E3 : [] ++ [(g, Accept x)] = p' ++ [(g', Accept x)]) by exact E2.
        apply app_inj_tail in E3. destruct E3 as [_ E3]. injection E3 as <-. exact S. }
    apply Permutation_length in Pm. rewrite app_length, map_length in Pm.
    rewrite Hpays_got, Hpays_invalid, (@Hpays_spent x g L), (@Hpays_back x g L).
    unfold lenZ in *. cbn [length]. repeat split; lia.
  - (* Refuse *)
    pose proof (erase_invalidate g failed d1) as Er.
    destruct (@invalidate_cases P R to_pass spends Hspends g failed d1 H1) as [[-> E]|(Ne & rej & okay & E & Sp)].
    + cbn in Er. unfold log_invalidate_rejected_passes. cbn [lenZ length Z.of_nat Z.eqb].
      intros Ev. apply (@give_up_log _ _ g d1 _ _ W1) in Ev. injection Ev as -> -> -> ->.
      exists [(g, Refuse v q [])]. split; [discriminate|]. split; [reflexivity|]. split; [reflexivity|].
      cbn [map snd told]. rewrite L, app_nil_r. split; [reflexivity|]. apply piles_give_up; auto.
      intros t Rj. apply rejected_one in Rj. destruct Rj as (? & ? & _ & []).
    + rewrite E in Er.
      assert (El : fst (log_invalidate_rejected_passes g failed d1) =
                   [SignatureCheckFailed (lenZ failed); InvalidPasses 1 (lenZ rej)]).
      { unfold log_invalidate_rejected_passes. destruct (lenZ failed =? 0) eqn:Ez.
        - apply Z.eqb_eq in Ez. destruct failed; [congruence|]. unfold lenZ in Ez. cbn [length] in Ez. lia.
        - rewrite Sp. unfold log_mark_invalid.
          assert (Lr : lenZ (unblinded_tokens rej) = lenZ rej) by (unfold unblinded_tokens, lenZ; now rewrite map_length).
          rewrite Lr. destruct (with_cursor _ d1) as [[y|e] d2]; reflexivity. }
      destruct (log_invalidate_rejected_passes g failed d1) as [l1 y]. cbn [fst snd] in Er, El. subst l1 y.
      unfold split in Sp. pose proof (@named_rejected P g failed num_passes rej okay L Sp) as Nm.
      destruct (@split_from_spec P to_pass _ _ _ _ _ Sp) as (Srej & Sok & Pm).
      destruct (@invalid_facts P g rej okay d1 H1 Pm) as (H2 & Inv2 & I2).
      set (d2 := after_invalid d1 (map fst rej)) in *.
      assert (Lg : num_passes = lenZ rej + lenZ okay).
      { rewrite <- L. apply Permutation_length in Pm. rewrite app_length in Pm. unfold lenZ. lia. }
      assert (Bo : Forall (fun tp => to_pass message (fst tp) = Ok (snd tp)) okay).
      { rewrite Forall_forall in *. intros tp Htp. apply B. eapply Permutation_in; [apply Permutation_sym; exact Pm|].
        apply in_or_app. auto. }
      assert (Rj1 : forall t, rejected [(g, @Refuse R v q failed)] t <-> In t (map fst rej)).
      { intros t. rewrite rejected_one, in_map_fst. split.
        - intros (i & p & X & Y). exists p. apply Srej. exists i. split; [exact X|]. now apply memZ_true.
        - intros (p & X). apply Srej in X. destruct X as (i & X & Y). exists i, p. split; [exact X|].
          now apply memZ_true in Y. }
      pose proof (Permutation_map fst Pm) as Pf. rewrite map_app in Pf.
      assert (N2 : NoDup (map fst rej ++ map fst okay)) by (eapply Permutation_NoDup; eauto).
      unfold log_expand.
      destruct (@log_get_cases (scan (length (past ++ [(g, Refuse v q failed)])))
                  (num_passes - lenZ okay) d2 (h_wf H2) (Hscan _))
        as [Eg|(more & Eg & Nmo & Am & Lm & Bm)]; rewrite Eg.
      * (* out of tokens *)
        intros Ev. apply (@give_up_log _ _ okay d2 _ _ (h_wf H2)) in Ev. injection Ev as -> -> -> ->.
        exists [(g, Refuse v q failed)]. split; [discriminate|]. split; [reflexivity|]. split; [reflexivity|].
        assert (T : told pays message num_passes (map snd [(g, Refuse v q failed)]) =
          [SignatureCheckFailed (lenZ failed); InvalidPasses 1 (lenZ rej); ResetPasses (lenZ okay)]).
        { rewrite Nm. cbn [map snd told]. destruct failed as [|f0 failed]; [congruence|]. cbn [app]. unfold lenZ.
          do 2 f_equal. f_equal. f_equal. unfold lenZ in *. lia. }
        rewrite T. split; [now rewrite <- app_assoc|].
        exists [], (map fst rej), (map fst okay), []. rewrite app_nil_r. cbn [app].
        split; [now apply Permutation_sym|]. split; [exact N|]. split; [intros t []|]. split; [intros t; apply taken_one|].
        split; [intros t; symmetry; apply Rj1|].
        split; [intros t; split; [intros []|intros (x & g0 & E0 & _); discriminate]|].
        cbn [total says_got says_spent says_invalid says_returned]. unfold lenZ. cbn [length].
        rewrite !map_length. repeat split; lia.
      * intros Ev.
        assert (H3 : held_ok (okay ++ more) (set_in_use (in_use d2 ++ map fst more) d2))
          by now apply extend_facts.
        set (d3 := set_in_use (in_use d2 ++ map fst more) d2) in *.
        assert (Lm' : lenZ more = lenZ rej) by (rewrite Lm; unfold lenZ in *; lia).
        assert (L3 : lenZ (okay ++ more) = num_passes) by (unfold lenZ in *; rewrite app_length; lia).
        assert (B3 : Forall (fun tp => to_pass message (fst tp) = Ok (snd tp)) (okay ++ more))
          by (apply Forall_app; auto).
        destruct (IH _ _ _ _ _ _ _ _ H3 L3 B3 Ev) as (new & Nn & Etr & Hh & Elg & Pi).
        exists ((g, Refuse v q failed) :: new). split; [discriminate|].
        split; [rewrite Etr, <- app_assoc; reflexivity|]. split; [reflexivity|].
        assert (T : told pays message num_passes (map snd ((g, Refuse v q failed) :: new)) =
          [SignatureCheckFailed (lenZ failed); InvalidPasses 1 (lenZ rej); GetPasses message (num_passes - lenZ okay)] ++
          told pays message num_passes (map snd new)).
        { replace (num_passes - lenZ okay) with (lenZ rej) by (unfold lenZ in *; lia). rewrite Nm.
          cbn [map snd told]. destruct failed as [|f0 failed]; [congruence|].
          destruct new as [|b new]; [congruence|]. reflexivity. }
        rewrite T. split.
        { rewrite Elg, <- !app_assoc. reflexivity. }
        destruct Pi as (spent & bad & back & more' & Pp & Np & Mi & Tk & Bd & Sb & G1 & G2 & G3 & G4).
        assert (Ia : forall t, In t (map fst more) -> ~ In t (map fst (invalid d2))).
        { intros t Ht. apply (h_clean H2). apply stored_in with true. apply in_available, Am, Ht. }
        assert (Id : forall t, In t (map fst (invalid d)) -> In t (map fst (invalid d2))) by (intros t Ht; apply I2; auto).
        change (invalid d3) with (invalid d2) in Mi.
        exists spent, (map fst rej ++ bad), back, (map fst more ++ more').
        assert (Pg : Permutation (map fst g ++ map fst more ++ more')
                                 (map fst rej ++ (map fst (okay ++ more) ++ more'))).
        { rewrite map_app, <- !app_assoc, (app_assoc (map fst rej)). now apply Permutation_app_tail. }
        split.
        { etransitivity; [|apply Permutation_sym, Pg]. rewrite <- Pp. rewrite <- !app_assoc.
          rewrite (app_assoc spent (map fst rej)), (app_assoc (map fst rej) spent).
          apply Permutation_app_tail, Permutation_app_comm. }
        split.
        { eapply Permutation_NoDup; [apply Permutation_sym, Pg|].
          apply NoDup_app_intro; [|exact Np|].
          - clear - N2. induction (map fst rej); cbn in *; [constructor|]. inversion N2; subst. constructor; auto.
            intros X. apply H1. apply in_or_app; auto.
          - intros t Hr Ht. rewrite map_app, !in_app_iff in Ht. destruct Ht as [[Ht|Ht]|Ht].
            + apply (Inv2 t Hr). apply stored_in with true. apply (wf_in_use_stored (h_wf H2)). now apply (h_use H2).
            + apply (Ia t Ht). apply I2. auto.
            + apply (Mi t Ht). apply I2. auto. }
        split.
        { intros t Ht X. apply Id in X. apply in_app_or in Ht. destruct Ht as [Ht|Ht]; [now apply (Ia t)|now apply (Mi t)]. }
        assert (Gin : forall t, In t (map fst g) <-> In t (map fst rej) \/ In t (map fst okay)).
        { intros t. rewrite <- in_app_iff. split; intros X.
          - eapply Permutation_in; eauto.
          - eapply Permutation_in; [apply Permutation_sym|]; eauto. }
        split.
        { intros t. rewrite taken_cons, Tk. cbn [fst]. rewrite map_app, !in_app_iff, Gin. tauto. }
        split.
        { intros t. rewrite rejected_cons, Rj1, in_app_iff, Bd. reflexivity. }
        split.
        { intros t. rewrite Sb. destruct new as [|b new]; [congruence|]. unfold spent_by.
          split; intros (x & g0 & E0 & A0 & S0); exists x, g0; (split; [exact E0|split; [|exact S0]]);
            eapply accepted_cons, A0. }
        rewrite !total_app, G1, G2, G3, G4. cbn [total says_got says_spent says_invalid says_returned].
        unfold lenZ in *. rewrite !app_length, !map_length. repeat split; lia.
  - (* Fail *)
    intros Ev. apply (@give_up_log _ _ g d1 _ _ W1) in Ev. injection Ev as -> -> -> ->.
    exists [(g, Fail e)]. split; [discriminate|]. split; [reflexivity|]. split; [reflexivity|].
    cbn [map snd told]. rewrite L. split; [reflexivity|]. apply piles_give_up; auto.
    intros t. apply not_rejected_fail.
Qed.

(** ** From the beginning of the call *)
Notation call := (log_call_with_manual_spend to_pass server scan message num_passes log_on_success).

Lemma call_log fuel d lg r d' tr : fresh_reachable d -> call fuel d = Some (lg, (r, d', tr)) ->
  lg = whole_log pays message num_passes (map snd tr) r /\
  ((tr = [] /\ total says_got lg = 0 /\ total says_spent lg = 0 /\ total says_invalid lg = 0 /\ total says_returned lg = 0) \/
   exists spent bad back,
     NoDup (spent ++ bad ++ back) /\ (forall t, In t (spent ++ bad ++ back) <-> taken tr t) /\
     (forall t, In t bad <-> rejected tr t) /\ (forall t, In t spent <-> spent_by spends r tr t) /\
     total says_got lg = lenZ (spent ++ bad ++ back) /\ total says_spent lg = lenZ spent /\
     total says_invalid lg = lenZ bad /\ total says_returned lg = lenZ back).
Proof.
  intros Fd. destruct (fresh_clean Fd) as [W C]. unfold log_call_with_manual_spend.
  destruct (@log_get_cases (scan 0%nat) num_passes d W (Hscan _)) as [->|(g & -> & N & A & L & B)].
  - intros [= <- <- <- <-]. split; [reflexivity|]. left. repeat split.
  - specialize (L Hnum).
    assert (H0 : held_ok (@nil (Z * P)) d) by (split; auto; [constructor|intros ? []]).
    pose proof (extend_facts g H0 N A) as H. cbn [app] in H.
    destruct (loop fuel _ [] g _) as [[l1 [[r0 d2] tr0]]|] eqn:E; [|discriminate].
    destruct (@loop_log _ _ _ _ _ _ _ _ _ H L B E) as (new & Nn & Etr & _ & Elg & Pi). cbn [app] in Etr. subst tr0.
    intros [= <- <- <- <-].
    assert (Ew : l1 ++ [action_end r0] = whole_log pays message num_passes (map snd new) r0).
    { rewrite Elg. unfold whole_log, action_end. destruct new as [|a new]; [congruence|]. cbn [map]. reflexivity. }
    split; [exact Ew|]. right.
    destruct Pi as (spent & bad & back & more & Pp & Np & Mi & Tk & Bd & Sb & G1 & G2 & G3 & G4).
    exists spent, bad, back. split; [eapply Permutation_NoDup; [apply Permutation_sym, Pp|exact Np]|].
    split.
    { intros t. rewrite Tk. split; intros X; [eapply Permutation_in; eauto|eapply Permutation_in; [apply Permutation_sym|]; eauto]. }
    split; [exact Bd|]. split; [exact Sb|].
    assert (Lp : lenZ (spent ++ bad ++ back) = num_passes + lenZ more).
    { apply Permutation_length in Pp. rewrite (app_length (map fst g)), map_length in Pp. unfold lenZ in *. lia. }
    rewrite Lp, Elg, !total_app, G1, G2, G3, G4.
    assert (Z0 : forall s, (s = says_got \/ s = says_spent \/ s = says_invalid \/ s = says_returned) -> total s [action_end r0] = 0).
    { intros s Hs. unfold action_end. destruct r0; intuition (subst; reflexivity). }
    rewrite !Z0 by auto. cbn [total says_got says_spent says_invalid says_returned]. repeat split; lia.
Qed.
End Loop.

(** ** The two ways of paying *)
Lemma lenZ_unblinded P (g : group P) : lenZ (unblinded_tokens g) = lenZ g.
Proof. unfold unblinded_tokens, lenZ. now rewrite map_length. Qed.

Lemma adds_up_of P R (to_pass : Z -> Z -> res exn P) (spends : R -> group P -> list Z) message num lg (r : res failure R) d d' tr :
  ((tr = [] /\ r = Err (Raised NotEnoughTokens) /\ d' = d) \/ outcome to_pass message num spends tr r d d') ->
  ((tr = [] /\ total says_got lg = 0 /\ total says_spent lg = 0 /\ total says_invalid lg = 0 /\ total says_returned lg = 0) \/
   exists spent bad back,
     NoDup (spent ++ bad ++ back) /\ (forall t, In t (spent ++ bad ++ back) <-> taken tr t) /\
     (forall t, In t bad <-> rejected tr t) /\ (forall t, In t spent <-> spent_by spends r tr t) /\
     total says_got lg = lenZ (spent ++ bad ++ back) /\ total says_spent lg = lenZ spent /\
     total says_invalid lg = lenZ bad /\ total says_returned lg = lenZ back) ->
  adds_up lg tr d'.
Proof.
  intros O [(-> & G1 & G2 & G3 & G4)|(spent & bad & back & N & Tk & Bd & Sb & G1 & G2 & G3 & G4)].
  - exists [], [], []. split; [constructor|].
    split; [intros t; split; [intros []|intros X; now apply not_taken_nil in X]|].
    split; [intros t []|]. split; [intros t []|]. split; [intros t []|]. cbn. auto.
  - exists spent, bad, back. split; [exact N|]. split; [exact Tk|].
    destruct O as [(-> & _ & _)|O].
    { assert (X : forall t, ~ In t (spent ++ bad ++ back)) by (intros t Ht; apply Tk in Ht; now apply not_taken_nil in Ht).
      split; [intros t Ht; exfalso; apply (X t); rewrite !in_app_iff; auto|].
      split; [intros t Ht; exfalso; apply (X t); rewrite !in_app_iff; auto|].
      split; [intros t Ht; exfalso; apply (X t); rewrite !in_app_iff; auto|]. auto. }
    destruct O as (_ & _ & _ & _ & _ & Ft & _).
    split.
    { intros t Ht. assert (T : taken tr t) by (apply Tk; rewrite !in_app_iff; auto).
      destruct (Ft t T) as (_ & _ & F & _). apply F. now apply Sb. }
    split.
    { intros t Ht. assert (T : taken tr t) by (apply Tk; rewrite !in_app_iff; auto).
      destruct (Ft t T) as (_ & F & _ & _). apply F. now apply Bd. }
    split.
    { intros t Ht. assert (T : taken tr t) by (apply Tk; rewrite !in_app_iff; auto).
      destruct (Ft t T) as (_ & _ & _ & F). apply F.
      - intros X. apply Bd in X. apply nodup_app_parts in N. destruct N as [N _]. apply nodup_app_parts in N. now apply (proj2 N t).
      - intros X. apply Sb in X. apply nodup_app_parts in N. apply (proj2 N t X). apply in_or_app. auto. }
    auto.
Qed.

Lemma sumZ_repeat_mul c n : sumZ (map (fun s => s) (repeat c n)) = Z.of_nat n * c.
Proof. rewrite map_id. induction n as [|n IH]; cbn [repeat]; [reflexivity|]. change (sumZ (c :: repeat c n)) with (c + sumZ (repeat c n)). lia. Qed.
Lemma required_repeat pv size n : 0 < pv -> required_passes pv (repeat size n) = Ok (Z.of_nat n * cdiv size pv).
Proof.
  intros Hp. rewrite required_passes_pos by exact Hp. f_equal. rewrite <- sumZ_repeat_mul, map_id.
  induction n as [|n IH]; cbn [repeat map]; [reflexivity|]. cbn [repeat] in *. 
  change (cdiv size pv + sumZ (map (fun s => cdiv s pv) (repeat size n)) = cdiv size pv + sumZ (repeat (cdiv size pv) n)).
  now rewrite IH.
Qed.

Section Ordinary.
Variables P R : Type.
Variable to_pass : Z -> Z -> res exn P.
Variable server : list (attempt P R) -> group P -> db -> list op * response R.
Variable scan : nat -> list Z -> list Z.
Variables message num : Z.
Hypothesis Hpolite : polite_server server.
Hypothesis Hscan : fair_scan scan.
Hypothesis Hconv : convertible to_pass message.
Hypothesis Hnum : 0 <= num.

Lemma ordinary_log fuel d lg r d' tr : fresh_reachable d ->
  log_call_with_passes to_pass server scan message num fuel d = Some (lg, (r, d', tr)) ->
  lg = whole_log (pays_all num) message num (map snd tr) r /\ adds_up lg tr d'.
Proof.
  intros F E.
  assert (E' : call_with_passes to_pass server scan message num fuel d = Some (r, d', tr)).
  { unfold call_with_passes. rewrite <- (@erase_call P R to_pass server scan message num _ _ (@erase_spend_all P R)).
    unfold log_call_with_passes in E. rewrite E. reflexivity. }
  pose proof (@spend_call_story P R to_pass server scan message num Hpolite Hscan Hconv fuel d r d' tr F E') as O.
  assert (K : lg = whole_log (pays_all num) message num (map snd tr) r /\
    ((tr = [] /\ total says_got lg = 0 /\ total says_spent lg = 0 /\ total says_invalid lg = 0 /\ total says_returned lg = 0) \/
     exists spent bad back,
       NoDup (spent ++ bad ++ back) /\ (forall t, In t (spent ++ bad ++ back) <-> taken tr t) /\
       (forall t, In t bad <-> rejected tr t) /\ (forall t, In t spent <-> spent_by (fun _ g => map fst g) r tr t) /\
       total says_got lg = lenZ (spent ++ bad ++ back) /\ total says_spent lg = lenZ spent /\
       total says_invalid lg = lenZ bad /\ total says_returned lg = lenZ back)).
  { refine (@call_log P R to_pass server scan message num (@spend_all P R) (@log_spend_all P R) (fun _ g => map fst g)
      (pays_all num) Hpolite Hscan Hconv Hnum _ _ _ _ _ _ _ _ _ fuel d lg r d' tr F E).
    - apply erase_spend_all.
    - auto.
    - auto.
    - intros x g d0 W N. unfold spend_all. rewrite mark_spent_eq by exact W. eauto.
    - intros x g d0 W L. unfold log_spend_all, log_mark_spent. cbn [fst]. rewrite lenZ_unblinded, L. reflexivity.
    - reflexivity.
    - reflexivity.
    - intros x g <-. unfold pays_all. cbn [total says_spent]. unfold lenZ. rewrite map_length. lia.
    - intros x g <-. unfold pays_all. cbn [total says_returned]. unfold lenZ. rewrite map_length. lia. }
  destruct K as [K1 K2]. split; [exact K1|]. eapply adds_up_of; eauto.
Qed.
End Ordinary.

Lemma allocate_log P (to_pass : Z -> Z -> res exn P) server scan message pv size sharenums fuel d lg r d' tr :
  polite_server server -> fair_scan scan -> convertible to_pass message -> 0 < pv -> 0 <= size ->
  fresh_reachable d ->
  log_allocate_buckets to_pass server scan message pv size sharenums fuel d = Some (lg, (r, d', tr)) ->
  let num := Z.of_nat (length sharenums) * cdiv size pv in
  lg = whole_log (pays_for_buckets num pv size) message num (map snd tr) r /\ adds_up lg tr d'.
Proof.
  intros Hp Hs Hc Hv Hz F E num.
  assert (E' : client_allocate_buckets to_pass server scan message pv size sharenums fuel d = Some (r, d', tr)).
  { unfold client_allocate_buckets, log_allocate_buckets in *. destruct (required_passes _ _) as [k|e].
    - rewrite <- (@erase_call P _ to_pass server scan message k _ _ (@erase_for_buckets P pv size)). rewrite E. reflexivity.
    - injection E as <- <- <- <-. reflexivity. }
  destruct (@allocate_call_story P to_pass server scan message pv size sharenums fuel d r d' tr Hp Hs Hc Hv Hz F E')
    as (k & Ek & O).
  unfold log_allocate_buckets in E. rewrite required_repeat in Ek, E by exact Hv. injection Ek as <-. fold num in E, O.
  pose proof (@cdiv_nonneg pv size Hv Hz) as C0.
  assert (Hnum : 0 <= num) by (unfold num; nia).
  assert (Sp : forall x (g : group P), lenZ g = num ->
     lenZ (allocation_spends pv size x g) = Z.min num (Z.of_nat (length (snd x)) * cdiv size pv)).
  { intros x g L. unfold allocation_spends. rewrite required_repeat by exact Hv. unfold lenZ in *.
    rewrite map_length, firstn_length. nia. }
  assert (K : lg = whole_log (pays_for_buckets num pv size) message num (map snd tr) r /\
    ((tr = [] /\ total says_got lg = 0 /\ total says_spent lg = 0 /\ total says_invalid lg = 0 /\ total says_returned lg = 0) \/
     exists spent bad back,
       NoDup (spent ++ bad ++ back) /\ (forall t, In t (spent ++ bad ++ back) <-> taken tr t) /\
       (forall t, In t bad <-> rejected tr t) /\ (forall t, In t spent <-> spent_by (allocation_spends pv size) r tr t) /\
       total says_got lg = lenZ (spent ++ bad ++ back) /\ total says_spent lg = lenZ spent /\
       total says_invalid lg = lenZ bad /\ total says_returned lg = lenZ back)).
  { refine (@call_log P _ to_pass server scan message num (spend_for_allocate_buckets pv size)
      (log_spend_for_allocate_buckets pv size) (allocation_spends pv size)
      (pays_for_buckets num pv size) Hp Hs Hc Hnum _ _ _ _ _ _ _ _ _ fuel d lg r d' tr F E).
    - apply erase_for_buckets.
    - intros x g t. apply allocation_sub.
    - intros x g N. unfold allocation_spends. destruct (required_passes _ _) as [k|e]; [|constructor].
      rewrite <- (firstn_skipn (Z.to_nat k) g), map_app in N.
      clear - N. induction (map fst (firstn (Z.to_nat k) g)); cbn in *; [constructor|]. inversion N; subst. constructor; auto.
      intros X. apply H1. apply in_or_app; auto.
    - intros x g d0 W N. destruct (@allocation_ok P pv size x g d0 W N) as [(d2 & E2 & _)|(e & E2)]; [eauto|].
      exfalso. revert E2. unfold spend_for_allocate_buckets. rewrite required_repeat by exact Hv.
      destruct (split _ g) as [a b]. rewrite mark_spent_eq by exact W.
      rewrite reset_eq by (apply wf_remove; exact W). discriminate.
    - intros x g d0 W L. unfold log_spend_for_allocate_buckets. rewrite required_repeat by exact Hv.
      unfold split. rewrite split_prefix_from by lia. rewrite Z.sub_0_r.
      set (k := Z.of_nat (length (snd x)) * cdiv size pv).
      assert (Hk : 0 <= k) by (unfold k; nia).
      pose proof (@mark_spent_eq P (firstn (Z.to_nat k) g) d0 W) as Em. unfold mark_spent in Em.
      unfold log_mark_spent. rewrite Em. unfold log_reset. cbn [fst app]. rewrite !lenZ_unblinded.
      unfold pays_for_buckets. fold k. unfold lenZ in *. rewrite firstn_length, skipn_length.
      f_equal; [f_equal; lia|]. f_equal. f_equal. lia.
    - reflexivity.
    - reflexivity.
    - intros x g L. rewrite (Sp x g L). unfold pays_for_buckets. cbn [total says_spent]. lia.
    - intros x g L. rewrite (Sp x g L). unfold pays_for_buckets. cbn [total says_returned]. lia. }
  destruct K as [K1 K2]. split; [exact K1|]. eapply adds_up_of; eauto.
Qed.
