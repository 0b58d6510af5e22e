(** Lemmas about lease maintenance. *)
From Verif Require Import Prelude PreludeFacts BytesModel BytesProofs CborModel PricingModel PricingSpec PricingProofs ContainerModel StoreModel LeaseModel LeaseSpec.
Set Implicit Arguments.

(** * The walk *)

Lemma insert_child_perm c l : Permutation (insert_child c l) (c :: l).
Proof.
  induction l as [|d l IH]; cbn; [reflexivity|]. destruct (text_leb (fst c) (fst d)); [reflexivity|].
  rewrite IH. apply perm_swap.
Qed.
Lemma sorted_children_perm l : Permutation (sorted_children l) l.
Proof. induction l as [|c l IH]; cbn; [reflexivity|]. rewrite insert_child_perm. now apply perm_skip. Qed.

Lemma pushed_children g a names b : n_children (g a) = Some (Ok names) ->
  (In b (rev (map snd (sorted_children names))) <-> child g a b).
Proof.
  intros E. rewrite <- in_rev. unfold child. split.
  - intros H. apply in_map_iff in H as ([name x] & <- & H). exists names, name. split; [exact E|].
    apply (Permutation_in _ (sorted_children_perm names)), H.
  - intros (names' & name & E' & H). rewrite E in E'. injection E' as <-. apply in_map_iff. exists (name, b).
    split; [reflexivity|]. apply (Permutation_in _ (Permutation_sym (sorted_children_perm names))), H.
Qed.

Lemma below_trans g a b c : below g a b -> below g b c -> below g a c.
Proof. intros H. revert c. induction H; intros d D; [now apply below_step with b|apply below_step with b; auto]. Qed.

Lemma reachable_cons g a stack n :
  reachable g (a :: stack) n <-> n = a \/ below g a n \/ reachable g stack n.
Proof.
  unfold reachable. split.
  - intros [[->|H]|(r & [->|H] & B)]; auto. right. right. right. eauto.
  - intros [->|[H|[H|(r & H & B)]]]; [left; now left|right; exists a; split; [now left|assumption]|left; now right|].
    right. exists r. split; [now right|assumption].
Qed.

Lemma reachable_app g a b n : reachable g (a ++ b) n <-> reachable g a n \/ reachable g b n.
Proof.
  unfold reachable. split.
  - intros [H|(r & H & B)]; apply in_app_or in H; destruct H; eauto 6.
  - intros [[H|(r & H & B)]|[H|(r & H & B)]]; [left; apply in_or_app; now left| |left; apply in_or_app; now right|];
      right; exists r; (split; [apply in_or_app; auto|exact B]).
Qed.

Lemma reachable_children g a names n : n_children (g a) = Some (Ok names) ->
  (reachable g (rev (map snd (sorted_children names))) n <-> below g a n).
Proof.
  intros E. unfold reachable. split.
  - intros [H|(r & H & B)]; apply (pushed_children g a n E) in H || apply (pushed_children g a r E) in H.
    + now apply below_child.
    + now apply below_step with r.
  - intros B. inversion B as [x y C|x y z C B']; subst.
    + left. now apply (pushed_children g a n E).
    + right. exists y. split; [now apply (pushed_children g a y E)|exact B'].
Qed.

Lemma below_file g a n : n_children (g a) = None -> ~ below g a n.
Proof. intros E B. inversion B as [x y C|x y z C B']; subst; destruct C as (? & ? & C & _); congruence. Qed.

(** What a finished walk has visited. *)
Lemma visit_loop_exact g fuel : forall stack sis, visit_loop g fuel stack = Some (Ok sis) ->
  forall si, In si sis <-> exists n, reachable g stack n /\ n_index (g n) = si.
Proof.
  induction fuel as [|fuel IH]; cbn; intros stack sis H; [discriminate|].
  destruct stack as [|a stack].
  - injection H as <-. intros si. split; [intros []|]. intros (n & [[]|(r & [] & _)] & _).
  - destruct (n_children (g a)) as [[names|e]|] eqn:C; [|discriminate|].
    + destruct (visit_loop g fuel (rev (map snd (sorted_children names)) ++ stack)) as [[sis'|e]|] eqn:V; try discriminate.
      injection H as <-. intros si. cbn. rewrite (IH _ _ V si). split.
      * intros [<-|(n & R & <-)]; [exists a; split; [apply reachable_cons; now left|reflexivity]|].
        exists n. split; [|reflexivity]. apply reachable_cons. apply reachable_app in R as [R|R]; [|tauto].
        apply (reachable_children g a n C) in R. tauto.
      * intros (n & R & <-). apply reachable_cons in R as [->|[R|R]]; [now left|right|right]; exists n; split; try reflexivity;
          apply reachable_app; [left; now apply (reachable_children g a n C)|now right].
    + destruct (visit_loop g fuel stack) as [[sis'|e]|] eqn:V; try discriminate.
      injection H as <-. intros si. cbn. rewrite (IH _ _ V si). split.
      * intros [<-|(n & R & <-)]; [exists a; split; [apply reachable_cons; now left|reflexivity]|].
        exists n. split; [|reflexivity]. apply reachable_cons. tauto.
      * intros (n & R & <-). apply reachable_cons in R as [->|[R|R]]; [now left| |].
        { exfalso. now apply (@below_file g a n C). }
        right. eauto.
Qed.

(** Every directory reached by a finished walk could be listed. *)
Lemma visit_loop_readable g fuel : forall stack sis, visit_loop g fuel stack = Some (Ok sis) ->
  forall n, reachable g stack n -> readable g n.
Proof.
  induction fuel as [|fuel IH]; cbn; intros stack sis H; [discriminate|].
  destruct stack as [|a stack]; [intros n [[]|(r & [] & _)]|].
  destruct (n_children (g a)) as [[names|e]|] eqn:C; [|discriminate|].
  - destruct (visit_loop g fuel (rev (map snd (sorted_children names)) ++ stack)) as [[sis'|e]|] eqn:V; try discriminate.
    intros n R. apply reachable_cons in R as [->|[R|R]]; [intros e; rewrite C; discriminate| |]; apply (IH _ _ V); apply reachable_app;
      [left; now apply (reachable_children g a n C)|now right].
  - destruct (visit_loop g fuel stack) as [[sis'|e]|] eqn:V; try discriminate.
    intros n R. apply reachable_cons in R as [->|[R|R]]; [intros e; rewrite C; discriminate| |now apply (IH _ _ V)].
    exfalso. now apply (@below_file g a n C).
Qed.

(** With less below it a stack is finished sooner. *)
Lemma visit_loop_suffix g fuel : forall a b sis, visit_loop g fuel (a ++ b) = Some (Ok sis) ->
  exists fuel' sis', (fuel' <= fuel)%nat /\ visit_loop g fuel' b = Some (Ok sis').
Proof.
  induction fuel as [|fuel IH]; cbn; intros a b sis H; [discriminate|].
  destruct a as [|x a]; cbn in H.
  - exists (S fuel), sis. split; [lia|exact H].
  - destruct (n_children (g x)) as [[names|e]|] eqn:C; [|discriminate|].
    + rewrite app_assoc in H. destruct (visit_loop g fuel _) as [[sis'|e]|] eqn:V; try discriminate.
      destruct (IH _ _ _ V) as (f & s & L & E). exists f, s. split; [lia|exact E].
    + destruct (visit_loop g fuel _) as [[sis'|e]|] eqn:V; try discriminate.
      destruct (IH _ _ _ V) as (f & s & L & E). exists f, s. split; [lia|exact E].
Qed.

Lemma visit_loop_child g fuel a stack sis b : visit_loop g fuel (a :: stack) = Some (Ok sis) -> child g a b ->
  exists fuel' stack' sis', (fuel' < fuel)%nat /\ visit_loop g fuel' (b :: stack') = Some (Ok sis').
Proof.
  destruct fuel as [|fuel]; [discriminate|]. cbn [visit_loop]. intros H Ch. pose proof Ch as (names & name & C & _). rewrite C in H.
  destruct (visit_loop g fuel _) as [[sis'|e]|] eqn:V; try discriminate.
  apply (pushed_children g a b C) in Ch. apply in_split in Ch as (l1 & l2 & E). rewrite E, <- app_assoc in V. cbn in V.
  destruct (visit_loop_suffix _ _ _ _ V) as (f & s & L & V'). exists f, (l2 ++ stack), s. split; [lia|exact V'].
Qed.

Lemma visit_loop_below g a b : below g a b -> forall fuel stack sis, visit_loop g fuel (a :: stack) = Some (Ok sis) ->
  exists fuel' stack' sis', (fuel' < fuel)%nat /\ visit_loop g fuel' (b :: stack') = Some (Ok sis').
Proof.
  induction 1 as [a b C|a b c C B IH]; intros fuel stack sis V.
  - eapply visit_loop_child; eauto.
  - destruct (visit_loop_child _ _ V C) as (f & st & s & L & V'). destruct (IH _ _ _ V') as (f2 & st2 & s2 & L2 & V2).
    exists f2, st2, s2. split; [lia|exact V2].
Qed.

Lemma visit_loop_no_cycle g a : below g a a -> forall fuel stack sis, visit_loop g fuel (a :: stack) <> Some (Ok sis).
Proof.
  intros B fuel. induction fuel as [fuel IH] using lt_wf_ind. intros stack sis V.
  destruct (visit_loop_below B _ _ V) as (f & st & s & L & V'). exact (IH f L st s V').
Qed.

Lemma visit_loop_reach g roots n : reachable g roots n -> forall fuel sis, visit_loop g fuel roots = Some (Ok sis) ->
  exists fuel' stack' sis', (fuel' <= fuel)%nat /\ visit_loop g fuel' (n :: stack') = Some (Ok sis').
Proof.
  intros R fuel sis V.
  assert (T : forall r, In r roots -> exists fuel' stack' sis', (fuel' <= fuel)%nat /\ visit_loop g fuel' (r :: stack') = Some (Ok sis')).
  { intros r H. apply in_split in H as (l1 & l2 & ->). destruct (visit_loop_suffix _ _ _ _ V) as (f & s & L & V').
    exists f, l2, s. split; [lia|exact V']. }
  destruct R as [H|(r & H & B)]; [now apply T|]. destruct (T r H) as (f & st & s & L & V').
  destruct (visit_loop_below B _ _ V') as (f2 & st2 & s2 & L2 & V2). exists f2, st2, s2. split; [lia|exact V2].
Qed.

(** Without unreadable directories a walk is finished or going on. *)
Lemma visit_loop_no_error g fuel : forall stack, (forall n, reachable g stack n -> readable g n) ->
  forall e, visit_loop g fuel stack <> Some (Err e).
Proof.
  induction fuel as [|fuel IH]; cbn; intros stack R e; [discriminate|].
  destruct stack as [|a stack]; [discriminate|].
  destruct (n_children (g a)) as [[names|x]|] eqn:C.
  - assert (X : forall e, visit_loop g fuel (rev (map snd (sorted_children names)) ++ stack) <> Some (Err e)).
    { apply IH. intros n H. apply R. apply reachable_cons. apply reachable_app in H as [H|H]; [|tauto].
      right. left. now apply (reachable_children g a n C). }
    destruct (visit_loop g fuel _) as [[s|x]|]; try discriminate. exfalso. now apply (X x).
  - exfalso. assert (Ra : readable g a) by (apply R, reachable_cons; now left). exact (Ra x C).
  - assert (X : forall e, visit_loop g fuel stack <> Some (Err e)).
    { apply IH. intros n H. apply R. apply reachable_cons. tauto. }
    destruct (visit_loop g fuel stack) as [[s|x]|]; try discriminate. exfalso. now apply (X x).
Qed.

(** Acyclic graphs: the walk ends. *)
Lemma visit_loop_more g fuel : forall stack r fuel', visit_loop g fuel stack = Some r -> (fuel <= fuel')%nat ->
  visit_loop g fuel' stack = Some r.
Proof.
  induction fuel as [|fuel IH]; cbn; intros stack r fuel' H L; [discriminate|].
  destruct fuel' as [|fuel']; [lia|]. cbn. destruct stack as [|a stack]; [exact H|].
  destruct (n_children (g a)) as [[names|x]|].
  - destruct (visit_loop g fuel _) as [s|] eqn:V; [|discriminate]. rewrite (IH _ _ fuel' V) by lia. exact H.
  - exact H.
  - destruct (visit_loop g fuel _) as [s|] eqn:V; [|discriminate]. rewrite (IH _ _ fuel' V) by lia. exact H.
Qed.

Definition ends g stack := exists fuel r, visit_loop g fuel stack = Some r.
Lemma ends_nil g : ends g [].
Proof. exists 1%nat, (Ok []). reflexivity. Qed.
Lemma ends_cons g a stack :
  (forall names, n_children (g a) = Some (Ok names) -> ends g (rev (map snd (sorted_children names)) ++ stack)) ->
  ends g stack -> ends g (a :: stack).
Proof.
  intros H1 H2. destruct (n_children (g a)) as [[names|x]|] eqn:C.
  - destruct (H1 names eq_refl) as (f & r & V). exists (S f). cbn. rewrite C, V. destruct r; eauto.
  - exists 1%nat, (Err x). cbn. now rewrite C.
  - destruct H2 as (f & r & V). exists (S f). cbn. rewrite C, V. destruct r; eauto.
Qed.
Lemma ends_app g (rank : Z -> nat) : (forall a b, child g a b -> (rank b < rank a)%nat) ->
  forall k l stack, (forall n, In n l -> (rank n < k)%nat) -> ends g stack -> ends g (l ++ stack).
Proof.
  intros R. induction k as [k IH] using lt_wf_ind. intros l. induction l as [|a l IHl]; intros stack H E; [exact E|].
  cbn. assert (X : ends g (l ++ stack)) by (apply IHl; [intros n Hn; apply H; now right|exact E]).
  apply ends_cons; [|exact X]. intros names C. apply (IH (rank a)).
  - apply H. now left.
  - intros n Hn. apply R. now apply (pushed_children g a n C).
  - exact X.
Qed.

Lemma ends_acyclic g rank roots : (forall a b, child g a b -> (rank b < rank a)%nat) -> ends g roots.
Proof.
  intros R. rewrite <- (app_nil_r roots). apply ends_app with rank (S (fold_right Nat.max O (map rank roots))); [exact R| |apply ends_nil].
  intros n H. induction roots as [|r l IH]; cbn in *; [destruct H|]. destruct H as [->|H]; [lia|]. specialize (IH H). lia.
Qed.

(** * The set *)

Lemma opt_bytes_eqb_spec a b : reflect (a = b) (opt_bytes_eqb a b).
Proof.
  destruct a as [a|], b as [b|]; cbn; try (constructor; congruence). destruct (bytes_eqb_spec a b); constructor; congruence.
Qed.
Lemma distinct_spec l : NoDup (distinct l) /\ forall x, In x (distinct l) <-> In x l.
Proof.
  induction l as [|x l [IH1 IH2]]; cbn; [split; [constructor|tauto]|].
  destruct (existsb (opt_bytes_eqb x) l) eqn:E.
  - split; [exact IH1|]. intros y. rewrite IH2. split; [auto|]. intros [<-|H]; [|exact H].
    apply existsb_exists in E as (z & Hz & E). destruct (opt_bytes_eqb_spec x z); congruence.
  - split.
    + constructor; [|exact IH1]. intros H. apply IH2 in H. assert (existsb (opt_bytes_eqb x) l = true); [|congruence].
      apply existsb_exists. exists x. split; [exact H|]. destruct (opt_bytes_eqb_spec x x); congruence.
    + intros y. cbn. rewrite IH2. reflexivity.
Qed.

(** * The decision *)

Lemma soonest_spec l : forall s, In (soonest_expiration s l) (s :: l) /\
  forall x, In x (s :: l) -> lease_expiration (soonest_expiration s l) <= lease_expiration x.
Proof.
  induction l as [|t l IH]; intros s; cbn [soonest_expiration].
  - split; [now left|]. intros x [->|[]]. lia.
  - destruct (IH (if lease_expiration t <? lease_expiration s then t else s)) as [I M]. split.
    + destruct I as [I|I]; [rewrite <- I; destruct (_ <? _); [right; now left|now left]|right; now right].
    + intros x H. assert (L : lease_expiration (if lease_expiration t <? lease_expiration s then t else s) <= lease_expiration t
                              /\ lease_expiration (if lease_expiration t <? lease_expiration s then t else s) <= lease_expiration s).
      { destruct (Z.ltb_spec (lease_expiration t) (lease_expiration s)); lia. }
      specialize (M _ (or_introl eq_refl)) as M0. destruct H as [<-|[<-|H]]; [lia|lia|]. apply M. now right.
Qed.

Lemma needs_is_due remaining now (d : dict share_stat) s l b : dvalues d = s :: l ->
  needs_lease_renew remaining (soonest_expiration s l) now = Ok b -> b = is_due remaining now d.
Proof.
  intros D. unfold needs_lease_renew, utcfromtimestamp. destruct (_ && _); [|discriminate]. cbn. intros [= <-].
  destruct (soonest_spec l s) as [I M]. unfold is_due.
  assert (E : existsb (fun ns : Z * share_stat => lease_expiration (snd ns) * 1000000 - now <? remaining) d =
              existsb (fun x => lease_expiration x * 1000000 - now <? remaining) (s :: l)).
  { rewrite <- D. unfold dvalues. clear. induction d as [|x d IH]; cbn; [reflexivity|]. now rewrite IH. }
  rewrite E. apply eq_true_iff_eq. rewrite existsb_exists. split.
  - intros H. exists (soonest_expiration s l). split; [exact I|exact H].
  - intros (x & Hx & H). specialize (M _ Hx). lia.
Qed.

Lemma not_due_nil remaining now (d : dict share_stat) : dvalues d = [] -> is_due remaining now d = false.
Proof. destruct d; [reflexivity|discriminate]. Qed.

(** * A run *)

Lemma asked_app a b : asked (a ++ b) = asked a ++ asked b.
Proof. apply flat_map_app. Qed.
Lemma observed_app a b : observed (a ++ b) = observed a ++ observed b.
Proof. apply flat_map_app. Qed.
Lemma told_app a b : told (a ++ b) = told a ++ told b.
Proof. apply flat_map_app. Qed.

Section Run.
Variable W : Type.
Variable stat_shares : Z -> list bytes -> W -> res mexn (list (dict share_stat)) * W.
Variable add_lease : Z -> bytes -> bytes -> bytes -> W -> res mexn unit * W.
Variable start : W -> res mexn unit * W.
Variable observe : list Z -> W -> res mexn unit * W.
Variable finish : W -> res mexn unit * W.
Variable clock : W -> Z.
Variable connected_servers : W -> list Z.
Variables file_renewal_secret_hash bucket_renewal_secret_hash : bytes -> bytes -> bytes.
Variables file_cancel_secret_hash bucket_cancel_secret_hash : bytes -> bytes -> bytes.
Variable lease_seed : Z -> bytes.
Notation loop := (renew_loop add_lease observe file_renewal_secret_hash bucket_renewal_secret_hash
                    file_cancel_secret_hash bucket_cancel_secret_hash lease_seed).
Notation on_server := (renew_leases_on_server stat_shares add_lease observe file_renewal_secret_hash
                    bucket_renewal_secret_hash file_cancel_secret_hash bucket_cancel_secret_hash lease_seed).
Notation on_servers := (renew_on_servers stat_shares add_lease observe clock file_renewal_secret_hash
                    bucket_renewal_secret_hash file_cancel_secret_hash bucket_cancel_secret_hash lease_seed).
Notation renew_all := (renew_leases stat_shares add_lease start observe finish clock connected_servers
                    file_renewal_secret_hash bucket_renewal_secret_hash file_cancel_secret_hash
                    bucket_cancel_secret_hash lease_seed).

Lemma bind_inv A B (m : M W A) (k : A -> M W B) w r w' t : mbind m k w = (r, w', t) ->
  (exists e, m w = (Err e, w', t) /\ r = Err e) \/
  exists a w1 t1 t2, m w = (Ok a, w1, t1) /\ k a w1 = (r, w', t2) /\ t = t1 ++ t2.
Proof.
  unfold mbind. destruct (m w) as [[[a|e] w1] t1].
  - destruct (k a w1) as [[r2 w2] t2] eqn:K. intros [= <- <- <-]. right. exists a, w1, t1, t2. auto.
  - intros [= <- <- <-]. left. eauto.
Qed.

Lemma call_inv A (f : W -> res mexn A * W) rec w r w' t : call f rec w = (r, w', t) -> f w = (r, w') /\ t = rec r.
Proof. unfold call. destruct (f w) as [x y]. intros [= <- <- <-]. auto. Qed.

Lemma loop_spec remaining rs cs server now l : forall w r w' t, loop remaining rs cs server now l w = (r, w', t) ->
  told t = [] /\
  (exists rest, asked t ++ rest = map (fun p => (server, fst p)) (filter (fun p => is_due remaining now (snd p)) l) /\
                (r = Ok tt -> rest = [])) /\
  (exists rest, observed t ++ rest = filter nonempty (map (fun p => map (fun ns => size (snd ns)) (snd p)) l) /\
                (r = Ok tt -> rest = [])).
Proof.
  induction l as [|[si d] l IH]; intros w r w' t; cbn [renew_loop].
  - intros [= <- <- <-]. cbn. repeat split; exists []; auto.
  - assert (Sz : map (fun ns : Z * share_stat => size (snd ns)) d = map size (dvalues d)) by (unfold dvalues; now rewrite map_map).
    cbn [map filter fst snd]. rewrite Sz. destruct (dvalues d) as [|s more] eqn:D.
    + rewrite (not_due_nil _ _ d D). cbn [nonempty]. apply IH.
    + intros H. apply bind_inv in H as [(e & H & ->)|(u & w1 & t1 & t2 & H & K & ->)].
      { apply call_inv in H as [_ ->]. cbn. split; [reflexivity|]. split; eexists; (split; [reflexivity|discriminate]). }
      apply call_inv in H as [_ ->]. cbn [if_ok]. cbn [map nonempty].
      destruct (needs_lease_renew remaining (soonest_expiration s more) now) as [b|e] eqn:N.
      * rewrite <- (needs_is_due _ _ d D N). destruct b.
        -- apply bind_inv in K as [(e & K & ->)|(u2 & w2 & t3 & t4 & K & K' & ->)].
           ++ unfold renew_lease in K. apply call_inv in K as [_ ->]. cbn. split; [reflexivity|].
              split; eexists; (split; [reflexivity|discriminate]).
           ++ unfold renew_lease in K. apply call_inv in K as [_ ->]. destruct (IH _ _ _ _ K') as (T & (r1 & A & Ar) & (r2 & O & Or)).
              cbn. split; [exact T|]. split; [exists r1|exists r2]; (split; [now f_equal|assumption]).
        -- destruct (IH _ _ _ _ K) as (T & (r1 & A & Ar) & (r2 & O & Or)). cbn. split; [exact T|].
           split; [exists r1|exists r2]; (split; [assumption || now f_equal|assumption]).
      * injection K as <- <- <-. cbn. split; [reflexivity|]. split; eexists; (split; [reflexivity|discriminate]).
Qed.

(** What holds of every run, also of one that fails: it asked for and recorded a
    first part of what the answers call for; all of it if it did not fail. *)
Definition follows remaining (r : res mexn unit) (t : list act) : Prop :=
  (exists rest, asked t ++ rest = flat_map (due_on remaining) (told t) /\ (r = Ok tt -> rest = [])) /\
  (exists rest, observed t ++ rest = flat_map sizes_on (told t) /\ (r = Ok tt -> rest = [])).

Lemma on_server_spec remaining rs cs sis server now w r w' t :
  on_server remaining rs cs sis server now w = (r, w', t) ->
  follows remaining r t /\
  ((told t = [] /\ exists e, r = Err e) \/
   exists sis' answer, all_indexes sis = Ok sis' /\ told t = [(now, server, sis', answer)]).
Proof.
  unfold renew_leases_on_server. destruct (all_indexes sis) as [sis'|e] eqn:A.
  - intros H. apply bind_inv in H as [(e & H & ->)|(ans & w1 & t1 & t2 & H & K & ->)].
    + apply call_inv in H as [_ ->]. cbn. split; [split; exists []; auto|left; eauto].
    + apply call_inv in H as [_ ->]. cbn [if_ok]. destruct (loop_spec _ _ _ _ _ _ _ K) as (T & (r1 & A1 & Ar) & (r2 & O & Or)).
      assert (Tt : told ([Stated now server sis' ans] ++ t2) = [(now, server, sis', ans)]) by (rewrite told_app, T; reflexivity).
      split; [|right; eauto]. unfold follows. rewrite Tt. cbn [flat_map]. rewrite !app_nil_r.
      split; [exists r1|exists r2]; (split; [exact A1 || exact O|assumption]).
  - intros [= <- <- <-]. cbn. split; [split; exists []; auto|left; eauto].
Qed.

Lemma follows_app remaining t1 r t2 : follows remaining (Ok tt) t1 -> follows remaining r t2 -> follows remaining r (t1 ++ t2).
Proof.
  intros [(a1 & A1 & E1) (b1 & B1 & F1)] [(a2 & A2 & E2) (b2 & B2 & F2)]. specialize (E1 eq_refl). specialize (F1 eq_refl). subst a1 b1.
  rewrite app_nil_r in A1, B1. unfold follows. rewrite asked_app, observed_app, told_app, !flat_map_app, <- A1, <- B1, <- A2, <- B2.
  split; [exists a2|exists b2]; (split; [now rewrite app_assoc|assumption]).
Qed.

Lemma on_servers_spec remaining rs cs sis servers : forall w r w' t,
  on_servers remaining rs cs sis servers w = (r, w', t) ->
  follows remaining r t /\
  exists rest, map (fun x => snd (fst (fst x))) (told t) ++ rest = servers /\
    (r = Ok tt -> rest = []) /\
    (forall x, In x (told t) -> all_indexes sis = Ok (snd (fst x))).
Proof.
  induction servers as [|s servers IH]; intros w r w' t; cbn [renew_on_servers].
  - intros [= <- <- <-]. split; [split; exists []; auto|]. exists []. repeat split. intros x [].
  - intros H. apply bind_inv in H as [(e & H & ->)|(u & w1 & t1 & t2 & H & K & ->)].
    + destruct (on_server_spec _ _ _ _ _ _ _ H) as [F [(T & _)|(sis' & ans & A & T)]]; (split; [exact F|]); rewrite T; cbn.
      * exists (s :: servers). repeat split; [discriminate|intros x []].
      * exists servers. split; [reflexivity|]. split; [discriminate|]. intros x [<-|[]]. exact A.
    + destruct u. destruct (on_server_spec _ _ _ _ _ _ _ H) as [F [(_ & e & X)|(sis' & ans & A & T)]]; [discriminate|].
      destruct (IH _ _ _ _ K) as (F2 & rest & E & R & In2). split; [now apply follows_app|].
      exists rest. rewrite told_app, T. cbn. rewrite E. split; [reflexivity|]. split; [exact R|].
      intros x [<-|Hx]; [exact A|now apply In2].
Qed.

Lemma renew_all_spec remaining rs cs visited w r w' t :
  renew_all remaining rs cs visited w = (r, w', t) ->
  follows remaining r t /\
  (forall sis, visited = Ok sis -> forall x, In x (told t) -> all_indexes sis = Ok (snd (fst x))) /\
  exists w1 rest, map (fun x => snd (fst (fst x))) (told t) ++ rest = connected_servers w1 /\
    (start w = (Ok tt, w1) \/ told t = []) /\
    (r = Ok tt -> exists sis, visited = Ok sis /\ start w = (Ok tt, w1) /\ rest = [] /\ In Finished t).
Proof.
  unfold renew_leases. intros H. apply bind_inv in H as [(e & H & ->)|(u & w1 & t1 & t2 & H & K & ->)].
  - apply call_inv in H as [_ ->]. split; [split; exists []; auto|]. split; [intros ? ? x []|].
    exists w', (connected_servers w'). cbn. split; [reflexivity|]. split; [now right|discriminate].
  - destruct u. apply call_inv in H as [H ->]. cbn [app]. destruct visited as [sis|e].
    + apply bind_inv in K as [(e & K & ->)|(u & w2 & t3 & t4 & K & K' & ->)].
      * destruct (on_servers_spec _ _ _ _ _ _ K) as (F & rest & E & R & A). split; [exact F|]. split; [intros ? [= <-]; exact A|].
        exists w1, rest. split; [exact E|]. split; [now left|discriminate].
      * destruct u. destruct (on_servers_spec _ _ _ _ _ _ K) as (F & rest & E & R & A). specialize (R eq_refl). subst rest.
        apply call_inv in K' as [_ ->].
        assert (F4 : follows remaining r (if_ok (fun _ => [Finished]) r)) by (destruct r; split; exists []; auto).
        split; [now apply follows_app|].
        assert (T4 : told (if_ok (fun _ : unit => [Finished]) r) = []) by (destruct r; reflexivity).
        rewrite told_app, T4, app_nil_r. split; [intros ? [= <-]; exact A|]. exists w1, []. split; [exact E|]. split; [now left|].
        intros ->. exists sis. repeat split; auto. apply in_or_app. right. now left.
    + injection K as <- <- <-. split; [split; exists []; auto|]. split; [intros ? ? x []|].
      exists w1, (connected_servers w1). cbn. split; [reflexivity|]. split; [now right|discriminate].
Qed.
End Run.
