(** Lemmas about what requests do to the stored state. *)
From Verif Require Import Prelude PreludeFacts BytesModel BytesProofs PassModel PricingModel PricingSpec PricingProofs
  ContainerModel ContainerProofs TahoeModel ServerModel ServerSpec ServerProofs.
Ltac Zify.zify_post_hook ::= Z.div_mod_to_equations.
Arguments hz : simpl never.
Arguments packable : simpl never.
Arguments RENEWAL_SECONDS : simpl never.
Arguments LEASE_PERIOD_SECONDS : simpl never.
Arguments MAX_SIZE : simpl never.
Set Implicit Arguments.

(** ** Leases *)

Lemma leases_kept_refl ls : leases_kept ls ls.
Proof. intros i l H. exists l. repeat split; auto. lia. Qed.

Lemma leases_kept_trans a b c : leases_kept a b -> leases_kept b c -> leases_kept a c.
Proof.
  intros H K i l I. destruct (H i l I) as (l1 & I1 & R1 & C1 & E1). destruct (K i l1 I1) as (l2 & I2 & R2 & C2 & E2).
  exists l2. repeat split; auto; try congruence. lia.
Qed.

Lemma leases_kept_active ls ls' now :
  leases_kept ls ls' -> (exists l, In l ls /\ l_expiration l * hz > now) ->
  exists l, In l ls' /\ l_expiration l * hz > now.
Proof.
  intros K (l & I & A). apply In_nth_error in I. destruct I as [i I]. destruct (K i l I) as (l' & I' & _ & _ & E).
  exists l'. split; [eapply nth_error_In; exact I'|]. unfold hz in *. lia.
Qed.

Lemma quot_expiry e : e - hz < Z.quot e hz * hz.
Proof.
  pose proof (Z.quot_rem e hz ltac:(discriminate)) as Q.
  pose proof (Z.rem_bound_abs e hz ltac:(discriminate)). unfold hz in *. lia.
Qed.

Lemma quot_not_shorter e x : e > x * hz -> x <= Z.quot e hz.
Proof. pose proof (quot_expiry e). unfold hz in *. lia. Qed.

Lemma renew_lease_spec renew e ls r : renew_lease renew e ls = Some r ->
  match r with
  | Ok ls' => leases_kept ls ls' /\ length ls' = length ls /\ ls <> [] /\
              (exists l, In l ls' /\ l_expiration l * hz > e - hz)
  | Err x => x = PackError
  end.
Proof.
  revert r. induction ls as [|l ls IH]; intros r H; cbn in H; [discriminate|].
  destruct (bytes_eqb (l_renew l) renew) eqn:B.
  - injection H as <-. destruct (Z.gtb_spec e (l_expiration l * hz)) as [G|G].
    + destruct (packable (Z.quot e hz)) eqn:P; [|reflexivity]. repeat split; try discriminate.
      * intros [|i] l0 I; cbn in I |- *.
        -- injection I as ->. eexists. split; [reflexivity|]. cbn. repeat split; auto. apply quot_not_shorter. lia.
        -- exists l0. repeat split; auto. lia.
      * eexists. split; [left; reflexivity|]. cbn. pose proof (quot_expiry e). lia.
    + repeat split; try discriminate; [apply leases_kept_refl|].
      exists l. split; [left; reflexivity|]. unfold hz in *. lia.
  - destruct (renew_lease renew e ls) as [[ls'|x]|] eqn:E; cbn in H; try discriminate; injection H as <-.
    + cbn. destruct (IH _ eq_refl) as (K & L & N & l1 & I1 & A1). repeat split; try discriminate.
      * intros [|i] l0 I; cbn in I |- *; [injection I as ->; exists l0; repeat split; auto; lia|apply K, I].
      * cbn. lia.
      * exists l1. split; [right; exact I1|exact A1].
    + cbn. apply (IH _ eq_refl).
Qed.

Lemma leases_kept_app ls x : leases_kept ls (ls ++ x).
Proof.
  intros i l I. exists l. rewrite nth_error_app1 by (apply nth_error_Some; congruence). repeat split; auto. lia.
Qed.

Lemma add_or_renew_spec space owner renew cancel e s s' :
  add_or_renew_lease space owner renew cancel e s = Ok s' ->
  s_container s' = s_container s /\ s_data s' = s_data s /\ leases_kept (s_leases s) (s_leases s') /\
  (wf_share s -> wf_share s') /\ s_leases s' <> [] /\
  (exists l, In l (s_leases s') /\ l_expiration l * hz > e - hz).
Proof.
  unfold add_or_renew_lease. destruct (renew_lease renew e (s_leases s)) as [r|] eqn:E.
  - pose proof (renew_lease_spec _ _ _ E) as H. destruct r as [ls'|x]; cbn; [|discriminate].
    intros [= <-]. cbn. destruct H as (K & L & N & A).
    split; [reflexivity|]. split; [reflexivity|]. split; [exact K|]. split; [|split; [|exact A]].
    + unfold wf_share, data_size. cbn. rewrite L. intros [W1 W2]. split; [exact W1|].
      destruct (s_container s); [split; [apply W2|]|exact W2]. destruct ls'; [destruct A as (? & [] & _)|congruence].
    + destruct ls'; [destruct A as (? & [] & _)|congruence].
  - destruct space; cbn; [|discriminate]. destruct (packable (Z.quot e hz)) eqn:P1; cbn; [|discriminate].
    destruct (packable (lenZ (s_leases s) + 1)) eqn:P2; [|discriminate]. intros [= <-]. cbn.
    split; [reflexivity|]. split; [reflexivity|]. split; [apply leases_kept_app|]. split; [|split].
    + unfold wf_share, data_size, packable, lenZ in *. cbn. rewrite app_length. cbn. intros [W1 W2]. split; [lia|].
      destruct (s_container s); [split; [apply W2|]|exact W2]. destruct (s_leases s); cbn; congruence.
    + destruct (s_leases s); cbn; congruence.
    + eexists. split; [apply in_or_app; right; left; reflexivity|]. cbn. pose proof (quot_expiry e). lia.
Qed.

(** ** One share after another *)

(** The new share is the old one with at most its leases extended. *)
Definition extended (s s' : share) : Prop :=
  s_container s' = s_container s /\ s_data s' = s_data s /\
  leases_kept (s_leases s) (s_leases s') /\ (wf_share s -> wf_share s').

Lemma extended_refl s : extended s s.
Proof. split; [reflexivity|]. split; [reflexivity|]. split; [apply leases_kept_refl|auto]. Qed.

Lemma add_lease_loop_spec room renew cancel e d r d' :
  add_lease_loop room renew cancel e d = (r, d') ->
  dkeys d' = dkeys d /\
  (forall n, match dget n d, dget n d' with
             | Some s, Some s' => extended s s'
             | None, None => True
             | _, _ => False end).
Proof.
  revert r d'. induction d as [|[m t] d IH]; intros r d'; cbn.
  - intros [= <- <-]. split; [reflexivity|]. intros n. exact I.
  - destruct (add_or_renew_lease (room m) 1 renew cancel e t) as [t'|x] eqn:E.
    + destruct (add_lease_loop room renew cancel e d) as [r1 d1] eqn:L. intros [= <- <-].
      destruct (IH _ _ eq_refl) as [K H]. split; [cbn; unfold dkeys in K; rewrite K; reflexivity|].
      intros n. cbn. destruct (n =? m); [|apply H]. apply add_or_renew_spec in E. unfold extended. tauto.
    + intros [= <- <-]. split; [reflexivity|]. intros n. cbn. destruct (n =? m); [apply extended_refl|].
      destruct (dget n d); [apply extended_refl|exact I].
Qed.

Lemma add_leases_loop_spec room renew cancel tw now d r d' :
  add_leases_loop room renew cancel tw now d = (r, d') ->
  dkeys d' = dkeys d /\
  (forall n, match dget n d, dget n d' with
             | Some s, Some s' => extended s s' /\
                 (activeb now s = true -> s' = s) /\
                 (dget n tw = None -> s' = s) /\
                 (r = Ok tt -> forall w, dget n tw = Some w -> is_write w = true -> activeb now s' = true)
             | None, None => True
             | _, _ => False end).
Proof.
  revert r d'. induction d as [|[m t] d IH]; intros r d'; cbn -[is_write].
  - intros [= <- <-]. split; [reflexivity|]. intros n. exact I.
  - set (one := match dget m tw with None => _ | Some v => _ end).
    assert (One : forall r1 t', one = (r1, t') -> extended t t' /\ (activeb now t = true -> t' = t) /\
              (dget m tw = None -> t' = t) /\
              (r1 = Ok tt -> forall w, dget m tw = Some w -> is_write w = true -> activeb now t' = true)).
    { unfold one. intros r1 t'. destruct (dget m tw) as [w|] eqn:Dm.
      - destruct (is_write w) eqn:Iw.
        + fold (activeb now t). destruct (activeb now t) eqn:A.
          * intros [= <- <-]. split; [apply extended_refl|]; split; [auto|]; split; [auto|]. intros R w' [= <-] X. exact A.
          * destruct (add_or_renew_lease (room m) 1 renew cancel (now + LEASE_PERIOD_SECONDS * hz) t) as [t1|x] eqn:E;
              intros [= <- <-].
            -- apply add_or_renew_spec in E. destruct E as (C & D & K & W & N & l & I & B).
               split; [split; [exact C|split; [exact D|split; [exact K|exact W]]]|]. split; [congruence|]. split; [congruence|]. intros _ w' [= <-] _. apply activeb_spec. exists l. split; [exact I|].
               unfold LEASE_PERIOD_SECONDS, hz in *. lia.
            -- split; [apply extended_refl|]; split; [auto|]; split; [auto|]; intros R w' [= <-] X; congruence.
        + intros [= <- <-]. split; [apply extended_refl|]; split; [auto|]; split; [auto|]; intros R w' [= <-] X; congruence.
      - intros [= <- <-]. split; [apply extended_refl|]; split; [auto|]; split; [auto|]. discriminate. }
    destruct one as [r1 t'] eqn:Eone. specialize (One _ _ eq_refl). destruct r1 as [u|x].
    + destruct (add_leases_loop room renew cancel tw now d) as [r2 d2] eqn:L. intros [= <- <-].
      destruct (IH _ _ eq_refl) as [K H]. split; [cbn; unfold dkeys in K; rewrite K; reflexivity|].
      intros n. cbn -[is_write]. destruct (Z.eqb_spec n m) as [->|N]; [|apply H].
      destruct One as (O1 & O2 & O3 & O4). destruct u. split; [exact O1|]. split; [exact O2|]. split; [exact O3|]. intros _. exact (O4 eq_refl).
    + intros [= <- <-]. split; [reflexivity|]. intros n. cbn -[is_write].
      destruct (Z.eqb_spec n m) as [->|N].
      * destruct One as (O1 & O2 & O3 & O4). split; [exact O1|]. split; [exact O2|]. split; [exact O3|]. discriminate.
      * destruct (dget n d) as [s|]; [|exact I]. split; [apply extended_refl|]. split; [auto|]. split; [auto|]. discriminate.
Qed.

(** ** Mutable writes *)

Lemma write_at_length o d data :
  length (write_at o d data) = Nat.max (length data) (o + length d).
Proof.
  unfold write_at. rewrite !app_length, firstn_length, app_length, repeat_length, skipn_length. lia.
Qed.

Lemma write_data_size dv : forall data r data', write_data dv data = (r, data') ->
  Z.of_nat (length data) <= Z.of_nat (length data') <= Z.max (Z.of_nat (length data)) MAX_SIZE /\
  (r = Ok tt -> forall e, write_end dv e -> Z.of_nat (length data') = Z.max (Z.of_nat (length data)) e).
Proof.
  assert (G : forall dv data r data', write_data dv data = (r, data') ->
    Z.of_nat (length data) <= Z.of_nat (length data') <= Z.max (Z.of_nat (length data)) MAX_SIZE /\
    (r = Ok tt -> Z.of_nat (length data') = match dv with [] => Z.of_nat (length data) | (o, d) :: rest => Z.max (Z.of_nat (length data)) (max_end (o + lenZ d) rest) end)).
  { clear dv. induction dv as [|[o d] dv IH]; intros data r data'; cbn [write_data].
    - intros [= <- <-]. split; [lia|reflexivity].
    - destruct (Z.ltb_spec o 0); [intros [= <- <-]; split; [lia|discriminate]|].
      destruct (Z.gtb_spec (o + lenZ d) MAX_SIZE); [intros [= <- <-]; split; [lia|discriminate]|].
      intros E. specialize (IH _ _ _ E). rewrite write_at_length in IH. unfold lenZ in *. destruct IH as [B S].
      split; [lia|]. intros R. specialize (S R). rewrite S. destruct dv as [|[o' d'] dv]; cbn [max_end]; unfold lenZ in *; [lia|].
      clear - H. assert (M : forall dv m k, max_end (Z.max m k) dv = Z.max m (max_end k dv)).
      { clear. induction dv as [|[a b] dv IH]; intros m k; cbn; [reflexivity|].
        rewrite <- Z.max_assoc. apply IH. }
      rewrite M. lia. }
  intros data r data' E. destruct (G _ _ _ _ E) as [B S]. split; [exact B|]. intros R e W. rewrite (S R).
  rewrite <- (write_end_unique (implied_None_write_end dv) W). unfold get_implied_data_length.
  destruct dv as [|[o d] dv]; [lia|reflexivity].
Qed.

Lemma evaluate_write_spec version we tw : forall d r d', dict_wf d ->
  first_new_length tw = None -> dict_wf tw ->
  evaluate_write_vectors version we tw d = (r, d') ->
  dict_wf d' /\
  forall n, match dget n d, dget n d' with
    | Some s, Some s' => s_container s' = s_container s /\ s_leases s' = s_leases s /\
                         data_size s <= data_size s' <= Z.max (data_size s) MAX_SIZE /\
                         (r = Ok tt -> size_after (data_size s) (dget n tw) (data_size s'))
    | None, Some s' => s_container s' = CMutable version we /\ s_leases s' = [] /\
                       data_size s' <= MAX_SIZE /\ dget n tw <> None /\
                       (r = Ok tt -> size_after 0 (dget n tw) (data_size s'))
    | None, None => r = Ok tt -> dget n tw = None
    | Some _, None => False
    end.
Proof.
  assert (Base : forall (tw : tw_vectors) (d : dict share) x n, match dget n d, dget n d with
    | Some s, Some s' => s_container s' = s_container s /\ s_leases s' = s_leases s /\
                         data_size s <= data_size s' <= Z.max (data_size s) MAX_SIZE /\
                         (Err (E := tahoe_error) x = Ok tt -> size_after (data_size s) (dget n tw) (data_size s'))
    | None, Some s' => s_container s' = CMutable version we /\ s_leases s' = [] /\
                       data_size s' <= MAX_SIZE /\ dget n tw <> None /\
                       (Err (E := tahoe_error) x = Ok tt -> size_after 0 (dget n tw) (data_size s'))
    | None, None => Err (E := tahoe_error) x = Ok tt -> dget n tw = None
    | Some _, None => False
    end).
  { intros tw' d x n. destruct (dget n d); [|discriminate]. repeat split; auto; try lia; discriminate. }
  induction tw as [|[m w] tw IH]; intros d r d' Wd Nl Wt; cbn [evaluate_write_vectors].
  - intros [= <- <-]. split; [exact Wd|]. intros n. destruct (dget n d); [|reflexivity].
    repeat split; auto; lia.
  - cbn in Nl. destruct (tw_new_length w) eqn:Ew; [discriminate|].
    inversion Wt as [|? ? Nm Wt']; subst.
    assert (Dm : dget m tw = None) by (apply dget_None; exact Nm).
    set (s := match dget m d with Some s => s | None => _ end).
    destruct (write_data (tw_data w) (s_data s)) as [[u|x] data] eqn:E; destruct (write_data_size _ _ E) as [B S].
    + cbn [truncate]. set (s1 := Share (s_container s) data (s_leases s)). intros H.
      specialize (IH _ _ _ (dset_wf m s1 Wd) Nl Wt' H). destruct IH as [Wd' IH]. split; [exact Wd'|].
      intros n. specialize (IH n). rewrite dget_dset in IH. cbn [dget]. destruct (Z.eqb_spec n m) as [En|Nn]; [subst n|exact IH].
      rewrite Dm in IH. destruct (dget m d') as [s'|]; [|contradiction].
      destruct IH as (C & L & Bd & Sz).
      assert (Sz' : r = Ok tt -> data_size s' = data_size s1) by (intros R; apply Sz, R).
      destruct u. assert (E1 := implied_None_write_end (tw_data w)).
      assert (Big : data_size s1 <= Z.max (data_size s) MAX_SIZE) by (unfold data_size; cbn; lia).
      assert (Low : data_size s <= data_size s1) by (unfold data_size; cbn; lia).
      assert (Fin : r = Ok tt -> size_after (data_size s) (Some w) (data_size s')).
      { intros R. rewrite (Sz' R). exists (get_implied_data_length (tw_data w) None). split; [exact E1|]. rewrite Ew.
        unfold data_size at 1. cbn [s_data s1]. apply (S eq_refl _ E1). }
      subst s. destruct (dget m d) as [s0|] eqn:D0.
      * repeat split; auto; try lia.
      * assert (P0 : 0 <= MAX_SIZE) by discriminate. change (data_size (Share (CMutable version we) [] [])) with 0 in *.
        split; [exact C|]. split; [exact L|]. split; [lia|]. split; [discriminate|exact Fin].
    + intros [= <- <-]. split; [apply dset_wf; exact Wd|]. intros n. rewrite dget_dset. cbn [dget].
      destruct (Z.eqb_spec n m) as [->|N]; [|apply Base].
      subst s. destruct (dget m d) as [s0|] eqn:D0.
      * unfold data_size. cbn. repeat split; auto; try lia; discriminate.
      * assert (P0 : 0 <= MAX_SIZE) by discriminate. unfold data_size. cbn in *.
        split; [reflexivity|]. split; [reflexivity|]. split; [lia|]. split; discriminate.
Qed.

Lemma collect_mutable_Ok we d : collect_mutable we d = Ok tt ->
  forall n s, In (n, s) d -> exists v, s_container s = CMutable v we.
Proof.
  induction d as [|[m t] d IH]; cbn; [intros _ n s []|].
  destruct (s_container t) as [v|v we'] eqn:C; [discriminate|].
  destruct (bytes_eqb_spec we we') as [<-|]; [|discriminate]. intros H n s [[= <- <-]|I]; [eauto|eapply IH; eauto].
Qed.

Lemma set_dir_same si d st : dirs (set_dir si d st) si = d.
Proof. cbn. rewrite bytes_eqb_refl. reflexivity. Qed.
Lemma set_dir_other si d st si' : si' <> si -> dirs (set_dir si d st) si' = dirs st si'.
Proof. cbn. destruct (bytes_eqb_spec si si'); congruence. Qed.

Lemma first_new_length_None tw : first_new_length tw = None <-> forall n w, In (n, w) tw -> tw_new_length w = None.
Proof.
  induction tw as [|[m w] tw IH]; cbn; [split; [intros _ n w []|reflexivity]|].
  destruct (tw_new_length w) eqn:E; split.
  - discriminate.
  - intros H. rewrite (H m w (or_introl eq_refl)) in E. discriminate.
  - intros H n v [[= <- <-]|I]; [exact E|]. apply (proj1 IH H n v I).
  - intros H. apply IH. intros n v I. apply (H n v). right. exact I.
Qed.

(** ** Dictionaries by lookup *)

Lemma wf_dir_get d : dict_wf d -> ((forall n s, In (n, s) d -> wf_share s) <-> (forall n s, dget n d = Some s -> wf_share s)).
Proof.
  intros W. split; intros H n s I.
  - apply (H n), dget_Some_In, I.
  - apply (H n). apply dget_In_wf; assumption.
Qed.

Lemma dkeys_wf V W (d : dict V) (d' : dict W) : dkeys d' = dkeys d -> dict_wf d -> dict_wf d'.
Proof. unfold dict_wf. intros ->. auto. Qed.
