(** Proofs for C128. *)
From Verif Require Import Prelude PreludeFacts BytesModel BytesProofs PassModel PricingModel PricingSpec PricingProofs ContainerModel ContainerProofs
  TahoeModel ServerModel ServerSpec ServerProofs ServerStateProofs ServerRequestProofs ServerProperties LeaseServerProofs BoughtProofs StoreProofs ConnModel ConnSpec.
Set Implicit Arguments.

Lemma NoDup_app_snoc A (l : list A) x : NoDup l -> ~ In x l -> NoDup (l ++ [x]).
Proof.
  induction l as [|y l IH]; intros N J; cbn; [repeat constructor; auto|]. inversion N as [|? ? Ny N']; subst. constructor.
  - intros K. apply in_app_or in K as [K|[K|[]]]; [contradiction|]. apply J. now left.
  - apply IH; [exact N'|]. intros K. apply J. now right.
Qed.
Lemma filter_twice A (p q : A -> bool) l : filter p (filter q l) = filter (fun x => q x && p x) l.
Proof. induction l as [|x l IH]; cbn; [reflexivity|]. destruct (q x); cbn; [|exact IH]. destruct (p x); [now rewrite IH|exact IH]. Qed.
Lemma dset_new V k (v : V) d : ~ In k (map fst d) -> dset k v d = d ++ [(k, v)].
Proof.
  induction d as [|[x y] d IH]; cbn; intros H; [reflexivity|]. destruct (Z.eqb_spec k x) as [->|]; [exfalso; apply H; now left|].
  rewrite IH; [reflexivity|]. intros J. apply H. now right.
Qed.

Section Sessions.
Notation key u := (o_si u, o_num u).
Notation open_of l := (map (fun u => (o_writer u, key u)) l).
Notation markers_of l := (map (fun u => (o_writer u, o_conn u)) l).
Notation watchers_of l := (map (fun u => (o_conn u, o_writer u)) l).
Definition without (w : Z) (l : list ongoing) : list ongoing := filter (fun u => negb (o_writer u =? w)) l.

Lemma dpop_map V (g : ongoing -> V) w l : dpop w (map (fun u => (o_writer u, g u)) l) = map (fun u => (o_writer u, g u)) (without w l).
Proof. induction l as [|u l IH]; cbn; [reflexivity|]. destruct (o_writer u =? w); cbn; [exact IH|f_equal; exact IH]. Qed.
Lemma dget_map V (g : ongoing -> V) w l : NoDup (map o_writer l) ->
  match dget w (map (fun u => (o_writer u, g u)) l) with
  | Some x => exists u, In u l /\ o_writer u = w /\ x = g u
  | None => forall u, In u l -> o_writer u <> w
  end.
Proof.
  induction l as [|u l IH]; cbn; intros N; [intros u []|]. inversion N as [|? ? Nu N']; subst.
  destruct (Z.eqb_spec w (o_writer u)) as [->|D]; [exists u; auto|]. specialize (IH N').
  destruct (dget w _).
  - destruct IH as (u' & J & E & X). exists u'. auto.
  - intros u' [<-|J]; [congruence|exact (IH u' J)].
Qed.
Lemma without_none w l : (forall u, In u l -> o_writer u <> w) -> without w l = l.
Proof.
  intros H. unfold without. induction l as [|u l IH]; cbn; [reflexivity|]. destruct (Z.eqb_spec (o_writer u) w) as [E|E]; [exfalso; exact (H u (or_introl eq_refl) E)|].
  cbn. rewrite IH; [reflexivity|]. intros u' J. apply H. now right.
Qed.
Lemma remove_first_map u l : NoDup (map o_writer l) -> In u l -> remove_first (o_conn u) (o_writer u) (watchers_of l) = watchers_of (without (o_writer u) l).
Proof.
  induction l as [|x l IH]; intros N J; [destruct J|]. inversion N as [|? ? Nx N']; subst. destruct J as [->|J].
  - cbn. rewrite !Z.eqb_refl. cbn. change (filter (fun u0 => negb (o_writer u0 =? o_writer u)) l) with (without (o_writer u) l). rewrite without_none; [reflexivity|].
    intros y Jy E. apply Nx. rewrite <- E. now apply in_map.
  - assert (D : o_writer x <> o_writer u) by (intros E; apply Nx; rewrite E; now apply in_map).
    cbn. destruct (Z.eqb_spec (o_writer u) (o_writer x)) as [E|_]; [congruence|]. rewrite andb_false_r.
    destruct (Z.eqb_spec (o_writer x) (o_writer u)); [contradiction|]. cbn. f_equal. exact (IH N' J).
Qed.
Lemma without_In w l u : In u (without w l) <-> In u l /\ o_writer u <> w.
Proof. unfold without. rewrite filter_In. destruct (Z.eqb_spec (o_writer u) w); cbn; intuition congruence. Qed.
Lemma NoDup_map_filter A B (g : A -> B) f l : NoDup (map g l) -> NoDup (map g (filter f l)).
Proof.
  induction l as [|x l IH]; cbn; intros N; [constructor|]. inversion N as [|? ? Nx N']; subst. destruct (f x); [|auto]. cbn. constructor; [|auto].
  intros J. apply Nx. apply in_map_iff in J as (y & E & J). apply filter_In in J. rewrite <- E. apply in_map, J.
Qed.
Lemma same_writer l u v : NoDup (map o_writer l) -> In u l -> In v l -> o_writer u = o_writer v -> u = v.
Proof.
  induction l as [|x l IH]; intros N Ju Jv E; [destruct Ju|]. inversion N as [|? ? Nx N']; subst.
  destruct Ju as [->|Ju], Jv as [->|Jv]; [reflexivity| | |exact (IH N' Ju Jv E)]; exfalso; apply Nx;
    [rewrite E|rewrite <- E]; now apply in_map.
Qed.
Lemma same_key l u v : NoDup (map (fun u => key u) l) -> In u l -> In v l -> key u = key v -> u = v.
Proof.
  induction l as [|x l IH]; intros N Ju Jv E; [destruct Ju|]. inversion N as [|? ? Nx N']; subst.
  destruct Ju as [->|Ju], Jv as [->|Jv]; [reflexivity| | |exact (IH N' Ju Jv E)]; exfalso; apply Nx;
    [rewrite E|rewrite <- E]; apply in_map_iff; eauto.
Qed.

(** The bookkeeping, the open bucket writers and the incoming directory are those of the uploads in progress. *)
Record inv (f : front) (w : Z) (l : list ongoing) : Prop := {
  i_made : fr_made f = w;
  i_open : fr_open f = open_of l;
  i_markers : fr_markers f = markers_of l;
  i_watchers : fr_watchers f = watchers_of l;
  i_incoming : map (fun u => (up_si u, up_num u)) (incoming (sv_storage (fr_server f))) = map (fun u => key u) l;
  i_writers : NoDup (map o_writer l);
  i_before : forall u, In u l -> o_writer u < w;
  i_keys : NoDup (map (fun u => key u) l)
}.

Lemma closed_inv f w l u sv : inv f w l -> In u l ->
  map (fun u => (up_si u, up_num u)) (incoming (sv_storage sv)) = map (fun u => key u) (without (o_writer u) l) ->
  inv (bucket_writer_closed (o_writer u) (Front sv (fr_made f) (dpop (o_writer u) (fr_open f)) (fr_markers f) (fr_watchers f))) w (without (o_writer u) l).
Proof.
  intros [A B C D E F G H] J Ei. unfold bucket_writer_closed. cbn [fr_markers fr_server fr_made fr_open fr_watchers].
  rewrite C. pose proof (@dget_map _ o_conn (o_writer u) l F) as Gm. destruct (dget (o_writer u) (markers_of l)) as [c|]; [|exfalso; exact (Gm u J eq_refl)].
  destruct Gm as (u' & J' & Ew & ->). rewrite (same_writer l u' u F J' J Ew).
  split; cbn [fr_markers fr_server fr_made fr_open fr_watchers].
  - exact A.
  - rewrite B. apply (@dpop_map _ (fun u => key u)).
  - apply (@dpop_map _ o_conn).
  - rewrite D. now apply remove_first_map.
  - exact Ei.
  - apply NoDup_map_filter, F.
  - intros v Jv. apply without_In in Jv. apply G, Jv.
  - apply NoDup_map_filter, H.
Qed.

(** The upload that leaves the incoming directory is that of the bucket writer. *)
Lemma incoming_without st l u : map (fun u => (up_si u, up_num u)) (incoming st) = map (fun u => key u) l ->
  NoDup (map o_writer l) -> NoDup (map (fun u => key u) l) -> In u l ->
  map (fun u => (up_si u, up_num u)) (incoming (drop_incoming (o_si u) (o_num u) st)) = map (fun u => key u) (without (o_writer u) l).
Proof.
  intros E F H J.
  assert (X : without (o_writer u) l = filter (fun v => negb (bytes_eqb (o_si v) (o_si u) && (o_num v =? o_num u))) l).
  { unfold without. apply filter_ext_in. intros v Jv. f_equal. destruct (Z.eqb_spec (o_writer v) (o_writer u)) as [Ew|Ew].
    - rewrite (same_writer l v u F Jv J Ew). now rewrite bytes_eqb_refl, Z.eqb_refl.
    - symmetry. apply andb_false_iff. destruct (bytes_eqb_spec (o_si v) (o_si u)) as [Es|]; [|now left].
      destruct (Z.eqb_spec (o_num v) (o_num u)) as [En|]; [|now right]. exfalso. apply Ew. f_equal.
      apply (same_key l v u H Jv J). now rewrite Es, En. }
  rewrite X. unfold drop_incoming. cbn [incoming]. clear - E. revert l E. induction (incoming st) as [|x us IH]; intros [|v l] E; cbn in *; try discriminate; [reflexivity|].
  injection E as Es En E. rewrite Es, En. destruct (bytes_eqb (o_si v) (o_si u) && (o_num v =? o_num u)); cbn; [now apply IH|]. rewrite Es, En. f_equal. now apply IH.
Qed.

Section Steps.
Variable signed : bytes -> bytes -> bytes -> bool.
Variables pv iv mv : Z.
Hypothesis Hv : 0 < pv.

Lemma abort_inv f w l x : inv f w l -> inv (writer_abort x f) w (without x l).
Proof.
  intros V. unfold writer_abort. rewrite (i_open V).
  pose proof (@dget_map _ (fun u => key u) x l (i_writers V)) as G. destruct (dget x (open_of l)) as [[si n]|].
  - destruct G as (u & J & <- & [= -> ->]). rewrite <- (i_open V). apply (closed_inv u _ V J). cbn [with_storage sv_storage].
    apply incoming_without; [exact (i_incoming V)|exact (i_writers V)|exact (i_keys V)|exact J].
  - rewrite without_none by exact G. exact V.
Qed.
Lemma disconnected_inv f w l x : inv f w l -> inv (writer_disconnected x f) w (without x l).
Proof.
  intros V. unfold writer_disconnected. rewrite (i_open V).
  pose proof (@dget_map _ (fun u => key u) x l (i_writers V)) as G. destruct (dget x (open_of l)) as [p|]; [apply abort_inv, V|].
  rewrite without_none by exact G. exact V.
Qed.
Lemma find_incoming st l u : map (fun u => (up_si u, up_num u)) (incoming st) = map (fun u => key u) l -> In u l ->
  exists x, find (fun x => bytes_eqb (up_si x) (o_si u) && (up_num x =? o_num u)) (incoming st) = Some x.
Proof.
  intros E J. destruct (find _ (incoming st)) as [x|] eqn:Fi; [eauto|exfalso].
  assert (K : In (key u) (map (fun u => (up_si u, up_num u)) (incoming st))) by (rewrite E; apply in_map_iff; eauto).
  apply in_map_iff in K as (x & [= Es En] & K). pose proof (find_none _ _ Fi x K) as X. cbn in X.
  rewrite Es, En, bytes_eqb_refl, Z.eqb_refl in X. discriminate.
Qed.
Lemma close_inv f w l x content : inv f w l -> inv (writer_close iv x content f) w (without x l).
Proof.
  intros V. unfold writer_close. rewrite (i_open V).
  pose proof (@dget_map _ (fun u => key u) x l (i_writers V)) as G. destruct (dget x (open_of l)) as [[si n]|].
  - destruct G as (u & J & <- & [= -> ->]). rewrite <- (i_open V). apply (closed_inv u _ V J). cbn [with_storage sv_storage].
    unfold close_bucket. destruct (find_incoming _ _ _ (i_incoming V) J) as [y ->]. cbn [set_dir incoming].
    apply incoming_without; [exact (i_incoming V)|exact (i_writers V)|exact (i_keys V)|exact J].
  - rewrite without_none by exact G. exact V.
Qed.

Lemma fold_inv m : forall f w l, inv f w l ->
  inv (fold_left (fun f cw => writer_disconnected (snd cw) f) m f) w (fold_left (fun l (cw : Z * Z) => without (snd cw) l) m l).
Proof. induction m as [|cw m IH]; intros f w l V; cbn [fold_left]; [exact V|]. apply IH, disconnected_inv, V. Qed.
Lemma fold_without (m : list (Z * Z)) : forall l u, In u (fold_left (fun l (cw : Z * Z) => without (snd cw) l) m l) <-> In u l /\ ~ In (o_writer u) (map snd m).
Proof.
  induction m as [|cw m IH]; intros l u; cbn [fold_left map]; [cbn; tauto|]. rewrite IH, without_In. cbn. intuition congruence.
Qed.
Lemma fold_filter (m : list (Z * Z)) : forall l, fold_left (fun l (cw : Z * Z) => without (snd cw) l) m l = filter (fun u => negb (memZ (o_writer u) (map snd m))) l.
Proof.
  induction m as [|cw m IH]; intros l; cbn [fold_left map].
  - cbn. induction l as [|u l IH]; cbn; [reflexivity|]. now rewrite <- IH.
  - rewrite IH. unfold without. rewrite filter_twice. apply filter_ext. intros u. cbn [memZ existsb].
    change (existsb (Z.eqb (o_writer u)) (map snd m)) with (memZ (o_writer u) (map snd m)).
    now destruct (o_writer u =? snd cw), (memZ (o_writer u) (map snd m)).
Qed.
Lemma lost_inv f w l c : inv f w l -> inv (connection_lost c f) w (filter (fun u => negb (o_conn u =? c)) l).
Proof.
  intros V. unfold connection_lost. set (mine := filter _ _).
  pose proof (fold_inv mine V) as V1. set (f1 := fold_left _ mine f) in *.
  assert (E : fold_left (fun l (cw : Z * Z) => without (snd cw) l) mine l = filter (fun u => negb (o_conn u =? c)) l).
  { rewrite fold_filter. apply filter_ext_in. intros u J. f_equal.
    destruct (Z.eqb_spec (o_conn u) c) as [Ec|Ec].
    - apply memZ_In. apply in_map_iff. exists (o_conn u, o_writer u). split; [reflexivity|]. unfold mine. apply filter_In. cbn.
      rewrite Ec, Z.eqb_refl. split; [|reflexivity]. rewrite (i_watchers V). apply in_map_iff. exists u. rewrite <- Ec. auto.
    - apply memZ_not_In. intros K. apply in_map_iff in K as ([c' w'] & Ew & K). cbn in Ew. subst w'. unfold mine in K. apply filter_In in K as [K Q].
      cbn in Q. apply Z.eqb_eq in Q. subst c'. rewrite (i_watchers V) in K. apply in_map_iff in K as (v & [= Ev1 Ev2] & K).
      apply Ec. rewrite <- Ev1. f_equal. exact (same_writer l u v (i_writers V) J K (eq_sym Ev2)). }
  rewrite E in V1. destruct V1 as [A B C D Ei F G H]. split; cbn [fr_made fr_open fr_markers fr_watchers fr_server]; try assumption.
  rewrite D. set (l' := filter (fun u => negb (o_conn u =? c)) l). assert (K : forall u, In u l' -> o_conn u <> c).
  { intros u J. apply filter_In in J as [_ J]. destruct (Z.eqb_spec (o_conn u) c); [discriminate|assumption]. }
  clearbody l'. clear - K. induction l' as [|u l' IH]; cbn; [reflexivity|]. destruct (Z.eqb_spec (o_conn u) c) as [X|X]; [exfalso; exact (K u (or_introl eq_refl) X)|].
  cbn. rewrite IH; [reflexivity|]. intros v J. apply K. now right.
Qed.

Lemma watch_inv c si nums : forall f w l, fr_made f = w -> fr_open f = open_of l -> fr_markers f = markers_of l -> fr_watchers f = watchers_of l ->
  map (fun u => (up_si u, up_num u)) (incoming (sv_storage (fr_server f))) = map (fun u => key u) l ++ map (fun n => (si, n)) nums ->
  NoDup (map o_writer l) -> (forall u, In u l -> o_writer u < w) -> NoDup (map (fun u => key u) l ++ map (fun n => (si, n)) nums) ->
  inv (watch_writers c si nums f) (w + Z.of_nat (length nums)) (l ++ begun w c si nums).
Proof.
  induction nums as [|n nums IH]; intros f w l A B C D E F G H; cbn [watch_writers begun length].
  - rewrite Z.add_0_r, app_nil_r. rewrite app_nil_r in E, H. split; assumption.
  - assert (New : ~ In w (map o_writer l)) by (intros J; apply in_map_iff in J as (u & X & J); apply G in J; lia).
    replace (w + Z.of_nat (Datatypes.S (length nums))) with (w + 1 + Z.of_nat (length nums)) by lia.
    change (Ongoing w c si n :: begun (w + 1) c si nums) with ([Ongoing w c si n] ++ begun (w + 1) c si nums). rewrite app_assoc.
    apply IH; cbn [fr_made fr_open fr_markers fr_watchers fr_server].
    + now rewrite A.
    + rewrite A, B, dset_new, map_app by (rewrite map_map; exact New). reflexivity.
    + rewrite A, C, dset_new, map_app by (rewrite map_map; exact New). reflexivity.
    + rewrite A, D, map_app. reflexivity.
    + rewrite map_app, <- app_assoc. exact E.
    + rewrite map_app. cbn [map]. apply NoDup_app_snoc; assumption.
    + intros u J. apply in_app_or in J as [J|[<-|[]]]; [apply G in J; lia|cbn; lia].
    + rewrite map_app, <- app_assoc. exact H.
Qed.

Lemma serve_incoming now room passes q sv r sv' :
  serve signed pv mv now room passes q sv = (r, sv') ->
  match q, r with
  | Allocate si _ _ nums _, Ok (Allocated _ ws) =>
      map (fun u => (up_si u, up_num u)) (incoming (sv_storage sv')) = map (fun u => (up_si u, up_num u)) (incoming (sv_storage sv)) ++ map (fun n => (si, n)) ws /\
      (forall n, In n ws -> In n nums /\ is_incoming (sv_storage sv) si n = false) /\ (NoDup nums -> NoDup ws)
  | _, _ => incoming (sv_storage sv') = incoming (sv_storage sv)
  end.
Proof.
  intros Se. destruct q as [si renew cancel nums sz|si renew cancel|si we renew cancel tw rv].
  - revert Se. cbn [serve]. unfold remote_allocate_buckets. destruct (validate_passes _ _ _); [|intros [= <- <-]; reflexivity].
    destruct (check_pass_quantity_for_write _ _ _ _); [|intros [= <- <-]; reflexivity].
    destruct (tahoe_allocate_buckets room now si renew cancel nums sz (sv_storage sv)) as [r1 st] eqn:T.
    unfold tahoe_allocate_buckets in T. destruct (existsb _ _); [injection T as <- <-; intros [= <- <-]; reflexivity|].
    destruct (_ && _); [injection T as <- <-; intros [= <- <-]; reflexivity|]. injection T as <- <-.
    rewrite required_passes_pos by exact Hv. intros [= <- <-].
    cbn [sv_storage mark_as_spent observe with_storage incoming].
    split; [|split].
    + rewrite map_app, map_map. reflexivity.
    + intros n J. apply filter_In in J as [J K]. split; [exact J|]. apply andb_true_iff in K as [K _]. apply andb_true_iff in K as [_ K]. now apply negb_true_iff in K.
    + apply NoDup_filter.
  - assert (Ei : incoming (sv_storage sv') = incoming (sv_storage sv)); [|destruct r; exact Ei].
    destruct (serve_effect _ _ _ _ _ _ _ _ Se) as [[-> _]|(_ & Ef & _)]; [reflexivity|]. inversion Ef; subst. reflexivity.
  - assert (Ei : incoming (sv_storage sv') = incoming (sv_storage sv)); [|destruct r; exact Ei].
    destruct (serve_effect _ _ _ _ _ _ _ _ Se) as [[-> _]|(_ & Ef & _)]; [reflexivity|]. inversion Ef; subst. assumption.
Qed.

Notation fstep := (front_step signed pv iv mv).
Notation frun := (front_run signed pv iv mv).

Lemma same_incoming_inv f w l sv : inv f w l -> incoming (sv_storage sv) = incoming (sv_storage (fr_server f)) ->
  inv (Front sv (fr_made f) (fr_open f) (fr_markers f) (fr_watchers f)) w l.
Proof. intros [A B C D E F G H] X. split; cbn [fr_made fr_open fr_markers fr_watchers fr_server]; try assumption. now rewrite X. Qed.
Lemma filter_true A (l : list A) : filter (fun _ => true) l = l.
Proof. induction l as [|x l IH]; cbn; [reflexivity|now rewrite IH]. Qed.
Lemma begun_length w c si nums : length (begun w c si nums) = length nums.
Proof. revert w. induction nums as [|n nums IH]; intros w; cbn; [reflexivity|now rewrite IH]. Qed.

Lemma step_inv mut f w l e o f' : inv f w l -> proper_front mut e -> fstep f e = (o, f') ->
  inv f' (w + Z.of_nat (length (new_uploads w e o))) (filter (goes_on e) l ++ new_uploads w e o).
Proof.
  intros V P St. destruct e as [c now room passes q|x content|x|si n|c]; cbn [front_step] in St.
  - destruct (serve signed pv mv now room passes q (fr_server f)) as [r sv] eqn:Se. injection St as <- <-.
    cbn [goes_on new_uploads]. rewrite filter_true.
    pose proof (serve_incoming _ _ _ _ _ Se) as S. destruct P as [P _]. cbn [proper_event] in P.
    destruct q as [si renew cancel nums sz|si renew cancel|si we renew cancel tw rv]; destruct r as [[have ws| |ok rd]|er];
      try (rewrite Z.add_0_r, app_nil_r; apply same_incoming_inv; [exact V|exact S]).
    destruct S as (S1 & S2 & S3). rewrite begun_length.
    apply watch_inv; cbn [fr_made fr_open fr_markers fr_watchers fr_server]; try (apply V).
    + rewrite S1. f_equal. apply V.
    + rewrite <- (i_incoming V). apply NoDup_app_intro.
      * rewrite (i_incoming V). apply V.
      * apply FinFun.Injective_map_NoDup; [intros a b [= ->]; reflexivity|]. apply S3. apply P.
      * intros k J K. apply in_map_iff in K as (n & <- & K). apply S2 in K as [_ K]. apply in_map_iff in J as (u & [= Es En] & J).
        assert (X : is_incoming (sv_storage (fr_server f)) si n = true); [|congruence].
        unfold is_incoming. apply existsb_exists. exists u. split; [exact J|]. now rewrite Es, En, bytes_eqb_refl, Z.eqb_refl.
  - injection St as <- <-. cbn [new_uploads length]. rewrite Z.add_0_r, app_nil_r. apply (close_inv x content V).
  - injection St as <- <-. cbn [new_uploads length]. rewrite Z.add_0_r, app_nil_r. apply (abort_inv x V).
  - injection St as <- <-. cbn [new_uploads length goes_on]. rewrite filter_true, Z.add_0_r, app_nil_r. apply same_incoming_inv; [exact V|reflexivity].
  - injection St as <- <-. cbn [new_uploads length]. rewrite Z.add_0_r, app_nil_r. apply (lost_inv c V).
Qed.
Lemma run_inv mut es : forall f w l os f', inv f w l -> Forall (proper_front mut) es -> frun f es = (os, f') ->
  exists w', inv f' w' (in_progress w l es os).
Proof.
  induction es as [|e es IH]; intros f w l os f' V P R; cbn [front_run] in R.
  - injection R as <- <-. exists w. exact V.
  - destruct (fstep f e) as [o f1] eqn:St. destruct (frun f1 es) as [os' f2] eqn:R'. injection R as <- <-.
    inversion P; subst. cbn [in_progress]. eapply IH; [eapply step_inv; eassumption|assumption|exact R'].
Qed.
Lemma empty_inv : inv empty_front 0 [].
Proof. split; try reflexivity; try (constructor; fail); intros u []. Qed.

(** ** Every state of the server behind is one of ServerModel *)
Section Reach.
Variable mut : bytes -> bool.
Notation reach := (reachable_server signed pv iv mv mut).

Lemma closed_server x f : fr_server (bucket_writer_closed x f) = fr_server f.
Proof. unfold bucket_writer_closed. now destruct (dget x (fr_markers f)). Qed.
Lemma watched_server c si nums : forall f, fr_server (watch_writers c si nums f) = fr_server f.
Proof. induction nums as [|n nums IH]; intros f; cbn [watch_writers]; [reflexivity|]. now rewrite IH. Qed.
Lemma abort_reach x f : reach (fr_server f) -> reach (fr_server (writer_abort x f)).
Proof.
  intros R. unfold writer_abort. destruct (dget x (fr_open f)) as [[si n]|]; [|exact R]. rewrite closed_server. cbn [fr_server].
  eapply (reachable_step (EAbort si n) R); [exact Logic.I|exact Logic.I|reflexivity].
Qed.
Lemma disconnected_reach x f : reach (fr_server f) -> reach (fr_server (writer_disconnected x f)).
Proof. intros R. unfold writer_disconnected. destruct (dget x (fr_open f)); [apply abort_reach, R|exact R]. Qed.
Lemma step_reach f e o f' : reach (fr_server f) -> proper_front mut e -> fstep f e = (o, f') -> reach (fr_server f').
Proof.
  intros R P St. destruct e as [c now room passes q|x content|x|si n|c]; cbn [front_step] in St.
  - destruct (serve signed pv mv now room passes q (fr_server f)) as [r sv] eqn:Se. injection St as <- <-. destruct P as [P1 P2].
    assert (R' : reach sv).
    { eapply (reachable_step (ERequest now room passes q) R P1 P2 (o := Some r)). cbn [server_step]. now rewrite Se. }
    destruct q; destruct r as [[]|]; rewrite ?watched_server; exact R'.
  - injection St as <- <-. unfold writer_close. destruct (dget x (fr_open f)) as [[si n]|]; [|exact R]. rewrite closed_server. cbn [fr_server].
    eapply (reachable_step (EClose si n content) R); [exact Logic.I|exact Logic.I|reflexivity].
  - injection St as <- <-. apply abort_reach, R.
  - injection St as <- <-. cbn [fr_server]. eapply (reachable_step (EDelete si n) R); [exact Logic.I|exact Logic.I|reflexivity].
  - injection St as <- <-. unfold connection_lost. cbn [fr_server]. generalize (filter (fun cw => fst cw =? c) (fr_watchers f)). intros m.
    revert f R. induction m as [|cw m IH]; intros f R; cbn [fold_left]; [exact R|]. apply IH, disconnected_reach, R.
Qed.
Lemma run_reach es : forall f os f', reach (fr_server f) -> Forall (proper_front mut) es -> frun f es = (os, f') -> reach (fr_server f').
Proof.
  induction es as [|e es IH]; intros f os f' R P Ru; cbn [front_run] in Ru; [now injection Ru as <- <-|].
  destruct (fstep f e) as [o f1] eqn:St. destruct (frun f1 es) as [os' f2] eqn:R'. injection Ru as <- <-. inversion P; subst.
  eapply IH; [eapply step_reach; eassumption|assumption|exact R'].
Qed.
End Reach.

(** ** What a lost connection leaves alone *)
Definition only_forgets (sv sv' : server) : Prop :=
  (forall si, dirs (sv_storage sv') si = dirs (sv_storage sv) si) /\ incl (incoming (sv_storage sv')) (incoming (sv_storage sv)) /\
  sv_spent sv' = sv_spent sv /\ sv_metric sv' = sv_metric sv.
Lemma only_forgets_refl sv : only_forgets sv sv.
Proof. repeat split; auto using incl_refl. Qed.
Lemma disconnected_forgets x f : only_forgets (fr_server f) (fr_server (writer_disconnected x f)).
Proof.
  unfold writer_disconnected, writer_abort. destruct (dget x (fr_open f)) as [[si n]|]; [|apply only_forgets_refl].
  rewrite closed_server. cbn [fr_server]. repeat split. intros u J. apply filter_In in J. apply J.
Qed.
Lemma lost_forgets c f : only_forgets (fr_server f) (fr_server (connection_lost c f)).
Proof.
  unfold connection_lost. cbn [fr_server]. generalize (filter (fun cw => fst cw =? c) (fr_watchers f)). intros m.
  revert f. induction m as [|cw m IH]; intros f; cbn [fold_left]; [apply only_forgets_refl|].
  destruct (IH (writer_disconnected (snd cw) f)) as (A & B & C & D). destruct (disconnected_forgets (snd cw) f) as (A' & B' & C' & D').
  repeat split; [intros si; now rewrite A, A'|exact (incl_tran B B')|now rewrite C|now rewrite D].
Qed.
End Steps.
End Sessions.
