(** Lease maintenance: C52-C57, C63, C77-C80. *)
From Verif Require Import Prelude PreludeFacts BytesModel BytesProofs CborModel PassModel PricingModel PricingSpec ContainerModel TahoeModel
  ServerModel ServerSpec ServerProofs ServerProperties StoreModel StoreSpec LeaseModel LeaseSpec LeaseProofs
  LeaseServer LeaseServerProofs LeaseTimerProofs LeaseStoreProofs.
From Coq Require Import Permutation.
From Coq Require Strings.String.
Import Coq.Strings.String.StringSyntax.

(** * Runs *)

Section Run.
Variable W : Type.
Variable stat_shares : Z -> list bytes -> W -> res mexn (list (dict share_stat)) * W.
Variable add_lease : Z -> bytes -> bytes -> bytes -> W -> res mexn unit * W.
Variable start : W -> res mexn unit * W.
Variable observe : list Z -> W -> res mexn unit * W.
Variable finish : W -> res mexn unit * W.
Variable clock : W -> Z.
Variable connected_servers : W -> list Z.
Variables frh brh fch bch : bytes -> bytes -> bytes.
Variable lease_seed : Z -> bytes.
Notation maintain := (renew_leases stat_shares add_lease start observe finish clock connected_servers
                        frh brh fch bch lease_seed).

(** ** C52 *)

(** A run that does not fail hears from every connected server about every storage
    index, once, and asks for a lease exactly where one of the shares it was told of has
    less than the minimum left. *)
Theorem C52_renewed_exactly_when_due :
  forall remaining renewal_secret cancel_secret sis w w' t,
  maintain remaining renewal_secret cancel_secret (Ok sis) w = (Ok tt, w', t) ->
  asked t = flat_map (due_on remaining) (told t) /\
  (exists w1, start w = (Ok tt, w1) /\ map (fun x => snd (fst (fst x))) (told t) = connected_servers w1) /\
  forall now server names answer, In (now, server, names, answer) (told t) -> map Some names = sis.
Proof.
  intros remaining rs cs sis w w' t H. apply renew_all_spec in H as (F & A & w1 & rest & E & _ & R).
  destruct (R eq_refl) as (sis' & _ & Sw & -> & _). rewrite app_nil_r in E.
  destruct F as [(r1 & F1 & F1e) _]. rewrite (F1e eq_refl), app_nil_r in F1. split; [exact F1|].
  split; [exists w1; auto|]. intros now server names answer I. specialize (A sis eq_refl _ I). cbn in A.
  clear -A. revert names A. induction sis as [|[si|] sis IH]; cbn; intros names A; [now injection A as <-| |discriminate].
  destruct (all_indexes sis) as [l|e]; [|discriminate]. cbn in A. injection A as <-. cbn. now rewrite (IH l eq_refl).
Qed.

(** A run that fails has asked for nothing that was not due. *)
Theorem C52_nothing_else_even_if_it_fails :
  forall remaining renewal_secret cancel_secret visited w r w' t,
  maintain remaining renewal_secret cancel_secret visited w = (r, w', t) ->
  exists rest, asked t ++ rest = flat_map (due_on remaining) (told t).
Proof.
  intros remaining rs cs visited w r w' t H. apply renew_all_spec in H as (((rest & F & _) & _) & _). eauto.
Qed.

(** ** C56: what a run records is what it was told *)

Lemma loop_unfinished remaining rs cs server now l : forall w r w' t,
  renew_loop add_lease observe frh brh fch bch lease_seed remaining rs cs server now l w = (r, w', t) -> ~ In Finished t.
Proof.
  induction l as [|[si d] l IH]; intros w r w' t H; cbn [renew_loop] in H; [injection H as <- <- <-; auto|].
  destruct (dvalues d) as [|s more]; [eauto|].
  apply bind_inv in H as [(e & H & ->)|(u & w1 & t1 & t2 & H & K & ->)]; apply call_inv in H as [_ ->]; [auto|].
  intros I. apply in_app_or in I. destruct I as [[[=]|[]]|I]. revert I.
  destruct (needs_lease_renew _ _ _) as [[]|e]; [|exact (IH _ _ _ _ K)|now injection K as <- <- <-].
  apply bind_inv in K as [(e & K & ->)|(u' & w2 & t3 & t4 & K & K' & ->)]; apply call_inv in K as [_ ->].
  - intros [[=]|[]].
  - intros I. apply in_app_or in I. destruct I as [[[=]|[]]|I]. eapply IH; eauto.
Qed.

Lemma on_servers_unfinished remaining rs cs sis servers : forall w r w' t,
  renew_on_servers stat_shares add_lease observe clock frh brh fch bch lease_seed remaining rs cs sis servers w = (r, w', t) ->
  ~ In Finished t.
Proof.
  assert (One : forall server now w r w' t,
    renew_leases_on_server stat_shares add_lease observe frh brh fch bch lease_seed remaining rs cs sis server now w = (r, w', t) ->
    ~ In Finished t).
  { intros server now w r w' t H. unfold renew_leases_on_server in H. destruct (all_indexes sis) as [l|e]; [|injection H as <- <- <-; auto].
    apply bind_inv in H as [(e & H & ->)|(u & w1 & t1 & t2 & H & K & ->)]; apply call_inv in H as [_ ->]; [auto|].
    intros [[=]|I]. eapply loop_unfinished; eauto. }
  induction servers as [|s l IH]; intros w r w' t H; cbn [renew_on_servers] in H; [injection H as <- <- <-; auto|].
  apply bind_inv in H as [(e & H & ->)|(u & w1 & t1 & t2 & H & K & ->)]; [eauto|].
  intros I. apply in_app_or in I. destruct I as [I|I]; [eapply One|eapply IH]; eauto.
Qed.

Theorem C56_every_share_is_recorded :
  forall remaining renewal_secret cancel_secret visited w w' t,
  maintain remaining renewal_secret cancel_secret visited w = (Ok tt, w', t) ->
  observed t = flat_map sizes_on (told t).
Proof.
  intros remaining rs cs visited w w' t H. apply renew_all_spec in H as ((_ & (rest & F & R)) & _).
  now rewrite (R eq_refl), app_nil_r in F.
Qed.

(** The end of a run is recorded once, as the last thing, and only if all went well. *)
Theorem C56_the_end_is_recorded_last :
  forall remaining renewal_secret cancel_secret visited w r w' t,
  maintain remaining renewal_secret cancel_secret visited w = (r, w', t) ->
  exists before, ~ In Finished before /\ t = before ++ (match r with Ok _ => [Finished] | Err _ => [] end).
Proof.
  intros remaining rs cs visited w r w' t H. unfold renew_leases in H.
  apply bind_inv in H as [(e & H & ->)|(u & w1 & t1 & t2 & H & K & ->)]; apply call_inv in H as [_ ->]; [exists []; auto|].
  destruct visited as [sis|e]; [|injection K as <- <- <-; exists []; auto].
  apply bind_inv in K as [(e & K & ->)|(u' & w2 & t3 & t4 & K & K' & ->)]; apply on_servers_unfinished in K.
  - exists t2. now rewrite app_nil_r.
  - apply call_inv in K' as [_ ->]. exists t3. split; [exact K|]. cbn [app]. destruct r; reflexivity.
Qed.

(** If the store's record of the run holds these observations, its cost is that of all the
    shares the servers have told of, each on its own. *)
Theorem C56_cost_of_every_share :
  forall remaining renewal_secret cancel_secret visited w w' t pass_value id mid,
  maintain remaining renewal_secret cancel_secret visited w = (Ok tt, w', t) ->
  Forall (fun x => let '(_, _, names, answer) := x in length names = length answer) (told t) ->
  (forall pv sizes, In (OMaintObserve pv (Some id) sizes) mid -> pv = pass_value) ->
  recorded_for id mid = observed t ->
  recorded_cost pass_value id mid = sumZ (map (fun s => cdiv s pass_value) (flat_map all_sizes (told t))).
Proof.
  intros remaining rs cs visited w w' t pv id mid H L P R. rewrite (recorded_for_cost _ _ P), R.
  rewrite (C56_every_share_is_recorded _ _ _ _ _ _ _ H). now rewrite (sizes_on_flat L).
Qed.

(** ** C79: the secrets *)

Lemma loop_secrets remaining rs cs server now l : forall w r w' t s si renew cancel,
  renew_loop add_lease observe frh brh fch bch lease_seed remaining rs cs server now l w = (r, w', t) ->
  In (Asked s si renew cancel) t ->
  s = server /\ renew = brh (frh rs si) (lease_seed s) /\ cancel = bch (fch cs si) (lease_seed s).
Proof.
  induction l as [|[si0 d] l IH]; intros w r w' t s si renew cancel H; cbn [renew_loop] in H; [injection H as <- <- <-; intros []|].
  destruct (dvalues d) as [|x more]; [eauto|].
  apply bind_inv in H as [(e & H & ->)|(u & w1 & t1 & t2 & H & K & ->)]; apply call_inv in H as [_ ->]; [intros []|].
  intros I. apply in_app_or in I. destruct I as [[[=]|[]]|I]. revert I.
  destruct (needs_lease_renew _ _ _) as [[]|e]; [|exact (IH _ _ _ _ _ _ _ _ K)|injection K as <- <- <-; intros []].
  apply bind_inv in K as [(e & K & ->)|(u' & w2 & t3 & t4 & K & K' & ->)]; apply call_inv in K as [_ ->].
  - intros [[= <- <- <- <-]|[]]. auto.
  - intros I. apply in_app_or in I. destruct I as [[[= <- <- <- <-]|[]]|I]; [auto|]. eapply IH; eauto.
Qed.

(** The secrets of every lease asked for are those an uploading Tahoe-LAFS node derives
    from its own for this storage index and this server, each with the hashes of its kind. *)
Theorem C79_secrets_are_those_of_the_uploader :
  forall remaining renewal_secret cancel_secret visited w r w' t server si renew cancel,
  maintain remaining renewal_secret cancel_secret visited w = (r, w', t) ->
  In (Asked server si renew cancel) t ->
  renew = brh (frh renewal_secret si) (lease_seed server) /\ cancel = bch (fch cancel_secret si) (lease_seed server).
Proof.
  intros remaining rs cs visited w r w' t server si renew cancel H I. unfold renew_leases in H.
  apply bind_inv in H as [(e & H & ->)|(u & w1 & t1 & t2 & H & K & ->)]; apply call_inv in H as [_ ->]; [destruct I|].
  cbn [app] in I. destruct visited as [sis|e]; [|injection K as <- <- <-; destruct I].
  assert (One : forall servers w r w' t,
    renew_on_servers stat_shares add_lease observe clock frh brh fch bch lease_seed remaining rs cs sis servers w = (r, w', t) ->
    In (Asked server si renew cancel) t ->
    renew = brh (frh rs si) (lease_seed server) /\ cancel = bch (fch cs si) (lease_seed server)).
  { clear. induction servers as [|s l IH]; intros w r w' t H I; cbn [renew_on_servers] in H; [injection H as <- <- <-; destruct I|].
    assert (Here : forall w r w' t,
      renew_leases_on_server stat_shares add_lease observe frh brh fch bch lease_seed remaining rs cs sis s (clock w) w = (r, w', t) ->
      In (Asked server si renew cancel) t ->
      renew = brh (frh rs si) (lease_seed server) /\ cancel = bch (fch cs si) (lease_seed server)).
    { clear. intros w r w' t H I. unfold renew_leases_on_server in H. destruct (all_indexes sis) as [l|e]; [|injection H as <- <- <-; destruct I].
      apply bind_inv in H as [(e & H & ->)|(u & w1 & t1 & t2 & H & K & ->)]; apply call_inv in H as [_ ->]; [destruct I|].
      destruct I as [[=]|I]. exact (proj2 (loop_secrets _ _ _ _ _ _ _ _ _ _ _ _ _ _ K I)). }
    apply bind_inv in H as [(e & H & ->)|(u & w1 & t1 & t2 & H & K & ->)]; [exact (Here _ _ _ _ H I)|].
    apply in_app_or in I as [I|I]; [exact (Here _ _ _ _ H I)|eauto]. }
  apply bind_inv in K as [(e & K & ->)|(u' & w2 & t3 & t4 & K & K' & ->)]; [exact (One _ _ _ _ _ K I)|].
  apply call_inv in K' as [_ ->]. apply in_app_or in I as [I|I]; [exact (One _ _ _ _ _ K I)|].
  destruct r; destruct I as [[=]|[]] || destruct I.
Qed.

(** ** C112 *)

(** What a price is quoted for: the period named with it.  If a run asks for a lease on
    something, then one of the leases it was told of is older than that; a lease is given
    for 31 days. *)
Theorem C112_not_renewed_within_the_period :
  forall c renewal_secret cancel_secret visited w r w' t server si,
  maintain (min_lease_remaining c) renewal_secret cancel_secret visited w = (r, w', t) ->
  In (server, si) (asked t) ->
  exists now names answer shares share stat granted,
    In (now, server, names, answer) (told t) /\ In (si, shares) (combine names answer) /\ In (share, stat) shares /\
    lease_expiration stat = granted + 31 * 24 * 60 * 60 /\
    (granted * 1000000 <= now -> get_lease_duration c * 1000000 <= now - granted * 1000000).
Proof.
  intros c rs cs visited w r w' t server si H I. apply C52_nothing_else_even_if_it_fails in H as (rest & E).
  assert (J : In (server, si) (flat_map (due_on (min_lease_remaining c)) (told t))) by (rewrite <- E; apply in_or_app; auto).
  apply in_flat_map in J as ([[[now server'] names] answer] & T & J). cbn [due_on] in J. apply in_map_iff in J as ([si' shares] & X & J).
  injection X as -> <-. apply filter_In in J as [J D]. cbn [snd fst] in *. unfold is_due in D. apply existsb_exists in D as ([share stat] & S & D).
  cbn [snd] in D. exists now, names, answer, shares, share, stat, (lease_expiration stat - 31 * 24 * 60 * 60).
  do 3 (split; [assumption|]). split; [lia|]. intros L. unfold get_lease_duration.
  set (x := 31 * 24 * 60 * 60 * 1000000 - min_lease_remaining c) in *.
  destruct (Z_le_gt_dec 0 x) as [P|P].
  - pose proof (Z.mul_quot_le x 1000000 P ltac:(lia)). lia.
  - assert (Z.quot x 1000000 <= 0) by (apply Z.quot_le_upper_bound; lia || (change (1000000 * 0) with 0; lia)). lia.
Qed.

(** ** C78 *)

(** The servers before the one that fails are maintained: the run hears from some first
    ones of the connected servers, and on all of them but the last everything that was due
    has been asked for. *)
Theorem C78_earlier_servers_are_maintained_partial :
  forall remaining renewal_secret cancel_secret sis servers w r w' t,
  renew_on_servers stat_shares add_lease observe clock frh brh fch bch lease_seed
    remaining renewal_secret cancel_secret sis servers w = (r, w', t) ->
  exists t1 t2, t = t1 ++ t2 /\ (length (told t2) <= 1)%nat /\
    (exists rest, map (fun x => snd (fst (fst x))) (told t) ++ rest = servers) /\
    asked t1 = flat_map (due_on remaining) (told t1).
Proof.
  intros remaining rs cs sis servers. induction servers as [|s servers IH]; intros w r w' t H; cbn [renew_on_servers] in H.
  - injection H as <- <- <-. exists [], []. cbn. repeat split; [lia|]. exists []. reflexivity.
  - apply bind_inv in H as [(e & H & ->)|(u & w1 & t1 & t2 & H & K & ->)].
    + exists [], t. destruct (on_server_spec _ _ _ _ _ _ _ _ _ _ _ _ _ _ _ H) as [_ [(T & _)|(sis' & ans & _ & T)]]; cbn [app]; rewrite T; cbn; repeat split; try lia.
      * exists (s :: servers). reflexivity.
      * exists servers. reflexivity.
    + destruct u. destruct (on_server_spec _ _ _ _ _ _ _ _ _ _ _ _ _ _ _ H) as [F [(_ & e & X)|(sis' & ans & A & T)]]; [discriminate|].
      destruct (IH _ _ _ _ K) as (t3 & t4 & -> & L & (rest & M) & As).
      exists (t1 ++ t3), t4. rewrite app_assoc. split; [reflexivity|]. split; [exact L|]. split.
      * exists rest. rewrite <- app_assoc, told_app, T. cbn. now rewrite M.
      * rewrite asked_app, As, told_app, flat_map_app. f_equal.
        destruct F as [(x & F & Fr) _]. rewrite (Fr eq_refl), app_nil_r in F. exact F.
Qed.

(** A file so small that it is kept in its capability has no storage index; with one of
    these anywhere below the root nothing is renewed at all. *)
Theorem C78_a_small_file_stops_maintenance_refuted :
  forall remaining renewal_secret cancel_secret sis w r w' t, In None sis ->
  maintain remaining renewal_secret cancel_secret (Ok sis) w = (r, w', t) ->
  asked t = [] /\ ((exists w1, start w = (Ok tt, w1) /\ connected_servers w1 <> []) -> exists e, r = Err e).
Proof.
  intros remaining rs cs sis w r w' t I H.
  assert (A : all_indexes sis = Err Violation).
  { clear -I. induction sis as [|[si|] sis IH]; [destruct I| |reflexivity]. destruct I as [[=]|I]. cbn. now rewrite (IH I). }
  pose proof H as H0. apply renew_all_spec in H as (((rest & F & _) & _) & B & w1 & rest1 & E & St & R).
  assert (T : told t = []).
  { destruct (told t) as [|x l] eqn:T; [reflexivity|]. exfalso. specialize (B sis eq_refl x (or_introl eq_refl)). congruence. }
  rewrite T in *. split; [destruct (asked t); [reflexivity|discriminate]|].
  intros (w2 & S2 & N). destruct r as [[]|e]; [|eauto]. exfalso. destruct (R eq_refl) as (_ & _ & S1 & -> & _).
  cbn in E. apply N. congruence.
Qed.
End Run.
Print Assumptions C52_renewed_exactly_when_due.
Print Assumptions C52_nothing_else_even_if_it_fails.
Print Assumptions C56_every_share_is_recorded.
Print Assumptions C56_the_end_is_recorded_last.
Print Assumptions C56_cost_of_every_share.
Print Assumptions C79_secrets_are_those_of_the_uploader.
Print Assumptions C112_not_renewed_within_the_period.
Print Assumptions C78_earlier_servers_are_maintained_partial.
Print Assumptions C78_a_small_file_stops_maintenance_refuted.

(** ** A concrete world *)

(** Two servers, each with the shares [lx_shares] of two storage indexes; a server with a
    number above 9 fails. *)
Definition lx_now : Z := 1700000000 * 1000000.
Definition lx_a : bytes := PassModel.ascii "aaaa".
Definition lx_b : bytes := PassModel.ascii "bbbb".
Definition lx_stat (days : Z) : share_stat := ShareStat 2500 (1700000000 + days * 86400).
Definition lx_shares (si : bytes) : dict share_stat :=
  if bytes_eqb si lx_a then [(0, lx_stat 20); (1, lx_stat 3)] else [(0, lx_stat 20)].
Definition lx_stats (server : Z) (sis : list bytes) (w : list Z) : res mexn (list (dict share_stat)) * list Z :=
  if server >? 9 then (Err RemoteError, w) else (Ok (map lx_shares sis), w).
Definition lx_ok (w : list Z) : res mexn unit * list Z := (Ok tt, w).
Definition lx_maintain :=
  renew_leases lx_stats (fun _ _ _ _ => lx_ok) lx_ok (fun _ => lx_ok) lx_ok (fun _ => lx_now) (fun w => w)
    (fun a b => a ++ b) (fun a b => a ++ b) (fun a b => a ++ b) (fun a b => a ++ b) (fun _ => [])
    (7 * day) [] [].
(** Only the first storage index has a share with less than a week left. *)
Example C52_example : exists t, lx_maintain (Ok [Some lx_a; Some lx_b]) [1; 2] = (Ok tt, [1; 2], t) /\
  asked t = [(1, lx_a); (2, lx_a)] /\ observed t = [[2500; 2500]; [2500]; [2500; 2500]; [2500]] /\
  is_due (7 * day) lx_now (lx_shares lx_a) = true /\ is_due (7 * day) lx_now (lx_shares lx_b) = false.
Proof. eexists. repeat split; vm_compute; reflexivity. Qed.

(** C78 is false: a server that fails keeps the ones after it from being maintained, and so
    does one file without a storage index. *)
Theorem C78_one_server_stops_the_rest_refuted :
  exists t t', lx_maintain (Ok [Some lx_a]) [1; 10; 2] = (Err RemoteError, [1; 10; 2], t) /\ asked t = [(1, lx_a)] /\
  lx_maintain (Ok [Some lx_a]) [1; 2] = (Ok tt, [1; 2], t') /\ asked t' = [(1, lx_a); (2, lx_a)].
Proof. eexists. eexists. repeat split; vm_compute; reflexivity. Qed.
Print Assumptions C78_one_server_stops_the_rest_refuted.
Example C78_example : exists t, lx_maintain (Ok [Some lx_a; None]) [1; 2] = (Err Violation, [1; 2], t) /\ asked t = [].
Proof. eexists. repeat split; vm_compute; reflexivity. Qed.

(** * The walk *)

(** ** C55 *)

Lemma reachable_rev g roots n : LeaseSpec.reachable g (rev roots) n <-> LeaseSpec.reachable g roots n.
Proof.
  unfold LeaseSpec.reachable. rewrite <- in_rev. split; (intros [H|(r & H & B)]; [now left|right; exists r; split; [|exact B]]).
  - now rewrite in_rev.
  - now rewrite <- in_rev.
Qed.

(** A walk that ends gives the storage indexes of what can be reached from the root,
    nothing else, and each once. *)
Theorem C55_visits_exactly_what_is_reachable :
  forall order graph fuel roots sis, (forall l, Permutation (order l) l) ->
  iter_storage_indexes order graph fuel roots = Some (Ok sis) ->
  NoDup sis /\ forall si, In si sis <-> exists n, LeaseSpec.reachable graph roots n /\ n_index (graph n) = si.
Proof.
  intros order g fuel roots sis P H. unfold iter_storage_indexes, visit_storage_indexes in H.
  destruct (visit_loop g fuel (rev roots)) as [[l|e]|] eqn:V; try discriminate. injection H as <-.
  destruct (distinct_spec l) as [N D]. split.
  - exact (Permutation_NoDup (Permutation_sym (P _)) N).
  - intros si. assert (X : In si (order (distinct l)) <-> In si (distinct l)).
    { split; apply Permutation_in; [apply P|apply Permutation_sym, P]. }
    rewrite X, D, (visit_loop_exact _ _ _ V si). split; intros (n & R & E); exists n; (split; [|exact E]); now apply reachable_rev.
Qed.
Print Assumptions C55_visits_exactly_what_is_reachable.

(** It ends, and without an error, if no directory contains itself and all can be read. *)
Theorem C55_ends_without_cycles_partial :
  forall order graph roots (rank : Z -> nat),
  (forall a b, child graph a b -> (rank b < rank a)%nat) ->
  (forall n, LeaseSpec.reachable graph roots n -> readable graph n) ->
  exists fuel sis, iter_storage_indexes order graph fuel roots = Some (Ok sis).
Proof.
  intros order g roots rank R Rd. destruct (@ends_acyclic g rank (rev roots) R) as (fuel & r & V).
  exists fuel. unfold iter_storage_indexes, visit_storage_indexes. rewrite V. destruct r as [l|e]; [eauto|].
  exfalso. apply (@visit_loop_no_error g fuel (rev roots)) with (e := e); [|exact V]. intros n H. apply Rd. now apply reachable_rev.
Qed.
Print Assumptions C55_ends_without_cycles_partial.

(** C55 is false of directories that contain themselves: if one can be reached the walk goes on for ever. *)
Theorem C55_cycle_never_ends_refuted :
  (forall order graph roots a, LeaseSpec.reachable graph roots a -> below graph a a ->
   (forall n, LeaseSpec.reachable graph roots n -> readable graph n) ->
   forall fuel, iter_storage_indexes order graph fuel roots = None) /\
  exists graph roots a, LeaseSpec.reachable graph roots a /\ below graph a a /\ forall n, readable graph n.
Proof.
  split.
  - intros order g roots a Ra B Rd fuel. unfold iter_storage_indexes, visit_storage_indexes.
    destruct (visit_loop g fuel (rev roots)) as [[l|e]|] eqn:V; [|exfalso|reflexivity].
    + exfalso. apply (reachable_rev g roots a) in Ra. destruct (visit_loop_reach Ra _ V) as (f & st & s & _ & V').
      exact (@visit_loop_no_cycle g a B _ _ _ V').
    + apply (@visit_loop_no_error g fuel (rev roots)) with (e := e); [|exact V]. intros n H. apply Rd. now apply reachable_rev.
  - exists (fun _ => Node (Some lx_a) (Some (Ok [([1], 0)]))), [0], 0. split; [left; now left|]. split.
    + apply below_child. exists [([1], 0)], [1]. split; [reflexivity|now left].
    + intros n e. discriminate.
Qed.
Print Assumptions C55_cycle_never_ends_refuted.

(** A directory with a file and a directory in which the same file appears again. *)
Definition lx_graph (n : Z) : node :=
  if n =? 0 then Node (Some lx_a) (Some (Ok [([100], 1); ([97], 2)]))
  else if n =? 1 then Node (Some lx_b) (Some (Ok [([120], 2)]))
  else Node (Some (PassModel.ascii "cccc")) None.
Example C55_example : iter_storage_indexes (fun l => l) lx_graph 10 [0] =
  Some (Ok [Some lx_a; Some lx_b; Some (PassModel.ascii "cccc")]).
Proof. vm_compute. reflexivity. Qed.
Example C55_example_rank : forall a b, child lx_graph a b -> (Z.to_nat (3 - b) < Z.to_nat (3 - a))%nat.
Proof.
  intros a b (names & name & E & I). unfold lx_graph in E.
  destruct (Z.eqb_spec a 0) as [->|]; [|destruct (Z.eqb_spec a 1) as [->|]]; cbn in E; [injection E as <-|injection E as <-|discriminate];
  repeat (destruct I as [[= <- <-]|I]; [cbn; lia|]); destruct I.
Qed.

(** * A server maintained over time *)

(** ** C53 *)

(** One node maintains a server again and again, while other things happen there.  A share
    present when the first visit begins and not deleted has an active lease at every time
    until the next visit, if visits of its storage index come before the configured minimum
    has passed since the shares were last looked at, and before the lease period (less the
    second lost to whole seconds) has passed since the last renewal. *)
Theorem C53_leases_never_lapse :
  forall signed pv iv mv mut frh brh fch bch seed renewal_secret cancel_secret remaining id si n v pre post sv sv' s b,
  reachable_server signed pv iv mv mut sv -> In (n, s) (dirs (sv_storage sv) si) -> In si (v_indexes v) ->
  history signed pv iv mv frh brh fch bch seed renewal_secret cancel_secret remaining id sv (Visits v :: pre) sv' ->
  Forall (proper_item mut) pre -> (forall i, In i pre -> ~ deletes si n i) ->
  spaced remaining si None (Visits v :: pre ++ post) -> before_next si b post -> 0 <= b ->
  exists s', In (n, s') (dirs (sv_storage sv') si) /\ active b s'.
Proof.
  intros signed pv iv mv mut frh brh fch bch seed rs cs remaining id si n v pre post sv sv' s b R I Iv H P D Sp Bn Hb.
  exact (history_maintained s H R Iv P D Sp Bn Hb I).
Qed.
Print Assumptions C53_leases_never_lapse.

(** ** A concrete history *)

Definition hx_day : Z := 86400.
(** A visit so many days after the slot of [vx_server] was written; the renewal is served
    a minute later. *)
Definition hx_visit (days : Z) : visit :=
  Visit ((1000000 + days * hx_day) * 1000000) (fun _ => (1000000 + days * hx_day + 60) * hz) (fun _ _ => true)
    (fun _ => map vx_pass [x61; x62; x63; x64]) [vx_si].
Definition hx_hash (a b : bytes) : bytes := a ++ b.
Definition hx_run (remaining : Z) (v : visit) (sv : server) :=
  visit_server vx_signed 10 2 hx_hash hx_hash hx_hash hx_hash (fun _ => []) [x72] [x63] remaining v 7 sv.
Fixpoint hx_after (remaining : Z) (vs : list visit) (sv : server) : server :=
  match vs with
  | [] => sv
  | v :: rest => let '(_, sv1, _) := hx_run remaining v sv in hx_after remaining rest sv1
  end.
Definition hx_ok (remaining : Z) (vs : list visit) : Prop :=
  fst (fold_left (fun '(ok, sv) v => let '(r, sv1, _) := hx_run remaining v sv in
                    (ok && match r with Ok _ => true | Err _ => false end, sv1)) vs (true, vx_server)) = true.
Definition hx_expirations (sv : server) : list (list Z) :=
  map (fun ns => map (fun l => (l_expiration l - 1000000) / hx_day) (s_leases (snd ns))) (dirs (sv_storage sv) vx_si).

Definition hx_history remaining := history vx_signed 10 2 2 hx_hash hx_hash hx_hash hx_hash (fun _ => []) [x72] [x63] remaining 7.
Definition is_ok {E A} (r : res E A) : bool := match r with Ok _ => true | Err _ => false end.
Lemma hx_history_of remaining vs : forall sv,
  (fix ok vs sv := match vs with
                   | [] => true
                   | v :: rest => let '(r, sv1, _) := hx_run remaining v sv in is_ok r && ok rest sv1
                   end) vs sv = true ->
  hx_history remaining sv (map Visits vs) (hx_after remaining vs sv).
Proof.
  induction vs as [|v vs IH]; intros sv H; cbn [map hx_after]; [apply h_nil|].
  destruct (hx_run remaining v sv) as [[r sv1] t] eqn:E. apply andb_true_iff in H as [Hr H]. destruct r as [[]|e]; [|discriminate].
  apply (@h_visit _ _ _ _ _ _ _ _ _ _ _ _ _ sv v sv1 t); [exact E|]. now apply IH.
Qed.

(** With a minimum of 10 days, visits every 8 days are enough: the second of these visits
    renews, the first and the third need not. *)
Definition hx_visits : list visit := map hx_visit [16; 24; 32].
Example C53_example_history : hx_history (10 * day) vx_server (map Visits hx_visits) (hx_after (10 * day) hx_visits vx_server) /\
  map hx_expirations [hx_after (10 * day) [hx_visit 16] vx_server; hx_after (10 * day) (map hx_visit [16; 24]) vx_server;
                      hx_after (10 * day) hx_visits vx_server] =
  [[[31]; [31]]; [[31; 55]; [31; 55]]; [[31; 55]; [31; 55]]].
Proof. split; [apply hx_history_of; vm_compute; reflexivity|vm_compute; reflexivity]. Qed.
Lemma hx_in days : In vx_si (v_indexes (hx_visit days)).
Proof. left. reflexivity. Qed.
Lemma hx_spaced r a b items : covered r (hx_visit a) vx_si (v_at (hx_visit b) vx_si) ->
  spaced r vx_si (Some (hx_visit b)) items -> spaced r vx_si (Some (hx_visit a)) (Visits (hx_visit b) :: items).
Proof. intros C H. apply sp_visit; [apply hx_in| |exact H]. intros u E. assert (u = hx_visit a) as -> by congruence. exact C. Qed.
Example C53_example : exists s',
  In (1, s') (dirs (sv_storage (hx_after (10 * day) hx_visits vx_server)) vx_si) /\ active ((1000000 + 39 * hx_day) * hz) s'.
Proof.
  destruct C53_example_history as [H _]. unfold hx_visits in *. cbn [map] in H.
  assert (P : exists s, In (1, s) (dirs (sv_storage vx_server) vx_si)).
  { eexists. apply dget_Some_In. vm_compute. reflexivity. }
  destruct P as [s P].
  refine (C53_leases_never_lapse vx_signed 10 2 2 vx_mut _ _ _ _ _ _ _ _ 7 vx_si 1 (hx_visit 16) _ [Visits (hx_visit 40)] vx_server _ s _
            vx_reachable P (hx_in 16) H _ _ _ _ _).
  - repeat constructor.
  - intros i [<-|[<-|[]]]; discriminate.
  - apply sp_visit; [exact (hx_in 16)|discriminate|]. apply hx_spaced; [vm_compute; split; [reflexivity|discriminate]|].
    apply hx_spaced; [vm_compute; split; [reflexivity|discriminate]|]. apply hx_spaced; [vm_compute; split; [reflexivity|discriminate]|]. apply sp_nil.
  - apply bn_visit; [exact (hx_in 40)|vm_compute; discriminate].
  - vm_compute. discriminate.
Qed.

(** ** C54 *)

(** The default configuration. *)
Example C54_defaults : from_node_config [] = Ok (Config (26 * day) (4 * day) 0).
Proof. reflexivity. Qed.

(** C54 is false.  With the default minimum of nothing a run renews only what has expired
    already, whatever the schedule. *)
Theorem C54_default_renews_only_the_expired_refuted :
  (forall stat now, needs_lease_renew 0 stat now = Ok true -> lease_expiration stat * 1000000 < now) /\
  (** Two visits 26 days apart, each an interval the default configuration may give, both
      successful; on the day before the second the share has no active lease. *)
  exists c sv sv1 sv2 s b, from_node_config [] = Ok c /\
    let '(lo, hi) := interval_bounds (crawl_interval_mean c) (crawl_interval_range c) in
    reachable_server vx_signed 10 2 2 vx_mut sv /\
    hx_history (min_lease_remaining c) sv [Visits (hx_visit 26)] sv1 /\
    hx_history (min_lease_remaining c) sv [Visits (hx_visit 26); Visits (hx_visit 52)] sv2 /\
    lo <= v_now (hx_visit 26) - 1000000 * 1000000 <= hi /\ lo <= v_now (hx_visit 52) - v_now (hx_visit 26) <= hi /\
    b < v_at (hx_visit 52) vx_si /\ In (0, s) (dirs (sv_storage sv1) vx_si) /\ ~ active b s.
Proof.
  split.
  - intros stat now. unfold needs_lease_renew, utcfromtimestamp. destruct (_ && _); cbn; [|discriminate]. intros [= H]. apply Z.ltb_lt in H. lia.
  - exists (Config (26 * day) (4 * day) 0), vx_server, (hx_after 0 [hx_visit 26] vx_server), (hx_after 0 (map hx_visit [26; 52]) vx_server).
    assert (A : match dget 0 (dirs (sv_storage (hx_after 0 [hx_visit 26] vx_server)) vx_si) with
                | Some s => activeb ((1000000 + 51 * hx_day) * hz) s | None => true end = false) by (vm_compute; reflexivity).
    destruct (dget 0 (dirs (sv_storage (hx_after 0 [hx_visit 26] vx_server)) vx_si)) as [s|] eqn:P; [|discriminate A].
    exists s, ((1000000 + 51 * hx_day) * hz). split; [reflexivity|]. cbn [crawl_interval_mean crawl_interval_range min_lease_remaining].
    unfold interval_bounds. split; [exact vx_reachable|].
    split; [apply (hx_history_of 0 [hx_visit 26]); vm_compute; reflexivity|].
    split; [apply (hx_history_of 0 (map hx_visit [26; 52])); vm_compute; reflexivity|].
    split; [split; vm_compute; discriminate|]. split; [split; vm_compute; discriminate|]. split; [vm_compute; reflexivity|].
    split; [apply dget_Some_In, P|]. rewrite <- activeb_spec. congruence.
Qed.
Print Assumptions C54_default_renews_only_the_expired_refuted.

(** ** C79 *)

(** However many runs there are, they add at most one lease to a share: they renew the one
    they have. *)
Theorem C79_runs_reuse_one_lease :
  forall signed pv iv mv frh brh fch bch seed renewal_secret cancel_secret remaining id si n s s' vs sv sv',
  history signed pv iv mv frh brh fch bch seed renewal_secret cancel_secret remaining id sv (map Visits vs) sv' ->
  dict_wf (dirs (sv_storage sv) si) -> In (n, s) (dirs (sv_storage sv) si) -> In (n, s') (dirs (sv_storage sv') si) ->
  (length (s_leases s') <= length (s_leases s) + 1)%nat.
Proof.
  intros signed pv iv mv frh brh fch bch seed rs cs remaining id si n s s' vs sv sv' H Wd I I'.
  assert (G : grown (brh (frh rs si) (seed id)) (length (s_leases s)) s').
  { refine (@visits_grown signed pv iv mv frh brh fch bch seed rs cs remaining id si n _ _ _ _ H _ _ s' I').
    - intros e J. apply in_map_iff in J as (v & [=] & _).
    - intros s0 I0. left. apply (dget_In_wf _ _ Wd) in I, I0. assert (s0 = s) as -> by congruence. lia. }
  destruct G as [G|[_ G]]; lia.
Qed.
Print Assumptions C79_runs_reuse_one_lease.
(** Four renewals, one lease more. *)
Example C79_example : hx_history (30 * day) vx_server (map Visits (map hx_visit [10; 20; 30; 40])) (hx_after (30 * day) (map hx_visit [10; 20; 30; 40]) vx_server) /\
  hx_expirations (hx_after (30 * day) (map hx_visit [10; 20; 30; 40]) vx_server) = [[31; 71]; [31; 71]].
Proof. split; [apply hx_history_of; vm_compute; reflexivity|vm_compute; reflexivity]. Qed.

(** * C56: the record *)

(** After any history of the store, the row of a run says when it began and ended and what
    the observed shares cost, whatever else went on in the meantime; and if no run ended later,
    this is what the latest-activity query answers. *)
Theorem C56_report_is_the_cost_of_what_was_seen :
  forall pass_value pre rs d t0 mid id t1 rs' d',
  0 < pass_value -> steps empty_db pre = (rs, d) ->
  steps d (OMaintStart t0 :: mid ++ [OMaintFinish (Some id) t1]) = (Ok (RNum id) :: rs', d') ->
  (forall pv sizes, In (OMaintObserve pv (Some id) sizes) mid -> pv = pass_value) ->
  (forall now, ~ In (OMaintFinish (Some id) now) mid) ->
  In (MR id t0 (Some t1) (recorded_cost pass_value id mid)) (maint d') /\
  ((forall i t, In (OMaintFinish (Some i) t) (pre ++ mid) -> t < t1) ->
   step d' OLatest = (Ok (RActivity (Some (t0, recorded_cost pass_value id mid, t1))), d')).
Proof.
  intros pv pre rs d t0 mid id t1 rs' d' Hv S0 S P F. destruct (report pre t0 mid t1 Hv P F S0 S) as [A B]. split; [exact A|exact B].
Qed.
Print Assumptions C56_report_is_the_cost_of_what_was_seen.

(** Two runs; the second is reported, at 3 + 1 + 1 passes of 1000. *)
Definition mx_first : list op := [OMaintStart 10; OMaintObserve 1000 (Some 1) [100; 100; 5000]; OMaintFinish (Some 1) 20].
Definition mx_mid : list op := [OMaintObserve 1000 (Some 2) [2500; 7]; OCount; OMaintObserve 1000 (Some 2) [1000]].
Example C56_example :
  let '(_, d) := steps empty_db mx_first in
  let '(rs, d') := steps d (OMaintStart 30 :: mx_mid ++ [OMaintFinish (Some 2) 40]) in
  hd_error rs = Some (Ok (RNum 2)) /\ recorded_cost 1000 2 mx_mid = 5 /\
  fst (step d' OLatest) = Ok (RActivity (Some (30, 5, 40))) /\ fst (step d OLatest) = Ok (RActivity (Some (10, 7, 20))).
Proof. vm_compute. repeat split; reflexivity. Qed.

(** * C57, C77, C80: the timer *)

Definition new_timer (file : option Z) : timer := Timer NoCall false file.

(** After a restart, whatever the process did before, the first run is due at the sampled
    interval after the last run, or at once. *)
Theorem C57_restart :
  forall t last sample now, t_file t = Some last ->
  exists t', timer_step t (Boot now sample) = (t', []) /\
  ((last + sample <= now /\ t_call t' = Due now) \/
   (now < last + sample /\ t_call t' = Due (now + (sample - (now - last))))).
Proof.
  intros [call running file] last sample now E. cbn in E. subst file. rewrite boot_due. eexists. split; [reflexivity|]. cbn [t_call].
  destruct (Z.le_gt_cases (last + sample) now); [left|right]; (split; [lia|]); f_equal; lia.
Qed.
Print Assumptions C57_restart.

(** In any history, restarts, stops and crashes included, a run starts at least the
    shortest interval after the end of every earlier one. *)
Theorem C57_runs_are_apart :
  forall lo t0 pre d sample es t1 o1 t2 o2,
  timer_run t0 pre = (t1, o1) -> t_running t1 = true ->
  lo <= sample -> Forall (long_enough lo) es -> Forall (fun e => d <= time_of d e) es ->
  timer_run t1 (Done d sample :: es) = (t2, o2) ->
  forall start, In (RunStarted start) o2 -> d + lo <= start.
Proof.
  intros lo t0 pre d sample es t1 o1 t2 o2 _ R L Ls T H start I. cbn [timer_run] in H.
  destruct (timer_step t1 (Done d sample)) as [t3 o3] eqn:S. destruct (timer_run t3 es) as [t4 o4] eqn:Rn. injection H as <- <-.
  destruct (done_resting d t1 R L S) as [Rs N]. apply in_app_or in I as [I|I]; [exfalso; exact (N _ I)|].
  exact (resting_run Rs Ls T Rn _ I).
Qed.
Print Assumptions C57_runs_are_apart.

(** A first run, a crash in the second, a restart long after. *)
Definition tx_events : list tevent := [Fire 100; Done 105 50; Fire 155; Kill; Boot 400 50; Fire 400; Done 410 60; Kill; Boot 420 50].
Example C57_example : timer_run (new_timer None) (Boot 0 100 :: tx_events) =
  (Timer (Due 460) false (Some 410), [RunStarted 100; RunStarted 155; RunStarted 400]).
Proof. vm_compute. reflexivity. Qed.

(** ** C77 *)

(** Stopped while it waits, the service starts no further run, until it is started anew. *)
Theorem C77_stopped_while_waiting_partial :
  forall file es due o es' t t' o' o2,
  timer_run (new_timer file) es = (t, o) -> t_call t = Due due ->
  (forall now sample, ~ In (Boot now sample) es') ->
  timer_step t Stop = (t', o') -> timer_run t' es' = (fst o2, snd o2) -> o' = [] /\ snd o2 = [].
Proof.
  intros file es due o es' t t' o' o2 H D N S R. cbn [timer_step] in S. rewrite D in S. injection S as <- <-. split; [reflexivity|].
  refine (quiet_run es' _ N R). split; [reflexivity|]. cbn. refine (due_not_running es _ _ H D). discriminate.
Qed.
Print Assumptions C77_stopped_while_waiting_partial.

(** C77 is false: stopped during a run the service raises, and runs again. *)
Theorem C77_stopped_while_running_refuted :
  (forall t now sample, t_call t = Called -> t_running t = true -> 0 <= sample ->
   timer_run t [Stop; Done now sample; Fire (now + sample)] =
   (Timer Called true (Some now), [AlreadyCalled; RunStarted (now + sample)])) /\
  exists es t o, timer_run (new_timer None) es = (t, o) /\ t_call t = Called /\ t_running t = true.
Proof.
  split.
  - intros [call running file] now sample C R H. cbn in C, R. subst. cbn [timer_run timer_step t_call t_running]. unfold call_later.
    destruct (Z.ltb_spec sample 0); [lia|]. cbn. destruct (Z.leb_spec (now + sample) (now + sample)); [reflexivity|lia].
  - exists [Boot 0 5; Fire 5]. eexists. eexists. repeat split; vm_compute; reflexivity.
Qed.
Print Assumptions C77_stopped_while_running_refuted.
Example C77_example : exists t o, timer_run (new_timer None) [Boot 0 5; Fire 5; Done 6 5] = (t, o) /\ t_call t = Due 11 /\
  timer_run t [Stop; Fire 11; Fire 12] = (Timer NoCall false (Some 6), []).
Proof. eexists. eexists. repeat split; vm_compute; reflexivity. Qed.

(** ** C80 *)

(** Every sample of a configuration whose range is at most twice its mean is a delay the
    reactor accepts: the service goes on after every run. *)
Theorem C80_accepted_schedule_partial :
  forall c t now sample, crawl_interval_range c <= 2 * crawl_interval_mean c ->
  let '(lo, hi) := interval_bounds (crawl_interval_mean c) (crawl_interval_range c) in
  lo <= sample -> t_running t = true ->
  timer_step t (Done now sample) = (Timer (Due (now + sample)) false (Some now), []).
Proof.
  intros [mean range remaining] t now sample H. cbn [crawl_interval_mean crawl_interval_range] in *. unfold interval_bounds.
  intros L R. cbn [timer_step]. rewrite R. unfold call_later.
  assert (0 <= sample) by (pose proof (Z.div_le_upper_bound range 2 mean); lia).
  destruct (Z.ltb_spec sample 0); [lia|reflexivity].
Qed.
Print Assumptions C80_accepted_schedule_partial.

(** C80 is false: a larger range is read from the configuration without complaint; a sample
    below zero ends the service for good, without the process noticing. *)
Definition cx_wide : cfg := [(mean_key, PassModel.ascii "10"); (range_key, PassModel.ascii "60")].
Theorem C80_wide_range_ends_the_service_refuted :
  exists c sample, from_node_config cx_wide = Ok c /\
  (let '(lo, hi) := interval_bounds (crawl_interval_mean c) (crawl_interval_range c) in lo <= sample <= hi) /\
  forall t now es t' o, t_running t = true -> (forall n s, ~ In (Boot n s) es) ->
    timer_run t (Done now sample :: es) = (t', o) -> forall start, ~ In (RunStarted start) o.
Proof.
  exists (Config 10000000 60000000 0), (-5000000). split; [vm_compute; reflexivity|]. split; [vm_compute; split; discriminate|].
  intros t now es t' o R N H start I. cbn [timer_run timer_step] in H. rewrite R in H. cbn in H.
  destruct (timer_run (Timer Called false (Some now)) es) as [t2 o2] eqn:E. injection H as <- <-. destruct I as [I|I]; [discriminate|].
  revert t2 o2 E I. generalize (Some now). induction es as [|e es IH]; intros file t2 o2 E I; cbn [timer_run] in E; [injection E as <- <-; destruct I|].
  assert (N' : forall n s, ~ In (Boot n s) es) by (intros n s J; apply (N n s); now right).
  destruct e as [n s|n|n s| |]; cbn [timer_step t_call t_running t_file] in E.
  - apply (N n s). now left.
  - destruct (timer_run _ es) as [t3 o3] eqn:E3. injection E as <- <-. exact (IH N' _ _ _ E3 I).
  - destruct (timer_run _ es) as [t3 o3] eqn:E3. injection E as <- <-. exact (IH N' _ _ _ E3 I).
  - destruct (timer_run _ es) as [t3 o3] eqn:E3. injection E as <- <-. destruct I as [I|I]; [discriminate|]. exact (IH N' _ _ _ E3 I).
  - destruct (timer_run _ es) as [t3 o3] eqn:E3. injection E as <- <-. cbn in I.
    assert (Q : quiet (Timer NoCall false file)) by (split; reflexivity). rewrite (quiet_run es Q N' E3) in I. destruct I.
Qed.
Print Assumptions C80_wide_range_ends_the_service_refuted.

(** * C63: the configuration *)

(** What is read back is the configuration that was written, in whole seconds. *)
Theorem C63_config_round_trip :
  forall mean range remaining,
  fits (mean * 1000000) -> fits (range * 1000000) -> fits (remaining * 1000000) ->
  let c := Config (mean * 1000000) (range * 1000000) (remaining * 1000000) in
  from_node_config (config_to_dict c) = Ok c /\ config_from_dict (config_to_dict c) = Ok c.
Proof.
  intros mean range remaining A B C.
  pose proof (parse_format A) as A'. pose proof (parse_format B) as B'. pose proof (parse_format C) as C'.
  rewrite Z.quot_mul in A', B', C' by discriminate.
  unfold from_node_config, config_from_dict, read_duration, LeaseModel.item, config_to_dict.
  cbn [crawl_interval_mean crawl_interval_range min_lease_remaining].
  set (fa := format_duration (mean * 1000000)) in *. set (fb := format_duration (range * 1000000)) in *.
  set (fc := format_duration (remaining * 1000000)) in *. clearbody fa fb fc.
  cbn -[parse_duration]. rewrite A', B', C'. split; reflexivity.
Qed.
Print Assumptions C63_config_round_trip.

(** Each value that is not set is the default, each other one is what its text says, and
    none of them depends on the others. *)
Theorem C63_defaults :
  forall d c, from_node_config d = Ok c ->
  (match cfg_get mean_key d with None => crawl_interval_mean c = 26 * day | Some v => parse_duration v = Ok (crawl_interval_mean c) end) /\
  (match cfg_get range_key d with None => crawl_interval_range c = 4 * day | Some v => parse_duration v = Ok (crawl_interval_range c) end) /\
  (match cfg_get remaining_key d with None => min_lease_remaining c = 0 | Some v => parse_duration v = Ok (min_lease_remaining c) end).
Proof.
  intros d c. unfold from_node_config, read_duration.
  destruct (cfg_get mean_key d) as [a|]; destruct (cfg_get range_key d) as [b|]; destruct (cfg_get remaining_key d) as [e|];
  repeat (match goal with |- context [parse_duration ?x] => destruct (parse_duration x) as [?|?] end); cbn [bind]; intros H; try discriminate H;
  injection H as <-; auto.
Qed.
Print Assumptions C63_defaults.

(** The form in which a node hands its configuration to another must have all three. *)
Theorem C63_missing_key_is_refused :
  forall d c, config_from_dict d = Ok c ->
  exists a b e, cfg_get mean_key d = Some a /\ cfg_get range_key d = Some b /\ cfg_get remaining_key d = Some e /\
    parse_duration a = Ok (crawl_interval_mean c) /\ parse_duration b = Ok (crawl_interval_range c) /\
    parse_duration e = Ok (min_lease_remaining c).
Proof.
  intros d c. unfold config_from_dict, LeaseModel.item.
  destruct (cfg_get mean_key d) as [a|]; [|discriminate]. destruct (parse_duration a) as [x|] eqn:X; [|discriminate]. cbn [bind].
  destruct (cfg_get range_key d) as [b|]; [|discriminate]. destruct (parse_duration b) as [y|] eqn:Y; [|discriminate]. cbn [bind].
  destruct (cfg_get remaining_key d) as [e|]; [|discriminate]. destruct (parse_duration e) as [z|] eqn:Z; [|discriminate]. cbn [bind].
  intros [= <-]. exists a, b, e. repeat apply conj; reflexivity || assumption.
Qed.
Print Assumptions C63_missing_key_is_refused.

(** C63 is false of fractions of a second: they are lost. *)
Theorem C63_fractions_are_lost_refuted :
  exists c, fits (crawl_interval_mean c) /\ from_node_config (config_to_dict c) = Ok (Config 2000000 0 0) /\ crawl_interval_mean c = 2500000.
Proof. exists (Config 2500000 0 0). split; [unfold fits, day; cbn; lia|]. split; vm_compute; reflexivity. Qed.
Print Assumptions C63_fractions_are_lost_refuted.
Example C63_example : config_to_dict (Config (26 * day) (4 * day) 0) =
  [(mean_key, PassModel.ascii "2246400"); (range_key, PassModel.ascii "345600"); (remaining_key, PassModel.ascii "0")] /\
  from_node_config [(remaining_key, PassModel.ascii "60")] = Ok (Config (26 * day) (4 * day) 60000000).
Proof. split; vm_compute; reflexivity. Qed.

(** ** C112: the period named with a price *)

(** No longer period could be named: a lease can be due for renewal less than a second
    after it. *)
Theorem C112_no_longer_period :
  forall c, 0 <= min_lease_remaining c <= 31 * day ->
  exists now, needs_lease_renew (min_lease_remaining c) (ShareStat 0 (31 * 24 * 60 * 60)) now = Ok true /\
    get_lease_duration c * 1000000 < now <= (get_lease_duration c + 1) * 1000000.
Proof.
  intros c H. unfold day in H. exists (31 * 24 * 60 * 60 * 1000000 - min_lease_remaining c + 1).
  unfold needs_lease_renew, utcfromtimestamp, get_lease_duration. cbn [lease_expiration]. rewrite andb_true_intro by (split; reflexivity). cbn [bind].
  split; [f_equal; apply Z.ltb_lt; lia|].
  set (x := 31 * 24 * 60 * 60 * 1000000 - min_lease_remaining c) in *.
  assert (0 <= x) by (unfold x; lia). pose proof (Z.mul_quot_le x 1000000 H0 ltac:(lia)).
  pose proof (Z.mul_succ_quot_gt x 1000000 H0 ltac:(lia)). lia.
Qed.
Print Assumptions C112_no_longer_period.

(** The period ought to be positive; a configuration can make it zero or negative. *)
Theorem C112_period_is_positive_refuted :
  ~ (forall d c, from_node_config d = Ok c -> 0 < get_lease_duration c).
Proof. intros H. specialize (H [(remaining_key, PassModel.ascii "2678460")] _ eq_refl). vm_compute in H. discriminate H. Qed.
Print Assumptions C112_period_is_positive_refuted.

Theorem C112_period_is_positive_partial :
  forall c, 0 <= min_lease_remaining c <= 31 * day - 1000000 -> 1 <= get_lease_duration c <= 31 * 24 * 60 * 60.
Proof.
  intros c H. unfold day in H. unfold get_lease_duration. split.
  - apply Z.quot_le_lower_bound; lia.
  - apply Z.quot_le_upper_bound; lia.
Qed.
Print Assumptions C112_period_is_positive_partial.

Example C112_ex : from_node_config [] = Ok (Config (26 * day) (4 * day) 0) /\ get_lease_duration (Config (26 * day) (4 * day) 0) = 2678400 /\
  get_lease_duration (Config (26 * day) (4 * day) 60500000) = 2678339 /\
  get_lease_duration (Config (26 * day) (4 * day) (31 * day + 60000000)) = -60.
Proof. repeat split; vm_compute; reflexivity. Qed.
