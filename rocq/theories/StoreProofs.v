(** Lemmas about the voucher store. *)
From Verif Require Import Prelude PreludeFacts PricingModel StoreModel StoreSpec.
Set Implicit Arguments.

Lemma memZ_true k l : memZ k l = true <-> In k l.
Proof. apply memZ_In. Qed.
Lemma memZ_false k l : memZ k l = false <-> ~ In k l.
Proof. rewrite <- memZ_In. destruct (memZ k l); intuition congruence. Qed.
Lemma memZ_spec k l : reflect (In k l) (memZ k l).
Proof. destruct (memZ k l) eqn:E; constructor; [now apply memZ_true|now apply memZ_false]. Qed.

(** ** Inserting many rows *)

Lemma set_in_use_twice d a b : set_in_use b (set_in_use a d) = set_in_use b d.
Proof. reflexivity. Qed.

Lemma set_in_use_id d : set_in_use (in_use d) d = d.
Proof. destruct d; reflexivity. Qed.
Lemma set_unblinded_id d : set_unblinded (unblinded d) d = d.
Proof. destruct d; reflexivity. Qed.
Lemma set_invalid_id d : set_invalid (invalid d) d = d.
Proof. destruct d; reflexivity. Qed.
Lemma set_tokens_id d : set_tokens (tokens d) d = d.
Proof. destruct d; reflexivity. Qed.
Lemma set_to_discard_id d : set_to_discard (to_discard d) d = d.
Proof. destruct d; reflexivity. Qed.
Lemma set_to_reset_id d : set_to_reset (to_reset d) d = d.
Proof. destruct d; reflexivity. Qed.

Definition disjoint (a b : list Z) : Prop := forall t, In t a -> ~ In t b.

Lemma ins_in_use_Ok ts : forall d d',
  exec_muts (map InsInUse ts) d = Ok d' <->
  (NoDup ts /\ disjoint ts (in_use d) /\ d' = set_in_use (in_use d ++ ts) d).
Proof.
  induction ts as [|t ts IH]; intros d d'; cbn [map exec_muts].
  - rewrite app_nil_r, set_in_use_id. split; [intros [= <-]|intros (_ & _ & ->)]; auto.
    split; [constructor|split; [intros ? []|reflexivity]].
  - cbn [exec_mut]. destruct (memZ_spec t (in_use d)) as [Hin|Hin]; cbn [bind snd].
    + split; [discriminate|]. intros (_ & D & _). exfalso; apply (D t); [left|]; auto.
    + rewrite IH. cbn [in_use set_in_use]. rewrite set_in_use_twice, <- app_assoc; cbn [app].
      split; intros (N & D & ->).
      * split; [constructor; [|exact N]|split; [|reflexivity]].
        -- intros H; apply (D t H). apply in_or_app; right; left; reflexivity.
        -- intros x [<-|Hx] H; [auto|]. apply (D x Hx). apply in_or_app; left; exact H.
      * inversion N; subst. split; [assumption|split; [|reflexivity]].
        intros x Hx H. apply in_app_or in H. destruct H as [H|[<-|[]]]; [|auto].
        apply (D x); [right|]; assumption.
Qed.

Lemma ins_invalid_Ok r ts : forall d d',
  exec_muts (map (fun t => InsInvalid t r) ts) d = Ok d' <->
  (NoDup ts /\ disjoint ts (map fst (invalid d)) /\
   d' = set_invalid (invalid d ++ map (fun t => (t, r)) ts) d).
Proof.
  induction ts as [|t ts IH]; intros d d'; cbn [map exec_muts].
  - rewrite app_nil_r, set_invalid_id. split; [intros [= <-]|intros (_ & _ & ->)]; auto.
    split; [constructor|split; [intros ? []|reflexivity]].
  - cbn [exec_mut]. destruct (memZ_spec t (map fst (invalid d))) as [Hin|Hin]; cbn [bind snd].
    + split; [discriminate|]. intros (_ & D & _). exfalso; apply (D t); [left|]; auto.
    + rewrite IH. cbn [invalid set_invalid]. change (set_invalid ?b (set_invalid ?a d)) with (set_invalid b d).
      rewrite <- app_assoc; cbn [app]. rewrite map_app; cbn [map fst].
      split; intros (N & D & ->).
      * split; [constructor; [|exact N]|split; [|reflexivity]].
        -- intros H; apply (D t H). apply in_or_app; right; left; reflexivity.
        -- intros x [<-|Hx] H; [auto|]. apply (D x Hx). apply in_or_app; left; exact H.
      * inversion N; subst. split; [assumption|split; [|reflexivity]].
        intros x Hx H. apply in_app_or in H. destruct H as [H|[<-|[]]]; [|auto].
        apply (D x); [right|]; assumption.
Qed.

Lemma ins_unblinded_Ok g ts : forall d d',
  exec_muts (map (fun t => InsUnblinded t g) ts) d = Ok d' <->
  (NoDup ts /\ disjoint ts (map u_token (unblinded d)) /\
   d' = set_unblinded (unblinded d ++ map (fun t => UR t g) ts) d).
Proof.
  induction ts as [|t ts IH]; intros d d'; cbn [map exec_muts].
  - rewrite app_nil_r, set_unblinded_id. split; [intros [= <-]|intros (_ & _ & ->)]; auto.
    split; [constructor|split; [intros ? []|reflexivity]].
  - cbn [exec_mut]. destruct (memZ_spec t (map u_token (unblinded d))) as [Hin|Hin]; cbn [bind snd].
    + split; [discriminate|]. intros (_ & D & _). exfalso; apply (D t); [left|]; auto.
    + rewrite IH. cbn [unblinded set_unblinded].
      change (set_unblinded ?b (set_unblinded ?a d)) with (set_unblinded b d).
      rewrite <- app_assoc; cbn [app]. rewrite map_app; cbn [map u_token].
      split; intros (N & D & ->).
      * split; [constructor; [|exact N]|split; [|reflexivity]].
        -- intros H; apply (D t H). apply in_or_app; right; left; reflexivity.
        -- intros x [<-|Hx] H; [auto|]. apply (D x Hx). apply in_or_app; left; exact H.
      * inversion N; subst. split; [assumption|split; [|reflexivity]].
        intros x Hx H. apply in_app_or in H. destruct H as [H|[<-|[]]]; [|auto].
        apply (D x); [right|]; assumption.
Qed.

Lemma ins_token_Ok v c ts : forall d d', In v (map v_number (vouchers d)) ->
  (exec_muts (map (InsToken v c) ts) d = Ok d' <->
  (NoDup ts /\ disjoint ts (map t_text (tokens d)) /\
   d' = set_tokens (tokens d ++ map (fun t => TR t v c) ts) d)).
Proof.
  induction ts as [|t ts IH]; intros d d' Hv; cbn [map exec_muts].
  - rewrite app_nil_r, set_tokens_id. split; [intros [= <-]|intros (_ & _ & ->)]; auto.
    split; [constructor|split; [intros ? []|reflexivity]].
  - cbn [exec_mut]. destruct (memZ_spec t (map t_text (tokens d))) as [Hin|Hin]; cbn [bind snd].
    + split; [discriminate|]. intros (_ & D & _). exfalso; apply (D t); [left|]; auto.
    + destruct (memZ_spec v (map v_number (vouchers d))) as [_|H]; [|contradiction]. cbn [bind snd].
      rewrite IH by exact Hv. cbn [tokens set_tokens].
      change (set_tokens ?b (set_tokens ?a d)) with (set_tokens b d).
      rewrite <- app_assoc; cbn [app]. rewrite map_app; cbn [map t_text].
      split; intros (N & D & ->).
      * split; [constructor; [|exact N]|split; [|reflexivity]].
        -- intros H; apply (D t H). apply in_or_app; right; left; reflexivity.
        -- intros x [<-|Hx] H; [auto|]. apply (D x Hx). apply in_or_app; left; exact H.
      * inversion N; subst. split; [assumption|split; [|reflexivity]].
        intros x Hx H. apply in_app_or in H. destruct H as [H|[<-|[]]]; [|auto].
        apply (D x); [right|]; assumption.
Qed.

Lemma ins_to_discard_Ok ts : forall d,
  exec_muts (map InsToDiscard ts) d = Ok (set_to_discard (to_discard d ++ ts) d).
Proof.
  induction ts as [|t ts IH]; intros d; cbn [map exec_muts].
  - now rewrite app_nil_r, set_to_discard_id.
  - cbn [exec_mut bind snd]. rewrite IH. cbn [to_discard set_to_discard].
    now rewrite <- app_assoc.
Qed.

Lemma ins_to_reset_Ok ts : forall d,
  exec_muts (map InsToReset ts) d = Ok (set_to_reset (to_reset d ++ ts) d).
Proof.
  induction ts as [|t ts IH]; intros d; cbn [map exec_muts].
  - now rewrite app_nil_r, set_to_reset_id.
  - cbn [exec_mut bind snd]. rewrite IH. cbn [to_reset set_to_reset].
    now rewrite <- app_assoc.
Qed.

(** ** [pmap] and [with_cursor] *)
Lemma run_pmap A B (f : A -> B) p : forall d,
  run (pmap f p) d =
  match run p d with
  | (Ok a, d', rec) => (Ok (f a), d', rec)
  | (Err e, d', rec) => (Err e, d', rec)
  end.
Proof.
  induction p as [a|e|i m k IH|i ms k IH|k IH]; intros d; cbn [pmap run]; try reflexivity.
  - destruct (exec_mut m d) as [[n d1]|e]; [|reflexivity]. rewrite IH.
    destruct (run (k n) d1) as [[[?|?] ?] ?]; reflexivity.
  - destruct (exec_muts ms d) as [d1|e]; [|reflexivity]. rewrite IH.
    destruct (run k d1) as [[[?|?] ?] ?]; reflexivity.
  - apply IH.
Qed.

Lemma with_cursor_pmap A B (f : A -> B) p d :
  with_cursor (pmap f p) d =
  match with_cursor p d with
  | (Ok a, d') => (Ok (f a), d')
  | (Err e, d') => (Err e, d')
  end.
Proof.
  unfold with_cursor. rewrite run_pmap. destruct (run p d) as [[[?|?] ?] ?]; reflexivity.
Qed.

Lemma with_cursor_err A (p : prog A) d e d' : with_cursor p d = (Err e, d') -> d' = d.
Proof. unfold with_cursor. destruct (run p d) as [[[?|?] ?] ?]; congruence. Qed.

(** ** Availability *)

Record wf (d : db) : Prop := {
  wf_unblinded : NoDup (map u_token (unblinded d));
  wf_groups : NoDup (map g_id (groups d));
  wf_in_use : NoDup (in_use d);
  wf_in_use_stored : forall t, In t (in_use d) -> stored d true t;
  wf_group_known : forall u, In u (unblinded d) -> In (u_group u) (map g_id (groups d));
  wf_vouchers : NoDup (map v_number (vouchers d));
  wf_tokens : NoDup (map t_text (tokens d));
  wf_fk : forall t, In t (tokens d) -> In (t_voucher t) (map v_number (vouchers d));
  wf_invalid : NoDup (map fst (invalid d));
  wf_to_discard : to_discard d = [];
  wf_to_reset : to_reset d = [];
  wf_maint : NoDup (map m_id (maint d)) }.

Lemma NoDup_map_inj A B (f : A -> B) l x y :
  NoDup (map f l) -> In x l -> In y l -> f x = f y -> x = y.
Proof.
  induction l as [|a l IH]; cbn; intros N Hx Hy E; [contradiction|].
  inversion N; subst.
  destruct Hx as [->|Hx], Hy as [->|Hy]; auto.
  - exfalso. apply H1. rewrite E. now apply in_map.
  - exfalso. apply H1. rewrite <- E. now apply in_map.
Qed.

Lemma stored_unique d a b t : wf d -> stored d a t -> stored d b t -> a = b.
Proof.
  intros W (g & v & pk & Hu & Hg) (g' & v' & pk' & Hu' & Hg').
  pose proof (@NoDup_map_inj _ _ u_token _ _ _ (wf_unblinded W) Hu Hu' eq_refl) as E.
  injection E as <-.
  pose proof (@NoDup_map_inj _ _ g_id _ _ _ (wf_groups W) Hg Hg' eq_refl) as E.
  congruence.
Qed.

Lemma in_available d t : In t (available d) <-> stored d true t /\ ~ In t (in_use d).
Proof.
  unfold available. rewrite in_flat_map. split.
  - intros (u & Hu & H). apply in_flat_map in H. destruct H as (g & Hg & H).
    destruct ((u_group u =? g_id g) && g_spendable g && negb (memZ (u_token u) (in_use d))) eqn:E;
      [|contradiction].
    destruct H as [<-|[]]. rewrite !andb_true_iff, negb_true_iff in E. destruct E as [[E1 E2] E3].
    apply Z.eqb_eq in E1. apply memZ_false in E3. split; [|exact E3].
    destruct u as [tok gr], g as [id v pk sp]; cbn in *. subst. now exists id, v, pk.
  - intros [(g & v & pk & Hu & Hg) N]. exists (UR t g). split; [exact Hu|].
    apply in_flat_map. exists (GR g v pk true). split; [exact Hg|]. cbn.
    rewrite Z.eqb_refl. apply memZ_false in N. rewrite N. left; reflexivity.
Qed.

Lemma available_row_le1 u d : NoDup (map g_id (groups d)) ->
  flat_map (fun g => if (u_group u =? g_id g) && g_spendable g && negb (memZ (u_token u) (in_use d))
                     then [u_token u] else []) (groups d) = [] \/
  flat_map (fun g => if (u_group u =? g_id g) && g_spendable g && negb (memZ (u_token u) (in_use d))
                     then [u_token u] else []) (groups d) = [u_token u].
Proof.
  intros N. induction (groups d) as [|g gs IH]; [left; reflexivity|].
  cbn [flat_map map] in *. inversion N as [|? ? Hn N']; subst. specialize (IH N').
  destruct ((u_group u =? g_id g) && g_spendable g && negb (memZ (u_token u) (in_use d))) eqn:E; [|exact IH].
  right. cbn [app]. f_equal. rewrite !andb_true_iff in E. destruct E as [[E _] _]. apply Z.eqb_eq in E.
  clear IH N N'. induction gs as [|g' gs IH]; [reflexivity|]. cbn [flat_map].
  cbn in Hn. destruct (Z.eqb_spec (u_group u) (g_id g')) as [E'|E'].
  - exfalso. apply Hn. left. congruence.
  - cbn. apply IH. tauto.
Qed.

Lemma available_NoDup d : wf d -> NoDup (available d).
Proof.
  intros W. unfold available. pose proof (wf_unblinded W) as N. pose proof (wf_groups W) as G.
  induction (unblinded d) as [|u us IH]; [constructor|].
  cbn [flat_map map] in *. inversion N as [|? ? Hn N']; subst. specialize (IH N').
  destruct (available_row_le1 u d G) as [->| ->]; [exact IH|].
  cbn [app]. constructor; [|exact IH].
  intros H. apply Hn. apply in_flat_map in H. destruct H as (u' & Hu' & H).
  apply in_flat_map in H. destruct H as (g & Hg & H).
  destruct ((u_group u' =? g_id g) && g_spendable g && negb (memZ (u_token u') (in_use d))); [|contradiction].
  destruct H as [<-|[]]. now apply in_map.
Qed.

Lemma next_id_fresh ids : ~ In (next_id ids) ids.
Proof.
  assert (H : forall x, In x ids -> x <= fold_right Z.max 0 ids).
  { induction ids as [|a ids IH]; cbn; [tauto|]. intros x [->|Hx]; [lia|]. specialize (IH _ Hx). lia. }
  intros Hin. apply H in Hin. unfold next_id in Hin. lia.
Qed.

Lemma NoDup_app_intro A (a b : list A) :
  NoDup a -> NoDup b -> (forall x, In x a -> ~ In x b) -> NoDup (a ++ b).
Proof.
  intros Na Nb D. induction a as [|x a IH]; [exact Nb|].
  cbn. inversion Na; subst. constructor.
  - intros H. apply in_app_or in H. destruct H as [H|H]; [auto|]. apply (D x); [left|]; auto.
  - apply IH; auto. intros y Hy. apply D. right; exact Hy.
Qed.

Lemma NoDup_snoc A (l : list A) x : NoDup l -> ~ In x l -> NoDup (l ++ [x]).
Proof.
  intros N H. apply NoDup_app_intro; auto.
  - repeat constructor. intros [].
  - intros y Hy [<-|[]]. auto.
Qed.

Lemma NoDup_map_filter A B (f : A -> B) p l : NoDup (map f l) -> NoDup (map f (filter p l)).
Proof.
  induction l as [|a l IH]; cbn; intros N; [constructor|]. inversion N; subst.
  destruct (p a); cbn; [constructor|]; auto.
  intros H. apply H1. apply in_map_iff in H. destruct H as (x & E & Hx).
  apply filter_In in Hx. rewrite <- E. apply in_map, Hx.
Qed.

(** ** Closed forms of the calls *)

Lemma step_extract_eq scan n d :
  step d (OExtract scan n) =
  (if n >? SQLITE3_INTEGER_MAX then (Err NotEnoughTokens, d) else
   let texts := limit n (scan (available d)) in
   if lenZ texts <? n then (Err NotEnoughTokens, d) else
   match exec_muts (map InsInUse texts) d with
   | Ok d' => (Ok (RTokens texts), d')
   | Err e => (Err e, d)
   end).
Proof.
  cbn [step op_prog]. rewrite with_cursor_pmap. unfold with_cursor, get_unblinded_tokens.
  destruct (n >? SQLITE3_INTEGER_MAX); [reflexivity|]. cbn [run].
  destruct (lenZ (limit n (scan (available d))) <? n); [reflexivity|]. cbn [run].
  destruct (exec_muts (map InsInUse (limit n (scan (available d)))) d); reflexivity.
Qed.

Definition minus (l ts : list Z) : list Z := filter (fun t => negb (memZ t ts)) l.
Definition ub_minus (l : list ub_row) (ts : list Z) : list ub_row :=
  filter (fun r => negb (memZ (u_token r) ts)) l.

Lemma step_discard_eq ts d : to_discard d = [] ->
  step d (ODiscard ts) =
  (Ok RUnit, set_in_use (minus (in_use d) ts) (set_unblinded (ub_minus (unblinded d) ts) d)).
Proof.
  intros E. cbn [step op_prog]. rewrite with_cursor_pmap.
  unfold with_cursor, discard_unblinded_tokens. cbn [run]. rewrite ins_to_discard_Ok, E.
  cbn. unfold set_in_use, set_unblinded; cbn. rewrite E. reflexivity.
Qed.

Lemma step_reset_eq ts d : to_reset d = [] ->
  step d (OReset ts) = (Ok RUnit, set_in_use (minus (in_use d) ts) d).
Proof.
  intros E. cbn [step op_prog]. rewrite with_cursor_pmap.
  unfold with_cursor, reset_unblinded_tokens. cbn [run]. rewrite ins_to_reset_Ok, E.
  cbn. unfold set_in_use; cbn. rewrite E. reflexivity.
Qed.

Lemma step_invalidate_eq r ts d :
  step d (OInvalidate r ts) =
  match exec_muts (map (fun t => InsInvalid t r) ts) d with
  | Ok d' =>
      let bad := map fst (invalid d') in
      (Ok RUnit, set_in_use (minus (in_use d') bad) (set_unblinded (ub_minus (unblinded d') bad) d'))
  | Err e => (Err e, d)
  end.
Proof.
  cbn [step op_prog]. rewrite with_cursor_pmap.
  unfold with_cursor, invalidate_unblinded_tokens. cbn [run].
  destruct (exec_muts (map (fun t => InsInvalid t r) ts) d); reflexivity.
Qed.

Lemma count_if_zero A (f : A -> bool) l : count_if f l = 0 <-> filter f l = [].
Proof.
  unfold count_if, lenZ. destruct (filter f l); cbn; split; try reflexivity; try discriminate; lia.
Qed.

Lemma filter_nil_iff A (f : A -> bool) l : filter f l = [] <-> forall x, In x l -> f x = false.
Proof.
  induction l as [|a l IH]; cbn; [tauto|]. destruct (f a) eqn:E.
  - split; [discriminate|]. intros H. specialize (H a (or_introl eq_refl)). congruence.
  - rewrite IH. split; intros H x; [intros [<-|]|]; auto.
Qed.

Lemma filter_voucher_nil v (d : db) :
  filter (fun r => v_number r =? v) (vouchers d) = [] <-> ~ In v (map v_number (vouchers d)).
Proof.
  rewrite filter_nil_iff, in_map_iff. split.
  - intros H (r & E & Hr). specialize (H r Hr). apply Z.eqb_neq in H. congruence.
  - intros H r Hr. apply Z.eqb_neq. intros E. apply H. now exists r.
Qed.

Lemma filter_voucher_one v vs r : NoDup (map v_number vs) -> In r vs -> v_number r = v ->
  filter (fun r => v_number r =? v) vs = [r].
Proof.
  induction vs as [|a vs IH]; cbn [map In filter]; intros N Hr E; [contradiction|].
  inversion N as [|? ? Hn N']; subst.
  destruct Hr as [->|Hr].
  - rewrite Z.eqb_refl. f_equal. apply filter_nil_iff. intros x Hx. apply Z.eqb_neq.
    intros E. apply Hn. rewrite <- E. now apply in_map.
  - destruct (Z.eqb_spec (v_number a) (v_number r)) as [E|E]; [|apply IH; auto].
    exfalso. apply Hn. rewrite E. now apply in_map.
Qed.

Definition upd_voucher (f : voucher_row -> voucher_row) (v : Z) (vs : list voucher_row) :=
  map (fun r => if v_number r =? v then f r else r) vs.

Lemma upd_voucher_numbers f v vs : (forall r, v_number (f r) = v_number r) ->
  map v_number (upd_voucher f v vs) = map v_number vs.
Proof.
  intros H. unfold upd_voucher. rewrite map_map. apply map_ext. intros r.
  destruct (v_number r =? v); auto.
Qed.

Lemma step_insert_eq v pk ts (completed spendable : bool) now d : wf d ->
  step d (OInsert v pk ts completed spendable now) =
  match filter (fun r => v_number r =? v) (vouchers d) with
  | [] => (Err ValueError, d)
  | r :: _ =>
      let id := next_id (map g_id (groups d)) in
      let st := if completed then SRedeemed else SPending in
      let inc := if spendable then lenZ ts else 0 in
      let sinc := if spendable then 0 else lenZ ts in
      let d1 := set_vouchers (upd_voucher (group_done st inc sinc now) v (vouchers d))
                  (set_groups (groups d ++ [GR id v pk spendable]) d) in
      match exec_muts (map (fun t => InsUnblinded t id) ts) d1 with
      | Err e => (Err e, d)
      | Ok d2 =>
          (Ok RUnit,
           set_tokens (filter (fun t => negb ((t_voucher t =? v) && (t_counter t =? v_counter r)))
                              (tokens d2)) d2)
      end
  end.
Proof.
  intros W. cbn [step op_prog]. rewrite with_cursor_pmap.
  unfold with_cursor, insert_unblinded_tokens_for_voucher.
  cbn [run exec_mut]. cbn [vouchers set_groups].
  destruct (filter (fun r => v_number r =? v) (vouchers d)) as [|r rs] eqn:F.
  - apply count_if_zero in F. rewrite F. reflexivity.
  - destruct (count_if (fun r0 => v_number r0 =? v) (vouchers d) =? 0) eqn:Z0.
    { apply Z.eqb_eq in Z0. apply count_if_zero in Z0. congruence. }
    cbn [run vouchers set_vouchers].
    assert (Hr : In r (vouchers d) /\ v_number r = v).
    { assert (H : In r (r :: rs)) by (left; reflexivity). rewrite <- F in H.
      apply filter_In in H. destruct H as [H E]. split; [exact H|now apply Z.eqb_eq]. }
    destruct Hr as [Hr Ev].
    set (f := group_done (if completed then SRedeemed else SPending)
                (if spendable then lenZ ts else 0) (if spendable then 0 else lenZ ts) now).
    fold (upd_voucher f v (vouchers d)).
    assert (Fu : filter (fun r => v_number r =? v) (upd_voucher f v (vouchers d)) = [f r]).
    { apply filter_voucher_one.
      - rewrite upd_voucher_numbers by reflexivity. apply (wf_vouchers W).
      - unfold upd_voucher. apply in_map_iff. exists r. rewrite Ev, Z.eqb_refl. split; auto.
      - cbn. exact Ev. }
    rewrite Fu. cbn [run v_counter group_done]. replace (v_counter (f r) - 1) with (v_counter r) by (cbn; lia).
    destruct (exec_muts _ _) as [d2|e]; reflexivity.
Qed.

Lemma step_add_eq v e c ts now d : wf d ->
  step d (OAdd v e c ts now) =
  match filter (fun r => (t_voucher r =? v) && (t_counter r =? c)) (tokens d) with
  | (_ :: _) as rows => (Ok (RTokens (map t_text rows)), d)
  | [] =>
      let d1 := if memZ v (map v_number (vouchers d)) then d
                else set_vouchers (vouchers d ++ [VR v now e SPending None None 0 0]) d in
      match exec_muts (map (InsToken v c) ts) d1 with
      | Err x => (Err x, d)
      | Ok d2 => (Ok (RTokens ts), d2)
      end
  end.
Proof.
  intros W. cbn [step op_prog]. rewrite with_cursor_pmap. unfold with_cursor, add. cbn [run].
  destruct (filter _ (tokens d)) as [|r rs]; [|reflexivity].
  cbn [run exec_mut]. destruct (memZ v (map v_number (vouchers d))); cbn [run];
    destruct (exec_muts _ _); reflexivity.
Qed.

Lemma step_double_eq v now d :
  step d (ODouble v now) =
  (let hit r := (v_number r =? v) && vstate_eqb (v_state r) SPending in
   match filter hit (vouchers d) with
   | [] => (Err ValueError, d)
   | _ => (Ok RUnit, set_vouchers (map (fun r => if hit r then double_spent now r else r) (vouchers d)) d)
   end).
Proof.
  cbn [step op_prog]. rewrite with_cursor_pmap. unfold with_cursor, mark_voucher_double_spent.
  cbn [run exec_mut]. cbv zeta.
  destruct (filter _ (vouchers d)) as [|r rs] eqn:F.
  - apply count_if_zero in F. rewrite F. reflexivity.
  - destruct (count_if _ _ =? 0) eqn:Z0; [|reflexivity].
    apply Z.eqb_eq in Z0. apply count_if_zero in Z0. congruence.
Qed.

(** ** Queries change nothing *)
Lemma step_query o d :
  match o with OGet _ | OList | OCount | OCountRandom | OLatest => True | _ => False end ->
  snd (step d o) = d.
Proof.
  destruct o; try contradiction; intros _; cbn [step op_prog]; rewrite with_cursor_pmap; unfold with_cursor.
  - unfold get. cbn [run]. destruct (filter _ _) as [|r rs]; [reflexivity|].
    destruct (from_row r); reflexivity.
  - unfold list_vouchers. cbn [run]. destruct (map_res _ _); reflexivity.
  - reflexivity.
  - reflexivity.
  - reflexivity.
Qed.

(** Maintenance only touches its own table. *)
Definition set_maint_only (d d' : db) : Prop :=
  exists m, d' = set_maint m d /\ NoDup (map m_id m).

Lemma NoDup_map_same A B (f : A -> B) (g : A -> A) l :
  (forall x, f (g x) = f x) -> NoDup (map f l) -> NoDup (map f (map g l)).
Proof. intros H. rewrite map_map, (map_ext _ _ H). auto. Qed.

Lemma step_maint o d : NoDup (map m_id (maint d)) ->
  match o with OMaintStart _ | OMaintObserve _ _ _ | OMaintFinish _ _ => True | _ => False end ->
  set_maint_only d (snd (step d o)).
Proof.
  intros N H. assert (Same : set_maint_only d d) by (exists (maint d); destruct d; auto).
  destruct o; try contradiction; cbn [step op_prog]; rewrite with_cursor_pmap; unfold with_cursor.
  - unfold maint_start. cbn [run exec_mut snd]. eexists; split; [reflexivity|].
    rewrite map_app. apply NoDup_snoc; [exact N|apply next_id_fresh].
  - unfold maint_observe. destruct (required_passes pass_value sizes); [|exact Same].
    destruct rowid; [|exact Same]. cbn [run exec_mut snd]. eexists; split; [reflexivity|].
    apply NoDup_map_same; [|exact N]. intros x. destruct (m_id x =? z); reflexivity.
  - unfold maint_finish. destruct rowid; [|exact Same]. cbn [run exec_mut snd].
    eexists; split; [reflexivity|].
    apply NoDup_map_same; [|exact N]. intros x. destruct (m_id x =? z); reflexivity.
Qed.

Lemma wf_set_maint m d : NoDup (map m_id m) -> wf d -> wf (set_maint m d).
Proof. intros N []. split; auto. Qed.

(** ** The invariant *)
Lemma wf_empty : wf empty_db.
Proof. split; cbn; try constructor; try tauto. Qed.

Lemma in_minus t l ts : In t (minus l ts) <-> In t l /\ ~ In t ts.
Proof. unfold minus. rewrite filter_In, negb_true_iff, memZ_false. tauto. Qed.

Lemma in_ub_minus u l ts : In u (ub_minus l ts) <-> In u l /\ ~ In (u_token u) ts.
Proof. unfold ub_minus. rewrite filter_In, negb_true_iff, memZ_false. tauto. Qed.

Lemma in_ub_minus_tok t l ts : In t (map u_token (ub_minus l ts)) <-> In t (map u_token l) /\ ~ In t ts.
Proof.
  rewrite !in_map_iff. split.
  - intros (u & <- & H). apply in_ub_minus in H. split; [|tauto]. exists u; tauto.
  - intros [(u & <- & H) N]. exists u. split; [reflexivity|]. apply in_ub_minus. tauto.
Qed.

Lemma wf_set_in_use l d : NoDup l -> (forall t, In t l -> stored d true t) -> wf d -> wf (set_in_use l d).
Proof. intros N S []. split; auto. Qed.

Lemma wf_release ts d : wf d -> wf (set_in_use (minus (in_use d) ts) d).
Proof.
  intros W. apply wf_set_in_use; [|intros t Ht|exact W].
  - unfold minus. apply NoDup_filter, (wf_in_use W).
  - apply in_minus in Ht. apply (wf_in_use_stored W). tauto.
Qed.

Lemma stored_minus d b t ts l :
  stored (set_in_use l (set_unblinded (ub_minus (unblinded d) ts) d)) b t <-> stored d b t /\ ~ In t ts.
Proof.
  unfold stored; cbn [unblinded groups set_in_use set_unblinded]. split.
  - intros (g & v & pk & Hu & Hg). apply in_ub_minus in Hu. cbn in Hu. split; [|tauto].
    exists g, v, pk; tauto.
  - intros [(g & v & pk & Hu & Hg) N]. exists g, v, pk. split; [|exact Hg].
    apply in_ub_minus. auto.
Qed.

Lemma wf_remove ts d : wf d ->
  wf (set_in_use (minus (in_use d) ts) (set_unblinded (ub_minus (unblinded d) ts) d)).
Proof.
  intros W. split; cbn [unblinded groups in_use vouchers tokens invalid to_discard to_reset maint
    set_in_use set_unblinded]; try apply W.
  - unfold ub_minus. apply NoDup_map_filter, W.
  - unfold minus. apply NoDup_filter, W.
  - intros t Ht. apply in_minus in Ht. apply stored_minus. split; [|tauto]. apply W. tauto.
  - intros u Hu. apply in_ub_minus in Hu. apply W. tauto.
Qed.

Lemma wf_set_invalid l d : NoDup (map fst l) -> wf d -> wf (set_invalid l d).
Proof. intros N []. split; auto. Qed.

Lemma wf_set_tokens l d : NoDup (map t_text l) ->
  (forall t, In t l -> In (t_voucher t) (map v_number (vouchers d))) -> wf d -> wf (set_tokens l d).
Proof. intros N F []. split; auto. Qed.

Lemma wf_set_vouchers l d : NoDup (map v_number l) -> incl (map v_number (vouchers d)) (map v_number l) ->
  wf d -> wf (set_vouchers l d).
Proof. intros N I []. split; auto. Qed.

Lemma stored_group_app d b t g : 
  stored d b t -> stored (set_groups (groups d ++ [g]) d) b t.
Proof.
  intros (g0 & v & pk & Hu & Hg). exists g0, v, pk. cbn. split; [exact Hu|].
  apply in_or_app; left; exact Hg.
Qed.

Lemma wf_add_group g d : ~ In (g_id g) (map g_id (groups d)) -> wf d -> wf (set_groups (groups d ++ [g]) d).
Proof.
  intros N W. split; cbn [unblinded groups in_use vouchers tokens invalid to_discard to_reset maint set_groups];
    try apply W.
  - rewrite map_app. apply NoDup_snoc; [apply W|exact N].
  - intros t Ht. apply stored_group_app. now apply W.
  - intros u Hu. rewrite map_app. apply in_or_app; left. now apply W.
Qed.

Lemma map_u_token_UR g ts : map u_token (map (fun t => UR t g) ts) = ts.
Proof. rewrite map_map. cbn. apply map_id. Qed.

Lemma wf_add_unblinded ts g d : NoDup ts -> disjoint ts (map u_token (unblinded d)) ->
  In g (map g_id (groups d)) -> wf d ->
  wf (set_unblinded (unblinded d ++ map (fun t => UR t g) ts) d).
Proof.
  intros N D G W. split; cbn [unblinded groups in_use vouchers tokens invalid to_discard to_reset maint set_unblinded];
    try apply W.
  - rewrite map_app, map_u_token_UR. apply NoDup_app_intro; [apply W|exact N|].
    intros x Hx Hx'. exact (D x Hx' Hx).
  - intros t Ht. destruct (wf_in_use_stored W t Ht) as (g0 & v & pk & Hu & Hg).
    exists g0, v, pk. cbn. split; [apply in_or_app; left|]; assumption.
  - intros u Hu. apply in_app_or in Hu. destruct Hu as [Hu|Hu]; [now apply W|].
    apply in_map_iff in Hu. destruct Hu as (t & <- & _). exact G.
Qed.

Lemma map_t_text_TR v c ts : map t_text (map (fun t => TR t v c) ts) = ts.
Proof. rewrite map_map. cbn. apply map_id. Qed.

Lemma wf_step d o : wf d -> fair o -> wf (snd (step d o)).
Proof.
  intros W F. destruct o.
  - (* OAdd *)
    rewrite step_add_eq by exact W.
    destruct (filter _ (tokens d)) as [|r rs]; [|exact W]. cbv zeta.
    set (d1 := if memZ voucher (map v_number (vouchers d)) then d else _).
    assert (W1 : wf d1 /\ In voucher (map v_number (vouchers d1))).
    { subst d1. destruct (memZ_spec voucher (map v_number (vouchers d))) as [Hv|Hv]; [auto|].
      split.
      - apply wf_set_vouchers; [| |exact W].
        + rewrite map_app. apply NoDup_snoc; [apply W|exact Hv].
        + rewrite map_app. apply incl_appl, incl_refl.
      - cbn. rewrite map_app. apply in_or_app; right; left; reflexivity. }
    destruct W1 as [W1 Hv].
    destruct (exec_muts _ d1) as [d2|e] eqn:E; [|exact W]. cbn [snd].
    apply ins_token_Ok in E; [|exact Hv]. destruct E as (N & D & ->).
    apply wf_set_tokens; [| |exact W1].
    + rewrite map_app, map_t_text_TR. apply NoDup_app_intro; [apply W1|exact N|].
      intros x Hx Hx'. exact (D x Hx' Hx).
    + intros t Ht. apply in_app_or in Ht. destruct Ht as [Ht|Ht]; [now apply W1|].
      apply in_map_iff in Ht. destruct Ht as (x & <- & _). exact Hv.
  - (* OInsert *)
    rewrite step_insert_eq by exact W.
    destruct (filter _ (vouchers d)) as [|r rs]; [exact W|]. cbv zeta.
    set (d1 := set_vouchers _ _).
    assert (W1 : wf d1).
    { subst d1. apply wf_set_vouchers.
      - rewrite upd_voucher_numbers by reflexivity. apply W.
      - rewrite upd_voucher_numbers by reflexivity. apply incl_refl.
      - apply wf_add_group; [apply next_id_fresh|exact W]. }
    destruct (exec_muts _ d1) as [d2|e] eqn:E; [|exact W]. cbn [snd].
    apply ins_unblinded_Ok in E. destruct E as (N & D & ->).
    assert (W2 : wf (set_unblinded (unblinded d1 ++
        map (fun t => UR t (next_id (map g_id (groups d)))) toks) d1)).
    { apply wf_add_unblinded; auto. subst d1. cbn. rewrite map_app. apply in_or_app; right; left; reflexivity. }
    apply wf_set_tokens; [| |exact W2].
    + apply NoDup_map_filter. apply W2.
    + intros t Ht. apply filter_In in Ht. apply W2. tauto.
  - (* ODouble *)
    rewrite step_double_eq. cbv zeta. destruct (filter _ (vouchers d)) as [|r rs]; [exact W|]. cbn [snd].
    assert (E : forall r, v_number (if (v_number r =? voucher) && vstate_eqb (v_state r) SPending
                                    then double_spent now r else r) = v_number r).
    { intros r0. destruct (_ && _); reflexivity. }
    apply wf_set_vouchers; [| |exact W].
    + apply NoDup_map_same; [exact E|apply W].
    + rewrite map_map, (map_ext _ _ E). apply incl_refl.
  - (* OExtract *)
    rewrite step_extract_eq. destruct (count >? SQLITE3_INTEGER_MAX); [exact W|]. cbv zeta.
    destruct (_ <? count); [exact W|].
    destruct (exec_muts _ d) as [d2|e] eqn:E; [|exact W]. cbn [snd].
    apply ins_in_use_Ok in E. destruct E as (N & D & ->).
    apply wf_set_in_use; [| |exact W].
    + apply NoDup_app_intro; [apply W|exact N|]. intros x Hx Hx'. exact (D x Hx' Hx).
    + intros t Ht. apply in_app_or in Ht. destruct Ht as [Ht|Ht]; [now apply W|].
      assert (H : In t (available d)).
      { apply (Permutation_in _ (F (available d))). unfold limit in Ht.
        destruct (count <? 0); [exact Ht|]. rewrite <- (firstn_skipn (Z.to_nat count)).
        apply in_or_app; left; exact Ht. }
      apply in_available in H. tauto.
  - rewrite step_discard_eq by apply W. apply wf_remove, W.
  - rewrite step_invalidate_eq. destruct (exec_muts _ d) as [d2|e] eqn:E; [|exact W]. cbn [snd].
    apply ins_invalid_Ok in E. destruct E as (N & D & ->).
    apply wf_remove. apply wf_set_invalid; [|exact W].
    rewrite map_app, map_map. cbn. rewrite map_id. apply NoDup_app_intro; [apply W|exact N|].
    intros x Hx Hx'. exact (D x Hx' Hx).
  - rewrite step_reset_eq by apply W. now apply wf_release.
  - rewrite step_query; [exact W|exact I].
  - rewrite step_query; [exact W|exact I].
  - rewrite step_query; [exact W|exact I].
  - rewrite step_query; [exact W|exact I].
  - destruct (@step_maint (OMaintStart now) d (wf_maint W) I) as (m & -> & N). now apply wf_set_maint.
  - destruct (@step_maint (OMaintObserve pass_value rowid sizes) d (wf_maint W) I) as (m & -> & N).
    now apply wf_set_maint.
  - destruct (@step_maint (OMaintFinish rowid now) d (wf_maint W) I) as (m & -> & N). now apply wf_set_maint.
  - rewrite step_query; [exact W|exact I].
  - cbn [step snd]. destruct W. split; cbn; auto; try constructor. intros t [].
Qed.

Lemma steps_snoc os : forall d o,
  steps d (os ++ [o]) =
  (let '(rs, d1) := steps d os in let '(r, d2) := step d1 o in (rs ++ [r], d2)).
Proof.
  induction os as [|a os IH]; intros d o; cbn [app steps].
  - destruct (step d o); reflexivity.
  - destruct (step d a) as [r d1]. rewrite IH. destruct (steps d1 os) as [rs d2].
    destruct (step d2 o); reflexivity.
Qed.

Lemma wf_steps os : forall d, wf d -> (forall o, In o os -> fair o) -> wf (snd (steps d os)).
Proof.
  induction os as [|o os IH]; intros d W F; [exact W|].
  cbn [steps]. pose proof (@wf_step _ _ W (F o (or_introl eq_refl))) as W1.
  destruct (step d o) as [r d1]. cbn [snd] in W1.
  specialize (IH d1 W1 (fun o' H => F o' (or_intror H))).
  destruct (steps d1 os) as [rs d2]. exact IH.
Qed.

Lemma wf_reachable d : reachable d -> wf d.
Proof.
  intros (os & rs & F & E). pose proof (wf_steps os wf_empty F) as W. rewrite E in W. exact W.
Qed.

(** ** Extraction *)
Lemma limit_firstn A n (l : list A) : 0 <= n -> limit n l = firstn (Z.to_nat n) l.
Proof. intros H. unfold limit. destruct (Z.ltb_spec n 0); [lia|reflexivity]. Qed.

Lemma lenZ_limit A n (l : list A) : 0 <= n -> lenZ (limit n l) = Z.min n (lenZ l).
Proof. intros H. rewrite limit_firstn by exact H. unfold lenZ. rewrite firstn_length. lia. Qed.

Lemma NoDup_firstn A n (l : list A) : NoDup l -> NoDup (firstn n l).
Proof.
  revert n; induction l as [|a l IH]; intros [|n] N; cbn; try constructor.
  - inversion N; subst. intros H. apply H1. rewrite <- (firstn_skipn n). apply in_or_app; auto.
  - inversion N; subst. auto.
Qed.

Lemma in_firstn A n (l : list A) x : In x (firstn n l) -> In x l.
Proof. intros H. rewrite <- (firstn_skipn n). apply in_or_app; auto. Qed.

Lemma limit_scan_NoDup (scan : list Z -> list Z) n d : wf d -> (forall l, Permutation (scan l) l) ->
  NoDup (limit n (scan (available d))) /\
  (forall t, In t (limit n (scan (available d))) -> In t (available d)).
Proof.
  intros W P. assert (N : NoDup (scan (available d))).
  { eapply Permutation_NoDup; [apply Permutation_sym, P|]. now apply available_NoDup. }
  assert (I : forall t, In t (scan (available d)) -> In t (available d))
    by (intros t; apply Permutation_in, P).
  unfold limit. destruct (n <? 0); [auto|]. split; [now apply NoDup_firstn|].
  intros t Ht. apply I. eapply in_firstn, Ht.
Qed.

Lemma extract_success scan n d : wf d -> (forall l, Permutation (scan l) l) ->
  n <= SQLITE3_INTEGER_MAX -> n <= lenZ (available d) ->
  exists toks, step d (OExtract scan n) = (Ok (RTokens toks), set_in_use (in_use d ++ toks) d) /\
    NoDup toks /\ (forall t, In t toks -> In t (available d)) /\
    (0 <= n -> lenZ toks = n) /\ (n < 0 -> forall t, In t (available d) -> In t toks).
Proof.
  intros W P Hm Hn. rewrite step_extract_eq.
  destruct (Z.gtb_spec n SQLITE3_INTEGER_MAX); [lia|]. cbv zeta.
  destruct (limit_scan_NoDup scan n W P) as [N I].
  set (toks := limit n (scan (available d))) in *.
  assert (L : 0 <= n -> lenZ toks = n).
  { intros H0. subst toks. rewrite lenZ_limit by exact H0.
    unfold lenZ. rewrite (Permutation_length (P (available d))). unfold lenZ in Hn. lia. }
  destruct (Z.ltb_spec (lenZ toks) n) as [Hl|Hl].
  { destruct (Z.le_gt_cases 0 n); [rewrite L in Hl; lia|]. unfold lenZ in Hl. lia. }
  assert (E : exec_muts (map InsInUse toks) d = Ok (set_in_use (in_use d ++ toks) d)).
  { apply ins_in_use_Ok. split; [exact N|split; [|reflexivity]].
    intros t Ht. apply I, in_available in Ht. tauto. }
  rewrite E. exists toks. repeat split; auto.
  intros Hneg t Ht. subst toks. unfold limit. destruct (Z.ltb_spec n 0); [|lia].
  eapply Permutation_in; [apply Permutation_sym, P|exact Ht].
Qed.

Lemma extract_failure scan n d : (forall l, Permutation (scan l) l) ->
  n > SQLITE3_INTEGER_MAX \/ n > lenZ (available d) ->
  step d (OExtract scan n) = (Err NotEnoughTokens, d).
Proof.
  intros P H. rewrite step_extract_eq.
  destruct (Z.gtb_spec n SQLITE3_INTEGER_MAX); [reflexivity|]. destruct H as [H|H]; [lia|].
  cbv zeta. rewrite lenZ_limit by (unfold lenZ in H; lia).
  unfold lenZ at 1. rewrite (Permutation_length (P (available d))). fold (lenZ (available d)).
  destruct (Z.ltb_spec (Z.min n (lenZ (available d))) n); [reflexivity|lia].
Qed.

Lemma step_count d : step d OCount = (Ok (RNum (lenZ (available d))), d).
Proof. reflexivity. Qed.

(** C15 *)
Lemma extract_exact : forall d scan n r d', reachable d -> (forall l, Permutation (scan l) l) ->
  0 <= n -> step d (OExtract scan n) = (r, d') ->
  (exists toks,
      r = Ok (RTokens toks) /\ Z.of_nat (length toks) = n /\ NoDup toks /\
      (forall t, In t toks -> stored d true t /\ ~ In t (in_use d)) /\
      (forall t, In t (in_use d') <-> In t (in_use d) \/ In t toks) /\
      same_persistent d d') \/
  (r = Err NotEnoughTokens /\ d' = d).
Proof.
  intros d scan n r d' R P H0 E. pose proof (wf_reachable R) as W.
  destruct (Z.le_gt_cases n SQLITE3_INTEGER_MAX) as [H1|H1];
    [destruct (Z.le_gt_cases n (lenZ (available d))) as [H2|H2]|].
  - left. destruct (extract_success scan W P H1 H2) as (toks & E' & N & I & L & _).
    rewrite E in E'. injection E' as -> ->. exists toks.
    split; [reflexivity|]. split; [apply L; exact H0|]. split; [exact N|]. split; [|split; [|repeat split]].
    + intros t Ht. now apply in_available, I.
    + intros t. cbn. rewrite in_app_iff. tauto.
  - right. rewrite (@extract_failure scan n d P) in E by lia. injection E as <- <-. auto.
  - right. rewrite (@extract_failure scan n d P) in E by lia. injection E as <- <-. auto.
Qed.

Lemma extract_iff_count : forall d scan n, reachable d -> (forall l, Permutation (scan l) l) -> 0 <= n ->
  exists m, fst (step d OCount) = Ok (RNum m) /\
    (n <= SQLITE3_INTEGER_MAX ->
     ((exists toks, fst (step d (OExtract scan n)) = Ok (RTokens toks)) <-> n <= m)) /\
    (n > SQLITE3_INTEGER_MAX -> fst (step d (OExtract scan n)) = Err NotEnoughTokens).
Proof.
  intros d scan n R P H0. pose proof (wf_reachable R) as W.
  exists (lenZ (available d)). rewrite step_count. split; [reflexivity|]. split.
  - intros H1. split.
    + intros (toks & E). destruct (Z.le_gt_cases n (lenZ (available d))); [assumption|].
      rewrite (@extract_failure scan n d P) in E by lia. discriminate.
    + intros H2. destruct (extract_success scan W P H1 H2) as (toks & -> & _). now exists toks.
  - intros H1. rewrite (@extract_failure scan n d P) by lia. reflexivity.
Qed.

Lemma count_is_available : forall d, reachable d ->
  exists toks, NoDup toks /\ (forall t, In t toks <-> stored d true t /\ ~ In t (in_use d)) /\
    fst (step d OCount) = Ok (RNum (Z.of_nat (length toks))).
Proof.
  intros d R. exists (available d). split; [apply available_NoDup, wf_reachable, R|].
  split; [intros t; apply in_available|reflexivity].
Qed.

(** ** The ledger *)

Definition ledger_inv (d : db) (banned : list Z) (L : ledger) : Prop :=
  wf d /\ agrees d L /\ (forall t, In t (map fst (invalid d)) -> In t banned).

Lemma stored_in d b t : stored d b t -> In t (map u_token (unblinded d)).
Proof. intros (g & v & pk & H & _). apply in_map_iff. exists (UR t g). auto. Qed.

Lemma in_stored d t : wf d -> In t (map u_token (unblinded d)) -> exists b, stored d b t.
Proof.
  intros W H. apply in_map_iff in H. destruct H as ([t' g] & E & Hu). cbn in E; subst t'.
  pose proof (wf_group_known W _ Hu) as G. cbn in G. apply in_map_iff in G.
  destruct G as ([id v pk sp] & E & Hg). cbn in E; subst id. now exists sp, g, v, pk.
Qed.

(** Two wallets with the same view of every token. *)
Definition same_view (d d' : db) : Prop :=
  unblinded d' = unblinded d /\ groups d' = groups d /\ in_use d' = in_use d /\ invalid d' = invalid d.

Lemma stored_same d d' b t : unblinded d' = unblinded d -> groups d' = groups d ->
  (stored d' b t <-> stored d b t).
Proof. unfold stored. intros -> ->. tauto. Qed.

Lemma agrees_same d d' L : same_view d d' -> agrees d L -> agrees d' L.
Proof.
  intros (U & G & I & V) A t. specialize (A t). unfold stored in *. rewrite U, G, I, V. exact A.
Qed.

Lemma agrees_ext d L L' : (forall t, L' t = L t) -> agrees d L -> agrees d L'.
Proof. intros E A t. rewrite E. apply A. Qed.

(** New ledger: [f] applied to the tokens of [ts]. *)
Definition upd (ts : list Z) (f : option class -> option class) (L : ledger) : ledger :=
  fun t => if memZ t ts then f (L t) else L t.

Lemma upd_in ts f L t : In t ts -> upd ts f L t = f (L t).
Proof. intros H. unfold upd. apply memZ_true in H. now rewrite H. Qed.
Lemma upd_out ts f L t : ~ In t ts -> upd ts f L t = L t.
Proof. intros H. unfold upd. apply memZ_false in H. now rewrite H. Qed.

Lemma agrees_class d L t : wf d -> agrees d L ->
  (L t = Some Available <-> In t (available d)) /\
  (L t = Some InUse <-> In t (in_use d)) /\
  (L t = Some Sequestered <-> stored d false t) /\
  (L t = Some Invalid <-> In t (map fst (invalid d))) /\
  ((L t = None \/ L t = Some Spent) <-> ~ In t (map u_token (unblinded d)) /\ ~ In t (map fst (invalid d))).
Proof.
  intros W A. specialize (A t).
  pose proof (@wf_in_use_stored _ W t) as HI.
  pose proof (@stored_in d true t) as S1. pose proof (@stored_in d false t) as S2.
  rewrite in_available.
  destruct (L t) as [[]|]; repeat split; intros; try discriminate; try tauto;
    try (exfalso; tauto); try (left; tauto); try (right; tauto);
    try (intuition (try discriminate); fail).
Qed.

Lemma held_app h os rs os' rs' : length os = length rs ->
  held h (os ++ os') (rs ++ rs') = held (held h os rs) os' rs'.
Proof.
  revert h rs; induction os as [|o os IH]; intros h [|r rs] L; cbn in L; try discriminate; [reflexivity|].
  cbn [app held]. apply IH. lia.
Qed.

Lemma ledger_one d o r d' banned L :
  ledger_inv d banned L -> fair o -> step d o = (r, d') -> fresh_history banned [o] ->
  exists L', ledger_step L o r L' /\
    ledger_inv d' (match o with OInvalidate _ ts => ts ++ banned | _ => banned end) L'.
Proof.
  intros (W & A & B) F E Fr.
  pose proof (@wf_step _ _ W F) as W'. rewrite E in W'. cbn [snd] in W'.
  assert (Same : same_view d d' ->
     agrees d' L /\ (forall t, In t (map fst (invalid d')) -> In t banned)).
  { intros S. split; [now apply (agrees_same S)|]. destruct S as (_ & _ & _ & ->). exact B. }
  destruct r as [a|e].
  2:{ assert (d' = d).
      { destruct o; try (eapply with_cursor_err; exact E). discriminate. }
      subst d'. exists L. split; [intros t; reflexivity|]. split; [exact W|]. split; [exact A|].
      intros t Ht. specialize (B t Ht). destruct o; auto. apply in_or_app; auto. }
  destruct o.
  - (* OAdd *) exists L. split; [intros t; reflexivity|]. split; [exact W'|]. apply Same.
    rewrite step_add_eq in E by exact W. destruct (filter _ (tokens d)) as [|r rs].
    + cbv zeta in E. destruct (exec_muts _ _) as [d2|x] eqn:E2; [|discriminate]. injection E as <- <-.
      destruct (memZ_spec voucher (map v_number (vouchers d))) as [Hv|Hv].
      * apply ins_token_Ok in E2; [|exact Hv]. destruct E2 as (_ & _ & ->). repeat split.
      * apply ins_token_Ok in E2; [destruct E2 as (_ & _ & ->); repeat split|].
        cbn. rewrite map_app. apply in_or_app; right; left; reflexivity.
    + injection E as <- <-. repeat split.
  - (* OInsert *)
    rewrite step_insert_eq in E by exact W.
    destruct (filter (fun r => v_number r =? voucher) (vouchers d)) as [|rw rws]; [discriminate|]. cbv zeta in E.
    destruct (exec_muts _ _) as [d2|x] eqn:E2; [|discriminate]. injection E as <- <-.
    apply ins_unblinded_Ok in E2. destruct E2 as (N & D & E2).
    set (id := next_id (map g_id (groups d))) in *.
    cbn [unblinded set_vouchers set_groups] in D.
    cbn [fresh_history] in Fr. destruct Fr as [Fr _].
    exists (upd toks (fun _ => Some (if spendable then Available else Sequestered)) L).
    assert (Notin : forall t, In t toks -> L t = None \/ L t = Some Spent).
    { intros t Ht. apply (agrees_class t W A). split; [apply D, Ht|]. intros H. apply (Fr t Ht), B, H. }
    split.
    { cbn. split; [exact N|]. intros t. split; intros H.
      - split; [apply Notin, H|]. rewrite upd_in by exact H. reflexivity.
      - apply upd_out, H. }
    split; [exact W'|]. subst d2. split; [|cbn; exact B].
    assert (St : forall b t, stored (set_tokens (filter (fun t0 => negb ((t_voucher t0 =? voucher)
          && (t_counter t0 =? v_counter rw))) (tokens (set_unblinded (unblinded (set_vouchers
            (upd_voucher (group_done (if completed then SRedeemed else SPending)
               (if spendable then lenZ toks else 0) (if spendable then 0 else lenZ toks) now) voucher (vouchers d))
              (set_groups (groups d ++ [GR id voucher pk spendable]) d)) ++ map (fun t0 => UR t0 id) toks)
            (set_vouchers (upd_voucher (group_done (if completed then SRedeemed else SPending)
               (if spendable then lenZ toks else 0) (if spendable then 0 else lenZ toks) now) voucher (vouchers d))
              (set_groups (groups d ++ [GR id voucher pk spendable]) d)))))
          (set_unblinded (unblinded (set_vouchers
            (upd_voucher (group_done (if completed then SRedeemed else SPending)
               (if spendable then lenZ toks else 0) (if spendable then 0 else lenZ toks) now) voucher (vouchers d))
              (set_groups (groups d ++ [GR id voucher pk spendable]) d)) ++ map (fun t0 => UR t0 id) toks)
            (set_vouchers (upd_voucher (group_done (if completed then SRedeemed else SPending)
               (if spendable then lenZ toks else 0) (if spendable then 0 else lenZ toks) now) voucher (vouchers d))
              (set_groups (groups d ++ [GR id voucher pk spendable]) d)))) b t
        <-> stored d b t \/ (In t toks /\ b = spendable)).
    { intros b t. unfold stored. cbn [unblinded groups set_tokens set_unblinded set_vouchers set_groups]. split.
      - intros (g & v & pk' & Hu & Hg). apply in_app_or in Hu, Hg.
        destruct Hu as [Hu|Hu].
        + left. destruct Hg as [Hg|[Hg|[]]]; [now exists g, v, pk'|]. injection Hg as Hid. exfalso.
          pose proof (wf_group_known W _ Hu) as Hk. cbn in Hk. rewrite <- Hid in Hk.
          exact (next_id_fresh _ Hk).
        + right. apply in_map_iff in Hu. destruct Hu as (t' & Et & Ht). injection Et as -> <-.
          split; [exact Ht|]. destruct Hg as [Hg|[Hg|[]]]; [|congruence]. exfalso.
          apply (in_map g_id) in Hg. cbn in Hg. exact (next_id_fresh _ Hg).
      - intros [(g & v & pk' & Hu & Hg)|[Ht ->]].
        + exists g, v, pk'. split; apply in_or_app; left; assumption.
        + exists id, voucher, pk. split; apply in_or_app; right; [|left; reflexivity].
          apply in_map_iff. now exists t. }
    intros t. specialize (A t).
    assert (InU : In t (map u_token (unblinded d ++ map (fun t0 => UR t0 id) toks)) <->
                  In t (map u_token (unblinded d)) \/ In t toks).
    { rewrite map_app, map_u_token_UR, in_app_iff. tauto. }
    pose proof (St true t) as Stt. pose proof (St false t) as Stf.
    set (dd := set_tokens _ _) in *.
    assert (Eu : unblinded dd = unblinded d ++ map (fun t0 => UR t0 id) toks) by reflexivity.
    assert (Ei : in_use dd = in_use d) by reflexivity.
    assert (Ev : invalid dd = invalid d) by reflexivity.
    clearbody dd.
    destruct (in_dec Z.eq_dec t toks) as [Ht|Ht].
    + rewrite upd_in by exact Ht. specialize (Notin t Ht).
      assert (Nu : ~ In t (map u_token (unblinded d))) by (apply D, Ht).
      assert (Ns : forall b, ~ stored d b t) by (intros b Hb; apply Nu; eapply stored_in, Hb).
      pose proof (Ns true). pose proof (Ns false).
      assert (~ In t (in_use d) /\ ~ In t (map fst (invalid d))) by (destruct Notin as [E'|E']; rewrite E' in A; tauto).
      destruct spendable; rewrite ?Eu, ?Ei, ?Ev, ?InU; repeat split; try tauto; intuition congruence.
    + rewrite upd_out by exact Ht. destruct (L t) as [[]|]; rewrite ?Eu, ?Ei, ?Ev, ?InU; tauto.
  - (* ODouble *) exists L. split; [intros t; reflexivity|]. split; [exact W'|]. apply Same.
    rewrite step_double_eq in E. cbv zeta in E. destruct (filter _ (vouchers d)); [discriminate|].
    injection E as <- <-. repeat split.
  - (* OExtract *)
    destruct (Z.le_gt_cases count SQLITE3_INTEGER_MAX) as [H1|H1];
      [destruct (Z.le_gt_cases count (lenZ (available d))) as [H2|H2]|];
      [|rewrite (@extract_failure scan count d F) in E by lia; discriminate
       |rewrite (@extract_failure scan count d F) in E by lia; discriminate].
    destruct (extract_success scan W F H1 H2) as (toks & E' & N & I & _).
    rewrite E in E'. injection E' as -> ->.
    exists (upd toks (fun _ => Some InUse) L). split.
    { cbn. exists toks. split; [reflexivity|]. split; [exact N|]. intros t. split; intros H.
      - split; [apply (agrees_class t W A), I, H|]. now rewrite upd_in.
      - now apply upd_out. }
    split; [exact W'|]. split; [|exact B]. intros t. specialize (I t). rewrite in_available in I.
    pose proof (agrees_class t W A) as C. specialize (A t).
    pose proof (@stored_same d (set_in_use (in_use d ++ toks) d) true t eq_refl eq_refl) as St.
    pose proof (@stored_same d (set_in_use (in_use d ++ toks) d) false t eq_refl eq_refl) as Sf.
    pose proof (in_app_iff (in_use d) toks t) as Ia.
    destruct (in_dec Z.eq_dec t toks) as [Ht|Ht].
    + rewrite upd_in by exact Ht. specialize (I Ht).
      assert (La : L t = Some Available) by (apply C, in_available, I). rewrite La in A.
      cbn [unblinded in_use invalid set_in_use]. tauto.
    + rewrite upd_out by exact Ht. destruct (L t) as [[]|]; cbn [unblinded in_use invalid set_in_use]; tauto.
  - (* ODiscard *)
    rewrite step_discard_eq in E by apply W. injection E as <- <-.
    exists (upd toks spent L). split.
    { cbn. intros t. split; intros H; [now apply upd_in|now apply upd_out]. }
    split; [exact W'|]. split; [|exact B]. intros t. specialize (A t).
    destruct (in_dec Z.eq_dec t toks) as [Ht|Ht];
      [rewrite upd_in by exact Ht|rewrite upd_out by exact Ht];
      destruct (L t) as [[]|]; cbn [spent]; rewrite ?stored_minus;
      cbn [unblinded in_use invalid set_in_use set_unblinded];
      rewrite ?in_minus, ?in_ub_minus_tok; tauto.
  - (* OInvalidate *)
    rewrite step_invalidate_eq in E. destruct (exec_muts _ d) as [d2|x] eqn:E2; [|discriminate].
    cbv zeta in E. injection E as <- <-.
    apply ins_invalid_Ok in E2. destruct E2 as (N & D & ->).
    cbn [in_use unblinded invalid set_invalid].
    assert (Bad : forall t, In t (map fst (invalid d ++ map (fun t => (t, reason)) toks)) <->
                            In t (map fst (invalid d)) \/ In t toks).
    { intros t. rewrite map_app, map_map. cbn. rewrite map_id, in_app_iff. tauto. }
    exists (upd toks (fun _ => Some Invalid) L). split.
    { cbn. split; [exact N|]. intros t. split; intros H.
      - split; [|now rewrite upd_in]. intros HI. apply (D t H). now apply (agrees_class t W A).
      - now apply upd_out. }
    split; [exact W'|]. split.
    + intros t. specialize (A t).
      change (unblinded d) with (unblinded (set_invalid (invalid d ++ map (fun t => (t, reason)) toks) d)).
      destruct (in_dec Z.eq_dec t toks) as [Ht|Ht];
        [rewrite upd_in by exact Ht|rewrite upd_out by exact Ht; destruct (L t) as [[]|]];
        rewrite ?stored_minus, ?(@stored_same d (set_invalid _ d)) by reflexivity;
        cbn [unblinded in_use invalid set_in_use set_unblinded set_invalid];
        rewrite ?in_minus, ?in_ub_minus_tok, ?Bad; tauto.
    + cbn [invalid set_in_use set_unblinded set_invalid]. intros t Ht. apply Bad in Ht.
      apply in_or_app. destruct Ht; [right|left]; auto.
  - (* OReset *)
    rewrite step_reset_eq in E by apply W. injection E as <- <-.
    exists (upd toks released L). split.
    { cbn. intros t. split; intros H; [now apply upd_in|now apply upd_out]. }
    split; [exact W'|]. split; [|exact B]. intros t. specialize (A t).
    pose proof (@stored_same d (set_in_use (minus (in_use d) toks) d) true t eq_refl eq_refl) as St.
    pose proof (@stored_same d (set_in_use (minus (in_use d) toks) d) false t eq_refl eq_refl) as Sf.
    pose proof (in_minus t (in_use d) toks) as Im.
    destruct (in_dec Z.eq_dec t toks) as [Ht|Ht];
      [rewrite upd_in by exact Ht|rewrite upd_out by exact Ht];
      destruct (L t) as [[]|]; cbn [released unblinded in_use invalid set_in_use]; tauto.
  - exists L. split; [intros t; reflexivity|]. split; [exact W'|]. apply Same.
    assert (d' = d) by (rewrite <- (@step_query (OGet voucher) d I), E; reflexivity). subst; repeat split.
  - exists L. split; [intros t; reflexivity|]. split; [exact W'|]. apply Same.
    assert (d' = d) by (rewrite <- (@step_query OList d I), E; reflexivity). subst; repeat split.
  - exists L. split; [intros t; reflexivity|]. split; [exact W'|]. apply Same.
    assert (d' = d) by (rewrite <- (@step_query OCount d I), E; reflexivity). subst; repeat split.
  - exists L. split; [intros t; reflexivity|]. split; [exact W'|]. apply Same.
    assert (d' = d) by (rewrite <- (@step_query OCountRandom d I), E; reflexivity). subst; repeat split.
  - exists L. split; [intros t; reflexivity|]. split; [exact W'|]. apply Same.
    destruct (@step_maint (OMaintStart now) d (wf_maint W) I) as (m & Em & _). rewrite E in Em.
    cbn in Em; subst; repeat split.
  - exists L. split; [intros t; reflexivity|]. split; [exact W'|]. apply Same.
    destruct (@step_maint (OMaintObserve pass_value rowid sizes) d (wf_maint W) I) as (m & Em & _). rewrite E in Em.
    cbn in Em; subst; repeat split.
  - exists L. split; [intros t; reflexivity|]. split; [exact W'|]. apply Same.
    destruct (@step_maint (OMaintFinish rowid now) d (wf_maint W) I) as (m & Em & _). rewrite E in Em.
    cbn in Em; subst; repeat split.
  - exists L. split; [intros t; reflexivity|]. split; [exact W'|]. apply Same.
    assert (d' = d) by (rewrite <- (@step_query OLatest d I), E; reflexivity). subst; repeat split.
  - (* ORestart *)
    cbn [step] in E. injection E as <- <-. exists (fun t => released (L t)).
    split; [intros t; reflexivity|]. split; [exact W'|]. split; [|exact B].
    intros t. specialize (A t).
    pose proof (@stored_same d (restart d) true t eq_refl eq_refl) as St.
    pose proof (@stored_same d (restart d) false t eq_refl eq_refl) as Sf.
    destruct (L t) as [[]|]; cbn [released unblinded in_use invalid restart In]; tauto.
Qed.

Lemma fresh_cons banned o os : fresh_history banned (o :: os) ->
  fresh_history banned [o] /\
  fresh_history (match o with OInvalidate _ ts => ts ++ banned | _ => banned end) os.
Proof. destruct o; cbn; tauto. Qed.

Lemma ledger_many os : forall d banned L rs d',
  ledger_inv d banned L -> (forall o, In o os -> fair o) -> fresh_history banned os ->
  steps d os = (rs, d') ->
  exists banned' L', ledger_steps L os rs L' /\ ledger_inv d' banned' L'.
Proof.
  induction os as [|o os IH]; intros d banned L rs d' Inv F Fr E; cbn [steps] in E.
  - injection E as <- <-. exists banned, L. split; [constructor; reflexivity|exact Inv].
  - destruct (step d o) as [r d1] eqn:E1. destruct (steps d1 os) as [rs2 d2] eqn:E2. injection E as <- <-.
    apply fresh_cons in Fr. destruct Fr as [Fr1 Fr2].
    destruct (ledger_one o Inv (F o (or_introl eq_refl)) E1 Fr1) as (L1 & S1 & Inv1).
    destruct (IH _ _ _ _ _ Inv1 (fun x H => F x (or_intror H)) Fr2 E2) as (b & L2 & S2 & Inv2).
    exists b, L2. split; [|exact Inv2]. econstructor; eassumption.
Qed.

Lemma ledger_inv_empty : ledger_inv empty_db [] empty_ledger.
Proof. split; [apply wf_empty|]. split; [intros t; cbn; tauto|intros t []]. Qed.

(** C17 *)
Lemma conservation : forall os rs d, (forall o, In o os -> fair o) -> fresh_history [] os ->
  steps empty_db os = (rs, d) ->
  exists L, ledger_steps empty_ledger os rs L /\ agrees d L.
Proof.
  intros os rs d F Fr E. destruct (ledger_many os ledger_inv_empty F Fr E) as (b & L & S & _ & A & _).
  now exists L.
Qed.

Lemma ledger_step_known L o r L' t : ledger_step L o r L' -> L t <> None -> L' t <> None.
Proof.
  intros S H. destruct r as [a|e]; cbn in S; [|now rewrite S].
  destruct o; try (rewrite S; exact H).
  - destruct S as [_ S]. specialize (S t). destruct (in_dec Z.eq_dec t toks) as [Ht|Ht].
    + destruct S as [S _]. destruct (S Ht) as [_ ->]. discriminate.
    + destruct S as [_ S]. now rewrite S.
  - destruct S as (toks & _ & _ & S). specialize (S t). destruct (in_dec Z.eq_dec t toks) as [Ht|Ht].
    + destruct S as [S _]. destruct (S Ht) as [_ ->]. discriminate.
    + destruct S as [_ S]. now rewrite S.
  - specialize (S t). destruct (in_dec Z.eq_dec t toks) as [Ht|Ht].
    + destruct S as [S _]. rewrite (S Ht). destruct (L t) as [[]|]; cbn; congruence.
    + destruct S as [_ S]. now rewrite S.
  - destruct S as [_ S]. specialize (S t). destruct (in_dec Z.eq_dec t toks) as [Ht|Ht].
    + destruct S as [S _]. destruct (S Ht) as [_ ->]. discriminate.
    + destruct S as [_ S]. now rewrite S.
  - specialize (S t). destruct (in_dec Z.eq_dec t toks) as [Ht|Ht].
    + destruct S as [S _]. rewrite (S Ht). destruct (L t) as [[]|]; cbn; congruence.
    + destruct S as [_ S]. now rewrite S.
  - rewrite S. destruct (L t) as [[]|]; cbn; congruence.
Qed.

Lemma ledger_never_forgets L os rs L' : ledger_steps L os rs L' ->
  forall t, L t <> None -> L' t <> None.
Proof.
  induction 1 as [L L' E|L o r L1 os rs L2 S _ IH]; intros t H; [now rewrite E|].
  apply IH. eapply ledger_step_known; eassumption.
Qed.

(** C16: the tokens held according to the history are those in use. *)
Lemma held_in_use_step d L o r d' L' h : step d o = (r, d') -> ledger_step L o r L' ->
  (forall t, In t h <-> L t = Some InUse) ->
  forall t, In t (held h [o] [r]) <-> L' t = Some InUse.
Proof.
  intros E S H t. specialize (H t). cbn [held].
  destruct r as [a|e]; cbn in S.
  2:{ rewrite S. destruct o; try exact H. discriminate. }
  destruct o; try (rewrite S; exact H).
  - destruct S as [_ S]. specialize (S t). destruct (in_dec Z.eq_dec t toks) as [Ht|Ht].
    + destruct S as [S _]. destruct (S Ht) as [C ->]. destruct spendable; intuition congruence.
    + destruct S as [_ S]. rewrite S by exact Ht. exact H.
  - destruct S as (toks & -> & _ & S). rewrite in_app_iff. specialize (S t).
    destruct (in_dec Z.eq_dec t toks) as [Ht|Ht].
    + destruct S as [S _]. destruct (S Ht) as [_ ->]. tauto.
    + destruct S as [_ S]. rewrite S by exact Ht. tauto.
  - rewrite filter_In, negb_true_iff, memZ_false. specialize (S t). destruct (in_dec Z.eq_dec t toks) as [Ht|Ht].
    + destruct S as [S _]. rewrite (S Ht). destruct (L t) as [[]|]; cbn; intuition congruence.
    + destruct S as [_ S]. rewrite S by exact Ht. tauto.
  - destruct S as [_ S]. rewrite filter_In, negb_true_iff, memZ_false. specialize (S t).
    destruct (in_dec Z.eq_dec t toks) as [Ht|Ht].
    + destruct S as [S _]. destruct (S Ht) as [_ ->]. intuition congruence.
    + destruct S as [_ S]. rewrite S by exact Ht. tauto.
  - rewrite filter_In, negb_true_iff, memZ_false. specialize (S t). destruct (in_dec Z.eq_dec t toks) as [Ht|Ht].
    + destruct S as [S _]. rewrite (S Ht). destruct (L t) as [[]|]; cbn; intuition congruence.
    + destruct S as [_ S]. rewrite S by exact Ht. tauto.
  - rewrite S. cbn. destruct (L t) as [[]|]; cbn; intuition congruence.
Qed.

Lemma held_in_use os : forall d banned L h rs d',
  ledger_inv d banned L -> (forall o, In o os -> fair o) -> fresh_history banned os ->
  steps d os = (rs, d') -> (forall t, In t h <-> L t = Some InUse) ->
  forall t, In t (held h os rs) <-> In t (in_use d').
Proof.
  induction os as [|o os IH]; intros d banned L h rs d' Inv F Fr E H t; cbn [steps] in E.
  - injection E as <- <-. cbn. rewrite H. destruct Inv as (W & A & _). apply (agrees_class t W A).
  - destruct (step d o) as [r d1] eqn:E1. destruct (steps d1 os) as [rs2 d2] eqn:E2. injection E as <- <-.
    apply fresh_cons in Fr. destruct Fr as [Fr1 Fr2].
    destruct (ledger_one o Inv (F o (or_introl eq_refl)) E1 Fr1) as (L1 & S1 & Inv1).
    change (held h (o :: os) (r :: rs2)) with (held (held h [o] [r]) os rs2).
    eapply IH; [exact Inv1|intros x Hx; apply F; right; exact Hx|exact Fr2|exact E2|].
    eapply held_in_use_step; eassumption.
Qed.

Lemma fresh_app os : forall banned os', fresh_history banned (os ++ os') -> fresh_history banned os.
Proof.
  induction os as [|o os IH]; intros banned os' H; [exact I|].
  destruct o; cbn in *; eauto. split; [tauto|]. eapply IH, H.
Qed.

Lemma steps_length os : forall d rs d', steps d os = (rs, d') -> length rs = length os.
Proof.
  induction os as [|o os IH]; intros d rs d' E; cbn [steps] in E; [now injection E as <- <-|].
  destruct (step d o) as [r d1]. destruct (steps d1 os) as [rs2 d2] eqn:E2. injection E as <- <-.
  cbn. f_equal. eauto.
Qed.

Lemma no_double_handout : forall os scan n rs d r d' toks t,
  (forall o, In o os -> fair o) -> (forall l, Permutation (scan l) l) -> fresh_history [] os ->
  steps empty_db os = (rs, d) -> step d (OExtract scan n) = (r, d') -> r = Ok (RTokens toks) ->
  In t toks -> ~ In t (held [] os rs) /\ NoDup toks.
Proof.
  intros os scan n rs d r d' toks t F P Fr E E1 -> Ht.
  pose proof (wf_steps os wf_empty F) as W. rewrite E in W. cbn in W.
  assert (H := held_in_use os [] ledger_inv_empty F Fr E).
  rewrite H by (intros x; cbn; split; [tauto|discriminate]).
  destruct (Z.le_gt_cases n SQLITE3_INTEGER_MAX) as [H1|H1];
      [destruct (Z.le_gt_cases n (lenZ (available d))) as [H2|H2]|];
      [|rewrite (@extract_failure scan n d P) in E1 by lia; discriminate
       |rewrite (@extract_failure scan n d P) in E1 by lia; discriminate].
  destruct (extract_success scan W P H1 H2) as (toks' & E' & N & I & _).
  rewrite E1 in E'. injection E' as -> _. split; [|exact N]. apply I, in_available in Ht. tauto.
Qed.

(** C18 *)
Lemma steps_app os1 : forall d os2,
  steps d (os1 ++ os2) =
  (let '(rs1, d1) := steps d os1 in let '(rs2, d2) := steps d1 os2 in (rs1 ++ rs2, d2)).
Proof.
  induction os1 as [|o os IH]; intros d os2; cbn [app steps].
  - destruct (steps d os2); reflexivity.
  - destruct (step d o) as [r d1]. rewrite IH. destruct (steps d1 os) as [rs d2].
    destruct (steps d2 os2); reflexivity.
Qed.

(** A token which is not stored is not stored after a call either, unless it is inserted. *)
Lemma absent_step d o t : wf d -> fair o -> ~ In t (map u_token (unblinded d)) ->
  ~ reinserted t [o] -> ~ In t (map u_token (unblinded (snd (step d o)))).
Proof.
  intros W F H R. destruct o.
  - rewrite step_add_eq by exact W. destruct (filter _ (tokens d)); [|exact H]. cbv zeta.
    destruct (exec_muts _ _) as [d2|x] eqn:E2; [|exact H]. cbn [snd].
    destruct (memZ_spec voucher (map v_number (vouchers d))) as [Hv|Hv];
      (apply ins_token_Ok in E2; [destruct E2 as (_ & _ & ->); exact H|]).
    + exact Hv.
    + cbn. rewrite map_app. apply in_or_app; right; left; reflexivity.
  - rewrite step_insert_eq by exact W. destruct (filter _ (vouchers d)); [exact H|]. cbv zeta.
    destruct (exec_muts _ _) as [d2|x] eqn:E2; [|exact H]. cbn [snd].
    apply ins_unblinded_Ok in E2. destruct E2 as (_ & _ & ->). cbn.
    rewrite map_app, map_u_token_UR, in_app_iff. intros [Hi|Hi]; [auto|].
    apply R. exists voucher, pk, toks, completed, spendable, now. split; [left; reflexivity|exact Hi].
  - rewrite step_double_eq. cbv zeta. destruct (filter _ (vouchers d)); exact H.
  - rewrite step_extract_eq. destruct (_ >? _); [exact H|]. cbv zeta. destruct (_ <? _); [exact H|].
    destruct (exec_muts _ _) as [d2|x] eqn:E2; [|exact H]. cbn [snd].
    apply ins_in_use_Ok in E2. destruct E2 as (_ & _ & ->). exact H.
  - rewrite step_discard_eq by apply W. cbn. rewrite in_ub_minus_tok. tauto.
  - rewrite step_invalidate_eq. destruct (exec_muts _ _) as [d2|x] eqn:E2; [|exact H]. cbn [snd].
    apply ins_invalid_Ok in E2. destruct E2 as (_ & _ & ->). cbn [unblinded set_in_use set_unblinded]. rewrite in_ub_minus_tok. tauto.
  - rewrite step_reset_eq by apply W. exact H.
  - rewrite step_query; [exact H|exact I].
  - rewrite step_query; [exact H|exact I].
  - rewrite step_query; [exact H|exact I].
  - rewrite step_query; [exact H|exact I].
  - destruct (@step_maint (OMaintStart now) d (wf_maint W) I) as (m & -> & _). exact H.
  - destruct (@step_maint (OMaintObserve pass_value rowid sizes) d (wf_maint W) I) as (m & -> & _). exact H.
  - destruct (@step_maint (OMaintFinish rowid now) d (wf_maint W) I) as (m & -> & _). exact H.
  - rewrite step_query; [exact H|exact I].
  - exact H.
Qed.

Lemma extract_stored d scan n toks d' t : wf d -> (forall l, Permutation (scan l) l) ->
  step d (OExtract scan n) = (Ok (RTokens toks), d') -> In t toks -> stored d true t /\ ~ In t (in_use d).
Proof.
  intros W P E Ht.
  destruct (Z.le_gt_cases n SQLITE3_INTEGER_MAX) as [H1|H1];
      [destruct (Z.le_gt_cases n (lenZ (available d))) as [H2|H2]|];
      [|rewrite (@extract_failure scan n d P) in E by lia; discriminate
       |rewrite (@extract_failure scan n d P) in E by lia; discriminate].
  destruct (extract_success scan W P H1 H2) as (toks' & E' & N & I & _).
  rewrite E in E'. injection E' as -> _. now apply in_available, I.
Qed.

Lemma absent_steps os : forall d t, wf d -> (forall o, In o os -> fair o) ->
  ~ In t (map u_token (unblinded d)) -> ~ reinserted t os ->
  ~ In t (map u_token (unblinded (snd (steps d os)))).
Proof.
  induction os as [|o os IH]; intros d t W F H R; [exact H|]. cbn [steps].
  pose proof (@wf_step _ _ W (F o (or_introl eq_refl))) as W1.
  assert (H1 : ~ In t (map u_token (unblinded (snd (step d o))))).
  { apply absent_step; auto; [apply F; left; reflexivity|].
    intros (v & pk & ts & c & s & now & [Ho|[]] & Ht). apply R. exists v, pk, ts, c, s, now. split; [left|]; auto. }
  destruct (step d o) as [r d1]. cbn [snd] in *.
  specialize (IH d1 t W1 (fun o' Ho => F o' (or_intror Ho)) H1).
  destruct (steps d1 os) as [rs2 d2]. apply IH.
  intros (v & pk & ts & c & s & now & Ho & Ht). apply R. exists v, pk, ts, c, s, now. split; [right|]; auto.
Qed.

Lemma never_back : forall d toks o r d1 os rs d2 scan n got d3 t,
  reachable d -> (o = ODiscard toks \/ exists reason, o = OInvalidate reason toks) ->
  step d o = (Ok r, d1) ->
  (forall o, In o os -> fair o) -> (forall l, Permutation (scan l) l) ->
  steps d1 os = (rs, d2) -> ~ reinserted t os ->
  step d2 (OExtract scan n) = (Ok (RTokens got), d3) ->
  In t toks -> ~ In t got.
Proof.
  intros d toks o r d1 os rs d2 scan n got d3 t R Ho E F P Es Re E3 Ht Hg.
  pose proof (wf_reachable R) as W.
  assert (Fo : fair o) by (destruct Ho as [->|[? ->]]; exact I).
  pose proof (@wf_step _ _ W Fo) as W1. rewrite E in W1. cbn in W1.
  assert (A : ~ In t (map u_token (unblinded d1))).
  { destruct Ho as [->|[reason ->]].
    - rewrite step_discard_eq in E by apply W. injection E as <- <-. cbn. rewrite in_ub_minus_tok. tauto.
    - rewrite step_invalidate_eq in E. destruct (exec_muts _ _) as [dd|x] eqn:E2; [|discriminate].
      injection E as <- <-. apply ins_invalid_Ok in E2. destruct E2 as (_ & _ & ->). cbn [unblinded set_in_use set_unblinded invalid set_invalid].
      rewrite in_ub_minus_tok, map_app, map_map. cbn. rewrite map_id, in_app_iff. tauto. }
  pose proof (@absent_steps os d1 t W1 F A Re) as A2. rewrite Es in A2. cbn in A2.
  pose proof (wf_steps os W1 F) as W2. rewrite Es in W2. cbn in W2.
  apply A2. eapply stored_in. eapply extract_stored; eauto.
Qed.

(** C20 *)
Lemma restart_releases : forall d, reachable d ->
  exists r d', step d ORestart = (r, d') /\ same_persistent d d' /\ in_use d' = [] /\
    (forall t, stored d' true t <-> stored d true t) /\
    (forall t, In t (in_use d) -> stored d' true t) .
Proof.
  intros d R. pose proof (wf_reachable R) as W. exists (Ok RUnit), (restart d).
  split; [reflexivity|]. split; [repeat split|]. split; [reflexivity|]. split; intros t.
  - apply stored_same; reflexivity.
  - rewrite (@stored_same d (restart d)) by reflexivity. apply W.
Qed.

(** ** C19: atomicity at statement granularity *)
Lemma run_fst A (p : prog A) d : run p d = (fst (fst (run p d)), snd (fst (run p d)), snd (run p d)).
Proof. destruct (run p d) as [[? ?] ?]; reflexivity. Qed.

Lemma run_mut A i m k d n d' : exec_mut m d = Ok (n, d') ->
  fst (run (@Mut A i m k) d) = fst (run (k n) d').
Proof. intros E. cbn [run]. rewrite E. destruct (run (k n) d') as [[? ?] ?]; reflexivity. Qed.

Lemma many_err A i (ms : list mut) k d e : exec_muts ms d = Err e ->
  fst (fst (run (@Many A i ms k) d)) = Err e.
Proof. intros E. cbn [run]. now rewrite E. Qed.

Definition mid {A} (d : db) (p : prog A) (s : db * call A) : Prop :=
  match s with
  | (c, Running q w) =>
      c = d /\ fst (fst (run p d)) = fst (fst (run q w)) /\
      (forall a, fst (fst (run q w)) = Ok a -> snd (fst (run p d)) = snd (fst (run q w)))
  | (c, Done r) => with_cursor p d = (r, c)
  end.

Lemma mid_step A d (p : prog A) s s' : mid d p s -> stmt_step s s' -> mid d p s'.
Proof.
  intros M S. inversion S; subst; cbn [mid] in *; destruct M as (-> & M1 & M2).
  - split; [reflexivity|]. cbn [run] in M1, M2. rewrite H in M1, M2.
    destruct (run (k n) w') as [[r1 w1] rec1]; cbn in *; auto.
  - cbn [run] in M1. rewrite H in M1. cbn in M1. unfold with_cursor. rewrite (run_fst p d), M1. reflexivity.
  - split; [reflexivity|]. cbn [run exec_muts] in M1, M2. rewrite H in M1, M2. cbn [bind snd] in M1, M2.
    cbn [run]. destruct (exec_muts ms w') as [d1|e]; cbn in *.
    + destruct (run k d1) as [[r1 w1] rec1]; cbn in *; auto.
    + split; auto. intros a Ha; discriminate.
  - cbn [run exec_muts] in M1. rewrite H in M1. cbn in M1.
    unfold with_cursor. rewrite (run_fst p d), M1. reflexivity.
  - split; [reflexivity|]. cbn [run exec_muts] in M1, M2. destruct (run k w) as [[r1 w1] rec1]; cbn in *; auto.
  - split; [reflexivity|]. auto.
  - cbn in M1. unfold with_cursor. rewrite (run_fst p d), M1. reflexivity.
  - cbn in M1, M2. unfold with_cursor. rewrite (run_fst p d), M1, (M2 a eq_refl). reflexivity.
Qed.

Lemma mid_steps A d (p : prog A) s s' : stmt_steps s s' -> mid d p s -> mid d p s'.
Proof. induction 1; auto. intros M. apply IHstmt_steps. eapply mid_step; eassumption. Qed.

Lemma mid_init A d (p : prog A) : mid d p (d, Running p d).
Proof. cbn. auto. Qed.

Lemma crash_points A : forall (p : prog A) d c q w, stmt_steps (d, Running p d) (c, Running q w) -> c = d.
Proof. intros p d c q w S. pose proof (@mid_steps _ d p _ _ S (mid_init d p)) as M. cbn in M. tauto. Qed.

Lemma call_outcome A : forall (p : prog A) d c r, stmt_steps (d, Running p d) (c, Done r) ->
  with_cursor p d = (r, c) /\ (forall e, r = Err e -> c = d).
Proof.
  intros p d c r S. pose proof (@mid_steps _ d p _ _ S (mid_init d p)) as M. cbn in M. split; [exact M|].
  intros e ->. eapply with_cursor_err, M.
Qed.

Lemma stmt_trans A (s1 s2 s3 : db * call A) : stmt_steps s1 s2 -> stmt_steps s2 s3 -> stmt_steps s1 s3.
Proof. induction 1; auto. intros. econstructor; eauto. Qed.

Lemma stmt_many A c i ms : forall (k : prog A) w,
  match exec_muts ms w with
  | Ok w' => stmt_steps (c, Running (Many i ms k) w) (c, Running k w')
  | Err e => stmt_steps (c, Running (Many i ms k) w) (c, Done (Err e))
  end.
Proof.
  induction ms as [|m ms IH]; intros k w; cbn [exec_muts].
  - econstructor; [constructor|constructor].
  - destruct (exec_mut m w) as [[n w1]|e] eqn:E; cbn [bind snd].
    + specialize (IH k w1). destruct (exec_muts ms w1); (eapply ss_step; [eapply st_many; exact E|exact IH]).
    + econstructor; [apply st_many_err; exact E|constructor].
Qed.

(** Every call runs to completion, with [with_cursor]'s outcome. *)
Lemma call_completes A : forall (p : prog A) d,
  stmt_steps (d, Running p d) (snd (with_cursor p d), Done (fst (with_cursor p d))).
Proof.
  intros p d.
  assert (H : forall q w, fst (fst (run q w)) = fst (fst (run q w)) ->
     stmt_steps (d, Running q w)
       (match fst (fst (run q w)) with Ok _ => snd (fst (run q w)) | Err _ => d end,
        Done (A := A) (fst (fst (run q w))))).
  { induction q as [a|e|i m k IH|i ms k IH|k IH]; intros w _.
    - econstructor; [constructor|constructor].
    - econstructor; [constructor|constructor].
    - cbn [run]. destruct (exec_mut m w) as [[n w1]|e] eqn:E.
      + specialize (IH n w1 eq_refl). destruct (run (k n) w1) as [[r1 w2] rec]; cbn in *.
        eapply ss_step; [eapply st_mut; exact E|exact IH].
      + econstructor; [apply st_mut_err; exact E|constructor].
    - cbn [run]. pose proof (stmt_many d i ms k w) as M. destruct (exec_muts ms w) as [w1|e].
      + specialize (IH w1 eq_refl). destruct (run k w1) as [[r1 w2] rec]; cbn in *.
        eapply stmt_trans; eassumption.
      + exact M.
    - econstructor; [constructor|]. apply IH. reflexivity. }
  specialize (H p d eq_refl). unfold with_cursor. destruct (run p d) as [[[a|e] w'] rec]; exact H.
Qed.

Lemma op_raises_unchanged : forall d o e d', step d o = (Err e, d') -> d' = d.
Proof.
  intros d o e d' E. destruct o; try (eapply with_cursor_err; exact E). discriminate.
Qed.

(** C31: a token not stored as spendable does not become so by itself. *)
Lemma unspendable_step d o t : wf d -> fair o -> ~ stored d true t ->
  ~ reinserted t [o] -> ~ stored (snd (step d o)) true t.
Proof.
  intros W F H R. destruct o.
  - rewrite step_add_eq by exact W. destruct (filter _ (tokens d)); [|exact H]. cbv zeta.
    destruct (exec_muts _ _) as [d2|x] eqn:E2; [|exact H]. cbn [snd].
    destruct (memZ_spec voucher (map v_number (vouchers d))) as [Hv|Hv];
      (apply ins_token_Ok in E2; [destruct E2 as (_ & _ & ->); exact H|]).
    + exact Hv.
    + cbn. rewrite map_app. apply in_or_app; right; left; reflexivity.
  - rewrite step_insert_eq by exact W. destruct (filter _ (vouchers d)); [exact H|]. cbv zeta.
    destruct (exec_muts _ _) as [d2|x] eqn:E2; [|exact H]. cbn [snd].
    apply ins_unblinded_Ok in E2. destruct E2 as (_ & _ & ->).
    intros (g & v' & pk' & Hu & Hg).
    cbn [unblinded groups set_tokens set_unblinded set_vouchers set_groups] in Hu, Hg.
    apply in_app_or in Hu, Hg. destruct Hu as [Hu|Hu].
    + destruct Hg as [Hg|[Hg|[]]]; [apply H; now exists g, v', pk'|]. injection Hg as Hid.
      pose proof (wf_group_known W _ Hu) as Hk. cbn in Hk. rewrite <- Hid in Hk. exact (next_id_fresh _ Hk).
    + apply in_map_iff in Hu. destruct Hu as (t' & Et & Ht). injection Et as -> <-.
      apply R. exists voucher, pk, toks, completed, spendable, now. split; [left; reflexivity|exact Ht].
  - rewrite step_double_eq. cbv zeta. destruct (filter _ (vouchers d)); exact H.
  - rewrite step_extract_eq. destruct (_ >? _); [exact H|]. cbv zeta. destruct (_ <? _); [exact H|].
    destruct (exec_muts _ _) as [d2|x] eqn:E2; [|exact H]. cbn [snd].
    apply ins_in_use_Ok in E2. destruct E2 as (_ & _ & ->). exact H.
  - rewrite step_discard_eq by apply W. cbn [snd]. rewrite stored_minus. tauto.
  - rewrite step_invalidate_eq. destruct (exec_muts _ _) as [d2|x] eqn:E2; [|exact H]. cbn [snd].
    apply ins_invalid_Ok in E2. destruct E2 as (_ & _ & ->). rewrite stored_minus.
    rewrite (@stored_same d (set_invalid _ d)) by reflexivity. tauto.
  - rewrite step_reset_eq by apply W. exact H.
  - rewrite step_query; [exact H|exact I].
  - rewrite step_query; [exact H|exact I].
  - rewrite step_query; [exact H|exact I].
  - rewrite step_query; [exact H|exact I].
  - destruct (@step_maint (OMaintStart now) d (wf_maint W) I) as (m & -> & _). exact H.
  - destruct (@step_maint (OMaintObserve pass_value rowid sizes) d (wf_maint W) I) as (m & -> & _). exact H.
  - destruct (@step_maint (OMaintFinish rowid now) d (wf_maint W) I) as (m & -> & _). exact H.
  - rewrite step_query; [exact H|exact I].
  - exact H.
Qed.

Lemma unspendable_steps os : forall d t, wf d -> (forall o, In o os -> fair o) ->
  ~ stored d true t -> ~ reinserted t os -> ~ stored (snd (steps d os)) true t.
Proof.
  induction os as [|o os IH]; intros d t W F H R; [exact H|]. cbn [steps].
  pose proof (@wf_step _ _ W (F o (or_introl eq_refl))) as W1.
  assert (H1 : ~ stored (snd (step d o)) true t).
  { apply unspendable_step; auto; [apply F; left; reflexivity|].
    intros (v & pk & ts & c & s & now & [Ho|[]] & Ht). apply R. exists v, pk, ts, c, s, now. split; [left|]; auto. }
  destruct (step d o) as [r d1]. cbn [snd] in *.
  specialize (IH d1 t W1 (fun o' Ho => F o' (or_intror Ho)) H1).
  destruct (steps d1 os) as [rs2 d2]. apply IH.
  intros (v & pk & ts & c & s & now & Ho & Ht). apply R. exists v, pk, ts, c, s, now. split; [right|]; auto.
Qed.

Lemma sequestered_not_spendable d v pk toks completed now r d1 t : wf d ->
  step d (OInsert v pk toks completed false now) = (Ok r, d1) -> In t toks ->
  stored d1 false t /\ ~ stored d1 true t.
Proof.
  intros W E Ht. pose proof (@wf_step d (OInsert v pk toks completed false now) W I) as W1.
  rewrite E in W1. cbn in W1.
  assert (S : stored d1 false t).
  { rewrite step_insert_eq in E by exact W. destruct (filter _ (vouchers d)); [discriminate|]. cbv zeta in E.
    destruct (exec_muts _ _) as [d2|x] eqn:E2; [|discriminate]. injection E as _ <-.
    apply ins_unblinded_Ok in E2. destruct E2 as (_ & _ & ->).
    exists (next_id (map g_id (groups d))), v, pk.
    cbn [unblinded groups set_tokens set_unblinded set_vouchers set_groups]. split; apply in_or_app; right.
    - apply in_map_iff. now exists t.
    - left; reflexivity. }
  split; [exact S|]. intros S'. pose proof (stored_unique W1 S S'). discriminate.
Qed.

Lemma sequestered_never_spent : forall d v pk toks completed now r d1 os rs d2 scan n got d3 t,
  reachable d -> step d (OInsert v pk toks completed false now) = (Ok r, d1) ->
  (forall o, In o os -> fair o) -> (forall l, Permutation (scan l) l) ->
  steps d1 os = (rs, d2) -> In t toks -> ~ reinserted t os ->
  (step d2 (OExtract scan n) = (Ok (RTokens got), d3) -> ~ In t got) /\
  exists avail, fst (step d2 OCount) = Ok (RNum (Z.of_nat (length avail))) /\
    NoDup avail /\ ~ In t avail /\
    (forall u, In u avail <-> stored d2 true u /\ ~ In u (in_use d2)).
Proof.
  intros d v pk toks completed now r d1 os rs d2 scan n got d3 t R E F P Es Ht Re.
  pose proof (wf_reachable R) as W.
  pose proof (@wf_step d (OInsert v pk toks completed false now) W I) as W1. rewrite E in W1. cbn in W1.
  destruct (@sequestered_not_spendable _ _ _ _ _ _ _ _ _ W E Ht) as [_ H].
  pose proof (@unspendable_steps os d1 t W1 F H Re) as H2. rewrite Es in H2. cbn in H2.
  pose proof (wf_steps os W1 F) as W2. rewrite Es in W2. cbn in W2.
  split.
  - intros E3 Hg. apply H2. eapply extract_stored; eauto.
  - exists (available d2). split; [reflexivity|]. split; [now apply available_NoDup|]. split.
    + intros Ha. apply in_available in Ha. tauto.
    + intros u. apply in_available.
Qed.

(** Crash during the call after a completed prefix. *)
Lemma crash_in_history : forall d os rs d1 o c q w,
  steps d os = (rs, d1) -> stmt_steps (d1, Running (op_prog o) d1) (c, Running q w) ->
  restart c = restart (snd (steps d os)).
Proof. intros d os rs d1 o c q w E S. rewrite E. cbn. f_equal. eapply crash_points, S. Qed.

Lemma op_outcome : forall d o c r, o <> ORestart ->
  stmt_steps (d, Running (op_prog o) d) (c, Done r) -> step d o = (r, c).
Proof.
  intros d o c r H S. apply call_outcome in S. destruct S as [S _].
  destruct o; try exact S. congruence.
Qed.

Lemma op_completes : forall d o, o <> ORestart ->
  stmt_steps (d, Running (op_prog o) d) (snd (step d o), Done (fst (step d o))).
Proof. intros d o H. destruct o; try apply call_completes. congruence. Qed.

Lemma negative_takes_all : forall d scan n, reachable d -> (forall l, Permutation (scan l) l) -> n < 0 ->
  exists toks d', step d (OExtract scan n) = (Ok (RTokens toks), d') /\ forall t, In t toks <-> stored d true t /\ ~ In t (in_use d).
Proof.
  intros d scan n R P H. pose proof (wf_reachable R) as W.
  assert (Hm : n <= SQLITE3_INTEGER_MAX) by (unfold SQLITE3_INTEGER_MAX; lia).
  assert (Hn : n <= lenZ (available d)) by (unfold lenZ; lia).
  destruct (extract_success scan W P Hm Hn) as (toks & E & _ & I & _ & All).
  exists toks. eexists. split; [exact E|]. intros t. rewrite <- in_available. split; auto.
Qed.

Lemma ledger_step_det L o r L1 M M1 : (forall x, L x = M x) ->
  ledger_step L o r L1 -> ledger_step M o r M1 -> forall x, L1 x = M1 x.
Proof.
  intros Eq A B x. destruct r as [a|e]; cbn in A, B; [|rewrite A, B; auto].
  destruct o; try (rewrite A, B; auto; fail).
  - destruct A as [_ A], B as [_ B]. destruct (A x) as [H H0], (B x) as [H1 H2].
    destruct (in_dec Z.eq_dec x toks) as [Hx|Hx]; [|rewrite H0, H2 by exact Hx; auto].
    destruct (H Hx), (H1 Hx). congruence.
  - destruct A as (t1 & -> & _ & A), B as (t2 & Et & _ & B). injection Et as <-.
    destruct (A x) as [H H0], (B x) as [H1 H2].
    destruct (in_dec Z.eq_dec x t1) as [Hx|Hx]; [|rewrite H0, H2 by exact Hx; auto].
    destruct (H Hx), (H1 Hx). congruence.
  - destruct (A x) as [H H0], (B x) as [H1 H2].
    destruct (in_dec Z.eq_dec x toks) as [Hx|Hx];
      [rewrite H, H1 by exact Hx|rewrite H0, H2 by exact Hx]; rewrite Eq; auto.
  - destruct A as [_ A], B as [_ B]. destruct (A x) as [H H0], (B x) as [H1 H2].
    destruct (in_dec Z.eq_dec x toks) as [Hx|Hx]; [|rewrite H0, H2 by exact Hx; auto].
    destruct (H Hx), (H1 Hx). congruence.
  - destruct (A x) as [H H0], (B x) as [H1 H2].
    destruct (in_dec Z.eq_dec x toks) as [Hx|Hx];
      [rewrite H, H1 by exact Hx|rewrite H0, H2 by exact Hx]; rewrite Eq; auto.
  - rewrite A, B, Eq. reflexivity.
Qed.

Lemma ledger_steps_det os : forall rs L1 L2 M1 M2, (forall x, L1 x = M1 x) ->
  ledger_steps L1 os rs L2 -> ledger_steps M1 os rs M2 -> forall x, L2 x = M2 x.
Proof.
  induction os as [|o os IH]; intros rs L1 L2 M1 M2 Eq S1 S2.
  - inversion S1 as [? ? E1|]; subst. inversion S2 as [? ? E2|]; subst. intros x. rewrite E1, E2. apply Eq.
  - inversion S1 as [|? ? r ? ? rs' ? A1 A2]; subst. inversion S2 as [|? ? r' ? ? rs'' ? B1 B2]; subst.
    eapply IH; [|exact A2|exact B2]. eapply ledger_step_det; eassumption.
Qed.

Lemma conservation_classes : forall os rs d t, (forall o, In o os -> fair o) -> fresh_history [] os ->
  steps empty_db os = (rs, d) ->
  forall v pk toks c s now i, nth_error os i = Some (OInsert v pk toks c s now) ->
  (exists a, nth_error rs i = Some (Ok a)) -> In t toks ->
  exists k, (forall L, ledger_steps empty_ledger os rs L -> L t = Some k) /\ match k with
    | Available => stored d true t /\ ~ stored d false t /\ ~ In t (in_use d) /\ ~ In t (map fst (invalid d))
    | InUse => stored d true t /\ ~ stored d false t /\ In t (in_use d) /\ ~ In t (map fst (invalid d))
    | Sequestered => stored d false t /\ ~ stored d true t /\ ~ In t (in_use d) /\ ~ In t (map fst (invalid d))
    | Spent => ~ In t (map u_token (unblinded d)) /\ ~ In t (in_use d) /\ ~ In t (map fst (invalid d))
    | Invalid => ~ In t (map u_token (unblinded d)) /\ ~ In t (in_use d) /\ In t (map fst (invalid d))
    end.
Proof.
  intros os rs d t F Fr E v pk toks c s now i Hi Hr Ht.
  destruct (conservation os F Fr E) as (L & S & A).
  assert (K : L t <> None).
  { clear A E Fr F. revert rs L S i Hr Hi. generalize empty_ledger.
    induction os as [|o os IH]; intros L0 rs L S i Hr Hi; [destruct i; discriminate|].
    inversion S; subst. destruct i as [|i]; cbn in Hi, Hr.
    - injection Hi as ->. destruct Hr as [a Hr]. injection Hr as ->.
      eapply ledger_never_forgets; [eassumption|].
      match goal with H : ledger_step _ _ _ _ |- _ => cbn in H; destruct H as [_ H]; destruct (H t) as [H' _] end.
      destruct (H' Ht) as [_ ->]. discriminate.
    - eapply IH; eassumption. }
  destruct (L t) as [k|] eqn:Lt; [|congruence]. exists k. split.
  - intros M SM. rewrite <- Lt. symmetry. apply (@ledger_steps_det os rs empty_ledger L empty_ledger M); auto.
  - specialize (A t). rewrite Lt in A. destruct k; exact A.
Qed.
