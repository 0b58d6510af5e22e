(** Proofs for C135: renaming tokens. *)
From Verif Require Import Prelude PreludeFacts PricingModel StoreModel ControllerModel RedeemLogModel RedeemLogSpec.
Set Implicit Arguments.

Section Rename.
Variables tau ups : Z -> Z.
Hypothesis Ht : one_to_one tau.
Hypothesis Hu : one_to_one ups.

Lemma mem_map f x l : one_to_one f -> memZ (f x) (map f l) = memZ x l.
Proof.
  intros H. apply eq_true_iff_eq. rewrite !memZ_In, in_map_iff. split.
  - intros (y & E & I). apply H in E. now subst.
  - intros I. eauto.
Qed.

(** ** Databases *)
Definition ren_db (d : db) : db :=
  DB (vouchers d) (map (fun r => TR (tau (t_text r)) (t_voucher r) (t_counter r)) (tokens d))
     (map (fun r => UR (ups (u_token r)) (u_group r)) (unblinded d))
     (map (fun p => (ups (fst p), snd p)) (invalid d)) (groups d) (maint d)
     (map ups (in_use d)) (map ups (to_discard d)) (map ups (to_reset d)).
Definition ren_mut (m : mut) : mut :=
  match m with
  | InsToken v c t => InsToken v c (tau t)
  | InsUnblinded t g => InsUnblinded (ups t) g
  | InsInUse t => InsInUse (ups t)
  | InsToDiscard t => InsToDiscard (ups t)
  | InsInvalid t r => InsInvalid (ups t) r
  | InsToReset t => InsToReset (ups t)
  | m => m
  end.
Definition ren_res {A} (f : A -> A) (r : res exn A) : res exn A := match r with Ok x => Ok (f x) | Err e => Err e end.

Lemma filter_map A B (f : A -> B) p l : filter p (map f l) = map f (filter (fun x => p (f x)) l).
Proof. induction l as [|x l IH]; cbn; [reflexivity|]. destruct (p (f x)); cbn; now rewrite IH. Qed.

Lemma exec_ren m d : exec_mut (ren_mut m) (ren_db d) = ren_res (fun p => (fst p, ren_db (snd p))) (exec_mut m d).
Proof.
  destruct d as [vs ts us iv gs ms iu td tr]. destruct m; cbn [ren_mut exec_mut ren_res]; unfold ren_db;
    cbn [vouchers tokens unblinded invalid groups maint in_use to_discard to_reset].
  - destruct (memZ _ _); reflexivity.
  - rewrite map_map. cbn [t_text]. rewrite <- (map_map t_text tau), (mem_map _ _ Ht).
    destruct (memZ text _); [reflexivity|]. destruct (memZ _ (map v_number _)); [|reflexivity].
    cbn [ren_res fst snd]. unfold set_tokens. cbn. now rewrite map_app.
  - reflexivity.
  - reflexivity.
  - rewrite map_map. cbn [u_token]. rewrite <- (map_map u_token ups), (mem_map _ _ Hu).
    destruct (memZ token _); [reflexivity|]. cbn [ren_res fst snd]. unfold set_unblinded. cbn. now rewrite map_app.
  - cbn [ren_res fst snd]. unfold set_tokens. cbn. rewrite filter_map. reflexivity.
  - reflexivity.
  - rewrite (mem_map _ _ Hu). destruct (memZ token _); [reflexivity|]. cbn [ren_res fst snd]. unfold set_in_use. cbn.
    now rewrite map_app.
  - cbn [ren_res fst snd]. unfold set_to_discard. cbn. now rewrite map_app.
  - cbn [ren_res fst snd]. unfold set_in_use. cbn. rewrite filter_map. do 4 f_equal. apply filter_ext.
    intros x. now rewrite (mem_map _ _ Hu).
  - cbn [ren_res fst snd]. unfold set_unblinded. cbn. rewrite filter_map. do 4 f_equal. apply filter_ext.
    intros x. cbn. now rewrite (mem_map _ _ Hu).
  - reflexivity.
  - rewrite map_map. cbn [fst]. rewrite <- (map_map fst ups), (mem_map _ _ Hu).
    destruct (memZ token _); [reflexivity|]. cbn [ren_res fst snd]. unfold set_invalid. cbn. now rewrite map_app.
  - cbn [ren_res fst snd]. unfold set_in_use. cbn. rewrite filter_map. do 4 f_equal. apply filter_ext.
    intros x. rewrite map_map. cbn [fst]. now rewrite <- (map_map fst ups), (mem_map _ _ Hu).
  - cbn [ren_res fst snd]. unfold set_unblinded. cbn. rewrite filter_map. do 4 f_equal. apply filter_ext.
    intros x. cbn. rewrite map_map. cbn [fst]. now rewrite <- (map_map fst ups), (mem_map _ _ Hu).
  - cbn [ren_res fst snd]. unfold set_to_reset. cbn. now rewrite map_app.
  - cbn [ren_res fst snd]. unfold set_in_use. cbn. rewrite filter_map. do 4 f_equal. apply filter_ext.
    intros x. now rewrite (mem_map _ _ Hu).
  - reflexivity.
  - reflexivity.
  - reflexivity.
  - reflexivity.
Qed.
Lemma execs_ren ms : forall d, exec_muts (map ren_mut ms) (ren_db d) = ren_res ren_db (exec_muts ms d).
Proof.
  induction ms as [|m ms IH]; intros d; cbn [map exec_muts]; [reflexivity|].
  rewrite exec_ren. destruct (exec_mut m d) as [[n d']|e]; cbn [ren_res bind fst snd]; [apply IH|reflexivity].
Qed.

(** ** Programs *)
Inductive ren_prog {A} (f : A -> A) : prog A -> prog A -> Prop :=
| ren_ret a : ren_prog f (Ret a) (Ret (f a))
| ren_raise e : ren_prog f (Raise e) (Raise e)
| ren_Mut b m k1 k2 : (forall n, ren_prog f (k1 n) (k2 n)) -> ren_prog f (Mut b m k1) (Mut b (ren_mut m) k2)
| ren_Many b ms k1 k2 : ren_prog f k1 k2 -> ren_prog f (Many b ms k1) (Many b (map ren_mut ms) k2)
| ren_Qry k1 k2 : (forall d, ren_prog f (k1 d) (k2 (ren_db d))) -> ren_prog f (Qry k1) (Qry k2).

Lemma run_ren A (f : A -> A) p1 p2 : ren_prog f p1 p2 -> forall d,
  fst (run p2 (ren_db d)) = (ren_res f (fst (fst (run p1 d))), ren_db (snd (fst (run p1 d)))).
Proof.
  induction 1 as [a|e|b m k1 k2 H IH|b ms k1 k2 H IH|k1 k2 H IH]; intros d; cbn [run].
  - reflexivity.
  - reflexivity.
  - rewrite exec_ren. destruct (exec_mut m d) as [[n d']|e]; cbn [ren_res fst snd]; [|reflexivity].
    specialize (IH n d'). destruct (run (k2 n) _) as [[r2 d2] rec2], (run (k1 n) d') as [[r1 d1] rec1]. exact IH.
  - rewrite execs_ren. destruct (exec_muts ms d) as [d'|e]; cbn [ren_res fst snd]; [|reflexivity].
    specialize (IH d'). destruct (run k2 _) as [[r2 d2] rec2], (run k1 d') as [[r1 d1] rec1]. exact IH.
  - apply IH.
Qed.
Lemma cursor_ren A (f : A -> A) p1 p2 d : ren_prog f p1 p2 ->
  with_cursor p2 (ren_db d) = (ren_res f (fst (with_cursor p1 d)), ren_db (snd (with_cursor p1 d))).
Proof.
  intros H. assert (E := run_ren H d). unfold with_cursor.
  destruct (run p2 (ren_db d)) as [[r2 d2] rec2], (run p1 d) as [[[x|e] d1] rec1]; cbn [fst snd ren_res] in *.
  - injection E as -> ->. reflexivity.
  - injection E as -> ->. reflexivity.
Qed.

Lemma ren_lift A (r : res exn A) : ren_prog (fun x => x) (lift r) (lift r).
Proof. destruct r; constructor. Qed.

Lemma many_ren A (f : A -> A) (h : Z -> Z) b (g g' : Z -> mut) toks k1 k2 : (forall t, g' (h t) = ren_mut (g t)) ->
  ren_prog f k1 k2 -> ren_prog f (Many b (map g toks) k1) (Many b (map g' (map h toks)) k2).
Proof.
  intros E H. replace (map g' (map h toks)) with (map ren_mut (map g toks)); [now apply ren_Many|].
  rewrite !map_map. apply map_ext. intros t. now rewrite E.
Qed.

Lemma add_ren v n k toks now : ren_prog (map tau) (add v n k toks now) (add v n k (map tau toks) now).
Proof.
  constructor. intros d. cbn [tokens ren_db]. rewrite filter_map. cbn [t_voucher t_counter].
  destruct (filter _ _) as [|r rows] eqn:E; cbn [map].
  - refine (ren_Mut _ _ _ _ (fun _ => _)). apply many_ren; [reflexivity|constructor].
  - replace (t_text {| t_text := tau (t_text r); t_voucher := t_voucher r; t_counter := t_counter r |} :: _)
      with (map tau (map t_text (r :: rows))); [constructor|]. cbn [map t_text]. now rewrite !map_map.
Qed.
Lemma get_ren v : ren_prog (fun x => x) (get v) (get v).
Proof. constructor. intros d. cbn [vouchers ren_db]. destruct (filter _ _); [constructor|apply ren_lift]. Qed.
Lemma list_ren : ren_prog (fun x => x) list_vouchers list_vouchers.
Proof. constructor. intros d. apply ren_lift. Qed.
Lemma lenZ_map A B (f : A -> B) l : lenZ (map f l) = lenZ l.
Proof. unfold lenZ. now rewrite map_length. Qed.
Lemma insert_ren v pk toks c s now : ren_prog (fun x => x) (insert_unblinded_tokens_for_voucher v pk toks c s now)
  (insert_unblinded_tokens_for_voucher v pk (map ups toks) c s now).
Proof.
  unfold insert_unblinded_tokens_for_voucher. rewrite lenZ_map.
  apply (ren_Mut false (InsGroup v pk s)). intros g.
  match goal with |- ren_prog _ (Mut _ ?m _) _ => apply (ren_Mut false m) end. intros n.
  destruct (n =? 0); [constructor|]. constructor. intros d. cbn [vouchers ren_db].
  destruct (filter _ _) as [|r rows]; [constructor|].
  apply many_ren; [reflexivity|]. apply (ren_Mut false (DelTokens v (v_counter r - 1))). intros _.
  exact (ren_ret (fun x => x) tt).
Qed.
Lemma double_ren v now : ren_prog (fun x => x) (mark_voucher_double_spent v now) (mark_voucher_double_spent v now).
Proof.
  apply (ren_Mut false (UpdVoucherDoubleSpend now v)). intros n. destruct (n =? 0); [constructor|].
  exact (ren_ret (fun x => x) tt).
Qed.
Lemma flat_map_map_in A B C (f : A -> B) (g : B -> list C) l : flat_map g (map f l) = flat_map (fun x => g (f x)) l.
Proof. induction l as [|x l IH]; cbn; [reflexivity|]. now rewrite IH. Qed.
Lemma map_flat_map A B C (f : B -> C) (g : A -> list B) l : map f (flat_map g l) = flat_map (fun x => map f (g x)) l.
Proof. induction l as [|x l IH]; cbn; [reflexivity|]. now rewrite map_app, IH. Qed.
Lemma available_ren d : available (ren_db d) = map ups (available d).
Proof.
  unfold available. cbn [unblinded groups in_use ren_db]. rewrite flat_map_map_in, map_flat_map.
  apply flat_map_ext. intros t. cbn [u_group u_token]. rewrite map_flat_map. apply flat_map_ext. intros g.
  rewrite (mem_map _ _ Hu). destruct (_ && _ && _); reflexivity.
Qed.
Lemma limit_map A B (f : A -> B) n l : limit n (map f l) = map f (limit n l).
Proof. unfold limit. destruct (n <? 0); [reflexivity|]. apply firstn_map. Qed.
Lemma extract_ren scan1 scan2 n : (forall l, scan2 (map ups l) = map ups (scan1 l)) ->
  ren_prog (map ups) (get_unblinded_tokens scan1 n) (get_unblinded_tokens scan2 n).
Proof.
  intros S. unfold get_unblinded_tokens. destruct (n >? SQLITE3_INTEGER_MAX); [constructor|]. constructor. intros d.
  cbv zeta. rewrite available_ren, S, limit_map, lenZ_map. destruct (_ <? _); [constructor|].
  apply many_ren; [reflexivity|constructor].
Qed.
Lemma discard_ren toks : ren_prog (fun x => x) (discard_unblinded_tokens toks) (discard_unblinded_tokens (map ups toks)).
Proof.
  apply many_ren; [reflexivity|]. apply (ren_Mut false DelInUseToDiscard). intros _.
  apply (ren_Mut false DelUnblindedToDiscard). intros _. apply (ren_Mut false DelToDiscard). intros _.
  exact (ren_ret (fun x => x) tt).
Qed.
Lemma invalidate_ren r toks : ren_prog (fun x => x) (invalidate_unblinded_tokens r toks) (invalidate_unblinded_tokens r (map ups toks)).
Proof.
  unfold invalidate_unblinded_tokens. apply many_ren; [reflexivity|]. apply (ren_Mut false DelInUseInvalid). intros _.
  apply (ren_Mut false DelUnblindedInvalid). intros _. exact (ren_ret (fun x => x) tt).
Qed.
Lemma reset_ren toks : ren_prog (fun x => x) (reset_unblinded_tokens toks) (reset_unblinded_tokens (map ups toks)).
Proof.
  apply many_ren; [reflexivity|]. apply (ren_Mut false DelInUseToReset). intros _.
  apply (ren_Mut false DelToReset). intros _. exact (ren_ret (fun x => x) tt).
Qed.
Lemma pmap_ren A B (h : A -> B) (f : A -> A) (g : B -> B) p1 p2 : (forall x, h (f x) = g (h x)) ->
  ren_prog f p1 p2 -> ren_prog g (pmap h p1) (pmap h p2).
Proof.
  intros E. induction 1; cbn [pmap]; try (constructor; auto; fail). rewrite E. constructor.
Qed.
Lemma restart_ren d : restart (ren_db d) = ren_db (restart d).
Proof. reflexivity. Qed.

(** Uses of the wallet: the contents, and the answer to a question. *)
Lemma step_ren o1 o2 d : alike_op tau ups o1 o2 -> snd (step (ren_db d) o2) = ren_db (snd (step d o1)).
Proof.
  intros H.
  assert (K : forall (f : out -> out), ren_prog f (op_prog o1) (op_prog o2) -> o1 <> ORestart -> o2 <> ORestart ->
    snd (step (ren_db d) o2) = ren_db (snd (step d o1))).
  { intros f R N1 N2. assert (E := cursor_ren d R). unfold step.
    destruct o1; try congruence; destruct o2; try congruence; rewrite E; reflexivity. }
  assert (U : forall (p q : prog unit), ren_prog (fun x => x) p q ->
    ren_prog (fun x => x) (pmap (fun _ => RUnit) p) (pmap (fun _ => RUnit) q)).
  { intros p q R. eapply pmap_ren; [|exact R]. reflexivity. }
  destruct H as [v n k toks now|v pk toks c s now|scan1 scan2 n S|toks|r toks|toks|o O].
  - apply (K (fun x => match x with RTokens l => RTokens (map tau l) | x => x end)); try discriminate.
    eapply pmap_ren; [|apply add_ren]. reflexivity.
  - apply (K (fun x => x)); try discriminate. apply U, insert_ren.
  - apply (K (fun x => match x with RTokens l => RTokens (map ups l) | x => x end)); try discriminate.
    eapply pmap_ren; [|apply extract_ren, S]. reflexivity.
  - apply (K (fun x => x)); try discriminate. apply U, discard_ren.
  - apply (K (fun x => x)); try discriminate. apply U, invalidate_ren.
  - apply (K (fun x => x)); try discriminate. apply U, reset_ren.
  - destruct o; try destruct O;
      lazymatch goal with
      | |- snd (step _ ORestart) = _ => reflexivity
      | |- _ => apply (K (fun x => x)); try discriminate; cbn [op_prog]
      end.
    + apply U, double_ren.
    + eapply pmap_ren; [|apply get_ren]. reflexivity.
    + eapply pmap_ren; [|apply list_ren]. reflexivity.
    + constructor. intros d'. rewrite available_ren, lenZ_map. exact (ren_ret (fun x : out => x) _).
    + constructor. intros d'. cbn [tokens ren_db]. rewrite lenZ_map. exact (ren_ret (fun x : out => x) _).
    + apply (ren_Mut false (InsMaint now)). intros x. exact (ren_ret (fun x : out => x) _).
    + unfold maint_observe. destruct (required_passes pass_value sizes); [|exact (ren_raise (fun x : out => x) _)].
      destruct rowid as [i|]; [|exact (ren_ret (fun x : out => x) _)].
      apply (ren_Mut false (UpdMaintCount a i)). intros x. exact (ren_ret (fun x : out => x) _).
    + destruct rowid as [i|]; [|exact (ren_ret (fun x : out => x) _)].
      apply (ren_Mut false (UpdMaintFinish now i)). intros x. exact (ren_ret (fun x : out => x) _).
    + constructor. intros d'. exact (ren_ret (fun x : out => x) _).
Qed.
Lemma question_ren o d : question o -> fst (step (ren_db d) o) = fst (step d o).
Proof.
  intros Q. assert (K : ren_prog (fun x => x) (op_prog o) (op_prog o) -> fst (step (ren_db d) o) = fst (step d o)).
  { intros R. assert (E := cursor_ren d R). destruct o; try destruct Q; unfold step; rewrite E; cbn [fst];
      match goal with |- ren_res _ ?r = _ => destruct r end; reflexivity. }
  apply K. destruct o; try destruct Q; cbn [op_prog].
  - eapply pmap_ren; [|apply get_ren]. reflexivity.
  - eapply pmap_ren; [|apply list_ren]. reflexivity.
  - constructor. intros d'. rewrite available_ren, lenZ_map. exact (ren_ret (fun x : out => x) _).
  - constructor. intros d'. cbn [tokens ren_db]. rewrite lenZ_map. exact (ren_ret (fun x : out => x) _).
  - constructor. intros d'. exact (ren_ret (fun x : out => x) _).
Qed.

(** ** The controller *)
Definition ren_flight (f : flight) : flight := Flight (f_voucher f) (f_counter f) (f_total f) (map tau (f_tokens f)).
Definition ren_ctl (c : ctl) : ctl :=
  Ctl (ren_db (c_db c)) (c_error c) (c_unpaid c) (c_active c) (map ren_flight (c_flights c)) (c_retrying c).
Definition ren_output (o : output) : output :=
  match o with
  | Requested v k toks => Requested v k (map tau toks)
  | Credited v k toks s => Credited v k (map ups toks) s
  | Died e => Died e
  end.
Definition ren_step (r : list output * ctl) : list output * ctl := (map ren_output (fst r), ren_ctl (snd r)).
Definition ren_answer (a : answer) : answer :=
  match a with ASuccess toks pk => ASuccess (map ups toks) pk | a => a end.

Lemma get_voucher_ren c v : get_voucher (ren_ctl c) v = get_voucher c v.
Proof.
  unfold get_voucher. cbn [c_db ren_ctl]. rewrite (cursor_ren (c_db c) (get_ren v)). cbn [fst].
  destruct (fst (with_cursor (get v) (c_db c))); reflexivity.
Qed.

Section Groups.
Variables G deft : Z.
Variable allowed : list Z.
Variable now : Z.
Variables gen1 gen2 : Z -> Z -> Z -> list Z.
Hypothesis Hg : forall v k n, gen2 v k n = map tau (gen1 v k n).

Lemma start_group_ren v total k c :
  start_group G now gen2 v total k (ren_ctl c) = ren_step (start_group G now gen1 v total k c).
Proof.
  unfold start_group. destruct (k >=? G); [reflexivity|]. destruct (token_count_for_group G total k) as [n|e]; [|reflexivity].
  rewrite Hg. cbn [c_db ren_ctl].
  rewrite (cursor_ren (c_db c) (add_ren v total k (gen1 v k n) now)).
  destruct (with_cursor (add v total k (gen1 v k n) now) (c_db c)) as [[toks|e] d]; cbn [fst snd ren_res]; [|reflexivity].
  rewrite (cursor_ren d (get_ren v)). cbn [fst].
  destruct (fst (with_cursor (get v) d)) as [vo|e]; cbn [ren_res]; [|reflexivity].
  destruct (state vo); [|reflexivity|reflexivity].
  unfold ren_step. cbn [fst snd map ren_output]. f_equal. unfold ren_ctl, with_flights, with_active, with_db. cbn.
  now rewrite map_app.
Qed.
Lemma redeem_ren v n c : redeem G deft now gen2 v n (ren_ctl c) = ren_step (redeem G deft now gen1 v n c).
Proof.
  unfold redeem. rewrite get_voucher_ren. destruct (get_voucher c v) as [[vo s]|e].
  - destruct (should_start_redemption s); [|reflexivity]. destruct (start_at_counter s); [|reflexivity]. apply start_group_ren.
  - destruct e; try reflexivity. apply start_group_ren.
Qed.
Lemma settle_ren f a c : settle G allowed now (ren_flight f) (ren_answer a) (ren_ctl c) =
  let '(b, o, c') := settle G allowed now f a c in (b, map ren_output o, ren_ctl c').
Proof.
  unfold settle. destruct a as [toks pk| | |e]; cbn [ren_answer ren_flight f_voucher f_counter c_db ren_ctl].
  - rewrite (cursor_ren (c_db c) (insert_ren (f_voucher f) pk toks (f_counter f + 1 =? G) (memZ pk allowed) now)).
    destruct (with_cursor _ (c_db c)) as [[x|e] d]; reflexivity.
  - rewrite (cursor_ren (c_db c) (double_ren (f_voucher f) now)).
    destruct (with_cursor _ (c_db c)) as [[x|e] d]; reflexivity.
  - reflexivity.
  - reflexivity.
Qed.
Lemma take_at_ren A B (f : A -> B) i l : take_at i (map f l) =
  match take_at i l with Some (x, r) => Some (f x, map f r) | None => None end.
Proof.
  revert l. induction i as [|i IH]; intros [|x l]; cbn [take_at map]; try reflexivity.
  rewrite IH. destruct (take_at i l) as [[y r]|]; reflexivity.
Qed.
Lemma flights_ren l c : with_flights (map ren_flight l) (ren_ctl c) = ren_ctl (with_flights l c).
Proof. reflexivity. Qed.
Lemma answered_ren i a c : answered G allowed now gen2 i (ren_answer a) (ren_ctl c) = ren_step (answered G allowed now gen1 i a c).
Proof.
  unfold answered. cbn [c_flights ren_ctl]. rewrite take_at_ren. destruct (take_at i (c_flights c)) as [[f r]|]; [|reflexivity].
  fold (ren_ctl c). rewrite flights_ren, settle_ren.
  destruct (settle G allowed now f a (with_flights r c)) as [[b o1] c1]. destruct b; [|reflexivity].
  cbn [f_voucher f_total f_counter ren_flight]. rewrite start_group_ren.
  destruct (start_group _ _ _ _ _ _ c1) as [o2 c2]. unfold ren_step. cbn [fst snd]. now rewrite map_app.
Qed.
Lemma retry_ren vs : forall c, retry_loop G deft now gen2 vs (ren_ctl c) = ren_step (retry_loop G deft now gen1 vs c).
Proof.
  induction vs as [|v vs IH]; intros c; cbn [retry_loop]; [reflexivity|]. cbn [c_active ren_ctl]. fold (ren_ctl c).
  destruct (memZ v _); [apply IH|]. rewrite get_voucher_ren. destruct (get_voucher c v) as [[vo s]|e]; [|reflexivity].
  destruct (should_start_redemption s); [|apply IH]. rewrite redeem_ren.
  destruct (redeem G deft now gen1 v None c) as [o1 c1]. unfold ren_step at 1. cbn [fst snd]. rewrite IH.
  destruct (retry_loop G deft now gen1 vs c1) as [o2 c2]. unfold ren_step. cbn [fst snd]. now rewrite map_app.
Qed.
Lemma check_ren vs : forall c, check_loop G deft now gen2 vs (ren_ctl c) = ren_step (check_loop G deft now gen1 vs c).
Proof.
  induction vs as [|v vs IH]; intros c; cbn [check_loop]; [reflexivity|].
  destruct (should_start_redemption _); [|apply IH]. rewrite redeem_ren.
  destruct (redeem G deft now gen1 _ None c) as [o1 c1]. unfold ren_step at 1. cbn [fst snd]. rewrite IH.
  destruct (check_loop G deft now gen1 vs c1) as [o2 c2]. unfold ren_step. cbn [fst snd]. now rewrite map_app.
Qed.
Lemma killed_ren c : killed (ren_ctl c) = ren_ctl (killed c).
Proof. reflexivity. Qed.
Lemma boot_ren upto c : boot G deft now gen2 upto (ren_ctl c) = ren_step (boot G deft now gen1 upto c).
Proof.
  unfold boot. cbv zeta. rewrite killed_ren. cbn [c_db ren_ctl]. fold (ren_ctl (killed c)).
  rewrite (cursor_ren (c_db (killed c)) list_ren). cbn [fst].
  destruct (fst (with_cursor list_vouchers (c_db (killed c)))) as [vs|e]; cbn [ren_res]; [|reflexivity].
  destruct upto as [n|]; rewrite check_ren; destruct (check_loop _ _ _ _ _ (killed c)) as [o c1]; reflexivity.
Qed.

(** ** The log *)
Lemma log_add_ren asked v k toks d : log_add asked v k (map tau toks) (ren_db d) = log_add asked v k toks d.
Proof.
  unfold log_add. cbn [tokens ren_db]. rewrite filter_map. cbn [t_voucher t_counter].
  destruct (filter _ (tokens d)) as [|r rows]; cbn [map]; [now rewrite lenZ_map|].
  do 2 f_equal. unfold lenZ. cbn [length]. now rewrite map_length.
Qed.
Lemma log_start_group_ren v total k c :
  log_start_group G now gen2 v total k (ren_ctl c) = log_start_group G now gen1 v total k c.
Proof.
  unfold log_start_group. destruct (k >=? G); [reflexivity|]. destruct (token_count_for_group G total k) as [n|e]; [|reflexivity].
  rewrite Hg. cbn [c_db ren_ctl]. rewrite log_add_ren. f_equal.
  rewrite (cursor_ren (c_db c) (add_ren v total k (gen1 v k n) now)).
  destruct (with_cursor (add v total k (gen1 v k n) now) (c_db c)) as [[toks|e] d]; cbn [fst snd ren_res]; [|reflexivity].
  rewrite (cursor_ren d (get_ren v)). cbn [fst]. destruct (fst (with_cursor (get v) d)); reflexivity.
Qed.
Lemma log_redeem_ren v n c : log_redeem G deft now gen2 v n (ren_ctl c) = log_redeem G deft now gen1 v n c.
Proof.
  unfold log_redeem. rewrite get_voucher_ren. destruct (get_voucher c v) as [[vo s]|e].
  - destruct (should_start_redemption s); [|reflexivity]. destruct (start_at_counter s); [|reflexivity].
    now rewrite log_start_group_ren.
  - destruct e; try reflexivity. cbv zeta. now rewrite log_start_group_ren.
Qed.
Lemma log_settle_ren f a c : log_settle G allowed now (ren_flight f) (ren_answer a) (ren_ctl c) = log_settle G allowed now f a c.
Proof.
  unfold log_settle. destruct a as [toks pk| | |e]; cbn [ren_answer ren_flight f_voucher f_counter c_db ren_ctl]; try reflexivity.
  unfold log_insert. rewrite lenZ_map.
  rewrite (cursor_ren (c_db c) (insert_ren (f_voucher f) pk toks (f_counter f + 1 =? G) (memZ pk allowed) now)). cbn [fst].
  destruct (fst (with_cursor _ (c_db c))); reflexivity.
Qed.
Lemma log_answered_ren i a c : log_answered G allowed now gen2 i (ren_answer a) (ren_ctl c) = log_answered G allowed now gen1 i a c.
Proof.
  unfold log_answered. cbn [c_flights ren_ctl]. rewrite take_at_ren. destruct (take_at i (c_flights c)) as [[f r]|]; [|reflexivity].
  fold (ren_ctl c). rewrite flights_ren, log_settle_ren, settle_ren. f_equal.
  destruct (settle G allowed now f a (with_flights r c)) as [[b o1] c1]. destruct b.
  - cbn [f_voucher f_total f_counter ren_flight]. apply log_start_group_ren.
  - destruct o1 as [|[v k t|v k t s|e] [|x o1]]; reflexivity.
Qed.
Lemma log_retry_ren vs : forall c, log_retry_loop G deft now gen2 vs (ren_ctl c) = log_retry_loop G deft now gen1 vs c.
Proof.
  induction vs as [|v vs IH]; intros c; cbn [log_retry_loop]; [reflexivity|]. cbn [c_active ren_ctl]. fold (ren_ctl c).
  destruct (memZ v _); [apply IH|]. rewrite get_voucher_ren. destruct (get_voucher c v) as [[vo s]|e]; [|reflexivity].
  destruct (should_start_redemption s); [|apply IH]. rewrite log_redeem_ren, redeem_ren. unfold ren_step. cbn [snd].
  now rewrite IH.
Qed.
Lemma log_check_ren vs : forall c, log_check_loop G deft now gen2 vs (ren_ctl c) = log_check_loop G deft now gen1 vs c.
Proof.
  induction vs as [|v vs IH]; intros c; cbn [log_check_loop]; [reflexivity|].
  destruct (should_start_redemption _); [|now rewrite IH]. rewrite log_redeem_ren, redeem_ren. unfold ren_step. cbn [snd].
  now rewrite IH.
Qed.
Lemma log_boot_ren upto c : log_boot G deft now gen2 upto (ren_ctl c) = log_boot G deft now gen1 upto c.
Proof.
  unfold log_boot. rewrite killed_ren. cbn [c_db ren_ctl]. fold (ren_ctl (killed c)).
  rewrite (cursor_ren (c_db (killed c)) list_ren). cbn [fst].
  destruct (fst (with_cursor list_vouchers (c_db (killed c)))) as [vs|e]; cbn [ren_res]; [|reflexivity]. apply log_check_ren.
Qed.
Lemma log_wallet_ren o1 o2 d : alike_op tau ups o1 o2 -> log_wallet o2 (ren_db d) = log_wallet o1 d.
Proof.
  intros H. destruct H as [v n k toks now'|v pk toks c s now'|scan1 scan2 n S|toks|r toks|toks|o O]; cbn [log_wallet]; try reflexivity.
  - apply log_add_ren.
  - unfold log_insert. now rewrite lenZ_map.
  - destruct o; try destruct O; reflexivity.
Qed.
End Groups.

Lemma alike_answer_ren a1 a2 : alike_answer ups a1 a2 -> a2 = ren_answer a1.
Proof. destruct 1; reflexivity. Qed.

Section Histories.
Variables G deft : Z.
Variable allowed : list Z.

Lemma controller_step_ren e1 e2 c : alike_timed tau ups e1 e2 ->
  controller_step G deft allowed (ren_ctl c) e2 = ren_step (controller_step G deft allowed c e1) /\
  log_step G deft allowed (ren_ctl c) e2 = log_step G deft allowed c e1.
Proof.
  destruct e1 as [[e1 now1] gen1], e2 as [[e2 now] gen2]. intros (E & -> & Hg). cbn [controller_step log_step].
  destruct E as [v n|i a1 a2 A| | |o1 o2 O|i a1 a2 A|n|n].
  - split; [apply redeem_ren, Hg|]. now rewrite (@log_redeem_ren _ _ _ _ _ Hg).
  - rewrite (alike_answer_ren A). split; [apply answered_ren, Hg|apply log_answered_ren, Hg].
  - unfold retry_redemption. cbn [c_retrying c_error c_unpaid ren_ctl]. fold (ren_ctl c). destruct (c_retrying c); [|split; reflexivity].
    split; [apply retry_ren, Hg|apply log_retry_ren, Hg].
  - split; [apply boot_ren, Hg|apply log_boot_ren, Hg].
  - cbn [c_db ren_ctl]. fold (ren_ctl c). rewrite (step_ren (c_db c) O), (log_wallet_ren (c_db c) O). split; reflexivity.
  - rewrite (alike_answer_ren A). cbn [c_flights ren_ctl]. rewrite take_at_ren. fold (ren_ctl c).
    destruct (take_at i (c_flights c)) as [[f r]|]; [|split; reflexivity].
    rewrite flights_ren, settle_ren, log_settle_ren.
    destruct (settle G allowed now1 f a1 (with_flights r c)) as [[b o1] c1]. split; reflexivity.
  - cbn [c_error c_unpaid ren_ctl]. fold (ren_ctl c). rewrite (@retry_ren _ _ _ _ _ Hg), (@log_retry_ren _ _ _ _ _ Hg).
    destruct (retry_loop _ _ _ _ _ c) as [o c1]. split; reflexivity.
  - split; [apply boot_ren, Hg|apply log_boot_ren, Hg].
Qed.

Theorem run_renamed es1 es2 : Forall2 (alike_timed tau ups) es1 es2 -> forall c,
  controller_run G deft allowed (ren_ctl c) es2 = ren_step (controller_run G deft allowed c es1) /\
  log_run G deft allowed (ren_ctl c) es2 = log_run G deft allowed c es1.
Proof.
  induction 1 as [|e1 e2 es1 es2 A F IH]; intros c; cbn [controller_run log_run]; [split; reflexivity|].
  destruct (@controller_step_ren _ _ c A) as [S L]. rewrite L, S. unfold ren_step.
  destruct (controller_step G deft allowed c e1) as [o1 c1]. cbn [fst snd]. destruct (IH c1) as [R Lr]. rewrite Lr. split; [|reflexivity].
  rewrite R. destruct (controller_run G deft allowed c1 es1) as [o2 c2]. unfold ren_step. cbn [fst snd]. now rewrite map_app.
Qed.
Lemma ren_output_alike o : alike_output tau ups o (ren_output o).
Proof. destruct o; constructor. Qed.
Lemma ren_new : ren_ctl new_node = new_node.
Proof. reflexivity. Qed.
End Histories.
End Rename.
