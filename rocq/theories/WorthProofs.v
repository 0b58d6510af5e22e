(** A node's life as a history of calls to its wallet: lemmas for C141. *)
From Verif Require Import Prelude PreludeFacts BytesModel PassModel CborModel StreamModel JsonModel RedeemModel RedeemSpec RedeemProperties
  StoreModel StoreSpec StoreProofs StoreProperties SpendSpec ControllerModel ControllerSpec ControllerProofs ControllerRunProofs ControllerProperties
  AnswerProperties LossModel LossProofs PaidSpec PurseSpec PurseProperties WorthSpec.
Set Implicit Arguments.

(** ** The calls of a life *)
Definition begins (e : event) : list op := match e with EStart | EKillInStart _ => [ORestart] | _ => [] end.
Definition ends (e : event) : list op := match e with EKillAfterAnswer _ _ | EKillInTimer _ | EKillInStart _ => [ORestart] | _ => [] end.

Section Life.
Variables (groups dflt : Z) (allowed : list Z).
Notation cstep := (controller_step groups dflt allowed).
Notation crun := (controller_run groups dflt allowed).
Notation calls := (controller_calls groups dflt allowed).

Definition event_ops (c : ctl) (te : timed) : list op := begins (fst (fst te)) ++ calls c te ++ ends (fst (fst te)).
Fixpoint life_ops (c : ctl) (es : list timed) : list op :=
  match es with [] => [] | te :: rest => event_ops c te ++ life_ops (snd (cstep c te)) rest end.

Lemma event_ops_db c te : snd (steps (c_db c) (event_ops c te)) = c_db (snd (cstep c te)).
Proof.
  rewrite step_db. unfold event_ops. rewrite !steps_cat.
  assert (B : snd (steps (c_db c) (begins (fst (fst te)))) = begin (fst (fst te)) (c_db c)) by (destruct (fst (fst te)); reflexivity).
  rewrite B. generalize (snd (steps (begin (fst (fst te)) (c_db c)) (calls c te))). intros d. destruct (fst (fst te)); reflexivity.
Qed.
Lemma life_ops_db es : forall c, snd (steps (c_db c) (life_ops c es)) = c_db (snd (crun c es)).
Proof.
  induction es as [|te es IH]; intros c; [reflexivity|]. cbn [life_ops controller_run]. rewrite steps_cat, event_ops_db, IH.
  destruct (cstep c te) as [o c1]. cbn [snd]. now destruct (crun c1 es).
Qed.

(** ** What goes in *)
Definition adds (o : op) : Prop := match o with OAdd _ _ _ _ _ => True | _ => False end.
Lemma group_adds now gen v t k : Forall adds (group_calls groups now gen v t k).
Proof. unfold group_calls. destruct (_ >=? _); [constructor|]. destruct (token_count_for_group _ _ _); constructor; [exact I|constructor]. Qed.
Lemma redeem_adds now gen v n c : Forall adds (redeem_calls groups dflt now gen v n c).
Proof.
  unfold redeem_calls. destruct (get_voucher c v) as [[vo s]|[]]; try constructor; [|apply group_adds].
  destruct (should_start_redemption s); [|constructor]. destruct (start_at_counter s); [apply group_adds|constructor].
Qed.
Lemma retry_adds now gen vs : forall c, Forall adds (retry_calls groups dflt now gen vs c).
Proof.
  induction vs as [|v vs IH]; intros c; [constructor|]. cbn [retry_calls]. destruct (memZ _ _); [apply IH|]. destruct (get_voucher c v) as [[vo s]|e]; [|constructor].
  destruct (should_start_redemption s); [|apply IH]. apply Forall_app. split; [apply redeem_adds|apply IH].
Qed.
Lemma check_adds now gen vs : forall c, Forall adds (check_calls groups dflt now gen vs c).
Proof.
  induction vs as [|v vs IH]; intros c; [constructor|]. cbn [check_calls]. destruct (should_start_redemption _); [|apply IH].
  apply Forall_app. split; [apply redeem_adds|apply IH].
Qed.

(** The answer an event brings, with the request it is for. *)
Definition answer_of (c : ctl) (te : timed) : option (flight * answer) :=
  match fst (fst te) with
  | EAnswer i a | EKillAfterAnswer i a => match nth_error (c_flights c) i with Some f => Some (f, a) | None => None end
  | _ => None
  end.
Lemma nth_take A i : forall (l : list A) x rest, take_at i l = Some (x, rest) -> nth_error l i = Some x.
Proof.
  induction i as [|i IH]; intros [|y l] x rest; cbn; try discriminate; [now intros [= -> _]|].
  destruct (take_at i l) as [[z l']|] eqn:E; [|discriminate]. intros [= <- _]. exact (IH _ _ _ E).
Qed.
Lemma in_adds P o : Forall adds P -> In o P -> adds o.
Proof. rewrite Forall_forall. auto. Qed.

Lemma inserted c te v pk toks cm s now' : proper te -> In (OInsert v pk toks cm s now') (event_ops c te) ->
  exists f, answer_of c te = Some (f, ASuccess toks pk) /\ s = memZ pk allowed.
Proof.
  intros P H. unfold event_ops in H. apply in_app_or in H as [H|H]; [destruct (fst (fst te)); cbn in H; intuition discriminate|].
  apply in_app_or in H as [H|H]; [|destruct (fst (fst te)); cbn in H; intuition discriminate].
  destruct te as [[e now] gen]. unfold answer_of. cbn [fst].
  assert (A : forall on i a, In (OInsert v pk toks cm s now') (answer_calls groups allowed now gen on i a c) ->
    exists f, match nth_error (c_flights c) i with Some f => Some (f, a) | None => None end = Some (f, ASuccess toks pk) /\ s = memZ pk allowed).
  { intros on i a J. unfold answer_calls in J. destruct (take_at i (c_flights c)) as [[f rest]|] eqn:T; [|destruct J]. rewrite (nth_take _ _ T).
    apply in_app_or in J as [J|J].
    - exists f. destruct a as [ts k| | |x]; cbn in J; try contradiction; destruct J as [J|[]]; try discriminate J. injection J as _ -> -> _ <- _. auto.
    - destruct (_ && _); [|destruct J]. destruct (in_adds _ (group_adds _ _ _ _ _) J). }
  destruct e as [v' n|i a| | |o|i a|n|n]; cbn [controller_calls] in H.
  - destruct (in_adds _ (redeem_adds _ _ _ _ _) H).
  - exact (A _ _ _ H).
  - destruct (c_retrying c); [destruct (in_adds _ (retry_adds _ _ _ _) H)|destruct H].
  - unfold boot_calls in H. destruct (fst _); [destruct (in_adds _ (check_adds _ _ _ _) H)|destruct H].
  - destruct H as [->|[]]. destruct P as [[] _].
  - exact (A _ _ _ H).
  - destruct (in_adds _ (retry_adds _ _ _ _) H).
  - unfold boot_calls in H. destruct (fst _); [destruct (in_adds _ (check_adds _ _ _ _) H)|destruct H].
Qed.
Lemma answer_issued c te f toks pk t : answer_of c te = Some (f, ASuccess toks pk) -> In t toks -> issued [te] t pk.
Proof.
  destruct te as [[e now] gen]. unfold answer_of. cbn [fst]. intros E J.
  destruct e as [v' n|i a| | |o|i a|n|n]; try discriminate E; destruct (nth_error (c_flights c) i) as [f'|]; try discriminate E; injection E as -> ->.
  - exists i, toks, now, gen. split; [exact J|]. left. now left.
  - exists i, toks, now, gen. split; [exact J|]. right. now left.
Qed.

(** Every group of tokens that goes in is an answer to a request. *)
Lemma life_inserted v pk toks cm s now' es : forall c, Forall proper es -> In (OInsert v pk toks cm s now') (life_ops c es) ->
  exists es1 te es2 f, es = es1 ++ te :: es2 /\ answer_of (snd (crun c es1)) te = Some (f, ASuccess toks pk) /\ s = memZ pk allowed.
Proof.
  induction es as [|te es IH]; intros c P H; [destruct H|]. inversion P as [|? ? P1 P2]; subst. cbn [life_ops] in H. apply in_app_or in H as [H|H].
  - destruct (inserted c te _ _ _ _ _ _ P1 H) as (f & A & E). exists [], te, es, f. auto.
  - destruct (IH _ P2 H) as (es1 & te' & es2 & f & -> & A & E). exists (te :: es1), te', es2, f. split; [reflexivity|]. split; [|exact E].
    cbn [controller_run]. destruct (cstep c te) as [o c1]. cbn [snd] in A. now destruct (crun c1 es1).
Qed.

Lemma event_fair c te : proper te -> forall o, In o (event_ops c te) -> fair o.
Proof.
  intros P o H. destruct te as [[e now] gen]. unfold event_ops in H. cbn [fst] in H.
  apply in_app_or in H as [H|H]; [destruct e; cbn in H; try contradiction; destruct H as [<-|[]]; exact I|].
  apply in_app_or in H as [H|H]; [|destruct e; cbn in H; try contradiction; destruct H as [<-|[]]; exact I].
  assert (O : (forall w, e <> EWallet w) -> fair o).
  { intros N. apply own_fair. pose proof (calls_own groups dflt allowed c (e, now, gen) N) as O. rewrite Forall_forall in O. exact (O o H). }
  destruct e as [v' n|i a| | |w|i a|n|n]; try (apply O; discriminate).
  cbn in H. destruct H as [<-|[]]. destruct P as [P _]. destruct w; cbn in P |- *; auto; contradiction.
Qed.
Lemma life_fair es : forall c, Forall proper es -> forall o, In o (life_ops c es) -> fair o.
Proof.
  induction es as [|te es IH]; intros c P o H; [destruct H|]. inversion P as [|? ? P1 P2]; subst. cbn [life_ops] in H.
  apply in_app_or in H as [H|H]; [exact (event_fair c te P1 o H)|exact (IH _ P2 o H)].
Qed.

(** ** What was invalid stays away *)
Definition invalidates (o : op) : Prop := match o with OInvalidate _ _ => True | _ => False end.
Lemma fresh_cat os1 : forall banned os2, (forall o, In o os1 -> ~ invalidates o) ->
  (forall v pk toks c s now t, In (OInsert v pk toks c s now) os1 -> In t toks -> ~ In t banned) ->
  fresh_history banned os2 -> fresh_history banned (os1 ++ os2).
Proof.
  induction os1 as [|o os1 IH]; intros banned os2 N Fr H; [exact H|].
  assert (R : fresh_history banned (os1 ++ os2)) by (apply IH; [firstorder|intros; eapply Fr; [right|]; eassumption|exact H]).
  destruct o; cbn [app fresh_history]; try exact R.
  - split; [|exact R]. intros t J. eapply Fr; [now left|exact J].
  - destruct (N _ (or_introl eq_refl) I).
Qed.
Lemma event_invalidates c te o : (forall w, fst (fst te) <> EWallet w) -> In o (event_ops c te) -> ~ invalidates o.
Proof.
  intros N H. unfold event_ops in H. apply in_app_or in H as [H|H]; [destruct (fst (fst te)); cbn in H; try contradiction; destruct H as [<-|[]]; intros []|].
  apply in_app_or in H as [H|H]; [|destruct (fst (fst te)); cbn in H; try contradiction; destruct H as [<-|[]]; intros []].
  pose proof (calls_own groups dflt allowed c te N) as O. rewrite Forall_forall in O. specialize (O o H). destruct o; cbn in *; auto.
Qed.
Lemma never_again_tail te es : never_again (te :: es) -> never_again es.
Proof. intros H es1 reason ts now gen es2 t pk ->. exact (H (te :: es1) reason ts now gen es2 t pk eq_refl). Qed.
Lemma life_fresh es : forall c banned, Forall proper es -> never_again es -> (forall t pk, In t banned -> ~ issued es t pk) ->
  fresh_history banned (life_ops c es).
Proof.
  induction es as [|te es IH]; intros c banned P N B; [exact I|]. inversion P as [|? ? P1 P2]; subst. cbn [life_ops].
  assert (B2 : forall t pk, In t banned -> ~ issued es t pk).
  { intros t pk J X. exact (B t pk J (issued_later [te] X)). }
  assert (Bi : forall v pk toks cm s now t, In (OInsert v pk toks cm s now) (event_ops c te) -> In t toks -> ~ In t banned).
  { intros v pk toks cm s now t J K Hb. destruct (inserted c te _ _ _ _ _ _ P1 J) as (f & A & _).
    exact (B t pk Hb (issued_more es (@answer_issued c te f toks pk t A K))). }
  assert (S : (exists r ts, fst (fst te) = EWallet (OInvalidate r ts)) \/ forall o, In o (event_ops c te) -> ~ invalidates o).
  { destruct te as [[e now] gen]. destruct e as [v' n|i a| | |w|i a|n|n]; try (right; intros o; apply event_invalidates; discriminate).
    destruct w; try solve [right; intros o H; cbn in H; destruct H as [<-|[]]; intros []]. left. cbn. eauto. }
  destruct S as [(r & ts & E)|S].
  - destruct te as [[e now] gen]. cbn [fst] in E. subst e. cbn [event_ops begins ends controller_calls app fst fresh_history].
    change (fresh_history (ts ++ banned) (life_ops (snd (cstep c (EWallet (OInvalidate r ts), now, gen))) es)).
    apply IH; [exact P2|exact (never_again_tail N)|]. intros t pk J. apply in_app_or in J as [J|J]; [|exact (B2 t pk J)].
    exact (N [] r ts now gen es t pk eq_refl J).
  - apply fresh_cat; [exact S|exact Bi|]. apply IH; [exact P2|exact (never_again_tail N)|exact B2].
Qed.
End Life.
