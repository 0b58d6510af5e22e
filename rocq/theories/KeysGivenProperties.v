(** C143 (continued) None of the tokens that arrive is left out: each is stored, to be spent
    just if its key is allowed on the day. *)
From Verif Require Import Prelude StoreModel StoreSpec StoreProofs StoreProperties ControllerModel ControllerSpec ControllerProofs ControllerRunProofs ControllerProperties AnswerProperties LossModel LossProofs PurseSpec PurseProperties KeysSpec KeysProperties WorthKeptSpec WorthKeptProperties.
Import StoreModel ControllerModel.
Set Implicit Arguments.

Section Life.
Variable groups : Z.
Notation live := (living groups new_node).
Notation did := (done groups new_node).

Lemma settled_stored allowed now out c i f rest toks pk go o c1 : inv groups out c -> take_at i (c_flights c) = Some (f, rest) ->
  NoDup toks -> disjoint toks (map u_token (unblinded (c_db c))) ->
  settle groups allowed now f (ASuccess toks pk) (with_flights rest c) = (go, o, c1) ->
  forall t, In t toks -> stored (c_db c1) (memZ pk allowed) t.
Proof.
  intros J T Nd Dj E1 t Ht.
  destruct (@settle_at groups allowed now out i _ c f rest go o c1 J T E1) as (a0 & b0 & Fl & Er & _ & S).
  destruct (flight_row _ _ _ _ _ _ J Fl) as (r0 & Hr0 & Nr0 & Pr0).
  pose proof (settle_works _ _ _ _ _ _ _ _ _ _ _ _ (i_wf J) Hr0 Nr0 Nd Dj E1) as ->.
  inversion S as [|? ? r d Hr Nr Pr Nd' Dj' Ed|]; subst o c1. subst. cbn [with_flights c_db] in *.
  cbv zeta in Ed. rewrite Ed. eexists _, _, _.
  cbn [unblinded StoreModel.groups set_tokens set_unblinded set_vouchers set_groups]. split; apply in_or_app; right; [|left; reflexivity].
  apply in_map_iff. eexists. split; [reflexivity|exact Ht].
Qed.

(** The tokens that come with an answer to an open request are all stored, if none of them
    came before: to be spent if the key is allowed at that moment, else set aside. *)
Theorem C143_nothing_given_is_left_out : forall h n allowed te toks pk, proper_life (h ++ [((n, allowed), te)]) ->
  brings (live h) te toks pk -> NoDup toks -> (forall t s, In t toks -> ~ stored (c_db (live h)) s t) ->
  forall t, In t toks ->
    (In pk allowed -> stored (c_db (live (h ++ [((n, allowed), te)]))) true t) /\
    (~ In pk allowed -> stored (c_db (live (h ++ [((n, allowed), te)]))) false t).
Proof.
  intros h n allowed te toks pk F (i & f & now & gen & N & He) Nd Fr t Ht.
  assert (X : stored (c_db (live (h ++ [((n, allowed), te)]))) (memZ pk allowed) t).
  2: { destruct (memZ_spec pk allowed); split; intros; tauto || exact X. }
  apply Forall_app in F as [F _]. pose proof (@life_inv groups h F) as J.
  assert (Dj : disjoint toks (map u_token (unblinded (c_db (live h))))).
  { intros t' Ht' Hu. apply in_map_iff in Hu as ([t0 g] & E & Hu). cbn in E. subst t0.
    pose proof (wf_group_known (i_wf J) _ Hu) as Hg. cbn in Hg. apply in_map_iff in Hg as ([g' v k s] & E & Hg). cbn in E. subst g'.
    apply (Fr t' s Ht'). exists g, v, k. auto. }
  rewrite living_app. cbn [living fst snd]. destruct (@take_at_nth _ _ _ _ N) as [rest T].
  destruct (settle groups allowed now f (ASuccess toks pk) (with_flights rest (live h))) as [[go o1] c1] eqn:E1.
  pose proof (@settled_stored _ _ _ _ _ _ _ _ _ _ _ _ J T Nd Dj E1 _ Ht) as S1.
  destruct He as [-> | ->]; cbn [controller_step].
  - unfold answered. rewrite T, E1.
    destruct (@settle_at groups allowed now _ i _ _ f rest go o1 c1 J T E1) as (a0 & b0 & Fl & Er & _ & S).
    destruct (@inv_settled _ _ _ _ _ _ _ _ _ _ _ _ J Fl S) as (J1 & No & St). destruct go; [|exact S1].
    destruct (start_group groups now gen (f_voucher f) (f_total f) (f_counter f + 1) c1) as [o2 c2] eqn:E2. cbn [snd].
    assert (Same : unblinded (c_db c2) = unblinded (c_db c1) /\ StoreModel.groups (c_db c2) = StoreModel.groups (c_db c1)).
    { destruct (Z_lt_ge_dec (f_counter f + 1) groups) as [Lt|Ge].
      - pose proof (@start_group_spec _ _ _ _ _ _ _ _ _ _ J1 (St eq_refl Lt) E2) as Sg.
        inversion Sg as [|? ? ?|k tk d2 ? ? Q ?]; subst o2 c2; auto. destruct Q as [(_ & _ & ->)|(_ & _ & _ & _ & ->)]; [auto|].
        cbn [c_db with_flights with_active with_db unblinded StoreModel.groups set_tokens]. unfold with_voucher. destruct (memZ (f_voucher f) (map v_number (vouchers (c_db c1)))); auto.
      - unfold start_group in E2. destruct (Z.geb_spec (f_counter f + 1) groups); [|lia]. injection E2 as <- <-. auto. }
    apply (@stored_same (c_db c1) _ _ _ (proj1 Same) (proj2 Same)). exact S1.
  - rewrite T, E1. cbn [snd c_db]. exact S1.
Qed.
End Life.
Print Assumptions C143_nothing_given_is_left_out.

(** The first life of the example above: the key 55 is not allowed when 11 and 12 arrive;
    had it been, they might be spent. *)
Example C143_example_given : let h := firstn 2 ky_first in let te := (EAnswer 0 (ASuccess [11; 12] 55), 3, ky_tokens 300) in
  brings (living 1 new_node h) te [11; 12] 55 /\ (forall t s, ~ stored (c_db (living 1 new_node h)) s t) /\
  stored (c_db (living 1 new_node (h ++ [((2, []), te)]))) false 12 /\
  stored (c_db (living 1 new_node (h ++ [((2, [55]), te)]))) true 12.
Proof.
  cbv zeta. split; [|split; [|split]].
  - eexists 0%nat, _, 3, _. split; [vm_compute; reflexivity|]. left. reflexivity.
  - intros t s (g & v & pk & [] & _).
  - exists 1, 7, 55. split; vm_compute; auto.
  - exists 1, 7, 55. split; vm_compute; auto.
Qed.
