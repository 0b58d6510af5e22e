(** Proofs about requests to the HTTP interface. *)
From Verif Require Import Prelude PreludeFacts BytesModel BytesProofs CborModel StreamModel PricingModel DateModel JsonModel
  HttpModel HttpSpec HttpProofs WebModel WebSpec.
From Verif Require JsonTextProofs PassModel VoucherModel VoucherProofs StoreModel StoreProofs StreamProofs ControllerModel ControllerSpec ControllerProofs ControllerRunProofs.
From Coq Require Strings.String.
Import Coq.Strings.String.StringSyntax.
Set Implicit Arguments.

(** ** Which vouchers the controller knows *)
Section Known.
Import StoreModel StoreProofs ControllerModel ControllerSpec ControllerProofs ControllerRunProofs.

Lemma retry_loop_known groups dflt now gen vs : enough gen -> forall out c o c', inv groups out c ->
  retry_loop groups dflt now gen vs c = (o, c') -> vouchers (c_db c') = vouchers (c_db c).
Proof.
  intros En. induction vs as [|v vs IH]; intros out c o c' J E; cbn [retry_loop] in E.
  - injection E as <- <-. reflexivity.
  - destruct (memZ v (dkeys (c_active c))); [eauto|]. destruct (get_voucher c v) as [[vo s]|e] eqn:G; [|injection E as <- <-; reflexivity].
    destruct (should_start_redemption s); [|eauto].
    destruct (redeem groups dflt now gen v None c) as [o1 c1] eqn:E1.
    destruct (retry_loop groups dflt now gen vs c1) as [o2 c2] eqn:E2. injection E as <- <-.
    assert (K : In v (known c)).
    { destruct (known_dec c v) as [(r & Hr & <-)|N]; [now apply in_map|]. now rewrite get_voucher_unknown in G. }
    destruct (@redeem_again _ _ _ _ _ _ _ _ _ _ J K E1) as [V _]. rewrite <- V.
    exact (IH _ _ _ _ (@redeem_inv _ _ _ _ _ _ _ _ _ _ En J E1) E2).
Qed.

Lemma check_loop_known groups dflt now gen vs : enough gen -> forall out c o c', inv groups out c ->
  incl (map number vs) (known c) ->
  check_loop groups dflt now gen vs c = (o, c') -> vouchers (c_db c') = vouchers (c_db c).
Proof.
  intros En. induction vs as [|v vs IH]; intros out c o c' J I E; cbn [check_loop] in E.
  - injection E as <- <-. reflexivity.
  - assert (I' : incl (map number vs) (known c)) by (intros x X; apply I; right; exact X).
    destruct (should_start_redemption _); [|eauto].
    destruct (redeem groups dflt now gen (number v) None c) as [o1 c1] eqn:E1.
    destruct (check_loop groups dflt now gen vs c1) as [o2 c2] eqn:E2. injection E as <- <-.
    destruct (@redeem_again _ _ _ _ _ _ _ _ _ _ J (I _ (or_introl eq_refl)) E1) as [V _]. rewrite <- V.
    refine (IH _ _ _ _ (@redeem_inv _ _ _ _ _ _ _ _ _ _ En J E1) _ E2). unfold known. now rewrite V.
Qed.

Lemma boot_known groups dflt now gen upto out c o c' : enough gen -> inv groups out c ->
  boot groups dflt now gen upto c = (o, c') -> vouchers (c_db c') = vouchers (c_db c).
Proof.
  intros En J E. pose proof (inv_killed J) as J0. unfold boot in E. rewrite (list_all J0) in E.
  assert (I : forall n, incl (map number (firstn n (map shown (vouchers (c_db (killed c)))))) (known (killed c))).
  { intros n x X. apply in_map_iff in X as (y & <- & X). assert (X' : In y (map shown (vouchers (c_db (killed c))))).
    { rewrite <- (firstn_skipn n). apply in_or_app. now left. }
    apply in_map_iff in X' as (r & <- & X'). apply in_map_iff. exists r. auto. }
  destruct upto as [n|].
  - destruct (check_loop groups dflt now gen _ (killed c)) as [o1 c1] eqn:E1. injection E as <- <-.
    exact (@check_loop_known _ _ _ _ _ En _ _ _ _ J0 (I n) E1).
  - destruct (check_loop groups dflt now gen _ (killed c)) as [o1 c1] eqn:E1. injection E as <- <-.
    specialize (I (length (map shown (vouchers (c_db (killed c)))))). rewrite firstn_all in I.
    exact (@check_loop_known _ _ _ _ _ En _ _ _ _ J0 I E1).
Qed.

Lemma settled_known groups allowed now f c a go o c' : settled groups allowed now f c a go o c' -> incl (known c') (known c).
Proof.
  intros S x X. unfold known in *.
  destruct S as [a e0 u ? ? ? ? ? ? ? ? ?|toks pk r0 d ? ? ? ? ? Ed|r0 ? ? ?]; cbn [c_db with_flights] in *; [exact X| |].
  - rewrite Ed in X. cbn [vouchers] in X. apply in_map_iff in X as (r1 & <- & X). apply upd_voucher_origin in X; [|auto].
    destruct X as (r2 & I2 & N2 & _). rewrite <- N2. now apply in_map.
  - cbn [vouchers set_vouchers] in X. apply in_map_iff in X as (r1 & <- & X). apply upd_voucher_origin in X; [|auto].
    destruct X as (r2 & I2 & N2 & _). rewrite <- N2. now apply in_map.
Qed.

Lemma start_known groups now gen v total counter c o c' out : inv groups out c -> startable v total c -> In v (known c) ->
  start_group groups now gen v total counter c = (o, c') -> vouchers (c_db c') = vouchers (c_db c).
Proof.
  intros J S K E. pose proof (@start_group_spec _ _ _ _ _ _ _ _ _ _ J S E) as St.
  destruct St as [Ge|e Lt X|k toks d B1 B2 Hd Hk]; try reflexivity.
  cbn. destruct Hd as [(F & -> & ->)|(F & N & D & _ & ->)]; [reflexivity|].
  unfold with_voucher. destruct (memZ_spec v (map v_number (vouchers (c_db c)))); [reflexivity|contradiction].
Qed.

Lemma answered_known groups allowed now gen out i a c o c' : enough gen -> inv groups out c ->
  answered groups allowed now gen i a c = (o, c') -> incl (known c') (known c).
Proof.
  intros En J E. unfold answered in E. destruct (take_at i (c_flights c)) as [[f rest]|] eqn:T; [|injection E as <- <-; apply incl_refl].
  destruct (settle groups allowed now f a (with_flights rest c)) as [[go o1] c1] eqn:E1.
  destruct (@settle_at groups allowed now out i a c f rest go o1 c1 J T E1) as (a0 & b0 & Fl & Er & Nth & S).
  pose proof (@settled_known _ _ _ _ _ _ _ _ _ S) as K.
  destruct go; [|injection E as <- <-; exact K].
  destruct (start_group groups now gen _ _ _ c1) as [o2 c2] eqn:E2. injection E as <- <-.
  destruct (@inv_settled _ _ _ _ _ _ _ _ _ _ _ _ J Fl S) as (J1 & No & St). specialize (St eq_refl).
  destruct (Z_lt_ge_dec (f_counter f + 1) groups) as [Lt|Ge].
  - specialize (St Lt). assert (Kf : In (f_voucher f) (known c1)).
    { assert (If : In f (c_flights c)) by (rewrite Fl; apply in_or_app; right; left; reflexivity).
      destruct (i_flight J f If) as (_ & _ & _ & r & Hr & Nr & _). rewrite <- Nr.
      inversion S as [| toks pk r0 d H1 H2 H3 H4 H5 Ed |]; subst. unfold known. cbn [c_db]. rewrite Ed. cbn [vouchers].
      rewrite upd_voucher_numbers by reflexivity. now apply in_map. }
    unfold known at 1. rewrite (@start_known _ _ _ _ _ _ _ _ _ _ J1 St Kf E2). exact K.
  - unfold start_group in E2. destruct (Z.geb_spec (f_counter f + 1) groups); [|lia]. injection E2 as <- <-. exact K.
Qed.

(** Only submitting one makes a voucher known. *)
Lemma step_known groups dflt allowed out c e now gen o c' : proper (e, now, gen) -> (forall v n, e <> ESubmit v n) ->
  inv groups out c -> controller_step groups dflt allowed c (e, now, gen) = (o, c') -> incl (known c') (known c).
Proof.
  intros P NS J E. assert (En : enough gen) by (destruct e; try exact P; apply P).
  cbn [controller_step] in E. destruct e as [v n|i a| | |w|i a|n|n].
  - exfalso. eapply NS. reflexivity.
  - eapply answered_known; eauto.
  - unfold retry_redemption in E. destruct (c_retrying c); [|injection E as <- <-; apply incl_refl].
    unfold known at 1. rewrite (@retry_loop_known _ _ _ _ _ En _ _ _ _ J E). apply incl_refl.
  - unfold known at 1. rewrite (@boot_known _ _ _ _ _ _ _ _ _ En J E). apply incl_refl.
  - injection E as <- <-. unfold known. cbn [c_db with_db]. destruct P as [P _]. destruct (@wallet_keeps _ _ (i_wf J) P) as [-> _]. apply incl_refl.
  - destruct (take_at i (c_flights c)) as [[f rest]|] eqn:T; [|injection E as <- <-; apply incl_refl].
    destruct (settle groups allowed now f a (with_flights rest c)) as [[go o1] c1] eqn:E1. injection E as <- <-.
    destruct (@settle_at groups allowed now out i a c f rest go o1 c1 J T E1) as (a0 & b0 & Fl & Er & Nth & S).
    exact (@settled_known _ _ _ _ _ _ _ _ _ S).
  - destruct (retry_loop groups dflt now gen _ c) as [o1 c1] eqn:E1. injection E as <- <-.
    unfold known at 1. change (vouchers (c_db (killed c1))) with (vouchers (c_db c1)).
    rewrite (@retry_loop_known _ _ _ _ _ En _ _ _ _ J E1). apply incl_refl.
  - unfold known at 1. rewrite (@boot_known _ _ _ _ _ _ _ _ _ En J E). apply incl_refl.
Qed.

Lemma redeem_known groups dflt now gen out v n c o c' : inv groups out c -> redeem groups dflt now gen v n c = (o, c') ->
  incl (known c') (v :: known c).
Proof.
  intros J E. destruct (known_dec c v) as [(r & Hr & <-)|N].
  - destruct (@redeem_again _ _ _ _ _ _ _ _ _ _ J (in_map v_number _ _ Hr) E) as [V _]. unfold known. rewrite V. apply incl_tl, incl_refl.
  - destruct (@redeem_spec _ _ _ _ _ _ _ _ _ _ J E) as [_ R S|r Hr Nr Rp R S|r fin Hr Nr Rp R S|r fin x Hr Nr Rp -> ->|r s Hr Nr Rp X -> ->];
      try (exfalso; apply N; rewrite <- Nr; now apply in_map).
    destruct S as [Ge|e Lt X|k toks d B1 B2 Hd Hk]; try (apply incl_tl, incl_refl).
    unfold known. cbn. destruct Hd as [(F & -> & ->)|(F & N' & D & _ & ->)]; [apply incl_tl, incl_refl|].
    unfold with_voucher. destruct (memZ_spec v (map v_number (vouchers (c_db c)))); [contradiction|]. cbn. rewrite map_app.
    intros x X. apply in_app_or in X as [X|[<-|[]]]; [right; exact X|left; reflexivity].
Qed.

(** A voucher that is submitted is known, if the number of tokens to ask for suffices for the
    groups. *)
Lemma redeem_makes_known groups dflt now gen out v c o c' : inv groups out c -> fresh_tokens gen (c_db c) ->
  1 <= groups <= dflt -> redeem groups dflt now gen v None c = (o, c') -> In v (known c').
Proof.
  intros J (En & Nd & Fr & _) G E. destruct (known_dec c v) as [(r & Hr & <-)|N].
  - destruct (@redeem_again _ _ _ _ _ _ _ _ _ _ J (in_map v_number _ _ Hr) E) as [V _]. unfold known. rewrite V. now apply in_map.
  - destruct (@redeem_spec _ _ _ _ _ _ _ _ _ _ J E) as [_ R S|r Hr Nr Rp R S|r fin Hr Nr Rp R S|r fin x Hr Nr Rp -> ->|r s Hr Nr Rp X -> ->];
      try (exfalso; apply N; rewrite <- Nr; now apply in_map).
    destruct S as [Ge|e Lt X|k toks d B1 B2 Hd Hk]; [lia| |].
    + exfalso. destruct X as (_ & n & Hn & X); [lia|lia|]. apply X. split; [apply Nd|]. intros t I I'. exact (Fr _ _ _ _ I I').
    + unfold known. cbn. destruct Hd as [(F & -> & ->)|(F & N' & D & _ & ->)].
      * exfalso. apply N. eapply group_rows_known; [apply J|exact F].
      * unfold with_voucher. destruct (memZ_spec v (map v_number (vouchers (c_db c)))); [contradiction|]. cbn. rewrite map_app.
        apply in_or_app. right. left. reflexivity.
Qed.

(** Without enough tokens to ask for, no voucher ever becomes known. *)
Lemma redeem_too_few groups dflt now gen out v c o c' : inv groups out c -> dflt < groups ->
  redeem groups dflt now gen v None c = (o, c') -> incl (known c') (known c).
Proof.
  intros J G E. destruct (known_dec c v) as [(r & Hr & <-)|N].
  - destruct (@redeem_again _ _ _ _ _ _ _ _ _ _ J (in_map v_number _ _ Hr) E) as [V _]. unfold known. rewrite V. apply incl_refl.
  - destruct (@redeem_spec _ _ _ _ _ _ _ _ _ _ J E) as [_ R S|r Hr Nr Rp R S|r fin Hr Nr Rp R S|r fin x Hr Nr Rp -> ->|r s Hr Nr Rp X -> ->];
      try (exfalso; apply N; rewrite <- Nr; now apply in_map).
    destruct S as [Ge|e Lt X|k toks d B1 B2 Hd Hk]; try apply incl_refl. lia.
Qed.
End Known.

(** ** Requests *)
Lemma carries_authorized secret req : secret <> [] -> authorized secret (r_authorization req) = true <-> carries secret req.
Proof. intros N. apply authorized_spec, N. Qed.

Lemma number_ascii b : voucher_number b -> VoucherSpec.all_ascii b.
Proof.
  intros (_ & data & pad & E & Us & P) c I.
  assert (I' : In (bz c) (data ++ pad)) by (rewrite <- E; now apply in_map).
  apply in_app_or in I' as [I'|I']; [apply Us in I'; unfold urlsafe in I'; lia|]. destruct P as [-> | [-> | ->]]; cbn in I'; intuition lia.
Qed.

Lemma list_writable F max_digits (js : list (json F)) : Forall (fun j => JsonProofs.writable max_digits j /\ JsonProofs.depth_of j = 2%nat) js ->
  JsonProofs.writable max_digits (JObj [(str "vouchers", JArr js)]) /\ (JsonProofs.depth_of (JObj [(str "vouchers", JArr js)]) <= 4)%nat.
Proof.
  intros H. split.
  - apply VoucherProofs.writable_object; [vm_compute; reflexivity|]. intros kv [<-|[]]. cbn [snd]. apply JsonProofs.writable_arr.
    eapply Forall_impl; [|exact H]. now intros j [? _].
  - assert (X : (JsonProofs.depth_of (JArr js) <= 3)%nat).
    { cbn. induction H as [|j js [_ D] _ IH]; [lia|]. cbn in *. rewrite D. lia. }
    cbn [JsonProofs.depth_of snd]. cbn [JsonProofs.depth_of] in X. lia.
Qed.

Lemma count_spent groups out c : ControllerProofs.inv groups out c ->
  can_spend (ControllerModel.c_db c) (lenZ (StoreModel.available (ControllerModel.c_db c))).
Proof.
  intros J. split; [unfold lenZ; lia|]. intros scan m P Hm. destruct (Z.leb_spec m (lenZ (StoreModel.available (ControllerModel.c_db c)))) as [L|L].
  - destruct (@StoreProofs.extract_success scan m _ (ControllerProofs.i_wf J) P ltac:(lia) L) as (toks & E & N & _ & Le & _).
    exists toks. rewrite E. split; [reflexivity|]. split; [exact N|]. apply Le. lia.
  - apply StoreProofs.extract_failure; [exact P|]. right. lia.
Qed.

Lemma latest_max l : match StoreModel.latest l with
  | None => l = []
  | Some x => In x l /\ forall y, In y l -> snd y <= snd x
  end.
Proof.
  induction l as [|a l IH]; [reflexivity|]. cbn. destruct (StoreModel.latest l) as [y|].
  - destruct IH as [I M]. destruct (Z.gtb_spec (snd y) (snd a)) as [L|L].
    + split; [now right|]. intros z [<-|Z0]; [lia|auto].
    + split; [now left|]. intros z [<-|Z0]; [lia|]. apply M in Z0. lia.
  - subst. split; [now left|]. intros z [<-|[]]. lia.
Qed.

Section Web.
Import ControllerModel ControllerSpec ControllerProofs ControllerRunProofs.
Variable F : Type.
Variable float_of : text -> F.
Variable float_repr : F -> text.
Variable is_one : F -> bool.
Variable max_digits : nat.
Variable decode : bytes -> option text.
Variable depth : nat.
Variable utf8 : bytes -> option text.
Variable secret : bytes.
Variable version : text.
Variables needed total pass_value period : Z.
Variable code : bytes -> Z.
Variable name : Z -> bytes.
Variable time : Z -> stamp.
Variable words : Z -> text.
Variables groups dflt : Z.
Variable allowed : list Z.
Notation handle := (handle float_of float_repr is_one max_digits decode depth utf8 secret version needed total pass_value period code name time words).
Notation render := (render float_of float_repr is_one max_digits decode depth version needed total pass_value period name time words).
Notation find := (find F utf8 code name time words).
Notation web_step := (web_step float_of float_repr is_one max_digits decode depth utf8 secret version needed total pass_value period code name time words groups dflt allowed).
Notation web_run := (web_run float_of float_repr is_one max_digits decode depth utf8 secret version needed total pass_value period code name time words groups dflt allowed).
Notation submits := (submits float_of max_digits decode depth secret).

Lemma handle_out c req : ~ carries secret req -> secret <> [] -> handle c req = (Now (Response 401 []), None).
Proof.
  intros N S. unfold WebModel.handle. destruct (authorized secret (r_authorization req)) eqn:A; [|reflexivity].
  apply carries_authorized in A; [contradiction|exact S].
Qed.
Lemma handle_in c req : carries secret req -> secret <> [] ->
  handle c req = match find c (r_path req) with None => (Now Crash, None) | Some r => render c r req end.
Proof. intros C S. unfold WebModel.handle. apply carries_authorized in C; [|exact S]. now rewrite C. Qed.

Lemma find_vouchers c path : find c path = Some Vouchers <-> path = vouchers_path.
Proof.
  unfold vouchers_path. split; [|intros ->; reflexivity].
  destruct path as [|s rest]; [discriminate|]. unfold WebModel.find.
  unfold root_child. repeat match goal with |- context [bytes_eqb s ?l] => destruct (bytes_eqb_spec s l) as [->|] end;
    try (destruct rest; discriminate); try discriminate.
  destruct rest as [|s' rest]; [reflexivity|]. unfold voucher_child.
  destruct (utf8 s') as [t|]; [|discriminate]. destruct (is_syntactic_voucher (JStr t : json F)); [|discriminate].
  destruct (VoucherModel.encode_ascii t) as [b|]; [|discriminate].
  destruct (get_voucher c (code b)) as [[v st]|[]]; try discriminate. destruct rest; discriminate.
Qed.

Lemma handle_submits c req b : secret <> [] ->
  ((exists a, handle c req = (a, Some (SubmitVoucher b))) <-> submits req b).
Proof.
  intros S. unfold WebSpec.submits, asks. rewrite <- JsonTextProofs.loads_iff. split.
  - intros (a & E). unfold WebModel.handle in E. destruct (authorized secret (r_authorization req)) eqn:A; [|discriminate].
    apply carries_authorized in A; [|exact S]. destruct (find c (r_path req)) as [r|] eqn:Fd; [|discriminate].
    unfold WebModel.render in E.
    assert (X : r = Vouchers /\ r_method req = PUT /\ put_voucher float_of max_digits decode depth (r_body req) = Ok (Redeem b)).
    { destruct r; repeat match goal with H : context [bytes_eqb (r_method req) ?l] |- _ => destruct (bytes_eqb_spec (r_method req) l) end; try discriminate.
      destruct (put_voucher float_of max_digits decode depth (r_body req)) as [[v|]|]; try discriminate. injection E as _ ->. auto. }
    destruct X as (-> & M & P). apply find_vouchers in Fd. split; [split; [exact A|]; split; [exact M|exact Fd]|].
    destruct (put_spec float_of max_digits decode depth (r_body req)) as [(b' & Eb & L & _ & Sy)|(Eb & _)]; rewrite Eb in P; [|discriminate].
    injection P as ->. apply syntactic_spec in Sy. split; [exact Sy|exact L].
  - intros ((C & M & P) & V & L). exists (Now (Response 200 [])). rewrite handle_in by assumption.
    apply (find_vouchers c) in P. rewrite P. unfold WebModel.render. rewrite M. cbn.
    destruct (put_spec float_of max_digits decode depth (r_body req)) as [(b' & Eb & L' & _ & Sy)|(Eb & N)].
    + rewrite L in L'. injection L' as X. apply StreamProofs.ascii_inj in X. rewrite Eb, X. reflexivity.
    + apply N in L. apply (syntactic_spec F) in V. congruence.
Qed.

(** ** Histories *)
Lemma web_step_controller c te : ordinary te -> exists ces out, Forall proper ces /\
  controller_run groups dflt allowed c ces = (out, snd (web_step c te)).
Proof.
  destruct te as [[e now] gen]. intros O. unfold WebModel.web_step. destruct e as [req|e].
  - destruct (handle c req) as [a [[v| |]|]]; cbn [snd]; try (exists [], []; split; [constructor|reflexivity]).
    exists [(ESubmit (code v) None, now, gen)]. destruct (redeem groups dflt now gen (code v) None c) as [o c'] eqn:E.
    exists (o ++ []). split; [repeat constructor; exact O|]. cbn [controller_run controller_step snd]. rewrite E. reflexivity.
  - cbn [snd]. exists [(e, now, gen)]. destruct (controller_step groups dflt allowed c (e, now, gen)) as [o c'] eqn:E.
    exists (o ++ []). split; [|cbn [controller_run snd]; rewrite E; reflexivity].
    repeat constructor. destruct e; try exact O. destruct O.
Qed.

Lemma web_run_cons c te es : snd (web_run c (te :: es)) = snd (web_run (snd (web_step c te)) es).
Proof. cbn [WebModel.web_run]. destruct (web_step c te) as [a c1]. cbn [snd]. destruct (web_run c1 es). reflexivity. Qed.
Lemma web_run_app es : forall c es', snd (web_run c (es ++ es')) = snd (web_run (snd (web_run c es)) es').
Proof.
  induction es as [|te es IH]; intros c es'; [reflexivity|]. cbn [app]. rewrite !web_run_cons. apply IH.
Qed.

Lemma controller_run_app es : forall c es' o1 c1 o2 c2, controller_run groups dflt allowed c es = (o1, c1) ->
  controller_run groups dflt allowed c1 es' = (o2, c2) -> controller_run groups dflt allowed c (es ++ es') = (o1 ++ o2, c2).
Proof.
  induction es as [|te es IH]; intros c es' o1 c1 o2 c2 E1 E2; cbn [controller_run app] in *; [injection E1 as <- <-; exact E2|].
  destruct (controller_step groups dflt allowed c te) as [oa ca]. destruct (controller_run groups dflt allowed ca es) as [ob cb] eqn:Eb.
  injection E1 as <- <-. rewrite (IH ca es' ob cb o2 c2 Eb E2), app_assoc. reflexivity.
Qed.

Lemma web_run_controller es : Forall ordinary es -> forall c, exists ces out, Forall proper ces /\
  controller_run groups dflt allowed c ces = (out, snd (web_run c es)).
Proof.
  induction 1 as [|te es O _ IH]; intros c; [exists [], []; split; [constructor|reflexivity]|].
  rewrite web_run_cons. destruct (@web_step_controller c te O) as (ces1 & o1 & P1 & E1).
  destruct (IH (snd (web_step c te))) as (ces2 & o2 & P2 & E2). exists (ces1 ++ ces2), (o1 ++ o2).
  split; [apply Forall_app; auto|]. eapply controller_run_app; eassumption.
Qed.

Notation life := (life web_run).

Lemma life_lived es c : life es c -> exists ces out, lived groups dflt allowed ces out c.
Proof.
  intros [O <-]. destruct (web_run_controller O new_node) as (ces & out & P & E). exists ces, out. split; [exact P|exact E].
Qed.
Lemma life_inv es c : life es c -> exists out, inv groups out c.
Proof. intros L. destruct (life_lived L) as (ces & out & V). exists out. exact (lived_inv V). Qed.

Lemma life_app es es' c : life (es ++ es') c -> exists c0, life es c0 /\ Forall ordinary es' /\ c = snd (web_run c0 es').
Proof.
  intros [O E]. apply Forall_app in O as [O1 O2]. exists (snd (web_run new_node es)). rewrite web_run_app in E. repeat split; auto.
Qed.

Lemma step_known_web es c te : secret <> [] -> life es c -> ordinary te -> forall x, In x (known (snd (web_step c te))) ->
  In x (known c) \/ exists req now gen b, te = (Http req, now, gen) /\ submits req b /\ x = code b.
Proof.
  intros S L O x X. destruct (life_inv L) as (out & J). destruct te as [[e now] gen]. unfold WebModel.web_step in X. destruct e as [req|e].
  - destruct (handle c req) as [a [[v| |]|]] eqn:H; cbn [snd] in X; auto.
    destruct (redeem groups dflt now gen (code v) None c) as [o c'] eqn:E. cbn [snd] in X.
    apply (@redeem_known _ _ _ _ _ _ _ _ _ _ J E) in X as [<-|X]; [right|left; exact X].
    exists req, now, gen, v. split; [reflexivity|]. split; [|reflexivity]. apply (handle_submits c req v S). eauto.
  - left. cbn [snd] in X. destruct (controller_step groups dflt allowed c (e, now, gen)) as [o c'] eqn:E. cbn [snd] in X.
    refine (@step_known _ _ _ _ _ e now gen _ _ _ _ J E x X); [destruct e; try exact O; destruct O|intros v n ->; destruct O].
Qed.

Lemma life_known es c : secret <> [] -> life es c -> forall x, In x (known c) ->
  exists req now gen b, In (Http req, now, gen) es /\ submits req b /\ x = code b.
Proof.
  intros S. revert c. induction es as [|te es IH] using rev_ind; intros c L x X.
  - destruct L as [_ <-]. destruct X.
  - destruct (life_app _ _ L) as (c0 & L0 & O & ->). inversion O as [|? ? O1 _]; subst.
    rewrite web_run_cons in X. cbn [WebModel.web_run snd] in X.
    destruct (@step_known_web es c0 te S L0 O1 x X) as [K|(req & now & gen & b & -> & Sb & ->)].
    + destruct (IH c0 L0 x K) as (req & now & gen & b & I & R). exists req, now, gen, b. split; [apply in_or_app; now left|exact R].
    + exists req, now, gen, b. split; [apply in_or_app; right; left; reflexivity|auto].
Qed.

Lemma known_stays es es' c c' : life es c -> Forall ordinary es' -> c' = snd (web_run c es') -> incl (known c) (known c').
Proof.
  intros L O -> x X. destruct (life_inv L) as (out & J). destruct (web_run_controller O c) as (ces & o & P & E).
  apply in_map_iff in X as (r & <- & Hr). destruct (@run_later _ _ _ _ P _ _ _ _ J E r Hr) as (r' & Hr' & (N & _) & _).
  rewrite <- N. now apply in_map.
Qed.

Lemma submitted_is_known es req now gen es' c b : secret <> [] -> 1 <= groups <= dflt ->
  life (es ++ (Http req, now, gen) :: es') c -> submits req b ->
  fresh_tokens gen (c_db (snd (web_run new_node es))) -> In (code b) (known c).
Proof.
  intros S G L Sb Fr. destruct (life_app _ _ L) as (c0 & L0 & O & ->). inversion O as [|? ? O1 O2]; subst.
  rewrite web_run_cons. assert (L1 : life (es ++ [(Http req, now, gen)]) (snd (web_step c0 (Http req, now, gen)))).
  { destruct L0 as [O0 E0]. split; [apply Forall_app; auto|]. rewrite web_run_app, E0, web_run_cons. reflexivity. }
  apply (@known_stays _ es' _ _ L1 O2 eq_refl). destruct (life_inv L0) as (out & J). destruct L0 as [_ E0]. rewrite E0 in Fr.
  unfold WebModel.web_step. destruct (proj2 (handle_submits c0 req b S) Sb) as (a & ->). cbn [snd].
  destruct (redeem groups dflt now gen (code b) None c0) as [o c'] eqn:E. cbn [snd]. eapply redeem_makes_known; eauto.
Qed.

Lemma too_few_none es c : secret <> [] -> dflt < groups -> life es c -> StoreModel.vouchers (c_db c) = [].
Proof.
  intros S G L. cut (known c = []); [apply map_eq_nil|]. revert c L. induction es as [|te es IH] using rev_ind; intros c L.
  - destruct L as [_ <-]. reflexivity.
  - destruct (life_app _ _ L) as (c0 & L0 & O & ->). inversion O as [|? ? O1 _]; subst. specialize (IH c0 L0).
    rewrite web_run_cons. cbn [WebModel.web_run snd]. destruct (life_inv L0) as (out & J).
    assert (I : incl (known (snd (web_step c0 te))) (known c0)).
    { destruct te as [[e now] gen]. unfold WebModel.web_step. destruct e as [req|e].
      - destruct (handle c0 req) as [a [[v| |]|]]; cbn [snd]; try apply incl_refl.
        destruct (redeem groups dflt now gen (code v) None c0) as [o c'] eqn:E. cbn [snd]. eapply redeem_too_few; eauto.
      - cbn [snd]. destruct (controller_step groups dflt allowed c0 (e, now, gen)) as [o c'] eqn:E. cbn [snd].
        refine (@step_known _ _ _ _ _ e now gen _ _ _ _ J E); [destruct e; try exact O1; destruct O1|intros v n ->; destruct O1]. }
    rewrite IH in I. destruct (known (snd (web_step c0 te))) as [|x l]; [reflexivity|]. destruct (I x (or_introl eq_refl)).
Qed.

(** ** Pages *)
Definition row_voucher (c : ctl) (r : StoreModel.voucher_row) : VoucherModel.voucher :=
  shown_voucher name time words (shown r) (incorporate_transient_state c (shown r)).

Lemma row_json out c r b : inv groups out c -> row c r -> name (StoreModel.v_number r) = b -> voucher_number b ->
  exists j, VoucherModel.to_json_v1 F (row_voucher c r) = Ok j /\ tells time words c r b j.
Proof using Type.
  intros J Hr N V. destruct (@get_voucher_spec _ _ _ _ J Hr) as (s & G & R).
  assert (E : incorporate_transient_state c (shown r) = s).
  { unfold get_voucher in G. destruct (fst (StoreModel.with_cursor (StoreModel.get (StoreModel.v_number r)) (c_db c))) as [vo|e]; [|discriminate].
    injection G as <- G. exact G. }
  unfold row_voucher. rewrite E. unfold VoucherModel.to_json_v1, shown_voucher. cbn [VoucherModel.number StoreModel.number shown].
  rewrite N, (VoucherProofs.decode_ascii_ok (number_ascii V)). cbn [VoucherModel.or_err bind].
  eexists. split; [reflexivity|]. exists s. unfold VoucherModel.isoformat.
  destruct s; eexists; (split; [exact R|]); (split; [reflexivity|reflexivity]).
Qed.

Lemma known_row c x : In x (known c) -> exists r, row c r /\ StoreModel.v_number r = x.
Proof using Type. intros I. apply in_map_iff in I as (r & <- & Hr). eauto. Qed.

Hypothesis utf8_ascii : forall b, VoucherSpec.all_ascii b -> utf8 b = Some (ascii b).

Lemma find_voucher c b : voucher_number b ->
  find c (voucher_path b) =
  match get_voucher c (code b) with
  | Ok (v, st) => Some (OneVoucher (shown_voucher name time words v st))
  | Err StoreModel.KeyError => Some (Error_ 404)
  | Err _ => None
  end.
Proof using Type utf8_ascii.
  intros V. pose proof (number_ascii V) as A. unfold voucher_path. cbn [WebModel.find].
  change (root_child (PassModel.ascii "voucher")) with (Some Vouchers). cbv iota. unfold voucher_child.
  rewrite (utf8_ascii A). pose proof V as S. apply (syntactic_spec F) in S. rewrite S, (VoucherProofs.encode_ascii_ok A).
  destruct (get_voucher c (code b)) as [[v st]|[]]; reflexivity.
Qed.

Lemma page_known out c req r b : secret <> [] -> inv groups out c -> row c r -> StoreModel.v_number r = code b -> voucher_number b ->
  WebSpec.asks secret GET (voucher_path b) req ->
  handle c req = (Now (match VoucherModel.to_json_v1 F (row_voucher c r) with Ok j => Response 200 (dumps_utf8 float_repr j) | Err _ => Crash end), None).
Proof using Type utf8_ascii.
  intros S J Hr N V (C & M & P). rewrite handle_in by assumption. rewrite P, (find_voucher c V).
  destruct (@get_voucher_spec _ _ _ _ J Hr) as (s & G & R). rewrite <- N, G. unfold WebModel.render. rewrite M. cbn [get_of].
  rewrite bytes_eqb_refl. unfold json_or_crash, ok_json. unfold get_voucher in G.
  destruct (fst (StoreModel.with_cursor (StoreModel.get (StoreModel.v_number r)) (c_db c))) as [vo|e]; [|discriminate].
  injection G as -> <-. reflexivity.
Qed.

Lemma page_unknown c req b : secret <> [] -> ~ In (code b) (known c) -> voucher_number b -> WebSpec.asks secret GET (voucher_path b) req ->
  handle c req = (Now (Response 404 []), None).
Proof using Type utf8_ascii.
  intros S N V (C & M & P). rewrite handle_in by assumption. rewrite P, (find_voucher c V), (@get_voucher_unknown c _ N). reflexivity.
Qed.

Lemma list_page out c req : secret <> [] -> inv groups out c -> WebSpec.asks secret GET vouchers_path req ->
  (forall r, row c r -> voucher_number (name (StoreModel.v_number r))) ->
  exists js, handle c req = (Now (Response 200 (dumps_utf8 float_repr (JObj [(str "vouchers", JArr js)]))), None) /\
    Forall2 (fun r j => VoucherModel.to_json_v1 F (row_voucher c r) = Ok j) (StoreModel.vouchers (c_db c)) js.
Proof using Type.
  intros S J (C & M & P) V. rewrite handle_in by assumption. rewrite (proj2 (find_vouchers c _) P). unfold WebModel.render. rewrite M.
  rewrite bytes_eqb_refl. cbn [get_of]. unfold voucher_list. rewrite (list_all J).
  assert (X : forall l, incl l (StoreModel.vouchers (c_db c)) -> exists js,
    StoreModel.map_res (fun v => VoucherModel.to_json_v1 F (shown_voucher name time words v (incorporate_transient_state c v))) (map shown l) = Ok js /\
    Forall2 (fun r j => VoucherModel.to_json_v1 F (row_voucher c r) = Ok j) l js).
  { induction l as [|r l IH]; intros I; [exists []; split; [reflexivity|constructor]|].
    destruct IH as (js & E & Fa); [intros x X; apply I; right; exact X|].
    assert (Hr : row c r) by (apply I; left; reflexivity).
    destruct (@row_json out c r _ J Hr eq_refl (V r Hr)) as (j & Ej & _). exists (j :: js). split; [|constructor; assumption].
    cbn [map StoreModel.map_res]. unfold row_voucher in Ej. rewrite Ej, E. reflexivity. }
  destruct (X _ (incl_refl _)) as (js & E & Fa). exists js. rewrite E. split; [reflexivity|exact Fa].
Qed.

Lemma row_writable out c r j : (1 <= max_digits)%nat -> inv groups out c -> writable_rows max_digits words c -> row c r ->
  voucher_number (name (StoreModel.v_number r)) -> VoucherModel.to_json_v1 F (row_voucher c r) = Ok j -> JsonProofs.writable max_digits j /\ JsonProofs.depth_of j = 2%nat.
Proof using Type.
  intros Md J W Hr V. destruct (@get_voucher_spec _ _ _ _ J Hr) as (s & G & R).
  assert (E : incorporate_transient_state c (shown r) = s).
  { unfold get_voucher in G. destruct (fst (StoreModel.with_cursor (StoreModel.get (StoreModel.v_number r)) (c_db c))) as [vo|e]; [|discriminate].
    injection G as <- G. exact G. }
  destruct (W r s Hr R) as [X Y]. refine (@VoucherProofs.voucher_writable _ _ Md _ _ _ _ _); unfold row_voucher; rewrite E.
  - split; [exact X|]. cbn. destruct s; try exact I; exact Y.
  - unfold VoucherSpec.plain_details. cbn. destruct s; try exact I; exact Y.
  - exact (number_ascii V).
Qed.

(** ** The report *)
Lemma report_page out c req : secret <> [] -> inv groups out c -> WebSpec.asks secret GET maintenance_path req ->
  exists n j, handle c req = (Now (Response 200 (dumps_utf8 float_repr (JObj [(str "total", JInt n); (str "spending", j)]))), None) /\
    can_spend (c_db c) n /\ last_run time (c_db c) j.
Proof using Type.
  intros S J (C & M & P). rewrite handle_in by assumption. rewrite P. change (find c maintenance_path) with (Some Maintenance).
  cbv iota. unfold WebModel.render. rewrite M. rewrite bytes_eqb_refl. cbn [get_of]. unfold maintenance_report.
  pose proof (StoreProofs.step_count (c_db c)) as Cn. unfold StoreModel.step in Cn. cbn [StoreModel.op_prog] in Cn.
  rewrite StoreProofs.with_cursor_pmap in Cn.
  destruct (StoreModel.with_cursor StoreModel.count_unblinded_tokens (c_db c)) as [[n|e] d1]; cbn [fst] in *; [|discriminate].
  injection Cn as -> _. unfold StoreModel.with_cursor, StoreModel.get_latest_lease_maintenance_activity. cbn [StoreModel.run fst].
  set (l := flat_map _ _). pose proof (latest_max l) as L.
  assert (X : forall st n f, In (st, n, f) l <-> exists m, In m (StoreModel.maint (c_db c)) /\ StoreModel.m_started m = st /\ StoreModel.m_count m = n /\ StoreModel.m_finished m = Some f).
  { intros st n f. unfold l. rewrite in_flat_map. split.
    - intros (m & I & H). exists m. destruct (StoreModel.m_finished m) as [g|]; [|destruct H]. destruct H as [H|[]]. injection H as <- <- <-. auto.
    - intros (m & I & <- & <- & E). exists m. rewrite E. split; [exact I|left; reflexivity]. }
  destruct (StoreModel.latest l) as [[[st n] f]|].
  - do 2 eexists. split; [reflexivity|]. split; [eapply count_spent; exact J|]. right. destruct L as [I Mx]. apply X in I as (m & I & <- & <- & E).
    exists m, f. split; [exact I|]. split; [exact E|]. split; [|reflexivity]. intros m' f' I' E'.
    apply (Mx (StoreModel.m_started m', StoreModel.m_count m', f')). apply X. exists m'. auto.
  - do 2 eexists. split; [reflexivity|]. split; [eapply count_spent; exact J|]. left. split; [reflexivity|].
    intros m I. destruct (StoreModel.m_finished m) as [f|] eqn:E; [|reflexivity].
    assert (H : In (StoreModel.m_started m, StoreModel.m_count m, f) l) by (apply X; exists m; auto). rewrite L in H. destruct H.
Qed.

(** ** Without the token *)
Lemma web_run_combine c te es :
  combine (te :: es) (fst (web_run c (te :: es))) = (te, fst (web_step c te)) :: combine es (fst (web_run (snd (web_step c te)) es)).
Proof using Type. cbn [WebModel.web_run]. destruct (web_step c te) as [a c1]. cbn [fst snd]. destruct (web_run c1 es). reflexivity. Qed.

Lemma outsiders es : secret <> [] -> forall c, exists es',
  (forall te, In te es' <-> In te es /\ match te with (Http req, _, _) => carries secret req | _ => True end) /\
  snd (web_run c es') = snd (web_run c es) /\
  sifted secret (combine es (fst (web_run c es))) (combine es' (fst (web_run c es'))).
Proof using Type.
  intros S. induction es as [|te es IH]; intros c.
  - exists []. split; [cbn; tauto|]. split; [reflexivity|constructor].
  - assert (D : (match te with (Http req, _, _) => carries secret req | _ => True end) \/ exists req now gen, te = (Http req, now, gen) /\ ~ carries secret req).
    { destruct te as [[[req|e] now] gen]; [|left; exact I]. destruct (authorized secret (r_authorization req)) eqn:A.
      - left. now apply carries_authorized.
      - right. exists req, now, gen. split; [reflexivity|]. intros C. apply carries_authorized in C; [congruence|exact S]. }
    destruct D as [D|(req & now & gen & -> & N)].
    + destruct (IH (snd (web_step c te))) as (es' & M & E & Si). exists (te :: es'). split; [|split].
      * intros x. cbn [In]. rewrite M. split; [intros [<-|[I X]]; auto|intros [[<-|I] X]; auto].
      * rewrite !web_run_cons. exact E.
      * rewrite !web_run_combine. constructor. exact Si.
    + assert (H : web_step c (Http req, now, gen) = (Some (Now (Response 401 [])), c)).
      { unfold WebModel.web_step. rewrite handle_out by assumption. reflexivity. }
      destruct (IH c) as (es' & M & E & Si). exists es'. split; [|split].
      * intros x. rewrite M. cbn [In]. split; [intros [I X]; auto|intros [[<-|I] X]; [contradiction|auto]].
      * rewrite web_run_cons, H. exact E.
      * rewrite web_run_combine, H. cbn [fst snd]. constructor; assumption.
Qed.
End Web.
