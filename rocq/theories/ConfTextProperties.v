(** Generated configurations: C118. *)
From Verif Require Import Prelude BytesModel CborModel CborProofs StreamModel ConfTextModel ConfTextSpec ConfTextProofs.
From Coq Require Strings.String.
Import Coq.Strings.String.StringSyntax.

(** * C118: a generated configuration says what it was generated from *)

(** The text can be read, and what Tahoe reads as the value of an option is what the last
    dictionary with that section gives; so, if no section is given twice, exactly what was
    given.  Missing: that the items of a section given in several dictionaries are merged. *)
Theorem C118_generated_configuration_reads_back_partial : forall cs, Forall proper cs ->
  exists c, read_string (config_string_from_sections cs) = Ok c /\
  forall s k v, section_name s -> option_name k ->
  (get_config c s k = Ok v <-> last_section cs s k v) /\
  (disjoint cs -> get_config c s k = Ok v <-> merged cs s k v).
Proof.
  intros cs F. assert (P := merge_proper F). exists (quoted (merge_dictionaries cs)). split; [exact (read_config P)|].
  intros s k v (_ & _ & _ & NS) (_ & _ & K & _).
  assert (E : get_config (quoted (merge_dictionaries cs)) s k = Ok v <-> last_section cs s k v).
  { rewrite <- (merge_gives s k v F), (config_get (c := merge_dictionaries cs) k P NS).
    rewrite (lower_id k) by (intros c I; apply (K c I)).
    split.
    - destruct (get s (merge_dictionaries cs)) as [d|] eqn:G; [|discriminate]. destruct (get k d) as [v'|] eqn:G'; [|discriminate].
      intros [= ->]. exists d. split; apply get_in; assumption.
    - intros (d & I & J). destruct (proj2 P s d I) as (_ & D & _).
      assert (G1 : get s (merge_dictionaries cs) = Some d) by (apply in_get; [apply P|exact I]).
      assert (G2 : get k d = Some v) by (apply in_get; assumption). rewrite G1, G2. reflexivity. }
  split; [exact E|]. intros D. rewrite E. now apply last_section_merged.
Qed.
Print Assumptions C118_generated_configuration_reads_back_partial.

(** Two dictionaries for one section: the first one is lost, although the documentation of the
    function says that the items are merged. *)
Definition cx_first : sections := [(str "client", [(str "introducer.furl", str "pb://x"); (str "shares.needed", str "1")])].
Definition cx_second : sections := [(str "client", [(str "storage.plugins", str "privatestorageio-zkapauthz-v2")])].
Lemma cx_proper : Forall proper [cx_first; cx_second].
Proof. constructor; [|constructor; [|apply Forall_nil]]; apply properb_spec; reflexivity. Qed.

Theorem C118_generated_configuration_reads_back_refuted :
  exists cs s k v, Forall proper cs /\ section_name s /\ option_name k /\ merged cs s k v /\
  exists c, read_string (config_string_from_sections cs) = Ok c /\ get_config c s k = Err NoOption.
Proof.
  exists [cx_first; cx_second], (str "client"), (str "shares.needed"), (str "1").
  split; [exact cx_proper|]. split; [repeat split; cbn; intuition discriminate|].
  split; [apply (proj2 (proj2 (proj2 (properb_spec cx_first eq_refl) (str "client") _ (or_introl eq_refl))) _ _ (or_intror (or_introl eq_refl)))|].
  split.
  - exists [], cx_first, [cx_second]. split; [reflexivity|]. split.
    + eexists. split; [left; reflexivity|]. right. left. reflexivity.
    + intros c' v' [<-|[]] (d & [[= <-]|[]] & [E|[]]). discriminate.
  - vm_compute. eexists. split; reflexivity.
Qed.
Print Assumptions C118_generated_configuration_reads_back_refuted.

(** Two sections, a value with percent signs and an empty value. *)
Definition cx_plain : list sections :=
  [[(str "node", [(str "nickname", str "100% = all; #1"); (str "web.port", [])])]; cx_second; [(str "empty", [])]].
Example C118_example_text : config_string_from_sections cx_plain =
  str "[node]" ++ 10 :: str "nickname = 100%% = all; #1" ++ 10 :: str "web.port = " ++ 10 ::
  str "[client]" ++ 10 :: str "storage.plugins = privatestorageio-zkapauthz-v2" ++ 10 ::
  str "[empty]" ++ [10; 10].
Proof. reflexivity. Qed.
Lemma cx_disjoint : disjoint cx_plain.
Proof.
  intros l1 c1 l2 c2 l3 s E (d1 & M1) (d2 & M2). unfold cx_plain in E.
  assert (ND : NoDup (flat_map (fun c : sections => map fst c) cx_plain)) by (vm_compute; repeat constructor; cbn; intuition discriminate).
  unfold cx_plain in ND. rewrite E in ND. rewrite flat_map_app in ND. cbn [flat_map] in ND. rewrite flat_map_app in ND. cbn [flat_map] in ND.
  assert (Dr : forall l l' : list text, NoDup (l ++ l') -> NoDup l') by (induction l; cbn; [auto|]; intros l' H; apply NoDup_cons_iff in H as [_ H]; auto).
  apply Dr in ND.
  assert (I1 : In s (map fst c1)) by (change s with (fst (s, d1)); now apply in_map).
  assert (I2 : In s (map fst c2)) by (change s with (fst (s, d2)); now apply in_map).
  apply in_split in I1 as (x & y & Ex). rewrite Ex, <- app_assoc in ND. cbn [app] in ND. apply NoDup_remove_2 in ND. apply ND.
  rewrite !in_app_iff. auto 10.
Qed.
Example C118_example : Forall proper cx_plain /\ disjoint cx_plain /\
  merged cx_plain (str "node") (str "nickname") (str "100% = all; #1") /\
  exists c, read_string (config_string_from_sections cx_plain) = Ok c /\
  get_config c (str "node") (str "nickname") = Ok (str "100% = all; #1") /\ get_config c (str "node") (str "web.port") = Ok [].
Proof.
  split.
  { constructor; [|constructor; [|constructor; [|apply Forall_nil]]]; apply properb_spec; reflexivity. }
  split; [exact cx_disjoint|]. split.
  { eexists [], _, [cx_second; [(str "empty", [])]]. split; [reflexivity|]. split.
    - eexists. split; [left; reflexivity|left; reflexivity].
    - intros c' v' [<-|[<-|[]]] (d & [[= E F]|[]] & I). }
  vm_compute. eexists. repeat split; reflexivity.
Qed.
