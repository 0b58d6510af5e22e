From Verif Require Import Prelude BytesModel CborModel CborProofs StreamModel ConfTextModel ConfTextSpec.
From Coq Require Strings.String.
Import Coq.Strings.String.StringSyntax.
Set Implicit Arguments.

(** * Dictionaries *)
Lemma get_put_same {V} k (v : V) d : get k (put k v d) = Some v.
Proof.
  induction d as [|[k' v'] d IH]; cbn; [now rewrite text_eqb_refl|].
  destruct (text_eqb_spec k k') as [<-|N]; cbn; [now rewrite text_eqb_refl|].
  destruct (text_eqb_spec k k'); [congruence|exact IH].
Qed.
Lemma get_put_other {V} k k' (v : V) d : k <> k' -> get k (put k' v d) = get k d.
Proof.
  intros N. induction d as [|[a b] d IH]; cbn; [destruct (text_eqb_spec k k'); [congruence|reflexivity]|].
  destruct (text_eqb_spec k' a) as [<-|M]; cbn.
  - destruct (text_eqb_spec k k'); [congruence|reflexivity].
  - destruct (text_eqb_spec k a); [reflexivity|exact IH].
Qed.
Lemma put_keys {V} k (v : V) d x : In x (map fst (put k v d)) <-> x = k \/ In x (map fst d).
Proof.
  induction d as [|[a b] d IH]; cbn; [intuition auto|].
  destruct (text_eqb_spec k a) as [<-|M]; cbn; [intuition auto|]. rewrite IH. intuition auto.
Qed.
Lemma put_dict {V} k (v : V) d : is_dict d -> is_dict (put k v d).
Proof.
  unfold is_dict. induction d as [|[a b] d IH]; cbn; intros D; [constructor; [auto|constructor]|].
  apply NoDup_cons_iff in D as [A D].
  destruct (text_eqb_spec k a) as [<-|M]; cbn; constructor; auto.
  rewrite put_keys. intros [E|E]; [congruence|contradiction].
Qed.
Lemma put_in {V} k (v : V) d x : In x (put k v d) -> x = (k, v) \/ In x d.
Proof.
  induction d as [|[a b] d IH]; cbn; [intuition auto|].
  destruct (text_eqb_spec k a) as [<-|M]; cbn; intuition auto.
Qed.
Lemma get_in {V} k (v : V) d : get k d = Some v -> In (k, v) d.
Proof.
  induction d as [|[a b] d IH]; cbn; [discriminate|].
  destruct (text_eqb_spec k a) as [<-|M]; [intros [= ->]; auto|auto].
Qed.
Lemma in_get {V} k (v : V) d : is_dict d -> In (k, v) d -> get k d = Some v.
Proof.
  unfold is_dict. induction d as [|[a b] d IH]; cbn; [contradiction|].
  intros D [[= -> ->]|I]; [now rewrite text_eqb_refl|].
  apply NoDup_cons_iff in D as [A D].
  destruct (text_eqb_spec k a) as [<-|M]; [|auto].
  exfalso. apply A. change k with (fst (k, v)). now apply in_map.
Qed.
Lemma get_none {V} k (d : list (text * V)) : get k d = None <-> ~ In k (map fst d).
Proof.
  induction d as [|[a b] d IH]; cbn; [intuition auto|].
  destruct (text_eqb_spec k a) as [<-|M]; [intuition congruence|]. rewrite IH. intuition congruence.
Qed.
Lemma put_new {V} k (v : V) d : ~ In k (map fst d) -> put k v d = d ++ [(k, v)].
Proof.
  induction d as [|[a b] d IH]; cbn; [auto|]. intros N.
  destruct (text_eqb_spec k a) as [<-|M]; [exfalso; auto|]. now rewrite IH; auto.
Qed.
Lemma put_last {V} k (v w : V) d : ~ In k (map fst d) -> put k v (d ++ [(k, w)]) = d ++ [(k, v)].
Proof.
  induction d as [|[a b] d IH]; cbn; [intros _; now rewrite text_eqb_refl|]. intros N.
  destruct (text_eqb_spec k a) as [<-|M]; [exfalso; auto|]. now rewrite IH; auto.
Qed.
Lemma get_last {V} k (w : V) d : ~ In k (map fst d) -> get k (d ++ [(k, w)]) = Some w.
Proof.
  induction d as [|[a b] d IH]; cbn; [intros _; now rewrite text_eqb_refl|]. intros N.
  destruct (text_eqb_spec k a) as [<-|M]; [exfalso; auto|]. auto.
Qed.

(** * Merging *)
Lemma update_get {V} (r d : list (text * V)) k : is_dict d ->
  get k (update r d) = match get k d with Some v => Some v | None => get k r end.
Proof.
  unfold update, is_dict. revert r. induction d as [|[a b] d IH]; intros r D; cbn; [reflexivity|].
  cbn in D. apply NoDup_cons_iff in D as [A D]. rewrite IH; auto.
  destruct (text_eqb_spec k a) as [->|N].
  - rewrite (proj2 (get_none a d)); auto. apply get_put_same.
  - destruct (get k d); [reflexivity|]. now apply get_put_other.
Qed.
Lemma update_dict {V} (r d : list (text * V)) : is_dict r -> is_dict (update r d).
Proof. unfold update. revert r. induction d as [|[a b] d IH]; cbn; intros r D; auto. apply IH, put_dict, D. Qed.
Lemma update_in {V} (r d : list (text * V)) x : In x (update r d) -> In x r \/ In x d.
Proof.
  unfold update. revert r. induction d as [|[a b] d IH]; cbn; intros r I; auto.
  apply IH in I as [I|I]; auto. apply put_in in I as [->|I]; auto.
Qed.

Lemma merge_snoc {V} (cs : list (list (text * V))) c : merge_dictionaries (cs ++ [c]) = update (merge_dictionaries cs) c.
Proof. unfold merge_dictionaries. now rewrite fold_left_app. Qed.
Lemma merge_dict {V} (cs : list (list (text * V))) : is_dict (merge_dictionaries cs).
Proof.
  induction cs as [|c cs IH] using rev_ind; [constructor|]. rewrite merge_snoc. now apply update_dict.
Qed.
Lemma merge_in {V} (cs : list (list (text * V))) x : In x (merge_dictionaries cs) -> exists c, In c cs /\ In x c.
Proof.
  induction cs as [|c cs IH] using rev_ind; [contradiction|]. rewrite merge_snoc. intros I.
  apply update_in in I as [I|I].
  - destruct (IH I) as (c' & A & B). exists c'. split; [apply in_or_app; auto|exact B].
  - exists c. split; [apply in_or_app; right; left; reflexivity|exact I].
Qed.
Lemma merge_proper (cs : list sections) : Forall proper cs -> proper (merge_dictionaries cs).
Proof.
  intros F. split; [apply merge_dict|]. intros s d I. apply merge_in in I as (c & A & B).
  rewrite Forall_forall in F. exact (proj2 (F c A) s d B).
Qed.
Lemma mentions_get (c : sections) s : is_dict c -> mentions c s <-> exists d, get s c = Some d.
Proof.
  intros D. split; intros [d I]; exists d; [now apply in_get|now apply get_in].
Qed.
Lemma snoc_inv {A} (l : list A) x b y a : l ++ [x] = b ++ y :: a ->
  (a = [] /\ b = l /\ y = x) \/ exists a', a = a' ++ [x] /\ l = b ++ y :: a'.
Proof.
  destruct a as [|z a'] using rev_ind.
  - intros E. apply app_inj_tail in E as [-> ->]. auto.
  - clear IHa'. intros E. right. exists a'.
    replace (b ++ y :: a' ++ [z]) with ((b ++ y :: a') ++ [z]) in E by (rewrite <- app_assoc; reflexivity).
    apply app_inj_tail in E as [-> ->]. auto.
Qed.
Lemma merge_gives (cs : list sections) s k v : Forall proper cs ->
  gives (merge_dictionaries cs) s k v <-> last_section cs s k v.
Proof.
  induction cs as [|c cs IH] using rev_ind; intros F.
  - split; [intros (d & [] & _)|]. intros (b & c & a & E & _). destruct b; discriminate.
  - apply Forall_app in F as [F Fc]. apply Forall_cons_iff in Fc as [Pc _]. specialize (IH F).
    assert (Sn : merge_dictionaries (cs ++ [c]) = update (merge_dictionaries cs) c) by exact (@merge_snoc (list (text * text)) cs c). rewrite Sn. clear Sn.
    assert (U : forall d, In (s, d) (update (merge_dictionaries cs) c) <->
                 match get s c with Some d' => d = d' | None => In (s, d) (merge_dictionaries cs) end).
    { intros d. split; intros I.
      - apply in_get in I; [|apply update_dict, merge_dict]. rewrite update_get in I; [|apply Pc].
        destruct (get s c); [now injection I|now apply get_in].
      - apply get_in. rewrite update_get; [|apply Pc]. destruct (get s c); [now subst|]. apply in_get; [apply merge_dict|exact I]. }
    destruct (get s c) as [d'|] eqn:G.
    + split.
      * intros (d & I & J). apply U in I as ->. exists cs, c, []. split; [reflexivity|]. split; [|intros ? []].
        exists d'. split; [now apply get_in|exact J].
      * intros (b & c' & a & E & Gv & N). apply snoc_inv in E as [(-> & -> & ->)|(a' & -> & ->)].
        -- destruct Gv as (d & I & J). exists d. split; [|exact J]. apply U. apply in_get in I; [|apply Pc]. congruence.
        -- exfalso. apply (N c); [apply in_or_app; right; left; reflexivity|]. exists d'. now apply get_in.
    + split.
      * intros (d & I & J). apply U in I.
        destruct (proj1 IH) as (b & c' & a & -> & Gv & N); [exists d; auto|].
        exists b, c', (a ++ [c]). split; [now rewrite <- app_assoc|]. split; [exact Gv|].
        intros c'' I'. apply in_app_or in I' as [I'|[<-|[]]]; [auto|]. intros [d' I'']. apply in_get in I''; [congruence|apply Pc].
      * intros (b & c' & a & E & Gv & N). apply snoc_inv in E as [(-> & -> & ->)|(a' & -> & ->)].
        -- destruct Gv as (d & I & J). apply in_get in I; [congruence|apply Pc].
        -- destruct (proj2 IH) as (d & I & J).
           { exists b, c', a'. split; [reflexivity|]. split; [exact Gv|]. intros c'' I. apply N, in_or_app. auto. }
           exists d. split; [now apply U|exact J].
Qed.
Lemma last_section_merged (cs : list sections) s k v : disjoint cs -> last_section cs s k v <-> merged cs s k v.
Proof.
  intros D. split; intros (b & c & a & E & G & N); exists b, c, a; (split; [exact E|split; [exact G|]]).
  - intros c' v' I (d & J & _). apply (N c' I). exists d. exact J.
  - intros c' I M. apply in_split in I as (a1 & a2 & ->).
    destruct G as (d & I1 & I2). exact (D b c a1 c' a2 s E (ex_intro _ d I1) M).
Qed.

(** * Texts *)
Lemma blank_spaces c : blank c = true <-> In c spaces.
Proof.
  unfold blank, spaces. rewrite !orb_true_iff, !andb_true_iff, !Z.leb_le, !Z.eqb_eq. cbn [In]. lia.
Qed.
Lemma not_blank c : ~ In c spaces -> blank c = false.
Proof. intros N. destruct (blank c) eqn:E; [|reflexivity]. exfalso. apply N, blank_spaces, E. Qed.
Lemma ltrim_nb c s : blank c = false -> ltrim (c :: s) = c :: s.
Proof. intros B. cbn. now rewrite B. Qed.
Lemma rtrim_nb s c : blank c = false -> rtrim (s ++ [c]) = s ++ [c].
Proof. intros B. unfold rtrim. rewrite rev_app_distr. cbn [rev app]. rewrite ltrim_nb by exact B. cbn [rev]. now rewrite rev_involutive. Qed.
Lemma rtrim_b s c : blank c = true -> rtrim (s ++ [c]) = rtrim s.
Proof. intros B. unfold rtrim. rewrite rev_app_distr. cbn [rev app ltrim]. now rewrite B. Qed.
Lemma tight_head c s : tight (c :: s) -> blank c = false.
Proof. intros T. apply not_blank, T. now left. Qed.
Lemma tight_last s c : tight (s ++ [c]) -> blank c = false.
Proof. intros T. apply not_blank, T. right. now rewrite rev_app_distr. Qed.
Lemma rtrim_tight s : tight s -> rtrim s = s.
Proof.
  intros T. destruct s as [|c s] using rev_ind; [reflexivity|]. clear IHs. apply rtrim_nb, (tight_last _ _ T).
Qed.
Lemma ltrim_tight s : tight s -> ltrim s = s.
Proof. intros T. destruct s as [|c s]; [reflexivity|]. apply ltrim_nb, (tight_head T). Qed.

Lemma quote_app a b : tahoe_config_quote (a ++ b) = tahoe_config_quote a ++ tahoe_config_quote b.
Proof. apply flat_map_app. Qed.
Lemma quote_head c : exists r, (if c =? 37 then [37; 37] else [c]) = c :: r.
Proof. destruct (Z.eqb_spec c 37) as [->|]; eexists; reflexivity. Qed.
Lemma quote_last c : exists r, (if c =? 37 then [37; 37] else [c]) = r ++ [c].
Proof. destruct (Z.eqb_spec c 37) as [->|]; [exists [37]|exists []]; reflexivity. Qed.
Lemma quote_tight v : tight v -> tight (tahoe_config_quote v).
Proof.
  intros T c [H|H].
  - destruct v as [|d v]; [discriminate|]. cbn [tahoe_config_quote flat_map] in H.
    destruct (quote_head d) as [r E]. rewrite E in H. injection H as <-. apply T. now left.
  - destruct v as [|d v] using rev_ind; [discriminate|]. clear IHv.
    rewrite quote_app in H. cbn [tahoe_config_quote flat_map] in H. destruct (quote_last d) as [r E].
    rewrite E, app_nil_r, app_assoc, rev_app_distr in H. injection H as <-. apply T. right. now rewrite rev_app_distr.
Qed.
Lemma quote_in v c : In c (tahoe_config_quote v) -> In c v.
Proof.
  unfold tahoe_config_quote. rewrite in_flat_map. intros (d & A & B).
  destruct (Z.eqb_spec d 37) as [->|]; cbn in B; intuition (subst; auto).
Qed.
Lemma interpolate_quote v : interpolate (tahoe_config_quote v) = Some v.
Proof.
  induction v as [|c v IH]; [reflexivity|]. cbn [tahoe_config_quote flat_map]. fold (tahoe_config_quote v).
  destruct (Z.eqb_spec c 37) as [->|N]; cbn [app interpolate].
  - cbn [Z.eqb]. now rewrite IH.
  - destruct (Z.eqb_spec c 37); [contradiction|]. now rewrite IH.
Qed.

Lemma lines_from_line x : ~ In 10 x -> forall cur r, lines_from cur (x ++ 10 :: r) = (cur ++ x) :: lines_from [] r.
Proof.
  induction x as [|c x IH]; intros N cur r; cbn [app lines_from].
  - now rewrite app_nil_r.
  - destruct (Z.eqb_spec c 10) as [->|]; [exfalso; apply N; now left|].
    rewrite IH by (intros I; apply N; now right). now rewrite <- app_assoc.
Qed.
Lemma lines_line x r : ~ In 10 x -> lines (x ++ 10 :: r) = x :: lines r.
Proof. intros N. exact (@lines_from_line x N [] r). Qed.
Lemma lines_joined l r : l <> [] -> (forall x, In x l -> ~ In 10 x) -> lines (joined_lines l ++ 10 :: r) = l ++ lines r.
Proof.
  induction l as [|x l IH]; intros E N; [contradiction|]. destruct l as [|y l].
  - cbn [joined_lines app]. apply lines_line, N. now left.
  - cbn [joined_lines]. rewrite <- app_assoc. cbn [app]. rewrite lines_line by (apply N; now left).
    change ((x :: y :: l) ++ lines r) with (x :: ((y :: l) ++ lines r)). f_equal. apply IH; [discriminate|].
    intros z I. apply N. now right.
Qed.

(** * The lines of a section *)
Definition section_lines (s : text * list (text * text)) : list text :=
  (91 :: fst s ++ [93]) :: match snd s with [] => [[]] | l => map item_text l end.
Lemma str_eq : str " = " = [32; 61; 32].
Proof. reflexivity. Qed.
Lemma item_no_newline k v : option_name k -> option_value v -> ~ In 10 (item_text (k, v)).
Proof.
  intros (_ & _ & K & _) (_ & V) I. unfold item_text in I. cbn [fst snd] in I. rewrite str_eq in I.
  apply in_app_or in I as [I|I]; [exact (proj1 (K 10 I) eq_refl)|].
  apply in_app_or in I as [I|I]; [cbn in I; lia|]. exact (V (quote_in _ _ I)).
Qed.
Lemma section_text_lines s d r : section_name s -> (forall k v, In (k, v) d -> option_name k /\ option_value v) ->
  lines (section_text (s, d) ++ r) = section_lines (s, d) ++ lines r.
Proof.
  intros (_ & N & _) P. unfold section_text, section_lines. cbn [fst snd].
  replace ((91 :: s ++ 93 :: 10 :: joined_lines (map item_text d) ++ [10]) ++ r)
    with ((91 :: s ++ [93]) ++ 10 :: joined_lines (map item_text d) ++ 10 :: r).
  2:{ cbn [app]. f_equal. rewrite <- !app_assoc. cbn [app]. now rewrite <- app_assoc. }
  rewrite lines_line.
  2:{ cbn [In]. intros [I|I]; [lia|]. apply in_app_or in I as [I|[I|[]]]; [contradiction|lia]. }
  rewrite <- app_comm_cons. f_equal. destruct d as [|kv d].
  - cbn [map joined_lines app]. exact (@lines_line [] r (fun x => x)).
  - apply lines_joined; [discriminate|]. intros x I. apply in_map_iff in I as ([k v] & <- & I).
    apply item_no_newline; now apply (P k v).
Qed.
Lemma config_lines (c : sections) : (forall s d, In (s, d) c -> section_name s /\ forall k v, In (k, v) d -> option_name k /\ option_value v) ->
  lines (flat_map section_text c) = flat_map section_lines c.
Proof.
  induction c as [|[s d] c IH]; intros P; [reflexivity|]. cbn [flat_map].
  rewrite section_text_lines.
  - f_equal. apply IH. intros s' d' I. apply P. now right.
  - apply (P s d). now left.
  - apply (P s d). now left.
Qed.

(** * Reading them *)
Lemma cut_at stop x c r : (forall d, In d x -> stop d = false) -> stop c = true -> cut stop (x ++ c :: r) = Some (x, r).
Proof.
  intros N C. induction x as [|d x IH]; cbn; [now rewrite C|].
  rewrite (N d) by now left. rewrite IH; [reflexivity|]. intros e I. apply N. now right.
Qed.
Lemma lower_id s : (forall c, In c s -> ~ (65 <= c <= 90)) -> lower s = s.
Proof.
  intros N. unfold lower. rewrite <- (map_id s) at 2. apply map_ext_in. intros c I. specialize (N c I).
  destruct (Z.leb_spec 65 c), (Z.leb_spec c 90); cbn; auto; lia.
Qed.
Lemma header_line s : section_name s -> header (91 :: s ++ [93]) = Some s.
Proof.
  intros (E & _ & _ & _). unfold header. cbn [Z.eqb]. rewrite rev_app_distr. cbn [rev app cut].
  change (91 =? 91) with true. change (93 =? 93) with true. cbn iota.
  destruct (rev s) as [|c s'] eqn:R; [apply (f_equal (@rev Z)) in R; rewrite rev_involutive in R; contradiction|].
  rewrite <- R, rev_involutive. reflexivity.
Qed.
Lemma trim_header s : trim (91 :: s ++ [93]) = 91 :: s ++ [93].
Proof.
  unfold trim. rewrite ltrim_nb by reflexivity. apply (rtrim_nb (91 :: s)). reflexivity.
Qed.
Lemma trim_item k v : option_name k -> option_value v ->
  trim (item_text (k, v)) = k ++ 32 :: 61 :: match v with [] => [] | _ => 32 :: tahoe_config_quote v end.
Proof.
  intros (E & T & _ & _) (V & _). unfold trim, item_text. cbn [fst snd]. rewrite str_eq.
  destruct k as [|c k]; [contradiction|]. cbn [app]. rewrite ltrim_nb by exact (tight_head T).
  destruct v as [|d v].
  - cbn [tahoe_config_quote flat_map].
    replace (c :: k ++ 32 :: 61 :: [32]) with ((c :: k ++ [32; 61]) ++ [32]) by (cbn; rewrite <- app_assoc; reflexivity).
    rewrite rtrim_b by reflexivity.
    replace (c :: k ++ [32; 61]) with ((c :: k ++ [32]) ++ [61]) by (cbn; rewrite <- app_assoc; reflexivity).
    rewrite rtrim_nb by reflexivity. cbn. now rewrite <- app_assoc.
  - assert (Q := quote_tight V). destruct (tahoe_config_quote (d :: v)) as [|y q] eqn:EQ using rev_ind.
    + exfalso. cbn [tahoe_config_quote flat_map] in EQ. destruct (quote_head d) as [r Er]. rewrite Er in EQ. discriminate.
    + clear IHq.
      replace (c :: k ++ 32 :: 61 :: 32 :: q ++ [y]) with ((c :: k ++ 32 :: 61 :: 32 :: q) ++ [y]) by (cbn; rewrite <- app_assoc; reflexivity).
      rewrite rtrim_nb by exact (tight_last _ _ Q). cbn. now rewrite <- app_assoc.
Qed.
Lemma option_line_item k v : option_name k -> option_value v ->
  option_line (k ++ 32 :: 61 :: match v with [] => [] | _ => 32 :: tahoe_config_quote v end) = Some (k, tahoe_config_quote v).
Proof.
  intros (E & T & K & _) (V & _). unfold option_line.
  replace (k ++ 32 :: 61 :: match v with [] => [] | _ => 32 :: tahoe_config_quote v end)
    with ((k ++ [32]) ++ 61 :: match v with [] => [] | _ => 32 :: tahoe_config_quote v end) by (rewrite <- app_assoc; reflexivity).
  rewrite cut_at; [|intros d I|reflexivity].
  2:{ apply in_app_or in I as [I|[<-|[]]]; [|reflexivity]. destruct (K d I) as (_ & A & B & _).
      destruct (Z.eqb_spec d 61), (Z.eqb_spec d 58); cbn; auto; contradiction. }
  rewrite rtrim_b by reflexivity. rewrite rtrim_tight by exact T. destruct k as [|c k]; [contradiction|].
  rewrite lower_id by (intros d I; apply (K d I)). do 2 f_equal.
  destruct v as [|d v]; [reflexivity|]. unfold trim. cbn [ltrim]. change (blank 32) with true. cbn iota.
  rewrite ltrim_tight by now apply quote_tight. rewrite rtrim_tight; [reflexivity|]. now apply quote_tight.
Qed.
Lemma header_item k r : option_name k -> header (k ++ 32 :: 61 :: r) = None.
Proof.
  intros (E & _ & _ & H). destruct k as [|c k]; [contradiction|]. cbn [app header].
  destruct (Z.eqb_spec c 91) as [->|]; [|reflexivity]. exfalso. now apply (H 91 eq_refl).
Qed.

Definition level (p : parser) : Prop := ps_indent p = 0%nat.

Lemma read_header p s : level p -> section_name s -> ~ In s (map fst (ps_sections p)) ->
  read_line p (91 :: s ++ [93]) = Ok (Parser (ps_sections p ++ [(s, [])]) (Some s) None 0).
Proof.
  intros L N I. unfold read_line. rewrite trim_header. change (91 =? 35) with false. change (91 =? 59) with false.
  cbn [orb]. cbv beta iota. rewrite header_line by exact N. rewrite (proj2 (get_none s (ps_sections p)) I).
  cbn [indentation]. change (blank 91) with false. cbn iota. rewrite L.
  destruct (ps_section p), (ps_option p); reflexivity.
Qed.
Lemma read_blank p : ps_option p = None -> read_line p [] = Ok p.
Proof. intros O. unfold read_line. cbn. rewrite O. destruct (ps_section p); reflexivity. Qed.
Lemma read_item p S s d k v : level p -> ps_sections p = S ++ [(s, d)] -> ps_section p = Some s ->
  ~ In s (map fst S) -> ~ In k (map fst d) -> option_name k -> option_value v ->
  read_line p (item_text (k, v)) = Ok (Parser (S ++ [(s, d ++ [(k, [tahoe_config_quote v])])]) (Some s) (Some k) 0).
Proof.
  intros L ES Es NS NK K V. unfold read_line. rewrite (trim_item K V).
  assert (H0 := K). destruct K as (E & T & K & H). destruct k as [|c k]; [contradiction|].
  destruct (H c eq_refl) as (H1 & H2 & _).
  cbn [app]. rewrite (proj2 (Z.eqb_neq c 35) H1), (proj2 (Z.eqb_neq c 59) H2). cbn [orb]. cbv beta iota.
  change (c :: k ++ 32 :: 61 :: match v with [] => [] | _ => 32 :: tahoe_config_quote v end)
    with ((c :: k) ++ 32 :: 61 :: match v with [] => [] | _ => 32 :: tahoe_config_quote v end).
  rewrite (@header_item _ _ H0), (option_line_item H0 V), Es, L.
  assert (Hi : indentation (item_text (c :: k, v)) = 0%nat).
  { unfold item_text. cbn [fst app indentation]. now rewrite (tight_head T). }
  replace (indentation _) with 0%nat by (symmetry; exact Hi). cbn [Nat.ltb Nat.leb].
  unfold get_or. rewrite ES, (get_last s d S NS), (put_last s _ d S NS), (put_new _ _ d NK).
  destruct (ps_option p); reflexivity.
Qed.

Definition stored_item (kv : text * text) : text * list text := (fst kv, [tahoe_config_quote (snd kv)]).
Lemma read_items l : forall p S s d, level p -> ps_sections p = S ++ [(s, d)] -> ps_section p = Some s ->
  ~ In s (map fst S) -> NoDup (map fst d ++ map fst l) -> (forall k v, In (k, v) l -> option_name k /\ option_value v) ->
  exists p', read_lines p (map item_text l) = Ok p' /\ level p' /\ ps_sections p' = S ++ [(s, d ++ map stored_item l)].
Proof.
  induction l as [|[k v] l IH]; intros p S s d L ES Es NS ND P.
  - exists p. rewrite app_nil_r. auto.
  - cbn [map read_lines]. cbn [map fst] in ND.
    assert (NK : ~ In k (map fst d)) by (intros I; apply NoDup_remove_2 in ND; apply ND, in_or_app; auto).
    destruct (P k v) as [K V]; [now left|].
    rewrite (@read_item p S s d k v L ES Es NS NK K V). cbn [bind].
    edestruct (IH (Parser (S ++ [(s, d ++ [(k, [tahoe_config_quote v])])]) (Some s) (Some k) 0) S s (d ++ [(k, [tahoe_config_quote v])]))
      as (p' & A & B & C); try reflexivity; auto.
    + rewrite map_app. cbn [map fst]. rewrite <- app_assoc. exact ND.
    + intros k' v' I. apply P. now right.
    + exists p'. split; [exact A|]. split; [exact B|]. rewrite C, <- app_assoc. reflexivity.
Qed.
Lemma read_lines_app l : forall p l', read_lines p (l ++ l') = (p' <- read_lines p l ;; read_lines p' l').
Proof.
  induction l as [|x l IH]; intros p l'; [reflexivity|]. cbn [app read_lines].
  destruct (read_line p x) as [p'|e]; cbn [bind]; [apply IH|reflexivity].
Qed.
Definition stored_section (s : text * list (text * text)) := (fst s, map stored_item (snd s)).
Lemma read_sections c : forall p, level p -> NoDup (map fst (ps_sections p) ++ map fst c) ->
  (forall s d, In (s, d) c -> section_name s /\ is_dict d /\ forall k v, In (k, v) d -> option_name k /\ option_value v) ->
  exists p', read_lines p (flat_map section_lines c) = Ok p' /\ level p' /\ ps_sections p' = ps_sections p ++ map stored_section c.
Proof.
  induction c as [|[s d] c IH]; intros p L ND P.
  - exists p. rewrite app_nil_r. auto.
  - cbn [flat_map map]. cbn [map fst] in ND.
    destruct (P s d) as (N & D & I); [now left|].
    assert (NS : ~ In s (map fst (ps_sections p))) by (intros J; apply NoDup_remove_2 in ND; apply ND, in_or_app; auto).
    unfold section_lines at 1. cbn [fst snd]. cbn [app read_lines].
    rewrite (@read_header p s L N NS). cbn [bind]. rewrite read_lines_app.
    set (p1 := Parser (ps_sections p ++ [(s, [])]) (Some s) None 0).
    assert (exists p2, read_lines p1 match d with [] => [[]] | _ => map item_text d end = Ok p2 /\ level p2 /\
              ps_sections p2 = ps_sections p ++ [stored_section (s, d)]) as (p2 & A & B & C).
    { destruct d as [|kv d].
      - exists p1. cbn [read_lines]. rewrite read_blank by reflexivity. repeat split; reflexivity.
      - destruct (@read_items (kv :: d) p1 (ps_sections p) s []) as (p2 & A & B & C); try reflexivity; auto.
        exists p2. split; [exact A|]. split; [exact B|exact C]. }
    destruct d as [|kv d]; rewrite A; cbn [bind].
    all: destruct (IH p2) as (p3 & A' & B' & C'); [exact B| |intros s' d' J; apply P; now right|].
    1,3: rewrite C, map_app; cbn [map stored_section fst]; rewrite <- app_assoc; exact ND.
    all: exists p3; split; [exact A'|]; split; [exact B'|]; rewrite C', C, <- app_assoc; reflexivity.
Qed.

Definition quoted (c : sections) : sections := map (fun s => (fst s, map (fun kv => (fst kv, tahoe_config_quote (snd kv))) (snd s))) c.
Lemma read_config c : proper c -> read_string (flat_map section_text c) = Ok (quoted c).
Proof.
  intros [D P]. unfold read_string. rewrite config_lines.
  2:{ intros s d I. destruct (P s d I) as (A & _ & B). auto. }
  destruct (@read_sections c (Parser [] None None 0)) as (p & A & _ & C); [reflexivity|exact D|exact P|].
  rewrite A. cbn [bind]. rewrite C. cbn [app ps_sections]. f_equal. rewrite map_map. unfold quoted.
  apply map_ext_in. intros [s d] I. cbn [stored_section fst snd]. f_equal. rewrite map_map. apply map_ext_in.
  intros [k v] J. cbn [stored_item fst snd joined_lines]. f_equal. apply rtrim_tight, quote_tight.
  destruct (P s d I) as (_ & _ & Q). apply (Q k v J).
Qed.
Lemma quoted_get c s : get s (quoted c) = match get s c with Some d => Some (map (fun kv => (fst kv, tahoe_config_quote (snd kv))) d) | None => None end.
Proof.
  induction c as [|[a b] c IH]; [reflexivity|]. cbn [quoted map get fst snd]. destruct (text_eqb s a); [reflexivity|exact IH].
Qed.
Lemma quoted_get_item (d : list (text * text)) k :
  get k (map (fun kv => (fst kv, tahoe_config_quote (snd kv))) d) = match get k d with Some v => Some (tahoe_config_quote v) | None => None end.
Proof.
  induction d as [|[a b] d IH]; [reflexivity|]. cbn [map get fst snd]. destruct (text_eqb k a); [reflexivity|exact IH].
Qed.
Lemma default_absent c : proper c -> get DEFAULT c = None.
Proof.
  intros [D P]. apply get_none. intros I. apply in_map_iff in I as ([s d] & E & I). cbn in E. subst s.
  destruct (P _ _ I) as ((_ & _ & _ & N) & _). apply N. reflexivity.
Qed.
Lemma config_get c s k : proper c -> s <> DEFAULT ->
  get_config (quoted c) s k =
  match get s c with None => Err NoSection | Some d => match get (lower k) d with Some v => Ok v | None => Err NoOption end end.
Proof.
  intros P N. unfold get_config, get_or. rewrite !quoted_get, (default_absent P).
  destruct (text_eqb_spec s DEFAULT) as [|_]; [contradiction|]. destruct (get s c) as [d|]; [|reflexivity].
  rewrite quoted_get_item. destruct (get (lower k) d) as [v|]; [now rewrite interpolate_quote|reflexivity].
Qed.

(** * Deciding [proper], for examples *)
Definition spaceb (c : Z) : bool := existsb (Z.eqb c) spaces.
Definition tightb (s : text) : bool :=
  match hd_error s with Some c => negb (spaceb c) | None => true end && match hd_error (rev s) with Some c => negb (spaceb c) | None => true end.
Definition section_nameb (s : text) : bool :=
  match s with [] => false | _ => true end && forallb (fun c => negb (c =? 10) && negb (c =? 93)) s && negb (text_eqb s DEFAULT).
Definition option_nameb (s : text) : bool :=
  match s with [] => false | c :: _ => negb (c =? 35) && negb (c =? 59) && negb (c =? 91) end && tightb s &&
  forallb (fun c => negb (c =? 10) && negb (c =? 61) && negb (c =? 58) && negb ((65 <=? c) && (c <=? 90))) s.
Definition option_valueb (s : text) : bool := tightb s && forallb (fun c => negb (c =? 10)) s.
Fixpoint dictb {V} (d : list (text * V)) : bool :=
  match d with [] => true | (k, _) :: d' => negb (existsb (text_eqb k) (map fst d')) && dictb d' end.
Definition properb (c : sections) : bool :=
  dictb c && forallb (fun s => section_nameb (fst s) && dictb (snd s) && forallb (fun kv => option_nameb (fst kv) && option_valueb (snd kv)) (snd s)) c.

Lemma spaceb_spec c : spaceb c = false -> ~ In c spaces.
Proof. intros E I. assert (spaceb c = true); [|congruence]. apply existsb_exists. exists c. split; [exact I|apply Z.eqb_refl]. Qed.
Lemma tightb_spec s : tightb s = true -> tight s.
Proof.
  unfold tightb. rewrite andb_true_iff. intros [A B] c [E|E]; [rewrite E in A|rewrite E in B];
    apply spaceb_spec, negb_true_iff; assumption.
Qed.
Lemma dictb_spec {V} (d : list (text * V)) : dictb d = true -> is_dict d.
Proof.
  unfold is_dict. induction d as [|[k v] d IH]; cbn; [constructor|]. rewrite andb_true_iff, negb_true_iff. intros [A B].
  constructor; [|auto]. intros I. assert (existsb (text_eqb k) (map fst d) = true); [|congruence].
  apply existsb_exists. exists k. split; [exact I|apply text_eqb_refl].
Qed.
Lemma properb_spec c : properb c = true -> proper c.
Proof.
  unfold properb. rewrite andb_true_iff, forallb_forall. intros [D F]. split; [now apply dictb_spec|].
  intros s d I. specialize (F _ I). cbn [fst snd] in F. rewrite !andb_true_iff, forallb_forall in F. destruct F as [[S Dd] K].
  split; [|split; [now apply dictb_spec|]].
  - unfold section_nameb in S. rewrite !andb_true_iff, forallb_forall in S. destruct S as [[A B] C].
    split; [destruct s; [discriminate|discriminate]|]. split; [intros J; specialize (B _ J); discriminate|].
    split; [intros J; specialize (B _ J); discriminate|]. intros ->. discriminate.
  - intros k v J. specialize (K _ J). cbn [fst snd] in K. apply andb_true_iff in K as [A B].
    unfold option_nameb in A. rewrite !andb_true_iff, forallb_forall in A. destruct A as [[A1 A2] A3].
    unfold option_valueb in B. rewrite !andb_true_iff, forallb_forall in B. destruct B as [B1 B2].
    split; [|split; [now apply tightb_spec|intros L; specialize (B2 _ L); discriminate]].
    split; [destruct k; discriminate|]. split; [now apply tightb_spec|].
    split; [intros x L; specialize (A3 _ L); lia|].
    destruct k as [|y k']; [discriminate|]. intros x [= <-]. lia.
Qed.
