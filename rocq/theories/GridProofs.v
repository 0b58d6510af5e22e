(** Proofs about operations on the grid. *)
From Verif Require Import Prelude PreludeFacts BytesModel BytesProofs CborModel CborProofs StreamModel JsonModel JsonProofs GridModel GridSpec.
From Coq Require Strings.String.
Import Coq.Strings.String.StringSyntax.
Set Implicit Arguments.

(** ** Texts *)

Lemma flat_map_self A (f : A -> list A) l : (forall x, In x l -> f x = [x]) -> flat_map f l = l.
Proof. induction l as [|x l IH]; intros H; [reflexivity|]. cbn. rewrite (H x) by now left. rewrite IH; [reflexivity|]. intros y I. apply H. now right. Qed.
Lemma shows_refl s : shows s s.
Proof. exists [], []. now rewrite app_nil_r. Qed.
Lemma shows_app a s b r : shows s r -> shows (a ++ s ++ b) r.
Proof. intros (x & y & ->). exists (a ++ x), (y ++ b). now rewrite <- !app_assoc. Qed.
Lemma shows_left a s r : shows s r -> shows (a ++ s) r.
Proof. intros (x & y & ->). exists (a ++ x), y. now rewrite <- !app_assoc. Qed.
Lemma shows_right s b r : shows s r -> shows (s ++ b) r.
Proof. intros (x & y & ->). exists x, (y ++ b). now rewrite <- !app_assoc. Qed.
Lemma shows_map (f : Z -> text) s r : (forall c, In c r -> f c = [c]) -> shows s r -> shows (flat_map f s) r.
Proof. intros H (x & y & ->). rewrite !flat_map_app, (flat_map_self f r H). exists (flat_map f x), (flat_map f y). reflexivity. Qed.

Definition plain_run (r : text) : Prop := forall c, In c r -> unreserved c = true.
Lemma quote_plain r c : plain_run r -> In c r -> quote_char c = [c].
Proof. intros P I. unfold quote_char. now rewrite (P c I). Qed.
Lemma quote_shows s r : plain_run r -> shows s r -> shows (quote s) r.
Proof. intros P. apply shows_map. intros c. now apply quote_plain. Qed.
Lemma repr_shows printable s r : plain_run r -> shows s r -> shows (repr printable s) r.
Proof.
  intros P H. unfold repr. cbv zeta. set (q := if existsb (Z.eqb 39) s && negb (existsb (Z.eqb 34) s) then 34 else 39). assert (Q : q = 34 \/ q = 39) by (unfold q; destruct (_ && _); auto).
  change (q :: ?x) with ([q] ++ x). apply shows_app. apply shows_map; [|exact H].
  intros c I. apply P in I. unfold unreserved in I. unfold repr_char.
  destruct Q as [-> | ->]; repeat (rewrite ?andb_true_iff, ?orb_true_iff in I);
    (destruct (Z.eqb_spec c 34), (Z.eqb_spec c 39), (Z.eqb_spec c 92), (Z.eqb_spec c 10), (Z.eqb_spec c 13), (Z.eqb_spec c 9); try lia; cbn [orb];
     destruct (Z.leb_spec 32 c), (Z.ltb_spec c 127); cbn [andb]; try reflexivity; lia).
Qed.
Lemma url_text_shows u s r : plain_run r -> In s (u_path u) -> shows s r -> shows (url_text u) r.
Proof.
  intros P I H. unfold url_text. apply shows_app. apply in_split in I. destruct I as (l1 & l2 & ->). rewrite flat_map_app. cbn [flat_map].
  apply shows_left. apply shows_right. change (47 :: quote s) with ([47] ++ quote s). apply shows_left. now apply quote_shows.
Qed.
Lemma url_repr_shows printable u s r : plain_run r -> In s (u_path u) -> shows s r -> shows (url_repr printable u) r.
Proof. intros P I H. unfold url_repr. apply shows_app. apply repr_shows; [exact P|]. now apply url_text_shows with s. Qed.

Lemma error_str_url printable e s r : plain_run r -> In s (u_path (a_given e)) -> shows s r -> shows (error_str printable e) r.
Proof. intros P I H. unfold error_str. do 3 apply shows_left. apply shows_right. now apply url_repr_shows with s. Qed.
Lemma error_repr_url printable e s r : plain_run r -> In s (u_path (a_url e)) -> shows s r -> shows (error_repr printable e) r.
Proof. intros P I H. unfold error_repr. do 3 apply shows_left. apply shows_right. now apply url_repr_shows with s. Qed.
Lemma error_str_body printable e r : plain_run r -> shows (a_body e) r -> shows (error_str printable e) r.
Proof. intros P H. unfold error_str. do 7 apply shows_left. apply shows_right. now apply repr_shows. Qed.

Lemma strip_prefix_app p s : strip_prefix p (p ++ s) = Some s.
Proof. induction p as [|c p IH]; [reflexivity|]. cbn. rewrite Z.eqb_refl. exact IH. Qed.
Lemma starts_with_app p s : starts_with p (p ++ s) = true.
Proof. unfold starts_with. now rewrite strip_prefix_app. Qed.
Lemma starts_with_spec p s : starts_with p s = true -> exists t, s = p ++ t.
Proof.
  unfold starts_with. destruct (strip_prefix p s) as [t|] eqn:E; [|discriminate]. intros _. exists t. revert s E.
  induction p as [|c p IH]; intros [|x s] E; cbn in E |- *; try congruence. destruct (Z.eqb_spec c x) as [->|]; [|discriminate]. now rewrite (IH s E).
Qed.
Lemma contains_shows p s : contains p s = true <-> shows s p.
Proof.
  split.
  - induction s as [|c s IH]; cbn; intros H.
    + rewrite orb_false_r in H. apply starts_with_spec in H. destruct H as [t H]. exists [], t. exact H.
    + apply orb_true_iff in H as [H|H]; [apply starts_with_spec in H; destruct H as [t H]; exists [], t; exact H|].
      destruct (IH H) as (x & y & ->). exists (c :: x), y. reflexivity.
  - intros (x & y & ->). induction x as [|c x IH].
    + cbn [app]. destruct (p ++ y) eqn:E; cbn; rewrite <- E, starts_with_app; reflexivity.
    + cbn. rewrite IH. apply orb_true_r.
Qed.

(** ** Paths *)

Lemma quote_char_segment c x : is_scalar c = true -> In x (quote_char c) -> x <> 47 /\ x <> 63.
Proof.
  intros S I. unfold quote_char in I. destruct (unreserved c) eqn:U.
  - destruct I as [<-|[]]. unfold unreserved in U. lia.
  - apply in_flat_map in I. destruct I as (b & _ & I). unfold percent in I.
    assert (H : 0 <= bz b / 16 < 16 /\ 0 <= bz b mod 16 < 16).
    { pose proof (bz_range b). split; [|apply Z.mod_pos_bound; lia]. split; [apply Z.div_pos; lia|]. apply Z.div_lt_upper_bound; lia. }
    destruct I as [<- | [<- | [<- | []]]]; [lia| |]; unfold upper_hex; destruct (_ <? 10) eqn:L; lia.
Qed.
Lemma scalar_is s c : all_scalar s -> In c s -> is_scalar c = true.
Proof. intros S J. specialize (S c J). unfold is_scalar. lia. Qed.
Lemma quote_segment s x : all_scalar s -> In x (quote s) -> x <> 47 /\ x <> 63.
Proof. intros S I. unfold quote in I. apply in_flat_map in I. destruct I as (c & Ic & I). apply (@quote_char_segment c); [exact (@scalar_is s c S Ic)|exact I]. Qed.

Lemma segments_nosep s : (forall x, In x s -> x <> 47) -> segments s = [s].
Proof.
  induction s as [|c s IH]; intros H; [reflexivity|]. cbn. destruct (Z.eqb_spec c 47) as [->|N]; [now destruct (H 47 (or_introl eq_refl))|].
  rewrite IH; [reflexivity|]. intros x I. apply H. now right.
Qed.
Lemma segments_app s t : (forall x, In x s -> x <> 47) -> segments (s ++ 47 :: t) = s :: segments t.
Proof.
  induction s as [|c s IH]; intros H; [reflexivity|]. cbn [app segments]. destruct (Z.eqb_spec c 47) as [->|N]; [now destruct (H 47 (or_introl eq_refl))|].
  rewrite IH; [reflexivity|]. intros x I. apply H. now right.
Qed.
Lemma segments_path l : (forall s, In s l -> forall x, In x s -> x <> 47) -> segments (flat_map (fun s => 47 :: s) l) = [] :: l.
Proof.
  intros H. assert (G : forall s, (forall x, In x s -> x <> 47) -> segments (s ++ flat_map (fun s => 47 :: s) l) = s :: l).
  { revert H. induction l as [|t l IH]; intros H s Hs; cbn [flat_map]; [rewrite app_nil_r; now apply segments_nosep|].
    cbn [app]. rewrite segments_app by exact Hs. rewrite IH; [reflexivity| |]; [intros u I; apply H; now right|apply H; now left]. }
  apply (G []). intros x [].
Qed.

Lemma hex_value_upper n : 0 <= n < 16 -> hex_value (upper_hex n) = Some n.
Proof.
  intros H. assert (X : In n (map Z.of_nat (seq 0 16))) by (apply in_map_iff; exists (Z.to_nat n); split; [lia|apply in_seq; lia]).
  cbn in X. repeat (destruct X as [<- | X]; [reflexivity|]). destruct X.
Qed.
Lemma zb_bz b : zb (bz b) = b.
Proof. destruct b; reflexivity. Qed.
Lemma unquote_percent l s : unquote (flat_map percent l ++ s) = option_map (app l) (unquote s).
Proof.
  induction l as [|b l IH]; [cbn; now destruct (unquote s)|]. cbn [flat_map percent app unquote]. rewrite Z.eqb_refl.
  assert (H : 0 <= bz b / 16 < 16 /\ 0 <= bz b mod 16 < 16).
  { pose proof (bz_range b). split; [|apply Z.mod_pos_bound; lia]. split; [apply Z.div_pos; lia|]. apply Z.div_lt_upper_bound; lia. }
  rewrite !hex_value_upper by apply H. rewrite IH. rewrite <- Z.div_mod by lia. rewrite zb_bz. destruct (unquote s); reflexivity.
Qed.
Lemma unquote_char c s : is_scalar c = true -> unquote (quote_char c ++ s) = option_map (app (utf8_char c)) (unquote s).
Proof.
  intros S. unfold quote_char. destruct (unreserved c) eqn:U; [|apply unquote_percent].
  cbn [app unquote]. unfold unreserved in U. destruct (Z.eqb_spec c 37) as [->|N]; [discriminate U|].
  unfold utf8_char. replace (c <? 128) with true by lia. reflexivity.
Qed.
Lemma unquote_quote s : all_scalar s -> unquote (quote s) = utf8_encode s.
Proof.
  induction s as [|c s IH]; intros S; [reflexivity|]. cbn [quote flat_map utf8_encode]. rewrite unquote_char by (apply (@scalar_is (c :: s) c S); now left).
  rewrite (@scalar_is (c :: s) c S (or_introl eq_refl)). fold (quote s). rewrite IH; [reflexivity|]. intros x I. apply S. now right.
Qed.
Lemma utf8_encode_scalar s : all_scalar s -> exists b, utf8_encode s = Some b.
Proof.
  induction s as [|c s IH]; intros S; [now exists []|]. cbn. rewrite (@scalar_is (c :: s) c S (or_introl eq_refl)). destruct IH as [b ->]; [intros x I; apply S; now right|]. cbn. eauto.
Qed.
Lemma read_quote s : all_scalar s -> read_segment (quote s) = Some s.
Proof. intros S. unfold read_segment. rewrite unquote_quote by exact S. destruct (utf8_encode_scalar S) as [b E]. rewrite E. now apply utf8_round. Qed.

Lemma up_to_app s t : (forall x, In x s -> x <> 63) -> up_to 63 (s ++ 63 :: t) = s.
Proof.
  induction s as [|c s IH]; intros H; [reflexivity|]. cbn. destruct (Z.eqb_spec c 63) as [->|N]; [now destruct (H 63 (or_introl eq_refl))|]. rewrite IH; [reflexivity|].
  intros x I. apply H. now right.
Qed.
Lemma up_to_all s : (forall x, In x s -> x <> 63) -> up_to 63 s = s.
Proof.
  induction s as [|c s IH]; intros H; [reflexivity|]. cbn. destruct (Z.eqb_spec c 63) as [->|N]; [now destruct (H 63 (or_introl eq_refl))|]. rewrite IH; [reflexivity|].
  intros x I. apply H. now right.
Qed.
Lemma path_read root path query : (forall s, In s path -> all_scalar s) ->
  exists rest, url_text (Url root path query) = root ++ rest /\ read_path rest = map Some path.
Proof.
  intros S. unfold url_text. cbn [u_root u_path u_query]. eexists. split; [reflexivity|]. unfold read_path.
  assert (M : flat_map (fun s => 47 :: quote s) path = flat_map (fun s => 47 :: s) (map quote path)) by (clear S; induction path as [|s p IH]; [reflexivity|]; cbn; now rewrite IH).
  assert (N : forall x, In x (flat_map (fun s => 47 :: quote s) path) -> x <> 63).
  { intros x I. apply in_flat_map in I. destruct I as (s & Is & [<-|I]); [lia|]. apply (@quote_segment s x (S s Is) I). }
  match goal with |- context [up_to 63 ?t] => assert (U : up_to 63 t = flat_map (fun s => 47 :: quote s) path) end.
  { destruct query; [rewrite app_nil_r; now apply up_to_all|now apply up_to_app]. }
  rewrite U, M, segments_path; cbn [tl].
  - rewrite map_map. apply map_ext_in. intros s I. now apply read_quote, S.
  - intros s I. apply in_map_iff in I. destruct I as (t & <- & I). intros x Ix. apply (@quote_segment t x (S t I) Ix).
Qed.

Lemma child_root u s : at_root u -> child u s = Url (u_root u) [s] [].
Proof. intros ([P|P] & Q); unfold child; rewrite P, Q; reflexivity. Qed.

(** ** Retries *)

Lemma existsb_again A ms e : existsb (fun m => m e) ms = true <-> @again A ms (Err e).
Proof.
  rewrite existsb_exists. split.
  - intros (m & I & M). exists e, m. auto.
  - intros (e' & m & E & I & M). injection E as <-. eauto.
Qed.
Lemma retry_spec A ms (f : nat -> res gexn A) fuel : forall n r k, async_retry ms f n fuel = Some (r, k) <->
  exists i, k = S (n + i) /\ (i < fuel)%nat /\ f (n + i)%nat = r /\ ~ again ms r /\ forall j, (j < i)%nat -> again ms (f (n + j)%nat).
Proof.
  induction fuel as [|fuel IH]; intros n r k; cbn [async_retry].
  - split; [discriminate|]. intros (i & _ & X & _). lia.
  - destruct (f n) as [a|e] eqn:E.
    + split.
      * intros [= <- <-]. exists 0%nat. rewrite Nat.add_0_r. split; [reflexivity|]. split; [lia|]. split; [exact E|]. split; [|lia]. intros (e & m & X & _). discriminate X.
      * intros (i & -> & L & F & N & G). destruct i as [|i]; [rewrite Nat.add_0_r in *; rewrite E in F; now subst|].
        exfalso. destruct (G 0%nat ltac:(lia)) as (e & m & X & _). rewrite Nat.add_0_r, E in X. discriminate X.
    + destruct (existsb (fun m => m e) ms) eqn:M.
      * rewrite IH. split; intros (i & -> & L & F & N & G).
        -- exists (S i). rewrite Nat.add_succ_r. split; [reflexivity|]. split; [lia|]. split; [exact F|]. split; [exact N|].
           intros [|j] Hj; [rewrite Nat.add_0_r, E; now apply existsb_again|]. rewrite Nat.add_succ_r. apply (G j). lia.
        -- destruct i as [|i]; [exfalso; apply N; rewrite Nat.add_0_r in F; rewrite <- F, E; now apply existsb_again|].
           exists i. rewrite Nat.add_succ_r in *. split; [reflexivity|]. split; [lia|]. split; [exact F|]. split; [exact N|].
           intros j Hj. specialize (G (S j) ltac:(lia)). now rewrite Nat.add_succ_r in G.
      * split.
        -- intros [= <- <-]. exists 0%nat. rewrite Nat.add_0_r. split; [reflexivity|]. split; [lia|]. split; [exact E|]. split; [|lia].
           intros X. apply existsb_again in X. congruence.
        -- intros (i & -> & L & F & N & G). destruct i as [|i]; [rewrite Nat.add_0_r in *; rewrite E in F; now subst|].
           exfalso. specialize (G 0%nat ltac:(lia)). rewrite Nat.add_0_r, E in G. apply existsb_again in G. congruence.
Qed.
Lemma retry_none A ms (f : nat -> res gexn A) fuel : forall n, async_retry ms f n fuel = None <-> forall i, (i < fuel)%nat -> again ms (f (n + i)%nat).
Proof.
  induction fuel as [|fuel IH]; intros n; cbn [async_retry]; [split; [intros _ i X; lia|reflexivity]|].
  destruct (f n) as [a|e] eqn:E.
  - split; [discriminate|]. intros G. destruct (G 0%nat ltac:(lia)) as (e & m & X & _). rewrite Nat.add_0_r, E in X. discriminate X.
  - destruct (existsb (fun m => m e) ms) eqn:M.
    + rewrite IH. split; intros G.
      * intros [|i] L; [rewrite Nat.add_0_r, E; now apply existsb_again|]. rewrite Nat.add_succ_r. apply (G i). lia.
      * intros i L. specialize (G (S i) ltac:(lia)). now rewrite Nat.add_succ_r in G.
    + split; [discriminate|]. intros G. specialize (G 0%nat ltac:(lia)). rewrite Nat.add_0_r, E in G. apply existsb_again in G. congruence.
Qed.

(** ** Downloads *)

Lemma write_file_other p b fs q : q <> p -> write_file p b fs q = fs q.
Proof. intros N. unfold write_file. destruct (text_eqb_spec p q); [congruence|reflexivity]. Qed.
Lemma write_file_same p b fs : write_file p b fs p = b.
Proof. unfold write_file. now rewrite text_eqb_refl. Qed.
Lemma collect_other temp chunks : forall written fs fs' p, In fs' (collect temp written chunks fs) -> p <> temp -> fs' p = fs p.
Proof.
  induction chunks as [|c chunks IH]; intros written fs fs' p I N; cbn in I; [destruct I|]. destruct I as [<-|I].
  - now apply write_file_other.
  - rewrite (IH _ _ _ _ I N). now apply write_file_other.
Qed.
Lemma last_indep A (l : list A) a b : l <> [] -> last l a = last l b.
Proof. induction l as [|x [|y l] IH]; intros N; [contradiction|reflexivity|]. apply IH. discriminate. Qed.
Lemma collect_last temp chunks : forall written fs d, fs temp = Some written -> (last (fs :: collect temp written chunks fs) d) temp = Some (written ++ concat chunks).
Proof.
  induction chunks as [|c chunks IH]; intros written fs d F; cbn [collect concat].
  - cbn. now rewrite app_nil_r.
  - cbn [last]. rewrite app_assoc. apply IH. apply write_file_same.
Qed.

(** ** Listings *)

Section Listing.
Variables file_cap dir_cap F : Type.
Variable file_text : file_cap -> text.
Variable dir_text : dir_cap -> text.
Variable readable : text -> option file_cap.
Variable readonly : text -> option dir_cap.
Notation read_entry := (read_entry readable readonly (F := F)).
Notation read_entries := (read_entries readable readonly (F := F)).
Notation node := (node file_cap dir_cap F).

Lemma read_entry_ok j n : (forall c, readable (file_text c) = Some c) -> (forall d, readonly (dir_text d) = Some d) ->
  describes file_text dir_text j n -> read_entry j = Ok n.
Proof.
  intros Rf Rd [o size c Hs Hu|o d Hu]; unfold GridModel.read_entry; cbn [as_pair listing_exn bind snd fst as_object].
  - change (text_eqb (str "filenode") (str "filenode")) with true. cbn iota. rewrite Hs, Hu. cbn [listing_exn bind as_string]. rewrite Rf. reflexivity.
  - change (text_eqb (str "dirnode") (str "filenode")) with false. cbn iota. rewrite Hu. cbn [listing_exn bind as_string]. rewrite Rd. reflexivity.
Qed.
Lemma read_entries_spec l : forall r, read_entries l = Ok r <-> Forall2 (fun nj nn => fst nj = fst nn /\ read_entry (snd nj) = Ok (snd nn)) l r.
Proof.
  induction l as [|[name j] l IH]; intros r; cbn [GridModel.read_entries].
  - split; [intros [= <-]; constructor|intros H; now inversion H].
  - destruct (read_entry j) as [n|e] eqn:E; cbn [bind].
    + destruct (read_entries l) as [r'|e] eqn:E'; cbn [bind].
      * split; [intros [= <-]; constructor; [now split|now apply IH]|]. intros H. inversion H as [|x [name' n'] xs ys (A & B) T]; subst. cbn in A, B. subst. rewrite E in B. injection B as ->.
        apply IH in T. injection T as ->. reflexivity.
      * split; [discriminate|]. intros H. inversion H as [|x y xs ys _ T]; subst. apply IH in T. discriminate T.
    + split; [discriminate|]. intros H. inversion H as [|x y xs ys (_ & B) T]; subst. cbn in B. congruence.
Qed.

Section Children.
Variable list_dir : dir_cap -> res gexn (list (text * node)).
Variable fetch : file_cap -> res gexn unit.
Lemma download_child_spec outpath path : forall d r calls, download_child list_dir fetch outpath d path = (r, calls) ->
  (exists ds c, leads list_dir d path ds c /\ r = fetch c /\ calls = map (ListCall file_cap (dir_cap := dir_cap)) ds ++ [DownloadCall dir_cap outpath c]) \/
  ((forall ds c, ~ leads list_dir d path ds c) /\ (exists e, r = Err e) /\ forall x, In x calls -> exists d', x = ListCall file_cap d').
Proof.
  induction path as [|p path IH]; intros d r calls E.
  - cbn in E. injection E as <- <-. right. split; [intros ds c L; inversion L|]. split; [eauto|]. intros x [].
  - cbn [download_child] in E. destruct (list_dir d) as [l|e] eqn:Ld.
    2: { injection E as <- <-. right. split; [intros ds c L; inversion L; subst; congruence|]. split; [eauto|]. intros x [<-|[]]. eauto. }
    destruct (tget p l) as [n|] eqn:T.
    2: { injection E as <- <-. right. split; [intros ds c L; inversion L; subst; congruence|]. split; [eauto|]. intros x [<-|[]]. eauto. }
    destruct path as [|p' path].
    + destruct n as [size c|d'].
      * injection E as <- <-. left. exists [d], c. split; [now apply LeadsFile with l size|]. split; reflexivity.
      * injection E as <- <-. right. split; [intros ds c L; inversion L; subst; congruence|]. split; [eauto|]. intros x [<-|[]]. eauto.
    + destruct n as [size c|d'].
      * injection E as <- <-. right. split; [intros ds c' L; inversion L; subst; congruence|]. split; [eauto|]. intros x [<-|[]]. eauto.
      * destruct (download_child list_dir fetch outpath d' (p' :: path)) as [r' calls'] eqn:E'. injection E as <- <-.
        destruct (IH d' r' calls' E') as [(ds & c & L & R & C) | (N & (e & R) & C)].
        -- left. exists (d :: ds), c. split; [now apply LeadsOn with l d'|]. split; [exact R|]. now rewrite C.
        -- right. split; [|split; [eauto|]].
           ++ intros ds c L. inversion L; subst. match goal with H : leads list_dir ?x _ _ _ |- _ => assert (x = d') by congruence; subst; now apply N in H end.
           ++ intros x [<-|I]; [eauto|]. now apply C.
Qed.
End Children.
End Listing.
Lemma exists_last_in A (l : list A) d : l <> [] -> In (last l d) l.
Proof. induction l as [|x [|y l] IH]; intros N; [contradiction|now left|]. right. apply IH. discriminate. Qed.
