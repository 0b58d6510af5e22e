(** Property theorem C122: what was redeemed pays for storage. *)
From Verif Require Import Prelude PreludeFacts BytesModel BytesProofs PassModel PricingModel PricingSpec PricingProofs
  ContainerModel ContainerProofs TahoeModel CborModel StreamModel JsonModel RedeemModel RedeemSpec RedeemProofs RedeemProperties
  ServerModel ServerSpec ServerProofs ServerStateProofs ServerRequestProofs
  StoreModel StoreSpec StoreProofs SpendModel SpendSpec SpendProofs SpendProperties
  ClientModel ClientProofs ServerProperties ClientProperties EnoughSpec EnoughProofs EnoughProperties PaidSpec PaidProofs.
From Coq Require Strings.String.
Import Coq.Strings.String.StringSyntax.

(** In each theorem the wallet was filled by redemptions only, every allowed
    public key belongs to the server's signing key, the request costs [n] passes
    and [k >= n] tokens can be taken.  The call ends at the first attempt with
    the one answer this server has for anybody who pays. *)

Theorem C122_allocate_paid :
  forall L F float_of float_repr float_zero max_digits decode depth token_text key_text allowed server_key
    pv iv mv mut now room scan si renew cancel nums sz sv n d k fuel,
  let q := Allocate si renew cancel nums sz in
  let signed := signed_by L server_key in
  lawful L -> sound_proofs L -> generates L ->
  (forall key, In key allowed -> public_key L key (smul L server_key (base_point L))) ->
  redeemed_wallet (F:=F) L float_of float_repr float_zero max_digits decode depth token_text key_text allowed d ->
  fair_scan scan -> 0 < pv -> NoDup nums -> 0 <= sz -> reachable_server signed pv iv mv mut sv ->
  price pv (sv_storage sv) now q n -> n <= SQLITE3_INTEGER_MAX ->
  available_count d k -> n <= Z.of_nat k -> (k < fuel)%nat ->
  exists r d' tr x,
    linked_allocate signed pv mv (preimage_of L token_text) (signature_for L token_text) now room scan
      si renew cancel nums sz sv fuel d = Some (r, d', tr) /\
    (length tr <= 1)%nat /\
    given_for signed pv mv now room q sv n x /\
    (forall y, given_for signed pv mv now room q sv n y -> y = x) /\
    r = match x with Ok y => Ok (buckets_of y) | Err _ => Err (Remote 0) end.
Proof.
  intros * Law Sp G Hk W Sc Hv N Z0 R Pr Le Av Lk Lf.
  destruct (@C101_allocate_served signed pv iv mv mut (preimage_of L token_text) (signature_for L token_text) now room scan
              si renew cancel nums sz sv n (Z.of_nat k) d k fuel (wallet_sound Law token_text) Sc Hv N Z0 R (wallet_fresh W) Pr Le
              (wallet_good_tokens Law Sp G server_key Hk q W Av) Lk Av Lf) as (r & d' & tr & x & E & Lt & X).
  exists r, d', tr, x. split; [exact E|]. split; [|exact X]. rewrite Nat2Z.id, Nat.sub_diag in Lt. exact Lt.
Qed.
Print Assumptions C122_allocate_paid.

Theorem C122_add_lease_paid :
  forall L F float_of float_repr float_zero max_digits decode depth token_text key_text allowed server_key
    pv iv mv mut now room scan si renew cancel sv n d k fuel,
  let q := AddLease si renew cancel in
  let signed := signed_by L server_key in
  lawful L -> sound_proofs L -> generates L ->
  (forall key, In key allowed -> public_key L key (smul L server_key (base_point L))) ->
  redeemed_wallet (F:=F) L float_of float_repr float_zero max_digits decode depth token_text key_text allowed d ->
  fair_scan scan -> 0 < pv -> reachable_server signed pv iv mv mut sv ->
  price pv (sv_storage sv) now q n -> n <= SQLITE3_INTEGER_MAX ->
  available_count d k -> n <= Z.of_nat k -> (k < fuel)%nat ->
  exists r d' tr x,
    linked_add_lease signed pv mv (preimage_of L token_text) (signature_for L token_text) now room scan
      si renew cancel sv fuel d = Some (r, d', tr) /\
    (length tr <= 1)%nat /\
    given_for signed pv mv now room q sv n x /\
    (forall y, given_for signed pv mv now room q sv n y -> y = x) /\
    r = match x with Ok y => Ok y | Err _ => Err (Remote 0) end.
Proof.
  intros * Law Sp G Hk W Sc Hv R Pr Le Av Lk Lf.
  destruct (@C101_add_lease_served signed pv iv mv mut (preimage_of L token_text) (signature_for L token_text) now room scan
              si renew cancel sv n (Z.of_nat k) d k fuel (wallet_sound Law token_text) Sc Hv R (wallet_fresh W) Pr Le
              (wallet_good_tokens Law Sp G server_key Hk q W Av) Lk Av Lf) as (r & d' & tr & x & E & Lt & X).
  exists r, d', tr, x. split; [exact E|]. split; [|exact X]. rewrite Nat2Z.id, Nat.sub_diag in Lt. exact Lt.
Qed.
Print Assumptions C122_add_lease_paid.

Theorem C122_writev_paid :
  forall L F float_of float_repr float_zero max_digits decode depth token_text key_text allowed server_key
    pv iv mv mut now room scan si we renew cancel tw rv sv n d k fuel,
  let q := Writev si we renew cancel tw rv in
  let signed := signed_by L server_key in
  lawful L -> sound_proofs L -> generates L ->
  (forall key, In key allowed -> public_key L key (smul L server_key (base_point L))) ->
  redeemed_wallet (F:=F) L float_of float_repr float_zero max_digits decode depth token_text key_text allowed d ->
  fair_scan scan -> 0 < pv -> 0 <= now -> dict_wf tw -> reachable_server signed pv iv mv mut sv ->
  price pv (sv_storage sv) now q n -> n <= SQLITE3_INTEGER_MAX ->
  available_count d k -> n <= Z.of_nat k -> (k < fuel)%nat ->
  exists r d' tr x,
    linked_writev signed pv mv (preimage_of L token_text) (signature_for L token_text) now room scan
      si we renew cancel tw rv sv fuel d = Some (r, d', tr) /\
    (length tr <= 1)%nat /\
    given_for signed pv mv now room q sv n x /\
    (forall y, given_for signed pv mv now room q sv n y -> y = x) /\
    r = match x with Ok y => Ok y | Err _ => Err (Remote 0) end.
Proof.
  intros * Law Sp G Hk W Sc Hv Hn Wt R Pr Le Av Lk Lf.
  destruct (@C101_writev_served signed pv iv mv mut (preimage_of L token_text) (signature_for L token_text) now room scan
              si we renew cancel tw rv sv n (Z.of_nat k) d k fuel (wallet_sound Law token_text) Sc Hv Hn Wt R (wallet_fresh W) Pr Le
              (wallet_good_tokens Law Sp G server_key Hk q W Av) Lk Av Lf) as (r & d' & tr & x & E & Lt & X).
  exists r, d', tr, x. split; [exact E|]. split; [|exact X]. rewrite Nat2Z.id, Nat.sub_diag in Lt. exact Lt.
Qed.
Print Assumptions C122_writev_paid.

(** ** Example *)

(** The redemption of C93, put into the store, pays for two shares on an empty server. *)
Definition px_text (t : Z) : bytes := if t =? 11 then token_for small T2 (pre x00) else token_for small T2 (pre x07).
Definition px_key (_ : Z) : text := ex_key.
Definition px_history : list op := [OAdd 7 2 0 [101; 102] 1000; OInsert 7 55 [11; 12] true true 1001].
Definition px_db : db := snd (steps empty_db px_history).
Definition px_call := linked_allocate (signed_by small T2) 10 2 (preimage_of small px_text) (signature_for small px_text) 1000 (fun _ => true)
  (fun _ l => l) (PassModel.ascii "si") (PassModel.ascii "r") (PassModel.ascii "c") [0; 1] 7 empty_server 3 px_db.

Lemma px_wallet : redeemed_wallet (F:=unit) small ex_float ex_repr ex_zero 100 ex_decode 5 px_text px_key [ex_key] px_db.
Proof.
  exists px_history, (fst (steps empty_db px_history)). split; [|split; [|split]].
  - cbn. intuition (subst; cbn; auto).
  - cbn. intuition.
  - vm_compute. reflexivity.
  - intros v pk toks c s now I. cbn [In px_history] in I. destruct I as [I|[I|[]]]; [discriminate|]. injection I as <- <- <- <- <- <-.
    split; [split; [left; reflexivity|reflexivity]|]. exists voucher_number, 3, ex_rts, ex_answer. split; [apply C93_example|].
    intros rt t r I J. apply small_invertible. intros ->.
    cbn [ex_rts map ex_pairs In] in I. destruct J as (rb & U & Lp & Lr & R).
    assert (Er : forall a b : bytes, length a = 64%nat -> Some (a ++ b) = Some (t ++ rb) -> rb = b).
    { intros a b La E. injection E as E. apply (f_equal (skipn 64)) in E. rewrite !skipn_app, La, Lp, (skipn_all2 a), (skipn_all2 t) in E by lia. symmetry. exact E. }
    destruct I as [<-|[<-|[]]]; cbn [unb64 small] in U; rewrite b64read_encode in U.
    + apply (Er (pre x00) _ eq_refl) in U. subst rb. discriminate R.
    + apply (Er (pre x07) _ eq_refl) in U. subst rb. discriminate R.
Qed.

Example C122_example :
  (forall key, In key [ex_key] -> public_key small key (smul small T2 (base_point small))) /\
  fair_scan (fun _ l => l) /\ reachable_server (signed_by small T2) 10 2 2 (fun _ => false) empty_server /\
  price 10 (sv_storage empty_server) 1000 (Allocate (PassModel.ascii "si") (PassModel.ascii "r") (PassModel.ascii "c") [0; 1] 7) 2 /\
  available_count px_db 2 /\
  match px_call with
  | Some (Ok ([], [(0, _); (1, _)]), d', [(g, _)]) => map fst g = [11; 12] /\ unblinded d' = []
  | _ => False
  end.
Proof.
  split; [intros key [<-|[]]; apply C93_example|]. split; [intros n l; apply Permutation_refl|].
  split; [split; [auto|]; split; [auto|]; exists [], []; repeat split; constructor|].
  split; [apply (proj1 (required_passes_exact [7; 7] 2 (eq_refl : 0 < 10))); vm_compute; reflexivity|].
  split; [exists [11; 12]; split; [repeat constructor; cbn; intuition discriminate|]; split; [|reflexivity]|vm_compute; repeat split].
  assert (Av : available px_db = [11; 12]) by (vm_compute; reflexivity). intros t. rewrite <- Av. apply in_available.
Qed.
