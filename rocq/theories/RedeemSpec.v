(** Specification vocabulary for redemption (C92-C95): what the Ristretto library guarantees,
    what a signed token is and what an issuer says.  Uses the library's operations and JSON
    values, none of the functions of [RedeemModel]. *)
From Verif Require Import Prelude BytesModel CborModel StreamModel JsonModel RedeemModel.
From Coq Require Strings.String.
Import Coq.Strings.String.StringSyntax.
Set Implicit Arguments.

Section Spec.
Variable L : library.

(** The group is commutative, what is written is read back, and sizes are fixed. *)
Record lawful : Prop := {
  law_smul : forall a b p, smul L a (smul L b p) = smul L b (smul L a p);
  law_unb64 : forall b, unb64 L (b64encode b) = Some b;
  law_point : forall p, read_point L (write_point L p) = Some p;
  law_point_size : forall p, length (write_point L p) = 32%nat;
  law_mac_size : forall t p m, length (mac L t p m) = 64%nat }.

(** An accepted proof shows that one secret key, that of the public key, signed everything. *)
Definition sound_proofs : Prop := forall proof blinded signed public,
  verify L proof blinded signed public = true ->
  exists k, public = smul L k (base_point L) /\ signed = map (smul L k) blinded.

(** The base point generates the group: keys with the same public key sign alike. *)
Definition generates : Prop := forall k k', smul L k (base_point L) = smul L k' (base_point L) ->
  forall p, smul L k p = smul L k' p.

(** Every scalar can be written; those other than zero reach every point from every point
    other than the identity (the group has prime order). *)
Definition all_scalars : Prop := forall s, exists b, length b = 32%nat /\ read_scalar L b = Some s.
Definition reaches_all (p : point L) : Prop := forall q, exists s, smul L s p = q.

Definition invertible (r : scalar L) : Prop := forall p, smul L (inv L r) (smul L r p) = p.

(** ** Tokens *)

(** A random token kept by the client: a preimage and a blinding factor. *)
Definition random_of (rt preimage : bytes) (r : scalar L) : Prop :=
  exists rb, unb64 L rt = Some (preimage ++ rb) /\ length preimage = 64%nat /\ length rb = 32%nat /\
             read_scalar L rb = Some r.
(** The token for a preimage under a secret key: it does not depend on the blinding factor. *)
Definition token_for (k : scalar L) (preimage : bytes) : bytes :=
  b64encode (preimage ++ write_point L (smul L k (hash_to_point L preimage))).
Definition blinded_text (preimage : bytes) (r : scalar L) : bytes :=
  b64encode (write_point L (smul L r (hash_to_point L preimage))).
(** What a key holder computes for a preimage and a message. *)
Definition mac_under (k : scalar L) (preimage message : bytes) : bytes :=
  mac L preimage (smul L k (hash_to_point L preimage)) message.

(** The public key named by a text *)
Definition public_key (key : text) (p : point L) : Prop :=
  exists kb b, key = CborModel.ascii kb /\ unb64 L kb = Some b /\ length b = 32%nat /\ read_point L b = Some p.

(** ** Answers of the issuer *)

Variable F : Type.
(** An issuer that signed the blinded tokens with its key and proves it *)
Definition honest_answer (k : scalar L) (proof : bytes) (ts : list (bytes * scalar L)) : json F :=
  let text_of p := JStr (CborModel.ascii (b64encode (write_point L p))) in
  JObj [(str "success", JBool true);
        (str "public-key", text_of (smul L k (base_point L)));
        (str "signatures", JArr (map (fun tr => text_of (smul L k (smul L (snd tr) (hash_to_point L (fst tr))))) ts));
        (str "proof", JStr (CborModel.ascii (b64encode proof)))].
Definition proves (proof : bytes) (k : scalar L) (ts : list (bytes * scalar L)) : Prop :=
  length proof = 64%nat /\ exists pr, read_dleq L proof = Some pr /\
  let blinded := map (fun tr => smul L (snd tr) (hash_to_point L (fst tr))) ts in
  verify L pr blinded (map (smul L k) blinded) (smul L k (base_point L)) = true.

Variable float_zero : F -> bool.
Variable reads : bytes -> option (list (text * json F)).      (* the object in a body *)

(** JSON values Python takes for false *)
Definition counts_as_false (j : json F) : Prop :=
  match j with
  | JNull => True
  | JBool b => b = false
  | JInt n => n = 0
  | JFloat f => float_zero f = true
  | JStr s => s = []
  | JArr l => l = []
  | JObj l => l = []
  end.
Definition claims_success (o : list (text * json F)) : Prop :=
  exists j, jget (str "success") o = Some j /\ ~ counts_as_false j.
Definition refuses (reason : text) (answer : option (Z * bytes)) : Prop :=
  exists code body o, answer = Some (code, body) /\ reads body = Some o /\
    ~ claims_success o /\ jget (str "reason") o = Some (JStr reason).
End Spec.

(** The object in the body of an answer *)
Definition object_in F (float_of : text -> F) (max_digits : nat) (decode : bytes -> option text) (depth : nat)
    (body : bytes) : option (list (text * json F)) :=
  match loads float_of max_digits decode depth body with Ok (JObj o) => Some o | _ => None end.
