(** Redemption of a voucher with the issuer and the use of what it yields:
    [RistrettoRedeemer] (controller.py:551-719) and the check made by the storage server
    (_storage_server.py:129-157).

    The library challenge_bypass_ristretto is a record of operations: a group written
    multiplicatively by scalars, hashing to it, the keyed hash and the proof of equality of
    discrete logarithms.  Its objects are laid out as in the crate of that name: 64 bytes of
    preimage, 32 bytes for a scalar or a point, 64 bytes for a keyed hash or a proof, in
    base64.  Sending the request and its failures are an optional answer. *)
From Verif Require Import Prelude BytesModel CborModel StreamModel JsonModel VoucherModel PassModel.
From Coq Require Strings.String.
Import Coq.Strings.String.StringSyntax.
Set Implicit Arguments.

Record library := Library {
  scalar : Type;
  point : Type;
  dleq : Type;
  smul : scalar -> point -> point;
  inv : scalar -> scalar;
  base_point : point;
  hash_to_point : bytes -> point;                       (* of a preimage *)
  mac : bytes -> point -> bytes -> bytes;               (* key (preimage, point), message *)
  verify : dleq -> list point -> list point -> point -> bool;  (* blinded, signed, public key *)
  read_scalar : bytes -> option scalar;
  write_point : point -> bytes;
  read_point : bytes -> option point;
  read_dleq : bytes -> option dleq;
  unb64 : bytes -> option bytes }.                      (* decoding of base64 *)

(** What [redeemWithCounter] raises: the exceptions of the request, [UnexpectedResponse],
    [AlreadySpent], [Unpaid], [UnrecognizedFailureReason], the library's refusal of the proof,
    and everything else (lookup, type and decoding errors). *)
Inductive rexn := RNoAnswer | RUnexpected | RAlreadySpent | RUnpaid | RUnrecognized | RProof | ROther.

Definition ror {A} (e : rexn) (o : option A) : res rexn A := match o with Some x => Ok x | None => Err e end.

Fixpoint all_some {A B} (f : A -> option B) (l : list A) : option (list B) :=
  match l with
  | [] => Some []
  | x :: l' => match f x with Some y => match all_some f l' with Some r => Some (y :: r) | None => None end | None => None end
  end.

Section Redeem.
Variable L : library.
Variable F : Type.
Variable float_of : text -> F.
Variable float_repr : F -> text.
Variable float_zero : F -> bool.     (* [f == 0.0] *)
Variable max_digits : nat.
Variable decode : bytes -> option text.
Variable depth : nat.
Notation json := (json F).

(** ** The library's objects *)

(** [X.decode_base64] for an object of [n] bytes *)
Definition read64 (n : nat) (s : bytes) : option bytes :=
  match unb64 L s with
  | Some b => if Nat.eqb (length b) n then Some b else None
  | None => None
  end.

Record random_token := Random { r_preimage : bytes; r_scalar : scalar L }.
Record unblinded_token := Unblinded { u_preimage : bytes; u_point : point L }.

(** [RandomToken.decode_base64] *)
Definition read_random (s : bytes) : option random_token :=
  match read64 96 s with
  | Some b => match read_scalar L (skipn 64 b) with Some r => Some (Random (firstn 64 b) r) | None => None end
  | None => None
  end.
(** [RandomToken.blind] *)
Definition blind (t : random_token) : point L := smul L (r_scalar t) (hash_to_point L (r_preimage t)).
(** [BlindedToken.encode_base64] *)
Definition write_blinded (p : point L) : bytes := b64encode (write_point L p).
(** [PublicKey.decode_base64], [SignedToken.decode_base64] *)
Definition read_point64 (s : bytes) : option (point L) :=
  match read64 32 s with Some b => read_point L b | None => None end.
(** [BatchDLEQProof.decode_base64] *)
Definition read_proof (s : bytes) : option (dleq L) :=
  match read64 64 s with Some b => read_dleq L b | None => None end.
(** [BatchDLEQProof.invalid_or_unblind] *)
Definition unblind (t : random_token) (s : point L) : unblinded_token :=
  Unblinded (r_preimage t) (smul L (inv L (r_scalar t)) s).
Definition invalid_or_unblind (proof : dleq L) (tokens : list random_token) (blinded signed : list (point L))
    (public : point L) : option (list unblinded_token) :=
  if verify L proof blinded signed public
  then Some (map (fun ts => unblind (fst ts) (snd ts)) (combine tokens signed)) else None.
(** [UnblindedToken.encode_base64], [UnblindedToken.decode_base64] *)
Definition write_unblinded (u : unblinded_token) : bytes := b64encode (u_preimage u ++ write_point L (u_point u)).
Definition read_unblinded (s : bytes) : option unblinded_token :=
  match read64 96 s with
  | Some b => match read_point L (skipn 64 b) with Some p => Some (Unblinded (firstn 64 b) p) | None => None end
  | None => None
  end.
(** [derive_verification_key_sha512] and [sign_sha512] *)
Definition token_signature (u : unblinded_token) (message : bytes) : bytes := mac L (u_preimage u) (u_point u) message.
(** [SigningKey.rederive_unblinded_token] *)
Definition rederive (k : scalar L) (preimage : bytes) : unblinded_token :=
  Unblinded preimage (smul L k (hash_to_point L preimage)).

(** ** Redemption *)

(** controller.py:614-632: the body of the request; the counter and the voucher's number as
    they are, the blinded tokens in base64 *)
Definition redeem_request (number : bytes) (counter : Z) (random_tokens : list bytes) : res rexn bytes :=
  basic <- ror ROther (all_some read_random random_tokens) ;;
  number <- ror ROther (decode_ascii number) ;;
  Ok (dumps_utf8 float_repr
        (JObj [(str "redeemVoucher", JStr number);
               (str "redeemCounter", JInt counter);
               (str "redeemTokens", JArr (map (fun t => JStr (CborModel.ascii (write_blinded (blind t)))) basic))])).

(** [not j] *)
Definition falsy (j : json) : bool :=
  match j with
  | JNull => true
  | JBool b => negb b
  | JInt n => n =? 0
  | JFloat f => float_zero f
  | JStr s => match s with [] => true | _ => false end
  | JArr l => match l with [] => true | _ => false end
  | JObj l => match l with [] => true | _ => false end
  end.

(** [list(f(x) for x in j)] walks a list, the characters of a text or the keys of an object. *)
Definition elements (j : json) : option (list json) :=
  match j with
  | JArr l => Some l
  | JStr s => Some (map (fun c => JStr [c]) s)
  | JObj l => Some (map (fun kv => JStr (fst kv)) l)
  | _ => None
  end.

(** [j.encode("ascii")]; only texts have the method. *)
Definition ascii_bytes (j : json) : option bytes :=
  match j with JStr s => encode_ascii s | _ => None end.
Definition bind_o {A B} (o : option A) (f : A -> option B) : option B :=
  match o with Some x => f x | None => None end.

(** controller.py:650-690, an answer that is an object claiming success *)
Definition redeem_success (basic : list random_token) (result : list (text * json)) : res rexn (list bytes * text) :=
  marshaled_public_key <- ror ROther (jget (str "public-key") result) ;;
  marshaled_proof <- ror ROther (jget (str "proof") result) ;;
  signatures <- ror ROther (jget (str "signatures") result) ;;
  marshaled_signed <- ror ROther (elements signatures) ;;
  public <- ror ROther (bind_o (ascii_bytes marshaled_public_key) read_point64) ;;
  signed <- ror ROther (all_some (fun j => bind_o (ascii_bytes j) read_point64) marshaled_signed) ;;
  proof <- ror ROther (bind_o (ascii_bytes marshaled_proof) read_proof) ;;
  unblinded <- ror RProof (invalid_or_unblind proof basic (map blind basic) signed public) ;;
  let tokens := map write_unblinded unblinded in
  if forallb (base64_bytes 128) tokens
  then match marshaled_public_key with JStr s => Ok (tokens, s) | _ => Err ROther end
  else Err ROther.

(** controller.py:633-648, the answer: its status and body *)
Definition redeem_answer (basic : list random_token) (answer : option (Z * bytes)) : res rexn (list bytes * text) :=
  match answer with
  | None => Err RNoAnswer
  | Some (_, body) =>
      match loads float_of max_digits decode depth body with
      | Err BadJson => Err RUnexpected
      | Err TooDeep => Err ROther
      | Ok (JObj result) =>
          let success := match jget (str "success") result with Some j => j | None => JBool false end in
          if falsy success then
            match jget (str "reason") result with
            | Some (JStr s) =>
                if text_eqb s (str "double-spend") then Err RAlreadySpent
                else if text_eqb s (str "unpaid") then Err RUnpaid
                else Err RUnrecognized
            | _ => Err RUnrecognized
            end
          else redeem_success basic result
      | Ok _ => Err ROther
      end
  end.

(** controller.py:611-690 [redeemWithCounter]: tokens and the key they are signed with *)
Definition redeem (number : bytes) (counter : Z) (random_tokens : list bytes) (answer : option (Z * bytes))
  : res rexn (list bytes * text) :=
  _ <- redeem_request number counter random_tokens ;;
  basic <- ror ROther (all_some read_random random_tokens) ;;
  redeem_answer basic answer.

(** ** Use *)

(** controller.py:692-719 [tokens_to_passes]; [None] is an exception. *)
Definition token_to_pass (message : bytes) (u : unblinded_token) : option pass :=
  make_pass (b64encode (u_preimage u)) (b64encode (token_signature u message)).
Definition tokens_to_passes (message : bytes) (tokens : list bytes) : option (list pass) :=
  bind_o (all_some read_unblinded tokens) (all_some (token_to_pass message)).

(** _storage_server.py:129-157 [_is_invalid_pass], negated, as [ServerModel] takes it *)
Definition signed_by (k : scalar L) (message preimage signature : bytes) : bool :=
  match read64 64 preimage, read64 64 signature with
  | Some t, Some s => bytes_eqb s (token_signature (rederive k t) message)
  | _, _ => false
  end.
End Redeem.
