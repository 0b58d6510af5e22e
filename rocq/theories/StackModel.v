(** The limit on the size of the stack, which checking the issuer's proof
    needs raised: [less_limited_stack] (_stack.py) and its use in
    [redeemWithCounter] (controller.py:675).

    A limit is a number of bytes or [None], no limit.  What [setrlimit] accepts
    is a parameter: it differs between systems. *)
From Verif Require Import Prelude BytesModel CborModel StreamModel JsonModel VoucherModel PassModel RedeemModel.
From Coq Require Strings.String.
Import Coq.Strings.String.StringSyntax.
Set Implicit Arguments.

(** [(soft, hard)], as [getrlimit(RLIMIT_STACK)] gives them *)
Definition limits := (option Z * option Z)%type.

Section Stack.
(** Whether [setrlimit] changes the first limits to the second; otherwise it
    raises [ValueError]. *)
Variable accepts : limits -> limits -> bool.

Definition setrlimit (now new : limits) : option limits := if accepts now new then Some new else None.

(** _stack.py:31-48.  The body, under the limits, gives a result or raises; an
    exception of the body passes through the [yield]. *)
Definition less_limited_stack {A} (body : limits -> res rexn A * limits) (l : limits) : res rexn A * limits :=
  let (soft, hard) := l in
  match setrlimit l (hard, hard) with
  | None => body l
  | Some raised =>
      match body raised with
      | (Err e, l') => (Err e, l')
      | (Ok a, l') =>
          match setrlimit l' (soft, hard) with
          | Some l'' => (Ok a, l'')
          | None => (Err ROther, l')
          end
      end
  end.

Variable L : library.
Variable F : Type.
Variable float_of : text -> F.
Variable float_repr : F -> text.
Variable float_zero : F -> bool.
Variable max_digits : nat.
Variable decode : bytes -> option text.
Variable depth : nat.

(** What does not touch the limits. *)
Definition keeping {A} (r : res rexn A) (l : limits) : res rexn A * limits := (r, l).
Definition then_ {A B} (m : limits -> res rexn A * limits) (k : A -> limits -> res rexn B * limits) (l : limits) : res rexn B * limits :=
  match m l with (Ok a, l') => k a l' | (Err e, l') => (Err e, l') end.

(** controller.py:661-690, as [redeem_success], with the limits *)
Definition redeem_success_on (basic : list (random_token L)) (result : list (text * json F)) : limits -> res rexn (list bytes * text) * limits :=
  then_ (keeping (ror ROther (jget (str "public-key") result))) (fun marshaled_public_key =>
  then_ (keeping (ror ROther (jget (str "proof") result))) (fun marshaled_proof =>
  then_ (keeping (ror ROther (jget (str "signatures") result))) (fun signatures =>
  then_ (keeping (ror ROther (elements signatures))) (fun marshaled_signed =>
  then_ (keeping (ror ROther (bind_o (ascii_bytes marshaled_public_key) (read_point64 L)))) (fun public =>
  then_ (keeping (ror ROther (all_some (fun j => bind_o (ascii_bytes j) (read_point64 L)) marshaled_signed))) (fun signed =>
  then_ (keeping (ror ROther (bind_o (ascii_bytes marshaled_proof) (read_proof L)))) (fun proof =>
  then_ (less_limited_stack (keeping (ror RProof (invalid_or_unblind proof basic (map (@blind L) basic) signed public)))) (fun unblinded =>
  let tokens := map (@write_unblinded L) unblinded in
  keeping (if forallb (base64_bytes 128) tokens
           then match marshaled_public_key with JStr s => Ok (tokens, s) | _ => Err ROther end
           else Err ROther))))))))).

(** controller.py:633-648, as [redeem_answer] *)
Definition redeem_answer_on (basic : list (random_token L)) (answer : option (Z * bytes)) : limits -> res rexn (list bytes * text) * limits :=
  match answer with
  | None => keeping (Err RNoAnswer)
  | Some (_, body) =>
      match loads float_of max_digits decode depth body with
      | Err BadJson => keeping (Err RUnexpected)
      | Err TooDeep => keeping (Err ROther)
      | Ok (JObj result) =>
          let success := match jget (str "success") result with Some j => j | None => JBool false end in
          if falsy float_zero success then
            match jget (str "reason") result with
            | Some (JStr s) =>
                if text_eqb s (str "double-spend") then keeping (Err RAlreadySpent)
                else if text_eqb s (str "unpaid") then keeping (Err RUnpaid)
                else keeping (Err RUnrecognized)
            | _ => keeping (Err RUnrecognized)
            end
          else redeem_success_on basic result
      | Ok _ => keeping (Err ROther)
      end
  end.

(** controller.py:611-690 *)
Definition redeem_on (number : bytes) (counter : Z) (random_tokens : list bytes) (answer : option (Z * bytes))
  : limits -> res rexn (list bytes * text) * limits :=
  then_ (keeping (redeem_request L float_repr number counter random_tokens)) (fun _ =>
  then_ (keeping (ror ROther (all_some (@read_random L) random_tokens))) (fun basic =>
  redeem_answer_on basic answer)).

(** Redemptions one after another. *)
Record attempt := Attempt { at_number : bytes; at_counter : Z; at_tokens : list bytes; at_answer : option (Z * bytes) }.
Fixpoint redemptions (l : limits) (q : list attempt) : list (res rexn (list bytes * text)) * limits :=
  match q with
  | [] => ([], l)
  | a :: q' =>
      let (r, l') := redeem_on (at_number a) (at_counter a) (at_tokens a) (at_answer a) l in
      let (rs, l'') := redemptions l' q' in (r :: rs, l'')
  end.
End Stack.
