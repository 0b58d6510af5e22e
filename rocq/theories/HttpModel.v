(** The decisions of the HTTP interface: who is let in (private.py), and what the resources
    make of a request (resource.py, _base64.py).  Rendering of error pages, logging and
    everything below the level of a request (Twisted's parsing of HTTP) are not modelled. *)
From Verif Require Import Prelude BytesModel CborModel StreamModel PricingModel DateModel JsonModel VoucherModel.
From Verif Require PassModel.
From Coq Require Strings.String.
Import Coq.Strings.String.StringSyntax.
Set Implicit Arguments.

(** * Authorization *)

(** [s.split(b" ")] *)
Fixpoint split_spaces (s : bytes) : bytes * list bytes :=
  match s with
  | [] => ([], [])
  | c :: s' => let '(h, t) := split_spaces s' in
               if Byte.eqb c x20 then ([], h :: t) else (c :: h, t)
  end.
(** [b" ".join(l)] *)
Fixpoint join_spaces (l : list bytes) : bytes :=
  match l with
  | [] => []
  | [x] => x
  | x :: l' => x ++ x20 :: join_spaces l'
  end.
(** [s.lower()] *)
Definition lower_byte (b : byte) : byte := if (65 <=? bz b) && (bz b <=? 90) then zb (bz b + 32) else b.
Definition lower (s : bytes) : bytes := map lower_byte s.

(** private.py:39 [SCHEME] *)
Definition scheme : bytes := PassModel.ascii "tahoe-lafs".

(** private.py:64-74 [TokenChecker.requestAvatarId] with private.py:50-60 [Token.equals];
    [bytes_eq] compares, in constant time. *)
Definition token_accepted (proposed required : bytes) : bool := bytes_eqb required proposed.

(** Twisted's [HTTPAuthSessionWrapper._authorizedResource] with the one credential factory of
    private.py:77-87 and the realm of private.py:90-106: whether the request goes on to the
    protected resource.  [headers]: the values of all [Authorization] headers; the last
    counts, an empty one is like none.  The refusals (401, or 500 if no checker handles
    anonymous requests) are not told apart. *)
Definition authorized (secret : bytes) (headers : list bytes) : bool :=
  match last headers [] with
  | [] => false
  | header =>
      let '(h, t) := split_spaces header in
      bytes_eqb (lower h) scheme && token_accepted (join_spaces t) secret
  end.

(** * Responses *)

(** [Crash]: an exception leaves the method of the resource. *)
Inductive response := Response (code : Z) (body : bytes) | Crash.

Section Resources.
Variable F : Type.
Variable float_of : text -> F.
Variable float_repr : F -> text.
Variable is_one : F -> bool.     (* [f == 1] *)
Variable max_digits : nat.
Variable decode : bytes -> option text.
Variable depth : nat.            (* how deep the reader of JSON may go *)
Notation json := (json F).
Notation loads := (loads float_of max_digits decode depth).

(** ** The price *)

Definition error_body (message : text) : bytes := dumps_utf8 float_repr (JObj [(str "error", JStr message)]).

(** resource.py:579-600 [wrong_content_type]: the first header counts. *)
Definition wrong_content_type (content_types : list text) (required : text) : bool :=
  match content_types with c :: _ => negb (text_eqb c required) | [] => true end.

(** [version != 1] *)
Definition equals_one (j : json) : bool :=
  match j with JInt n => n =? 1 | JBool b => b | JFloat f => is_one f | _ => false end.

(** resource.py:557-559: [isinstance(size, int) and size >= 0] for all of a list *)
Definition size_of (j : json) : option Z :=
  match j with
  | JInt n => if 0 <=? n then Some n else None
  | JBool b => Some (if b then 1 else 0)
  | _ => None
  end.
Fixpoint all_sizes (l : list json) : option (list Z) :=
  match l with
  | [] => Some []
  | j :: l' => match size_of j, all_sizes l' with Some n, Some ns => Some (n :: ns) | _, _ => None end
  end.
Definition sizes_of (j : json) : option (list Z) := match j with JArr l => all_sizes l | _ => None end.

(** [dumps] of an integer fails for one with too many digits. *)
Definition too_long (n : Z) : bool := Nat.ltb max_digits (length (dec (Z.abs n))).

(** resource.py:512-576 [_CalculatePrice.render_POST] *)
Definition calculate_price (needed total pass_value period : Z) (content_types : list text) (body : bytes) : response :=
  if wrong_content_type content_types (str "application/json") then Response 400 []
  else match loads body with
       | Err TooDeep => Crash      (* RecursionError is no ValueError *)
       | Err BadJson => Response 400 (error_body (str "could not parse request body"))
       | Ok (JObj d) =>
           match jget (str "version") d, jget (str "sizes") d with
           | Some version, Some sizes =>
               if negb (equals_one version) then
                 Response 400 (error_body (str "did not find required version number 1 in request"))
               else match sizes_of sizes with
                    | None => Response 400 (error_body (str "did not find required positive integer sizes list in request"))
                    | Some ns =>
                        match calculate needed total pass_value ns with
                        | Err _ => Crash
                        | Ok price =>
                            if too_long price || too_long period then Crash
                            else Response 200 (dumps_utf8 float_repr (JObj [(str "price", JInt price); (str "period", JInt period)]))
                        end
                    end
           | _, _ => Response 400 (error_body (str "could not read `version` and `sizes` properties"))
           end
       | Ok _ => Response 400 (error_body (str "request body must be a JSON object"))
       end.

(** ** Vouchers *)

(** The value of a character in standard base64 *)
Definition b64value (b : byte) : option Z :=
  let c := bz b in
  if (65 <=? c) && (c <=? 90) then Some (c - 65)
  else if (97 <=? c) && (c <=? 122) then Some (c - 71)
  else if (48 <=? c) && (c <=? 57) then Some (c + 4)
  else if c =? 43 then Some 62
  else if c =? 47 then Some 63
  else None.

(** [binascii.a2b_base64]: other characters are skipped; a full set of padding ends the
    data; the data must end with a group of four. *)
Fixpoint a2b (quad left pads : Z) (s : bytes) : option bytes :=
  match s with
  | [] => if quad =? 0 then Some [] else None
  | c :: s' =>
      if bz c =? 61 then
        if 2 <=? quad then
          if 4 <=? quad + (pads + 1) then Some [] else a2b quad left (pads + 1) s'
        else a2b quad left pads s'
      else match b64value c with
           | None => a2b quad left pads s'
           | Some v =>
               if quad =? 0 then a2b 1 v 0 s'
               else if quad =? 1 then option_map (cons (zb (left * 4 + v / 16))) (a2b 2 (v mod 16) 0 s')
               else if quad =? 2 then option_map (cons (zb (left * 16 + v / 4))) (a2b 3 (v mod 4) 0 s')
               else option_map (cons (zb (left * 64 + v))) (a2b 0 0 0 s')
           end
  end.

(** _base64.py:24 the expression [^[A-Za-z0-9-_]*={0,2}$]; [$] also matches before a newline
    at the end. *)
Definition urlsafe_char (b : byte) : bool :=
  let c := bz b in
  ((65 <=? c) && (c <=? 90)) || ((97 <=? c) && (c <=? 122)) || ((48 <=? c) && (c <=? 57)) || (c =? 45) || (c =? 95).
Fixpoint b64decode_validator (s : bytes) : bool :=
  match s with
  | c :: s' =>
      if urlsafe_char c then b64decode_validator s'
      else existsb (bytes_eqb s) [[x3d]; [x3d; x3d]; [x0a]; [x3d; x0a]; [x3d; x3d; x0a]]
  | [] => true
  end.
Definition from_altchars (b : byte) : byte :=
  if Byte.eqb b x2d then x2b else if Byte.eqb b x5f then x2f else b.
(** _base64.py:27-33 [urlsafe_b64decode] *)
Definition urlsafe_b64decode (s : bytes) : option bytes :=
  if b64decode_validator s then a2b 0 0 0 (map from_altchars s) else None.

(** resource.py:723-742 [is_syntactic_voucher] *)
Definition is_syntactic_voucher (j : json) : bool :=
  match j with
  | JStr s =>
      if Nat.eqb (length s) 44 then
        match encode_ascii s with
        | None => false
        | Some b => match urlsafe_b64decode b with Some _ => true | None => false end
        end
      else false
  | _ => false
  end.

(** What [render_PUT] does: hand a voucher to the controller, or answer 400. *)
Inductive put_outcome := Redeem (voucher : bytes) | Refuse.

(** resource.py:675-701 [_VoucherCollection.render_PUT] *)
Definition put_voucher (body : bytes) : res vexn put_outcome :=
  match loads body with
  | Ok (JObj d) =>
      match d with
      | [(k, v)] =>
          if text_eqb k (str "voucher") then
            if is_syntactic_voucher v then
              match v with
              | JStr s => b <- or_err VValue (encode_ascii s) ;; Ok (Redeem b)
              | _ => Err VType
              end
            else Ok Refuse
          else Ok Refuse
      | _ => Ok Refuse
      end
  | _ => Ok Refuse
  end.

(** [segment.decode("utf-8")] and the lookup in the store, with the transient state *)
Variable utf8 : bytes -> option text.
Variable get : bytes -> option voucher.

(** resource.py:714-722 [getChild] and resource.py:760-762 [VoucherView.render_GET]; the
    bodies of error pages are left empty. *)
Definition get_voucher (segment : bytes) : response :=
  match utf8 segment with
  | None => Crash
  | Some s =>
      if is_syntactic_voucher (JStr s) then
        match encode_ascii s with
        | None => Crash
        | Some b =>
            match get b with
            | None => Response 404 []
            | Some v => match to_json float_repr v with Ok body => Response 200 body | Err _ => Crash end
            end
        end
      else Response 400 []
  end.

(** ** Recovery *)

(** resource.py:290-317 [onMessage]: the capability to recover from, or nothing (the
    connection is closed with code 4000).  [parse_capability] is
    [readonly_directory_from_string]. *)
Variable C : Type.
Variable parse_capability : text -> option C.
Definition on_message (payload : bytes) : option C :=
  match loads payload with
  | Ok (JObj [(k, v)]) =>
      if text_eqb k (str "recovery-capability") then
        match v with JStr s => parse_capability s | _ => None end
      else None
  | _ => None
  end.
End Resources.

(** * Setting up replication *)

(** Capabilities of the library [tahoe_capabilities]: writeable directories and read-only ones,
    [rw_cap.reader], [danger_real_capability_string], the parsers of such strings and
    [digested_capability_string]. *)
Section Replication.
Variables W R : Type.
Variable reader : W -> R.
Variable danger_rw : W -> text.
Variable danger_ro : R -> text.
Variable parse_rw : text -> option W.
Variable parse_ro : text -> option R.
Variable digested : W -> text.

(** The file with the capability of the replica, the request that holds the lock (and awaits
    [make_directory]), and the answers so far, with status and the capability in the body. *)
Record setup := Setup { config : option text; busy : option Z; answers : list (Z * (Z * option text)) }.
Definition setup0 : setup := Setup None None [].

Definition answer (client code : Z) (cap : option text) (s : setup) : setup :=
  Setup (config s) (busy s) (answers s ++ [(client, (code, cap))]).

Inductive setup_event :=
| AskSetup (client : Z)              (* POST to [replicate] *)
| DirectoryMade (r : option W)       (* [make_directory] returns, or fails *)
| SetupRestart.

(** replicate.py:289-326 [setup_tahoe_lafs_replication] up to its [await], with
    resource.py:236-259 [_setup_replication]; failures are answered with 500
    (resource.py:196-209 [internal_server_error]). *)
Definition ask_setup (client : Z) (s : setup) : setup :=
  match busy s with
  | Some _ => answer client 500 None s                      (* AlreadySettingUp *)
  | None =>
      match config s with
      | Some content =>
          match parse_rw content with
          | None => answer client 500 None s
          | Some w =>
              (* ReplicationAlreadySetup with the digest of the capability *)
              match parse_ro (digested w) with
              | Some r => answer client 409 (Some (danger_ro r)) s
              | None => answer client 500 None s
              end
          end
      | None => Setup None (Some client) (answers s)
      end
  end.
Definition directory_made (r : option W) (s : setup) : setup :=
  match busy s with
  | None => s
  | Some client =>
      match r with
      | Some w => answer client 201 (Some (danger_ro (reader w))) (Setup (Some (danger_rw w)) None (answers s))
      | None => answer client 500 None (Setup (config s) None (answers s))
      end
  end.
Definition setup_step (s : setup) (e : setup_event) : setup :=
  match e with
  | AskSetup client => ask_setup client s
  | DirectoryMade r => directory_made r s
  | SetupRestart => Setup (config s) None (answers s)
  end.
Definition setup_run (es : list setup_event) : setup := fold_left setup_step es setup0.
End Replication.
