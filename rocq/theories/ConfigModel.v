(** The options of tahoe.cfg the plugin reads, and what is made of a server's
    announcement.

    Text is ASCII.  A configuration gives the value of an option of a section,
    as ConfigParser leaves it (without the blanks around it), or None. *)
From Verif Require Import Prelude BytesModel PassModel.
From Coq Require Strings.String.
Import Coq.Strings.String.StringSyntax.
Set Implicit Arguments.

Definition node_config := bytes -> bytes -> option bytes.

Inductive config_error :=
| MissingConfigEntry                                   (* allmydata.node *)
| BadInt                                               (* ValueError of [int] *)
| UnknownRedeemer                                      (* KeyError *)
| NoIssuerAnnounced                                    (* KeyError *)
| BadURL                                               (* URLParseError, ValueError *)
| IssuerConfigurationMismatch (announced configured : bytes).

(** __init__.py:28 *)
Definition NAME : bytes := ascii "privatestorageio-zkapauthz-v2".
Definition client_section : bytes := ascii "storageclient.plugins." ++ NAME.
(** storage_common.py:70 *)
Definition BYTES_PER_PASS : Z := 1024 * 1024.
(** resource.py:70 *)
Definition NUM_TOKENS : Z := 2 ^ 15.

(** [int(node_config.get_config(section, option, default))] *)
Definition get_int (c : node_config) (section option : bytes) (default : Z) : res config_error Z :=
  match c section option with
  | None => Ok default
  | Some v => match py_int v with Some n => Ok n | None => Err BadInt end
  end.
(** [node_config.get_config(section, option)] *)
Definition get_text (c : node_config) (section option : bytes) : res config_error bytes :=
  match c section option with None => Err MissingConfigEntry | Some v => Ok v end.

(** storage_common.py:73-86 *)
Definition get_configured_shares_needed (c : node_config) := get_int c (ascii "client") (ascii "shares.needed") 3.
(** storage_common.py:89-102 *)
Definition get_configured_shares_total (c : node_config) := get_int c (ascii "client") (ascii "shares.total") 10.
(** storage_common.py:105-120 *)
Definition get_configured_pass_value (c : node_config) := get_int c client_section (ascii "pass-value") BYTES_PER_PASS.
(** resource.py:85-104 *)
Definition get_token_count (c : node_config) := get_int c client_section (ascii "default-token-count") NUM_TOKENS.
(** storage_common.py:123-135 *)
Definition get_configured_allowed_public_keys (c : node_config) : res config_error (list bytes) :=
  v <- get_text c client_section (ascii "allowed-public-keys") ;; Ok (split_on x2c (strip v)).

(** _plugin.py:477-485 *)
Definition is_client_plugin_enabled (c : node_config) : bool :=
  let storage_plugins := match c (ascii "client") (ascii "storage.plugins") with Some v => v | None => [] end in
  existsb (bytes_eqb NAME) (map strip (split_on x2c storage_plugins)).

(** ** Servers *)

(** What a server tells about itself: _plugin.py:270-273.  The options are those
    of section storageserver.plugins.NAME. *)
Record announcement := Announcement { an_issuer : option bytes; an_public_keys : list bytes }.

(** _plugin.py:249-292 [get_storage_server], as far as configuration goes: the
    announcement and the pass value of the server; [public_key] belongs to the
    key in the file that is named. *)
Definition get_storage_server (options : bytes -> option bytes) (public_key : bytes) : res config_error (announcement * Z) :=
  match options (ascii "ristretto-issuer-root-url") with
  | None => Err MissingConfigEntry
  | Some root_url =>
      pass_value <- match options (ascii "pass-value") with
                    | None => Ok BYTES_PER_PASS
                    | Some v => match py_int v with Some n => Ok n | None => Err BadInt end
                    end ;;
      match options (ascii "ristretto-signing-key-path") with
      | None => Err MissingConfigEntry
      | Some _ => Ok (Announcement (Some root_url) [public_key], pass_value)
      end
  end.

(** ** Redeemers *)

Inductive redeemer :=
| NonRedeemer
| DummyRedeemer (public_key : bytes)
| DoubleSpendRedeemer
| UnpaidRedeemer
| ErrorRedeemer (details : bytes)
| RistrettoRedeemer (api_root : bytes).

Section Redeemers.
(** [URL.from_text] accepts it *)
Variable is_url : bytes -> bool.

(** controller.py:568-598 [RistrettoRedeemer.make] *)
Definition make_ristretto (c : node_config) (a : option announcement) : res config_error redeemer :=
  configured_issuer <- get_text c client_section (ascii "ristretto-issuer-root-url") ;;
  _ <- match a with
       | None => Ok tt
       | Some an =>
           match an_issuer an with
           | None => Err NoIssuerAnnounced
           | Some announced_issuer =>
               if bytes_eqb announced_issuer configured_issuer then Ok tt
               else Err (IssuerConfigurationMismatch announced_issuer configured_issuer)
           end
       end ;;
  if is_url configured_issuer then Ok (RistrettoRedeemer configured_issuer) else Err BadURL.

(** controller.py:1106-1128 [get_redeemer], and [make] of the others: 249-257,
    288-300, 328-336, 362-370, 452-465 *)
Definition get_redeemer (c : node_config) (a : option announcement) : res config_error redeemer :=
  let redeemer_kind := match c client_section (ascii "redeemer") with Some v => v | None => ascii "ristretto" end in
  if bytes_eqb redeemer_kind (ascii "non") then Ok NonRedeemer
  else if bytes_eqb redeemer_kind (ascii "dummy") then
    k <- get_text c client_section (ascii "issuer-public-key") ;; Ok (DummyRedeemer k)
  else if bytes_eqb redeemer_kind (ascii "double-spend") then Ok DoubleSpendRedeemer
  else if bytes_eqb redeemer_kind (ascii "unpaid") then Ok UnpaidRedeemer
  else if bytes_eqb redeemer_kind (ascii "error") then
    d <- get_text c client_section (ascii "details") ;; Ok (ErrorRedeemer d)
  else if bytes_eqb redeemer_kind (ascii "ristretto") then make_ristretto c a
  else Err UnknownRedeemer.

(** _plugin.py:294-317 [get_storage_client], as far as configuration goes: the
    pass value and the redeemer that makes the passes.  The store has been
    opened with the same pass value before. *)
Definition get_storage_client (c : node_config) (a : announcement) : res config_error (Z * redeemer) :=
  r <- get_redeemer c (Some a) ;;
  pass_value <- get_configured_pass_value c ;;
  Ok (pass_value, r).
End Redeemers.
