(** The prices the storage client computes, and its calls when the other side is
    the server of [ServerModel].

    An unblinded token is an integer; the Ristretto operations of
    [tokens_to_passes] are the functions [preimage] and [sign]. *)
From Verif Require Import Prelude BytesModel PassModel PricingModel ContainerModel TahoeModel ServerModel
  StoreModel SpendModel.
Set Implicit Arguments.

(** _storage_client.py:603-642, the pricing part of
    [slot_testv_and_readv_and_writev]: [stats] is the server's answer to
    [stat_shares], [now] the client's clock. *)
Definition client_write_price (pass_value : Z) (stats : dict share_stat) (now : Z) (tw : tw_vectors)
  : res price_error Z :=
  let write_sharenums := get_write_sharenums tw in
  if lenZ write_sharenums >? 0 then
    let current_sizes :=
      map (fun ns => (fst ns, size (snd ns)))
        (filter (fun ns => (lease_expiration (snd ns) * hz >? now) && memZ (fst ns) write_sharenums)
           stats) in
    get_required_new_passes_for_mutable_write pass_value current_sizes tw
  else Ok 0.

(** _storage_client.py:538-539, the pricing part of [add_lease]: [sizes] is the
    server's answer to [share_sizes]. *)
Definition client_lease_price (pass_value : Z) (sizes : dict Z) : res price_error Z :=
  required_passes pass_value (dvalues sizes).

Section Calls.
Variable signed : bytes -> bytes -> bytes -> bool.
Variables pass_value mutable_version : Z.
(** challenge_bypass_ristretto *)
Variable preimage : Z -> bytes.
Variable sign : bytes -> Z -> bytes.

(** controller.py:692-720 [RistrettoRedeemer.tokens_to_passes] for one token *)
Definition ristretto_pass (message : bytes) (token : Z) : res exn pass :=
  match make_pass (preimage token) (sign message token) with
  | Some p => Ok p
  | None => Err OtherError
  end.

(** _storage_client.py:248-254 [_encode_passes] *)
Definition encode_passes (g : group pass) : list bytes := map (fun tp => pass_bytes (snd tp)) g.

(** The server's side of a call: its clock, its room and the request stay the
    same during the call, nobody else talks to it. *)
Variable now : Z.
Variable room : Z -> bool.
Variable q : request.
Definition state_after {R} (sv : server) (past : list (attempt pass R)) : server :=
  fold_left (fun sv a => snd (serve signed pass_value mutable_version now room (encode_passes (fst a)) q sv))
    past sv.
(** The link delivers what the server says; remote exceptions other than
    MorePassesRequired are all alike. *)
Definition answer {R} (conv : reply -> R) (sv : server) (g : group pass) : response R :=
  match fst (serve signed pass_value mutable_version now room (encode_passes g) q sv) with
  | Ok r => Accept (conv r)
  | Err (MorePassesRequired v n failed) => Refuse v n failed
  | Err _ => Fail 0
  end.
Definition link {R} (conv : reply -> R) (sv : server) (past : list (attempt pass R)) (g : group pass) (d : db)
  : list op * response R := ([], answer conv (state_after sv past) g).

(** What [allocate_buckets] returns to the client; a bucket writer is its share
    number. *)
Definition buckets_of (r : reply) : list Z * dict Z :=
  match r with
  | Allocated a b => (a, map (fun n => (n, n)) b)
  | _ => ([], [])
  end.
End Calls.

(** _storage_client.py:468-504 [allocate_buckets] against this server *)
Definition linked_allocate signed pass_value mv preimage sign now room scan
  si renew cancel sharenums size sv fuel d :=
  client_allocate_buckets (fun _ => ristretto_pass preimage sign (make_message KAllocate si))
    (link signed pass_value mv now room (Allocate si renew cancel sharenums size) buckets_of sv) scan 0
    pass_value size sharenums fuel d.

(** _storage_client.py:530-556 [add_lease] against this server *)
Definition linked_add_lease signed pass_value mv preimage sign now room scan si renew cancel sv fuel d
  : option (res failure reply * db * list (attempt pass reply)) :=
  match remote_share_sizes sv si None with
  | Err _ => Some (Err (Remote 0), d, [])
  | Ok sizes =>
      match client_lease_price pass_value sizes with
      | Err _ => Some (Err (Raised ZeroDivisionError), d, [])
      | Ok num_passes =>
          call_with_passes (fun _ => ristretto_pass preimage sign (make_message KLease si))
            (link signed pass_value mv now room (AddLease si renew cancel) (fun r => r) sv) scan 0
            num_passes fuel d
      end
  end.

(** _storage_client.py:584-661 [slot_testv_and_readv_and_writev] against this
    server, with both clocks showing [now] *)
Definition linked_writev signed pass_value mv preimage sign now room scan si we renew cancel tw rv sv fuel d
  : option (res failure reply * db * list (attempt pass reply)) :=
  let price :=
    if lenZ (get_write_sharenums tw) >? 0 then
      match remote_stat_shares sv si with
      | Err _ => Err (Remote 0)
      | Ok stats =>
          match client_write_price pass_value stats now tw with
          | Err _ => Err (Raised ZeroDivisionError)
          | Ok n => Ok n
          end
      end
    else Ok 0 in
  match price with
  | Err f => Some (Err f, d, [])
  | Ok num_passes =>
      call_with_passes (fun _ => ristretto_pass preimage sign (make_message KWritev si))
        (link signed pass_value mv now room (Writev si we renew cancel tw rv) (fun r => r) sv) scan 0
        num_passes fuel d
  end.
