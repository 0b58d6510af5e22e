(** The storage client's calls when client and server are configured with
    different pass values: [ClientModel]'s calls with the client's value
    [cpv] and the server's value [spv] kept apart. *)
From Verif Require Import Prelude BytesModel PassModel PricingModel ContainerModel TahoeModel ServerModel
  StoreModel SpendModel ClientModel.
Set Implicit Arguments.

(** _storage_client.py:468-504 [allocate_buckets] *)
Definition mixed_allocate signed cpv spv mv preimage sign now room scan
  si renew cancel sharenums size sv fuel d :=
  client_allocate_buckets (fun _ => ristretto_pass preimage sign (make_message KAllocate si))
    (link signed spv mv now room (Allocate si renew cancel sharenums size) buckets_of sv) scan 0
    cpv size sharenums fuel d.

(** _storage_client.py:530-556 [add_lease] *)
Definition mixed_add_lease signed cpv spv mv preimage sign now room scan si renew cancel sv fuel d
  : option (res failure reply * db * list (attempt pass reply)) :=
  match remote_share_sizes sv si None with
  | Err _ => Some (Err (Remote 0), d, [])
  | Ok sizes =>
      match client_lease_price cpv sizes with
      | Err _ => Some (Err (Raised ZeroDivisionError), d, [])
      | Ok num_passes =>
          call_with_passes (fun _ => ristretto_pass preimage sign (make_message KLease si))
            (link signed spv mv now room (AddLease si renew cancel) (fun r => r) sv) scan 0
            num_passes fuel d
      end
  end.

(** _storage_client.py:584-661 [slot_testv_and_readv_and_writev] *)
Definition mixed_writev signed cpv spv mv preimage sign now room scan si we renew cancel tw rv sv fuel d
  : option (res failure reply * db * list (attempt pass reply)) :=
  let price :=
    if lenZ (get_write_sharenums tw) >? 0 then
      match remote_stat_shares sv si with
      | Err _ => Err (Remote 0)
      | Ok stats =>
          match client_write_price cpv stats now tw with
          | Err _ => Err (Raised ZeroDivisionError)
          | Ok n => Ok n
          end
      end
    else Ok 0 in
  match price with
  | Err f => Some (Err f, d, [])
  | Ok num_passes =>
      call_with_passes (fun _ => ristretto_pass preimage sign (make_message KWritev si))
        (link signed spv mv now room (Writev si we renew cancel tw rv) (fun r => r) sv) scan 0
        num_passes fuel d
  end.

(** With the same value on both sides they are the calls of C26 and C101. *)
Lemma mixed_allocate_same signed pv : mixed_allocate signed pv pv = linked_allocate signed pv.
Proof. reflexivity. Qed.
Lemma mixed_add_lease_same signed pv : mixed_add_lease signed pv pv = linked_add_lease signed pv.
Proof. reflexivity. Qed.
Lemma mixed_writev_same signed pv : mixed_writev signed pv pv = linked_writev signed pv.
Proof. reflexivity. Qed.
