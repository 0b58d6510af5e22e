(** Uploading files: the [allocate_buckets] calls of the client of ClientModel to the storage servers of
    ServerModel, paid for with the tokens of the wallet of StoreModel, and the writing of the shares.

    Which shares go to which servers and what is in them is decided by Tahoe-LAFS and given here.  Calls are
    made one after the other (Tahoe-LAFS makes some at once), and nothing else uses the wallet and the servers
    meanwhile.  Tahoe-LAFS stores some hashes with every share, which are not part of the size
    the calculator reckons with; here a share has the calculator's size. *)
From Verif Require Import Prelude BytesModel PassModel PricingModel ContainerModel TahoeModel ServerModel StoreModel SpendModel
  ClientModel UpkeepModel.
Set Implicit Arguments.

(** A file: its storage index and lease secrets, the size of one share, and the servers with the share
    numbers that each is to hold. *)
Record file := File {
  f_si : bytes;
  f_renew : bytes;
  f_cancel : bytes;
  f_share_size : Z;
  f_places : list (Z * list Z)
}.

Section Upload.
Variable signed : bytes -> bytes -> bytes -> bool.
Variables pass_value immutable_version mutable_version : Z.
Variable preimage : Z -> bytes.
Variable sign : bytes -> Z -> bytes.
(** Whether a server has room for one more share. *)
Variable room : Z -> Z -> bool.
Variable scan : nat -> list Z -> list Z.
(** When a remote call that is made at some time has been answered. *)
Variable later : Z -> Z.
(** What is in the share of this storage index and number. *)
Variable content : bytes -> Z -> bytes.

(** The bucket writers are given the shares and closed. *)
Definition write_shares (si : bytes) (writers : dict Z) (sv : ServerModel.server) : ServerModel.server :=
  fold_left (fun sv n => snd (server_step signed pass_value immutable_version mutable_version sv (EClose si n (content si n))))
    (dkeys writers) sv.

(** _storage_client.py:468-504 [allocate_buckets], and the writing.  The call makes no more attempts than there are
    tokens, and one more. *)
Definition put_shares (f : file) (server : Z) (nums : list Z) (w : world) : option (res failure unit * world) :=
  match linked_allocate signed pass_value mutable_version preimage sign (w_time w) (room server) scan (f_si f) (f_renew f) (f_cancel f)
          nums (f_share_size f) (w_servers w server) (S (length (available (w_db w)))) (w_db w) with
  | None => None
  | Some (r, d, tr) =>
      let sv := state_after signed pass_value mutable_version (w_time w) (room server)
                  (Allocate (f_si f) (f_renew f) (f_cancel f) nums (f_share_size f)) (w_servers w server) tr in
      match r with
      | Err e => Some (Err e, World (put_server server sv (w_servers w)) d (later (w_time w)) (w_run w))
      | Ok (_, writers) =>
          Some (Ok tt, World (put_server server (write_shares (f_si f) writers sv) (w_servers w)) d (later (w_time w)) (w_run w))
      end
  end.

(** All calls of all files; an upload that fails is the end. *)
Fixpoint put_all (calls : list (file * (Z * list Z))) (w : world) : option (res failure unit * world) :=
  match calls with
  | [] => Some (Ok tt, w)
  | (f, (server, nums)) :: rest =>
      match put_shares f server nums w with
      | Some (Ok _, w1) => put_all rest w1
      | other => other
      end
  end.
Definition calls_of (files : list file) : list (file * (Z * list Z)) :=
  flat_map (fun f => map (pair f) (f_places f)) files.
Definition upload (files : list file) : world -> option (res failure unit * world) := put_all (calls_of files).
End Upload.
