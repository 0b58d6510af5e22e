(** How the plugin opens the database of a node and starts replication: _plugin.py.

    One node directory and one process.  Stores are numbered in the order they are opened; each
    has its own connection.  The plugin refers to a store weakly: it knows it as long as somebody
    else holds it.  An exception while the store is being opened or its replication service made
    leaves no store behind and is not modelled. *)
From Verif Require Import Prelude.

Record plugin := Plugin {
  p_setup : bool;               (* the file with the replica's capability exists *)
  p_opened : nat;               (* how many connections have been made *)
  p_cached : option nat;        (* [_stores], without its being weak *)
  p_maintenance : option nat;   (* the store of the maintenance service, if attached *)
  p_users : list nat;           (* the stores storage clients and client resources hold *)
  p_services : list nat         (* replication services, by store; they are never removed *)
}.
Definition new_plugin (setup : bool) : plugin := Plugin setup 0 None None [] [].

Definition held (p : plugin) (i : nat) : bool :=
  match p_maintenance p with Some j => Nat.eqb i j | None => false end || existsb (Nat.eqb i) (p_users p).

(** _plugin.py:220-237 [_add_replication_service] *)
Definition add_replication_service (i : nat) (p : plugin) : plugin :=
  Plugin (p_setup p) (p_opened p) (p_cached p) (p_maintenance p) (p_users p) (p_services p ++ [i]).

(** _plugin.py:199-218 [_get_store] *)
Definition known (p : plugin) : option nat :=
  match p_cached p with Some i => if held p i then Some i else None | None => None end.
Definition get_store (p : plugin) : nat * plugin :=
  match known p with
  | Some i => (i, p)
  | None =>
      let i := p_opened p in
      let p1 := Plugin (p_setup p) (S (p_opened p)) (Some i) (p_maintenance p) (p_users p) (p_services p) in
      (i, if p_setup p then add_replication_service i p1 else p1)
  end.

Inductive event :=
| StorageClient                      (* a storage client is made for a server *)
| ClientResource                     (* the HTTP resources are made *)
| InitStorage (enabled ok : bool)    (* the node's services are attached; [ok]: making the service does not raise *)
| Release (i : nat)                  (* a storage client or resource using store [i] is gone *)
| SetUp (i : nat).                   (* somebody holding store [i] sets up replication *)

Fixpoint remove_one (i : nat) (l : list nat) : list nat :=
  match l with [] => [] | j :: rest => if Nat.eqb i j then rest else j :: remove_one i rest end.

Definition use (ip : nat * plugin) : plugin :=
  let '(i, p) := ip in Plugin (p_setup p) (p_opened p) (p_cached p) (p_maintenance p) (p_users p ++ [i]) (p_services p).
Definition maintain (ip : nat * plugin) : plugin :=
  let '(i, p) := ip in Plugin (p_setup p) (p_opened p) (p_cached p) (Some i) (p_users p) (p_services p).

Definition step (p : plugin) (e : event) : plugin :=
  match e with
  (* _plugin.py:294-316 [get_storage_client] *)
  | StorageClient => use (get_store p)
  (* _plugin.py:318-342 [get_client_resource] *)
  | ClientResource => use (get_store p)
  (* _plugin.py:370-401 [_attach_zkapauthorizer_services], 404-436 [_maybe_attach_service],
     477-485 [_is_client_plugin_enabled] *)
  | InitStorage enabled ok =>
      let ip := get_store p in
      if enabled then
        match p_maintenance p with
        | Some _ => snd ip
        | None => if ok then maintain ip else snd ip
        end
      else snd ip
  | Release i =>
      Plugin (p_setup p) (p_opened p) (p_cached p) (p_maintenance p) (remove_one i (p_users p)) (p_services p)
  (* _plugin.py:327-333 [setup_replication]; replicate.py:289-326: if it is set up already, that
     raises and nothing happens *)
  | SetUp i =>
      if existsb (Nat.eqb i) (p_users p) && negb (p_setup p)
      then add_replication_service i (Plugin true (p_opened p) (p_cached p) (p_maintenance p) (p_users p) (p_services p))
      else p
  end.
Definition run (p : plugin) (es : list event) : plugin := fold_left step es p.
