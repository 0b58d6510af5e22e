(** Model of lease maintenance (lease_maintenance.py): the walk over the
    directories, the renewals on the servers, the timer, and the configuration.

    A [timedelta] and a [datetime] are microseconds (since the epoch).  Servers and
    filesystem nodes are numbers. *)
From Verif Require Import Prelude BytesModel PassModel CborModel PricingModel ContainerModel.
From Coq Require Strings.String.
Import Coq.Strings.String.StringSyntax.
Set Implicit Arguments.

Inductive mexn :=
| Violation        (* foolscap refuses an argument *)
| ListError        (* [IDirectoryNode.list] fails *)
| RemoteError      (* a server, or the link to it, fails; or there are not enough tokens *)
| StoreError       (* recording the activity fails *)
| OutOfRange.      (* [datetime.utcfromtimestamp]: ValueError or OverflowError *)

(** * The walk *)

(** A filesystem node: its storage index, which is None for literal files and
    directories and for unknown nodes, and what listing it gives if it is a directory. *)
Record node := Node { n_index : option bytes; n_children : option (res mexn (list (text * Z))) }.

(** The order of [str]: by code points. *)
Fixpoint text_leb (a b : text) : bool :=
  match a, b with
  | [], _ => true
  | _ :: _, [] => false
  | x :: a', y :: b' => if x <? y then true else if y <? x then false else text_leb a' b'
  end.
(** [sorted(children.items())]; the names are different from each other. *)
Fixpoint insert_child (c : text * Z) (l : list (text * Z)) : list (text * Z) :=
  match l with
  | [] => [c]
  | d :: l' => if text_leb (fst c) (fst d) then c :: l else d :: insert_child c l'
  end.
Definition sorted_children (l : list (text * Z)) : list (text * Z) := fold_right insert_child [] l.

(** lease_maintenance.py:97-107, the loop of [visit_storage_indexes]: the top of the stack
    comes first; [None] is: not finished after [fuel] rounds. *)
Fixpoint visit_loop (graph : Z -> node) (fuel : nat) (stack : list Z)
  : option (res mexn (list (option bytes))) :=
  match fuel with
  | O => None
  | S fuel =>
      match stack with
      | [] => Some (Ok [])
      | elem :: stack =>
          let found r := match r with Some (Ok sis) => Some (Ok (n_index (graph elem) :: sis)) | _ => r end in
          match n_children (graph elem) with
          | None => found (visit_loop graph fuel stack)
          | Some (Err e) => Some (Err e)
          | Some (Ok children) =>
              found (visit_loop graph fuel (rev (map snd (sorted_children children)) ++ stack))
          end
      end
  end.

(** lease_maintenance.py:69-107 [visit_storage_indexes]; the last root is visited
    first. *)
Definition visit_storage_indexes graph fuel (roots : list Z) := visit_loop graph fuel (rev roots).

Definition opt_bytes_eqb (a b : option bytes) : bool :=
  match a, b with
  | None, None => true
  | Some x, Some y => bytes_eqb x y
  | _, _ => false
  end.
Fixpoint distinct (l : list (option bytes)) : list (option bytes) :=
  match l with
  | [] => []
  | x :: l' => if existsb (opt_bytes_eqb x) l' then distinct l' else x :: distinct l'
  end.

(** lease_maintenance.py:110-126 [iter_storage_indexes]; [order] is the order in which the
    set happens to be iterated. *)
Definition iter_storage_indexes (order : list (option bytes) -> list (option bytes)) graph fuel roots
  : option (res mexn (list (option bytes))) :=
  match visit_storage_indexes graph fuel roots with
  | Some (Ok sis) => Some (Ok (order (distinct sis)))
  | r => r
  end.

(** * The decision *)

(** What [datetime.utcfromtimestamp] accepts: the years 1 to 9999. *)
Definition utcfromtimestamp (seconds : Z) : res mexn Z :=
  if (-62135596800 <=? seconds) && (seconds <=? 253402300799) then Ok (seconds * 1000000) else Err OutOfRange.

(** lease_maintenance.py:243-251 [soonest_expiration]: [min] gives the first of equal ones;
    it is never called with nothing. *)
Fixpoint soonest_expiration (s : share_stat) (stats : list share_stat) : share_stat :=
  match stats with
  | [] => s
  | t :: rest => soonest_expiration (if lease_expiration t <? lease_expiration s then t else s) rest
  end.

(** lease_maintenance.py:299-316 [needs_lease_renew] *)
Definition needs_lease_renew (min_lease_remaining : Z) (stat : share_stat) (now : Z) : res mexn bool :=
  expiration <- utcfromtimestamp (lease_expiration stat) ;;
  let remaining := expiration - now in
  Ok (remaining <? min_lease_remaining).

(** * A run *)

(** What a run does: it learns of shares at some time, records their sizes, asks for a
    lease, and records its end. *)
Inductive act :=
| Stated (now server : Z) (sis : list bytes) (answer : list (dict share_stat))
| Observed (sizes : list Z)
| Asked (server : Z) (si renew cancel : bytes)
| Finished.

Section Run.
(** The rest of the world: the servers, the wallet, the clock. *)
Variable W : Type.
Variable stat_shares : Z -> list bytes -> W -> res mexn (list (dict share_stat)) * W.
Variable add_lease : Z -> bytes -> bytes -> bytes -> W -> res mexn unit * W.
(** model.py:953-998 *)
Variable start : W -> res mexn unit * W.
Variable observe : list Z -> W -> res mexn unit * W.
Variable finish : W -> res mexn unit * W.
(** _plugin.py:451-452 [get_now] *)
Variable clock : W -> Z.
Variable connected_servers : W -> list Z.
(** allmydata.util.hashutil *)
Variables file_renewal_secret_hash bucket_renewal_secret_hash : bytes -> bytes -> bytes.
Variables file_cancel_secret_hash bucket_cancel_secret_hash : bytes -> bytes -> bytes.
Variable lease_seed : Z -> bytes.

(** A computation in this world that records what it has done. *)
Definition M (A : Type) := W -> res mexn A * W * list act.
Definition mret {A} (a : A) : M A := fun w => (Ok a, w, []).
Definition mraise {A} (e : mexn) : M A := fun w => (Err e, w, []).
Definition mbind {A B} (m : M A) (k : A -> M B) : M B := fun w =>
  match m w with
  | (Ok a, w1, t1) => let '(r, w2, t2) := k a w1 in (r, w2, t1 ++ t2)
  | (Err e, w1, t1) => (Err e, w1, t1)
  end.
(** A call of something else; [record] says what to record of it. *)
Definition call {A} (f : W -> res mexn A * W) (record : res mexn A -> list act) : M A := fun w =>
  let '(r, w1) := f w in (r, w1, record r).
Definition if_ok {A} (f : A -> list act) (r : res mexn A) : list act :=
  match r with Ok a => f a | Err _ => [] end.
Notation "x <~ m ;; k" := (mbind m (fun x => k)) (at level 61, m at next level, right associativity).

(** foolscap.py:170: the argument of stat_shares is a list of storage indexes. *)
Fixpoint all_indexes (sis : list (option bytes)) : res mexn (list bytes) :=
  match sis with
  | [] => Ok []
  | None :: _ => Err Violation
  | Some si :: rest => l <- all_indexes rest ;; Ok (si :: l)
  end.

(** lease_maintenance.py:254-296 [renew_lease] *)
Definition renew_lease (renewal_secret cancel_secret si : bytes) (server : Z) : M unit :=
  let renew := bucket_renewal_secret_hash (file_renewal_secret_hash renewal_secret si) (lease_seed server) in
  let cancel := bucket_cancel_secret_hash (file_cancel_secret_hash cancel_secret si) (lease_seed server) in
  call (add_lease server si renew cancel) (fun _ => [Asked server si renew cancel]).

(** lease_maintenance.py:222-240 *)
Fixpoint renew_loop (min_lease_remaining : Z) (renewal_secret cancel_secret : bytes) (server now : Z)
  (l : list (bytes * dict share_stat)) : M unit :=
  match l with
  | [] => mret tt
  | (si, stat_dict) :: rest =>
      match dvalues stat_dict with
      | [] => renew_loop min_lease_remaining renewal_secret cancel_secret server now rest
      | s :: more =>
          let sizes := map size (s :: more) in
          _ <~ call (observe sizes) (if_ok (fun _ => [Observed sizes])) ;;
          let most_endangered := soonest_expiration s more in
          match needs_lease_renew min_lease_remaining most_endangered now with
          | Err e => mraise e
          | Ok true =>
              _ <~ renew_lease renewal_secret cancel_secret si server ;;
              renew_loop min_lease_remaining renewal_secret cancel_secret server now rest
          | Ok false => renew_loop min_lease_remaining renewal_secret cancel_secret server now rest
          end
      end
  end.

(** lease_maintenance.py:187-240 [renew_leases_on_server]; [zip] stops at the end of the
    shorter list. *)
Definition renew_leases_on_server min_lease_remaining renewal_secret cancel_secret (sis : list (option bytes))
  (server now : Z) : M unit :=
  match all_indexes sis with
  | Err e => mraise e
  | Ok sis =>
      stats <~ call (stat_shares server sis) (if_ok (fun answer => [Stated now server sis answer])) ;;
      renew_loop min_lease_remaining renewal_secret cancel_secret server now (combine sis stats)
  end.

Fixpoint renew_on_servers min_lease_remaining renewal_secret cancel_secret sis (servers : list Z) : M unit :=
  match servers with
  | [] => mret tt
  | server :: rest =>
      _ <~ (fun w => renew_leases_on_server min_lease_remaining renewal_secret cancel_secret sis server (clock w) w) ;;
      renew_on_servers min_lease_remaining renewal_secret cancel_secret sis rest
  end.

(** lease_maintenance.py:129-184 [renew_leases] with what [iter_storage_indexes] gives *)
Definition renew_leases min_lease_remaining renewal_secret cancel_secret (visited : res mexn (list (option bytes))) : M unit :=
  _ <~ call start (fun _ => []) ;;
  match visited with
  | Err e => mraise e
  | Ok sis =>
      _ <~ (fun w => renew_on_servers min_lease_remaining renewal_secret cancel_secret sis (connected_servers w) w) ;;
      call finish (if_ok (fun _ => [Finished]))
  end.

(** lease_maintenance.py:691-738 [maintain_leases_from_root], _plugin.py:494-503
    [get_root_nodes]; [None] if the walk does not end. *)
Definition maintain_leases order graph fuel min_lease_remaining renewal_secret cancel_secret (rootcap : option Z) (w : W)
  : option (res mexn unit * W * list act) :=
  let roots := match rootcap with None => [] | Some n => [n] end in
  match iter_storage_indexes order graph fuel roots with
  | None => None
  | Some visited => Some (renew_leases min_lease_remaining renewal_secret cancel_secret visited w)
  end.
End Run.

(** * The timer *)

(** lease_maintenance.py:741-756 [calculate_initial_interval] *)
Definition calculate_initial_interval (sample last_run now : Z) : Z :=
  let since_last_run := now - last_run in sample - since_last_run.

(** lease_maintenance.py:439-451 *)
Definition initial_interval (sample : Z) (last_run : option Z) (now : Z) : Z :=
  match last_run with
  | None => sample
  | Some t => Z.max (calculate_initial_interval sample t now) 0
  end.

(** lease_maintenance.py:421-431: the arguments of [random.uniform]; what it gives
    lies between them. *)
Definition interval_bounds (mean range : Z) : Z * Z :=
  let halfrange := range / 2 in (mean - halfrange, mean + halfrange).

(** [IDelayedCall]: not made yet, waiting until, or called. *)
Inductive delayed := NoCall | Due (time : Z) | Called.

(** lease_maintenance.py:322-390 [_FuzzyTimerService] with the file of line 439; [t_running]:
    a run has begun and not ended. *)
Record timer := Timer { t_call : delayed; t_running : bool; t_file : option Z }.

Inductive tevent :=
| Boot (now sample : Z)     (* a new process: lease_maintenance.py:393-472, 355-360 *)
| Fire (now : Z)            (* the reactor makes the call, 368-381 *)
| Done (now sample : Z)     (* the run ends, or fails: 456-463, 376-390 *)
| Stop                      (* 362-366 *)
| Kill.                     (* the process ends *)

Inductive toutput :=
| RunStarted (now : Z)
| BadDelay                  (* [callLater] refuses a negative delay *)
| AlreadyCalled.            (* [IDelayedCall.cancel] of a call that has been made *)

Definition call_later (delay now : Z) (file : option Z) : timer * list toutput :=
  if delay <? 0 then (Timer NoCall false file, [BadDelay])
  else (Timer (Due (now + delay)) false file, []).

Definition timer_step (t : timer) (e : tevent) : timer * list toutput :=
  match e with
  | Boot now sample => call_later (initial_interval sample (t_file t) now) now (t_file t)
  | Fire now =>
      match t_call t with
      | Due d => if d <=? now then (Timer Called true (t_file t), [RunStarted now]) else (t, [])
      | _ => (t, [])
      end
  | Done now sample =>
      if t_running t then
        match call_later sample now (Some now) with
        | (t', []) => (t', [])
        | (_, out) => (Timer Called false (Some now), out)
        end
      else (t, [])
  | Stop =>
      match t_call t with
      | NoCall => (t, [])
      | Due _ => (Timer NoCall (t_running t) (t_file t), [])
      | Called => (t, [AlreadyCalled])
      end
  | Kill => (Timer NoCall false (t_file t), [])
  end.

Fixpoint timer_run (t : timer) (es : list tevent) : timer * list toutput :=
  match es with
  | [] => (t, [])
  | e :: rest => let '(t1, o1) := timer_step t e in let '(t2, o2) := timer_run t1 rest in (t2, o1 ++ o2)
  end.

(** * The configuration *)

(** lease_maintenance.py:475-491 [LeaseMaintenanceConfig] *)
Record config := Config { crawl_interval_mean : Z; crawl_interval_range : Z; min_lease_remaining : Z }.

Inductive cexn := ValueError | KeyError | OverflowError.

Definition day : Z := 24 * 60 * 60 * 1000000.
(** The range of [timedelta]. *)
Definition timedelta_of (us : Z) : res cexn Z :=
  if (- (999999999 * day) <=? us) && (us <? 1000000000 * day) then Ok us else Err OverflowError.

(** lease_maintenance.py:583-584 [_format_duration]; [total_seconds] is a float, exact
    for whole seconds. *)
Definition format_duration (td : Z) : bytes := dec (Z.quot td 1000000).

(** lease_maintenance.py:587-588 [_parse_duration], config.py:137 *)
Definition parse_duration (s : bytes) : res cexn Z :=
  match py_int s with
  | None => Err ValueError
  | Some n => timedelta_of (n * 1000000)
  end.

(** A dictionary from text to text; a section of tahoe.cfg. *)
Definition cfg := list (bytes * bytes).
Fixpoint cfg_get (k : bytes) (d : cfg) : option bytes :=
  match d with
  | [] => None
  | (k', v) :: d' => if bytes_eqb k k' then Some v else cfg_get k d'
  end.

Definition mean_key : bytes := PassModel.ascii "lease.crawl-interval.mean".
Definition range_key : bytes := PassModel.ascii "lease.crawl-interval.range".
Definition remaining_key : bytes := PassModel.ascii "lease.min-time-remaining".

(** lease_maintenance.py:567-580 [lease_maintenance_config_to_dict] *)
Definition config_to_dict (c : config) : cfg :=
  [(mean_key, format_duration (crawl_interval_mean c));
   (range_key, format_duration (crawl_interval_range c));
   (remaining_key, format_duration (min_lease_remaining c))].

Definition item (k : bytes) (d : cfg) : res cexn Z :=
  match cfg_get k d with None => Err KeyError | Some v => parse_duration v end.
(** lease_maintenance.py:591-596 [lease_maintenance_config_from_dict] *)
Definition config_from_dict (d : cfg) : res cexn config :=
  a <- item mean_key d ;; b <- item range_key d ;; c <- item remaining_key d ;; Ok (Config a b c).

(** config.py:118-137 [read_duration] *)
Definition read_duration (k : bytes) (default : Z) (d : cfg) : res cexn Z :=
  match cfg_get k d with None => Ok default | Some v => parse_duration v end.

(** lease_maintenance.py:493-532 [from_node_config] *)
Definition from_node_config (d : cfg) : res cexn config :=
  a <- read_duration mean_key (26 * day) d ;;
  b <- read_duration range_key (4 * day) d ;;
  c <- read_duration remaining_key 0 d ;;
  Ok (Config a b c).

(** lease_maintenance.py:534-564 [get_lease_duration], in seconds *)
Definition get_lease_duration (c : config) : Z :=
  let upper_bound := 31 * 24 * 60 * 60 in
  Z.quot (upper_bound * 1000000 - min_lease_remaining c) 1000000.
