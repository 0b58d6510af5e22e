(** The serialised forms of a replica: event streams and snapshots as bytes, the
    names of directory entries, and the order of replay (replicate.py, recover.py).

    A change has here the fields the code gives it, with any values CBOR can
    carry; the statements are text.  Executing them is not modelled here (see
    ReplicaModel). *)
From Verif Require Import Prelude BytesModel CborModel.
From Coq Require Strings.String.
Import Coq.Strings.String.StringSyntax.
Delimit Scope string_scope with string.
Set Implicit Arguments.

Inductive sexn := ValueError | TypeError | KeyError | AttributeError | CBORError.

(** A text given literally. *)
Definition str (s : String.string) : text := ascii (String.list_byte_of_string s).
Arguments str s%string.

(** replicate.py:176-188 [Change] *)
Record change := Change { sequence : cval; statement : cval; arguments : cval; important : cval }.

(** sql.py:19 [SQLRuntimeType]; [bool] is a subclass of [int]. *)
Definition is_sql (v : cval) : bool :=
  match v with CArr _ | CMap _ => false | _ => true end.

(** [iter(v)]: lists, the characters of a text, the numbers of a byte string, the
    keys of a dict. *)
Definition iter (v : cval) : res sexn (list cval) :=
  match v with
  | CArr l => Ok l
  | CText s => Ok (map (fun c => CText [c]) s)
  | CBytes s => Ok (map (fun b => CInt (bz b)) s)
  | CMap l => Ok (map fst l)
  | _ => Err TypeError
  end.

(** replicate.py:189-202: the constructor with the validator of [arguments] *)
Definition make_change (seq stmt args imp : cval) : res sexn change :=
  l <- iter args ;;
  if forallb is_sql l then Ok (Change seq stmt args imp) else Err ValueError.

(** [Change( *args)] *)
Definition make_change_star (args : cval) : res sexn change :=
  l <- iter args ;;
  match l with
  | [seq; stmt; a; imp] => make_change seq stmt a imp
  | _ => Err TypeError
  end.

Fixpoint map_res {A B} (f : A -> res sexn B) (l : list A) : res sexn (list B) :=
  match l with
  | [] => Ok []
  | x :: l' => y <- f x ;; ys <- map_res f l' ;; Ok (y :: ys)
  end.

Definition dumps (v : cval) : res sexn bytes :=
  match encode v with Some s => Ok s | None => Err CBORError end.
Definition loads (s : bytes) : res sexn cval :=
  match load s with Some v => Ok v | None => Err CBORError end.

(** replicate.py:205-216 [EventStream]; the class attribute [version] *)
Definition stream_version : Z := 1.

(** replicate.py:227-246 [EventStream.to_bytes] *)
Definition to_bytes (changes : list change) : res sexn bytes :=
  dumps (CMap
    [(CText (str "version"), CInt stream_version);
     (CText (str "events"),
      CArr (map (fun e => CArr [sequence e; statement e; arguments e; important e]) changes))]).

(** [v == 1] in Python: the float 1.0 and True are equal to 1. *)
Definition equals_one (v : option cval) : bool :=
  match v with
  | Some (CInt n) => n =? 1
  | Some (CBool b) => b
  | Some (CFloat bits) => bits =? 4607182418800017408    (* 0x3ff0000000000000 *)
  | _ => false
  end.

(** replicate.py:248-261 [EventStream.from_bytes] *)
Definition from_bytes (s : bytes) : res sexn (list change) :=
  data <- loads s ;;
  match data with
  | CMap kvs =>
      if negb (equals_one (map_get (str "version") kvs)) then Err ValueError
      else match map_get (str "events") kvs with
           | None => Err KeyError
           | Some events => l <- iter events ;; map_res make_change_star l
           end
  | _ => Err AttributeError
  end.

(** The number a sequence number stands for.  Simplified: other types of numbers
    do not occur, comparing them raises. *)
Definition number (v : cval) : option Z :=
  match v with CInt n => Some n | CBool b => Some (Z.b2z b) | _ => None end.

(** replicate.py:218-225 [EventStream.highest_sequence] *)
Fixpoint highest_sequence (changes : list change) : res sexn (option Z) :=
  match changes with
  | [] => Ok None
  | c :: rest =>
      match number (sequence c) with
      | None => Err TypeError
      | Some n =>
          h <- highest_sequence rest ;;
          Ok (Some (match h with None => n | Some m => Z.max n m end))
      end
  end.

(** * The event log *)

(** A row of [event-stream] (schema.py:225-235, 277); the column [important] is
    an integer for SQLite. *)
Record log_row := LogRow { l_sequence : Z; l_statement : text; l_arguments : bytes; l_important : Z }.

(** replicate.py:683-703 [add_events]: what is stored of one event; the assertion
    that all arguments are SQL values is in the hypotheses of the theorems. *)
Definition log_event (seq : Z) (sql : text) (args : list cval) (imp : bool) : res sexn log_row :=
  a <- dumps (CArr args) ;; Ok (LogRow seq sql a (Z.b2z imp)).

(** replicate.py:706-724 [get_events] *)
Definition get_events (rows : list log_row) : res sexn (list change) :=
  map_res (fun r => a <- loads (l_arguments r) ;;
                    make_change (CInt (l_sequence r)) (CText (l_statement r)) a (CInt (l_important r))) rows.

(** * Names *)

Definition stream_prefix : text := str "event-stream-".

(** replicate.py:800-805 [event_stream_name] *)
Definition event_stream_name (high_seq : Z) : text := stream_prefix ++ ascii (dec high_seq).

Fixpoint take_digit_chars (s : text) : text :=
  match s with
  | c :: s' => if (48 <=? c) && (c <=? 57) then c :: take_digit_chars s' else []
  | [] => []
  end.

(** replicate.py:968-980 [is_old_eventstream]: the regular expression matches at
    the beginning and takes all digits that follow; [int("")] raises. *)
Definition is_old_eventstream (seqnum : Z) (fname : text) : res sexn bool :=
  if startswith stream_prefix fname then
    match py_int (map zb (take_digit_chars (skipn (length stream_prefix) fname))) with
    | None => Err ValueError
    | Some seq => Ok (seq <=? seqnum)
    end
  else Ok false.

(** replicate.py:636-644 [maybe_unlink]: the names unlinked, and the exception
    that ended it, if any. *)
Fixpoint maybe_unlink (predicate : text -> res sexn bool) (names : list text)
  : list text * option sexn :=
  match names with
  | [] => ([], None)
  | n :: rest =>
      match predicate n with
      | Err e => ([], Some e)
      | Ok b =>
          let '(l, x) := maybe_unlink predicate rest in (if b then n :: l else l, x)
      end
  end.

(** A directory entry; of a file its size and what downloading it gives. *)
Inductive entry := File (size : Z) (content : bytes) | Dir.

(** replicate.py:1023-1035 [_replica_size] with the lister of replicate.py:657-668;
    "and" binds tighter than "or". *)
Definition replica_size (entries : list (text * entry)) : list Z :=
  flat_map (fun ne =>
    let '(name, e) := ne in
    let is_file := match e with File _ _ => true | Dir => false end in
    if (is_file && text_eqb name (str "snapshot")) || startswith stream_prefix name
    then [match e with File s _ => s | Dir => 0 end] else []) entries.

(** recover.py:325-351 [tahoe_lafs_downloader]: the streams, in the order of the
    listing.  Simplified: a name is a plain file name, so different names are
    downloaded to different files. *)
Definition downloaded_streams (entries : list (text * entry)) : list bytes :=
  flat_map (fun ne =>
    match ne with
    | (name, File _ content) => if startswith stream_prefix name then [content] else []
    | (_, Dir) => []
    end) entries.

(** * Replay *)

Fixpoint insert_by {A} (key : Z) (x : A) (l : list (Z * A)) : list (Z * A) :=
  match l with
  | [] => [(key, x)]
  | (k, y) :: l' => if key <? k then (key, x) :: (k, y) :: l' else (k, y) :: insert_by key x l'
  end.
(** [sorted(l, key=...)]; equal keys keep their order. *)
Definition sorted_by {A} (l : list (Z * A)) : list A :=
  map snd (fold_left (fun acc kx => insert_by (fst kx) (snd kx) acc) l []).

(** recover.py:231-243 [sorted_event_streams]: streams without changes are left
    out. *)
Definition sorted_event_streams (streams : list (list change)) : res sexn (list (list change)) :=
  keyed <- map_res (fun s => h <- highest_sequence s ;;
                             Ok (match h with None => None | Some k => Some (k, s) end)) streams ;;
  Ok (sorted_by (flat_map (fun o => match o with Some x => [x] | None => [] end) keyed)).

(** recover.py:257-263 [recover_event_stream]: what is executed *)
Definition replayed (c : change) : bool :=
  match statement c with
  | CText s => negb (text_eqb s (str "BEGIN TRANSACTION;") || text_eqb s (str "COMMIT;"))
  | _ => true
  end.

(** recover.py:219-228 [recover], the event streams: all are loaded and sorted
    before the first statement is executed. *)
Definition replay_streams (data : list bytes) : res sexn (list change) :=
  streams <- map_res from_bytes data ;;
  sorted <- sorted_event_streams streams ;;
  Ok (filter replayed (concat sorted)).

(** * Snapshots *)

(** replicate.py:556-565 [statements_to_snapshot] *)
Definition statements_to_snapshot (statements : list text) : res sexn bytes :=
  dumps (CMap [(CText (str "version"), CInt 1); (CText (str "statements"), CArr (map CText statements))]).

(** recover.py:196-208 [statements_from_snapshot]; what [_str_statements]
    (recover.py:211-216) makes of the items: it stops with ValueError at the first
    that is no text, after having given those before. *)
Fixpoint str_statements (l : list cval) : list text * option sexn :=
  match l with
  | [] => ([], None)
  | CText s :: l' => let '(ts, x) := str_statements l' in (s :: ts, x)
  | _ => ([], Some ValueError)
  end.
Definition statements_from_snapshot (s : bytes) : res sexn (list text * option sexn) :=
  snapshot <- loads s ;;
  match snapshot with
  | CMap kvs =>
      if negb (equals_one (map_get (str "version") kvs)) then Err ValueError
      else match map_get (str "statements") kvs with
           | None => Err KeyError
           | Some (CArr l) => Ok (str_statements l)
           | Some _ => Err ValueError
           end
  | _ => Err AttributeError
  end.

(** recover.py:311-322, the loops of [recover_snapshot]: the statements executed
    while reading, and those executed after all have been read. *)
Definition is_create (sql : text) : bool := startswith (str "CREATE TABLE") sql.
Definition is_transaction (sql : text) : bool :=
  text_eqb sql (str "BEGIN TRANSACTION;") || text_eqb sql (str "COMMIT;").
Definition ddl (statements : list text) : list text := filter is_create statements.
Definition dml (statements : list text) : list text :=
  filter (fun s => negb (is_create s) && negb (is_transaction s)) statements.
Definition snapshot_replay (given : list text * option sexn) : list text * option sexn :=
  match given with
  | (ts, None) => (ddl ts ++ dml ts, None)
  | (ts, Some e) => (ddl ts, Some e)
  end.
