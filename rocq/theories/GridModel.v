(** Operations on the grid through the HTTP interface of the Tahoe-LAFS node: tahoe.py.

    Capabilities are abstract; so are [tahoe_capabilities]' functions between them and texts,
    and the digest that stands for a scrubbed capability.  URLs are those of hyperlink, without
    user, fragment and Unicode normalisation. *)
From Verif Require Import Prelude BytesModel CborModel StreamModel JsonModel.
From Coq Require Strings.String.
Import Coq.Strings.String.StringSyntax.
Set Implicit Arguments.

(** ** URLs *)

(** [u_root]: scheme, host and port *)
Record url := Url { u_root : text; u_path : list text; u_query : list (text * text) }.

Fixpoint but_last {A} (l : list A) : list A :=
  match l with [] => [] | [x] => [] | x :: l' => x :: but_last l' end.
Definition is_nil {A} (l : list A) : bool := match l with [] => true | _ => false end.
(** [u.child(s)]: a slash at the end of the path is dropped. *)
Definition child (u : url) (s : text) : url :=
  let path := if is_nil (u_path u) then [] else if is_nil (last (u_path u) [0]) then but_last (u_path u) else u_path u in
  Url (u_root u) (path ++ [s]) (u_query u).
(** [u.add(k, v)] *)
Definition add_query (u : url) (k v : text) : url := Url (u_root u) (u_path u) (u_query u ++ [(k, v)]).

Definition unreserved (c : Z) : bool :=
  ((48 <=? c) && (c <=? 57)) || ((65 <=? c) && (c <=? 90)) || ((97 <=? c) && (c <=? 122)) ||
  (c =? 45) || (c =? 46) || (c =? 95) || (c =? 126).
Definition upper_hex (n : Z) : Z := if n <? 10 then 48 + n else 55 + n.
Definition percent (b : byte) : text := [37; upper_hex (bz b / 16); upper_hex (bz b mod 16)].
Definition quote_char (c : Z) : text := if unreserved c then [c] else flat_map percent (utf8_char c).
Definition quote (s : text) : text := flat_map quote_char s.

Fixpoint sep_by (sep : Z) (l : list text) : text :=
  match l with
  | [] => []
  | [x] => x
  | x :: l' => x ++ sep :: sep_by sep l'
  end.
(** [u.to_text()] *)
Definition url_text (u : url) : text :=
  u_root u ++ flat_map (fun s => 47 :: quote s) (u_path u) ++
  match u_query u with [] => [] | q => 63 :: sep_by 38 (map (fun kv => quote (fst kv) ++ 61 :: quote (snd kv)) q) end.

(** ** Python's [repr] *)

Section Repr.
(** Code points from 127 on that are written as they are ([str.isprintable]) *)
Variable printable : Z -> bool.
Definition hex2 (n : Z) : text := [hexdigit (n / 16 mod 16); hexdigit (n mod 16)].
Definition repr_char (q c : Z) : text :=
  if (c =? q) || (c =? 92) then [92; c]
  else if c =? 10 then [92; 110]
  else if c =? 13 then [92; 114]
  else if c =? 9 then [92; 116]
  else if (32 <=? c) && (c <? 127) then [c]
  else if c <? 127 then 92 :: 120 :: hex2 c
  else if printable c then [c]
  else if c <? 256 then 92 :: 120 :: hex2 c
  else if c <? 65536 then 92 :: 117 :: hex4 c
  else 92 :: 85 :: hex4 (c / 65536) ++ hex4 (c mod 65536).
(** Single quotes, unless there are single quotes and no double ones in it *)
Definition repr (s : text) : text :=
  let q := if existsb (Z.eqb 39) s && negb (existsb (Z.eqb 34) s) then 34 else 39 in
  q :: flat_map (repr_char q) s ++ [q].
Definition url_repr (u : url) : text := str "DecodedURL(url=URL.from_text(" ++ repr (url_text u) ++ str "))".

(** ** Errors *)

(** [b32encode(sha256(cap).digest())[:6]], the bytes as a text *)
Variable digest : text -> text.

Definition scrubbed_prefix : text := str "URI:SCRUBBED:".
(** tahoe.py:139-146 [_scrub_cap]; None: not ASCII, UnicodeEncodeError.  The digest is [bytes]
    and so comes with quotes. *)
Definition scrub_cap (cap : text) : option text :=
  if forallb (fun c => (0 <=? c) && (c <? 128)) cap then Some (scrubbed_prefix ++ str "b'" ++ digest cap ++ str "'") else None.
Definition starts_with (p s : text) : bool := match strip_prefix p s with Some _ => true | None => false end.
(** tahoe.py:149-165 [_scrub_caps_from_url] *)
Definition scrub_caps_from_url (u : url) : option url :=
  match u_path u with
  | first :: cap :: rest =>
      if text_eqb first (str "uri") && negb (starts_with scrubbed_prefix cap)
      then option_map (fun s => Url (u_root u) (first :: s :: rest) (u_query u)) (scrub_cap cap)
      else Some u
  | _ => Some u
  end.

(** tahoe.py:168-180 [TahoeAPIError].  As [auto_exc] is false, [args] is what
    [BaseException.__new__] was given: the arguments before conversion; [a_given] is the URL
    there. *)
Record api_error := APIError { a_given : url; a_method : text; a_url : url; a_status : Z; a_body : text }.
(** What operations raise *)
Inductive gexn :=
| API (e : api_error)
| Refused                (* twisted's ConnectionRefusedError *)
| NotWriteable           (* tahoe.py:183-186 *)
| NotADirectory          (* tahoe.py:189-192 *)
| NotADirCap             (* ValueError *)
| NotRecognized          (* of tahoe_capabilities *)
| BadListing             (* KeyError, TypeError, ValueError *)
| BadText                (* UnicodeDecodeError *)
| NotAscii               (* UnicodeEncodeError *)
| Disconnected           (* ResponseFailed *)
| Other (n : Z).
(** [raise TahoeAPIError(method, u, status, body)] *)
Definition api_exn (method : text) (u : url) (status : Z) (body : text) : gexn :=
  match scrub_caps_from_url u with
  | Some v => API (APIError u method v status body)
  | None => NotAscii
  end.
(** [str(e)]: that of [BaseException], the tuple of arguments *)
Definition error_str (e : api_error) : text :=
  str "(" ++ repr (a_method e) ++ str ", " ++ url_repr (a_given e) ++ str ", " ++ ascii (dec (a_status e)) ++ str ", " ++ repr (a_body e) ++ str ")".
(** [repr(e)]: that of attrs *)
Definition error_repr (e : api_error) : text :=
  str "TahoeAPIError(method=" ++ repr (a_method e) ++ str ", url=" ++ url_repr (a_url e) ++ str ", status=" ++ ascii (dec (a_status e)) ++
  str ", body=" ++ repr (a_body e) ++ str ")".

(** [p in s] *)
Fixpoint contains (p s : text) : bool :=
  starts_with p s || match s with [] => false | _ :: s' => contains p s' end.

(** ** Retries *)

(** tahoe.py:119-127 [_not_enough_servers] *)
Definition not_enough_servers (e : gexn) : bool :=
  match e with
  | API a => contains (str "allmydata.interfaces.NoServersError") (error_str a) ||
             contains (str "allmydata.mutable.common.NotEnoughServersError") (error_str a)
  | _ => false
  end.
(** tahoe.py:130-136 [_connection_refused] *)
Definition connection_refused (e : gexn) : bool := match e with Refused => true | _ => false end.
(** tahoe.py:195 [_common_tahoe_errors] *)
Definition common_tahoe_errors : list (gexn -> bool) := [not_enough_servers; connection_refused].

(** tahoe.py:90-116 [async_retry]: the [n]-th call of the function, from 0, has the outcome
    [f n].  The loop need not end: here it makes [fuel] calls at most and then gives None,
    otherwise the outcome and the number of calls. *)
Fixpoint async_retry {A} (matchers : list (gexn -> bool)) (f : nat -> res gexn A) (n fuel : nat) : option (res gexn A * nat) :=
  match fuel with
  | O => None
  | S fuel' =>
      match f n with
      | Err e => if existsb (fun m => m e) matchers then async_retry matchers f (S n) fuel' else Some (Err e, S n)
      | Ok a => Some (Ok a, S n)
      end
  end.

(** ** Operations *)

Record request := Request { r_method : text; r_url : url; r_data : option bytes }.
(** What becomes of a request: a response, a response of which the body did not arrive in
    full, or none. *)
Inductive answer :=
| Answer (code : Z) (body : bytes)
| Cut (code : Z)
| Refusal
| Failure (n : Z).
(** [await client...] and [(await treq.content(resp)).decode("utf-8")] *)
Definition content (a : answer) : res gexn (Z * text) :=
  match a with
  | Answer code body => match utf8_decode body with Some s => Ok (code, s) | None => Err BadText end
  | Cut _ => Err Disconnected
  | Refusal => Err Refused
  | Failure n => Err (Other n)
  end.

Section Caps.
(** Capabilities to read files; to read directories; to write directories; any *)
Variables file_cap dir_cap dir_write_cap any_cap : Type.
Variable file_text : file_cap -> text.
Variable dir_text : dir_cap -> text.
Variable dir_write_text : dir_write_cap -> text.
Variable any_text : any_cap -> text.
(** [readable_from_string] etc.; None: NotRecognized *)
Variable readable_from_string : text -> option file_cap.
Variable readonly_directory_from_string : text -> option dir_cap.
Variable writeable_directory_from_string : text -> option dir_write_cap.
Definition recognized {A} (o : option A) : res gexn A := match o with Some a => Ok a | None => Err NotRecognized end.

(** tahoe.py:198-235 [upload_bytes], one call, with what [get_data_provider] gives *)
Definition upload_request (api_root : url) (data : bytes) : request := Request (str "PUT") (child api_root (str "uri")) (Some data).
Definition upload_result (api_root : url) (a : answer) : res gexn file_cap :=
  c <- content a ;;
  if (fst c =? 200) || (fst c =? 201) then recognized (readable_from_string (snd c))
  else Err (api_exn (str "put") (child api_root (str "uri")) (fst c) (snd c)).

(** tahoe.py:278-286 *)
Section Listing.
Variable F : Type.
Variable float_of : text -> F.
Variable max_digits : nat.
Inductive node := FileNode (size : json F) (ro_uri : file_cap) | DirectoryNode (ro_uri : dir_cap).

Definition listing_exn {A} (o : option A) : res gexn A := match o with Some a => Ok a | None => Err BadListing end.
Definition as_object (j : json F) : option (list (text * json F)) := match j with JObj l => Some l | _ => None end.
Definition as_pair (j : json F) : option (json F * json F) := match j with JArr [a; b] => Some (a, b) | _ => None end.
Definition as_string (j : json F) : option text := match j with JStr s => Some s | _ => None end.
(** tahoe.py:316-320, 323-327, an entry of a directory.  That a [str] of two characters or a
    [dict] with two keys can be unpacked like a list makes no difference: an item of it has no
    "ro_uri". *)
Definition read_entry (j : json F) : res gexn node :=
  ke <- listing_exn (as_pair j) ;;
  entry <- listing_exn (as_object (snd ke)) ;;
  match fst ke with
  | JStr k =>
      if text_eqb k (str "filenode") then
        size <- listing_exn (jget (str "size") entry) ;;
        u <- listing_exn (jget (str "ro_uri") entry) ;; u <- listing_exn (as_string u) ;;
        c <- recognized (readable_from_string u) ;; Ok (FileNode size c)
      else
        u <- listing_exn (jget (str "ro_uri") entry) ;; u <- listing_exn (as_string u) ;;
        c <- recognized (readonly_directory_from_string u) ;; Ok (DirectoryNode c)
  | _ =>
      u <- listing_exn (jget (str "ro_uri") entry) ;; u <- listing_exn (as_string u) ;;
      c <- recognized (readonly_directory_from_string u) ;; Ok (DirectoryNode c)
  end.
Fixpoint read_entries (l : list (text * json F)) : res gexn (list (text * node)) :=
  match l with
  | [] => Ok []
  | (name, j) :: l' => n <- read_entry j ;; r <- read_entries l' ;; Ok ((name, n) :: r)
  end.

(** tahoe.py:293-330 [list_directory], one call; [is_directory] is true of capabilities of the
    type. *)
Definition list_url (api_root : url) (d : dir_cap) : url :=
  add_query (child (child (child api_root (str "uri")) (dir_text d)) []) (str "t") (str "json").
Definition list_request (api_root : url) (d : dir_cap) : request := Request (str "GET") (list_url api_root d) None.
Definition list_result (depth : nat) (api_root : url) (d : dir_cap) (a : answer) : res gexn (list (text * node)) :=
  c <- content a ;;
  if fst c =? 200 then
    match loads_text float_of max_digits depth (snd c) with
    | Ok j => kd <- listing_exn (as_pair j) ;; details <- listing_exn (as_object (snd kd)) ;;
              children <- listing_exn (jget (str "children") details) ;; children <- listing_exn (as_object children) ;;
              read_entries children
    | Err _ => Err BadListing
    end
  else Err (api_exn (str "get") (list_url api_root d) (fst c) (snd c)).
End Listing.

(** tahoe.py:333-346 [make_directory], one call *)
Definition make_url (api_root : url) : url := add_query (child api_root (str "uri")) (str "t") (str "mkdir").
Definition make_request (api_root : url) : request := Request (str "POST") (make_url api_root) None.
Definition make_result (api_root : url) (a : answer) : res gexn dir_write_cap :=
  c <- content a ;;
  if fst c =? 200 then recognized (writeable_directory_from_string (snd c))
  else Err (api_exn (str "post") (make_url api_root) (fst c) (snd c)).

(** tahoe.py:349-382 [link], one call; capabilities are ASCII. *)
Definition entry_url (api_root : url) (d : dir_write_cap) (name : text) : url :=
  child (child (child api_root (str "uri")) (dir_write_text d)) name.
Definition link_request (api_root : url) (d : dir_write_cap) (name : text) (entry : any_cap) : request :=
  Request (str "PUT") (add_query (entry_url api_root d name) (str "t") (str "uri")) (Some (map zb (any_text entry))).
Definition link_result (api_root : url) (d : dir_write_cap) (name : text) (a : answer) : res gexn unit :=
  c <- content a ;;
  if fst c =? 200 then Ok tt
  else if (fst c =? 500) && contains (str "allmydata.mutable.common.NotWriteableError") (snd c) then Err NotWriteable
  else Err (api_exn (str "put") (add_query (entry_url api_root d name) (str "t") (str "uri")) (fst c) (snd c)).

(** tahoe.py:385-421 [unlink], one call *)
Definition unlink_request (api_root : url) (d : dir_write_cap) (name : text) : request :=
  Request (str "DELETE") (entry_url api_root d name) None.
Definition unlink_result (api_root : url) (d : dir_write_cap) (name : text) (a : answer) : res gexn unit :=
  c <- content a ;;
  if fst c =? 200 then Ok tt
  else if (fst c =? 500) && contains (str "allmydata.mutable.common.NotWriteableError") (snd c) then Err NotWriteable
  else if (fst c =? 400) && contains (str "Files have no children named") (snd c) then Err NotADirectory
  else Err (api_exn (str "delete") (entry_url api_root d name) (fst c) (snd c)).

(** The operations as they are offered, with [async_retry]: the [n]-th request has the answer
    [answers n].  Returned are the outcome and the requests that were made. *)
Definition retried {A} (req : nat -> request) (result : answer -> res gexn A) (answers : nat -> answer) (fuel : nat) : option (res gexn A * list request) :=
  option_map (fun rn => (fst rn, map req (seq 0 (snd rn)))) (async_retry common_tahoe_errors (fun n => result (answers n)) 0 fuel).
(** [provider n]: the bytes of what the [n]-th call of [get_data_provider] returns *)
Definition upload (api_root : url) (provider : nat -> bytes) (answers : nat -> answer) (fuel : nat) : option (res gexn file_cap * list request) :=
  retried (fun n => upload_request api_root (provider n)) (upload_result api_root) answers fuel.
Definition list_directory F float_of max_digits depth (api_root : url) (d : dir_cap) (answers : nat -> answer) (fuel : nat) : option (res gexn (list (text * node F)) * list request) :=
  retried (fun _ => list_request api_root d) (list_result float_of max_digits depth api_root d) answers fuel.
Definition make_directory (api_root : url) (answers : nat -> answer) (fuel : nat) : option (res gexn dir_write_cap * list request) :=
  retried (fun _ => make_request api_root) (make_result api_root) answers fuel.
Definition link (api_root : url) (d : dir_write_cap) (name : text) (entry : any_cap) (answers : nat -> answer) (fuel : nat) : option (res gexn unit * list request) :=
  retried (fun _ => link_request api_root d name entry) (link_result api_root d name) answers fuel.
Definition unlink (api_root : url) (d : dir_write_cap) (name : text) (answers : nat -> answer) (fuel : nat) : option (res gexn unit * list request) :=
  retried (fun _ => unlink_request api_root d name) (unlink_result api_root d name) answers fuel.

(** ** Downloads *)

Definition files := text -> option bytes.
Definition write_file (p : text) (b : option bytes) (fs : files) : files := fun q => if text_eqb p q then b else fs q.

(** How a body ends, after some chunks.  treq takes the end of the connection for the end of a
    body that has neither a length nor chunks; anything else raises, a failure to write too. *)
Inductive ending := Complete | ConnectionEnd | Broken (e : gexn).
Inductive download_answer :=
| Body (chunks : list bytes) (e : ending)          (* status 200 *)
| NoBody (a : answer).                             (* another status, or none *)

(** [treq.collect(resp, f.write)]: the states of the files after every chunk *)
Fixpoint collect (temp : text) (written : bytes) (chunks : list bytes) (fs : files) : list files :=
  match chunks with
  | [] => []
  | c :: chunks' => let fs' := write_file temp (Some (written ++ c)) fs in fs' :: collect temp (written ++ c) chunks' fs'
  end.
(** tahoe.py:238-275 [download]: the outcome and all the states that the files go through, the
    last one being the one that is left.  [temp] is the path of the temporary sibling; [move]:
    what the renaming raises, if anything.  Bytes that Python buffers are taken to be in the
    temporary file. *)
Definition download_url (api_root : url) (cap : file_cap) : url := child (child api_root (str "uri")) (file_text cap).
Definition download (api_root : url) (cap : file_cap) (temp outpath : text) (a : download_answer) (move : option gexn) (fs : files)
  : res gexn unit * list files :=
  match a with
  | NoBody a => ((c <- content a ;; Err (api_exn (str "get") (download_url api_root cap) (fst c) (snd c))), [fs])
  | Body chunks e =>
      let opened := write_file temp (Some []) fs in
      let states := fs :: opened :: collect temp [] chunks opened in
      match e with
      | Broken e => (Err e, states)
      | _ =>
          match move with
          | Some e => (Err e, states)
          | None => let fs' := last states fs in
                    (Ok tt, states ++ [write_file temp None (write_file outpath (fs' temp) fs')])
          end
      end
  end.

(** ** Children *)

Section Client.
(** An [ITahoeClient] with what its operations do; no operation changes the directories. *)
Variable S : Type.
Variable list_dir : dir_cap -> res gexn (list (text * node S)).
Variable fetch : file_cap -> res gexn unit.
Inductive call := ListCall (d : dir_cap) | DownloadCall (outpath : text) (c : file_cap).
Fixpoint tget {V} (k : text) (d : list (text * V)) : option V :=
  match d with
  | [] => None
  | (k', v) :: d' => if text_eqb k k' then Some v else tget k d'
  end.
(** tahoe.py:783-823 [download_child], with the calls it makes; the [assert] on the last child
    is an error like the others. *)
Fixpoint download_child (outpath : text) (d : dir_cap) (path : list text) : res gexn unit * list call :=
  match path with
  | [] => (Err (Other 0), [])
  | p :: remaining =>
      match list_dir d with
      | Err e => (Err e, [ListCall d])
      | Ok children =>
          match tget p children with
          | None => (Err BadListing, [ListCall d])
          | Some c =>
              match remaining, c with
              | [], FileNode _ c => (fetch c, [ListCall d; DownloadCall outpath c])
              | [], DirectoryNode _ _ => (Err (Other 1), [ListCall d])
              | _, DirectoryNode _ d' => let (r, calls) := download_child outpath d' remaining in (r, ListCall d :: calls)
              | _, FileNode _ _ => (Err NotADirectory, [ListCall d])
              end
          end
      end
  end.
End Client.
End Caps.
End Repr.
