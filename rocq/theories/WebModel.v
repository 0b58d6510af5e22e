(** The tree of resources of the HTTP interface (resource.py) behind the check of the token
    (private.py), from a request to its answer and its effect on the node, and histories of
    requests.

    A path is the list of the segments after the place where Tahoe-LAFS puts the tree.  The
    steps from one resource to the next and the choice of the method are those of
    [twisted.web]; its answers to a method that a resource does not have are 405 for the
    methods GET, HEAD and POST and 501 for all others.  Bodies of error pages, headers of
    answers and log messages are left out. *)
From Verif Require Import Prelude BytesModel CborModel StreamModel PricingModel DateModel JsonModel VoucherModel HttpModel.
From Verif Require PassModel StoreModel ControllerModel.
From Coq Require Strings.String.
Import Coq.Strings.String.StringSyntax.
Set Implicit Arguments.

Record request := Request {
  r_method : bytes;
  r_path : list bytes;
  r_authorization : list bytes;      (* the values of the [Authorization] headers *)
  r_content_types : list text;
  r_body : bytes }.

(** What the client gets.  [Later]: the request is answered when something else has happened
    (the replica has been set up, the websocket has been opened). *)
Inductive reply := Now (r : response) | Later.
(** What the node is made to do. *)
Inductive effect := SubmitVoucher (voucher : bytes) | SetUpReplication | OpenRecovery.

Section Web.
Variable F : Type.
Variable float_of : text -> F.
Variable float_repr : F -> text.
Variable is_one : F -> bool.
Variable max_digits : nat.
Variable decode : bytes -> option text.
Variable depth : nat.
Variable utf8 : bytes -> option text.

(** private.py: the token; the version of the program; the price calculator's parameters. *)
Variable secret : bytes.
Variable version : text.
Variables needed total pass_value period : Z.

(** Voucher numbers, times and texts are integers in the models of the store and of the
    controller; these say which. *)
Variable code : bytes -> Z.
Variable name : Z -> bytes.
Variable time : Z -> stamp.
Variable words : Z -> text.

(** ** Vouchers as they are shown *)

Definition shown_state (s : ControllerModel.cstate) : vstate :=
  match s with
  | ControllerModel.CPending counter => Pending counter
  | ControllerModel.CRedeeming started counter => Redeeming (time started) counter
  | ControllerModel.CRedeemed finished token_count => Redeemed (time finished) token_count
  | ControllerModel.CDoubleSpend finished => DoubleSpend (time finished)
  | ControllerModel.CUnpaid finished => Unpaid (time finished)
  | ControllerModel.CError finished details => Error (time finished) (words details)
  end.
(** controller.py:1080-1103 [incorporate_transient_state], the new voucher *)
Definition shown_voucher (v : StoreModel.voucher) (s : ControllerModel.cstate) : voucher :=
  Voucher (name (StoreModel.number v)) (StoreModel.expected_tokens v) (Some (time (StoreModel.created v))) (shown_state s).

(** ** The tree *)

Inductive resource :=
| Root
| Recover                    (* [WebSocketResource], a leaf *)
| Replicate                  (* resource.py:215-259 [ReplicateResource] *)
| Vouchers                   (* resource.py:660-723 [_VoucherCollection] *)
| OneVoucher (v : voucher)   (* resource.py:747-762 [VoucherView] *)
| Maintenance                (* resource.py:625-657 [_LeaseMaintenanceResource] *)
| ProjectVersion             (* resource.py:611-621 [_ProjectVersion] *)
| CalculatePrice             (* resource.py:492-576 [_CalculatePrice] *)
| Error_ (status : Z).       (* an error page, which is its own child *)

(** resource.py:456-488 [authorizationless_resource_tree] *)
Definition root_child (segment : bytes) : option resource :=
  if bytes_eqb segment (PassModel.ascii "recover") then Some Recover
  else if bytes_eqb segment (PassModel.ascii "replicate") then Some Replicate
  else if bytes_eqb segment (PassModel.ascii "voucher") then Some Vouchers
  else if bytes_eqb segment (PassModel.ascii "lease-maintenance") then Some Maintenance
  else if bytes_eqb segment (PassModel.ascii "version") then Some ProjectVersion
  else if bytes_eqb segment (PassModel.ascii "calculate-price") then Some CalculatePrice
  else None.

(** resource.py:714-723 [_VoucherCollection.getChild]; [None]: an exception *)
Definition voucher_child (c : ControllerModel.ctl) (segment : bytes) : option resource :=
  match utf8 segment with
  | None => None
  | Some s =>
      if is_syntactic_voucher (JStr s : json F) then
        match encode_ascii s with
        | None => None
        | Some b =>
            match ControllerModel.get_voucher c (code b) with
            | Ok (v, st) => Some (OneVoucher (shown_voucher v st))
            | Err StoreModel.KeyError => Some (Error_ 404)
            | Err _ => None
            end
        end
      else Some (Error_ 400)
  end.

(** [twisted.web.resource.getChildForRequest] on this tree *)
Definition find (c : ControllerModel.ctl) (path : list bytes) : option resource :=
  match path with
  | [] => Some Root
  | segment :: rest =>
      match root_child segment with
      | None => Some (Error_ 404)
      | Some Recover => Some Recover
      | Some Vouchers =>
          match rest with
          | [] => Some Vouchers
          | segment' :: rest' =>
              match voucher_child c segment' with
              | Some (OneVoucher v) => match rest' with [] => Some (OneVoucher v) | _ => Some (Error_ 404) end
              | other => other
              end
          end
      | Some other => match rest with [] => Some other | _ => Some (Error_ 404) end
      end
  end.

(** ** Rendering *)

Definition GET : bytes := PassModel.ascii "GET".
Definition HEAD : bytes := PassModel.ascii "HEAD".
Definition POST : bytes := PassModel.ascii "POST".
Definition PUT : bytes := PassModel.ascii "PUT".

(** [twisted.web.server.Request.render] when the resource has no such method *)
Definition unsupported (method : bytes) : response :=
  Response (if bytes_eqb method GET || bytes_eqb method HEAD || bytes_eqb method POST then 405 else 501) [].
Definition ok_json (j : json F) : response := Response 200 (dumps_utf8 float_repr j).
Definition json_or_crash (r : res vexn (json F)) : response :=
  match r with Ok j => ok_json j | Err _ => Crash end.

(** resource.py:703-712 [_VoucherCollection.render_GET] *)
Definition voucher_list (c : ControllerModel.ctl) : response :=
  match fst (StoreModel.with_cursor StoreModel.list_vouchers (ControllerModel.c_db c)) with
  | Err _ => Crash
  | Ok vs =>
      json_or_crash
        (js <- StoreModel.map_res (fun v => to_json_v1 F (shown_voucher v (ControllerModel.incorporate_transient_state c v))) vs ;;
         Ok (JObj [(str "vouchers", JArr js)]))
  end.

(** resource.py:638-654 [_LeaseMaintenanceResource.render_GET] *)
Definition maintenance_report (c : ControllerModel.ctl) : response :=
  match fst (StoreModel.with_cursor StoreModel.count_unblinded_tokens (ControllerModel.c_db c)),
        fst (StoreModel.with_cursor StoreModel.get_latest_lease_maintenance_activity (ControllerModel.c_db c)) with
  | Ok n, Ok activity =>
      ok_json (JObj [(str "total", JInt n);
                     (str "spending", match activity with
                                      | None => JNull
                                      | Some (_, count, finished) =>
                                          JObj [(str "when", JStr (isoformat (time finished))); (str "count", JInt count)]
                                      end)])
  | _, _ => Crash
  end.

(** What GET gives, where there is a method for it; HEAD gives the same without the body. *)
Definition get_of (c : ControllerModel.ctl) (r : resource) : option response :=
  match r with
  | Vouchers => Some (voucher_list c)
  | OneVoucher v => Some (json_or_crash (to_json_v1 F v))
  | Maintenance => Some (maintenance_report c)
  | ProjectVersion => Some (ok_json (JObj [(str "version", JStr version)]))
  | _ => None
  end.
Definition without_body (r : response) : response :=
  match r with Response status _ => Response status [] | Crash => Crash end.

(** [render] of the resource that was found.  [Resource.render_HEAD] calls [render_GET], which
    fails where there is none; [_CalculatePrice] sets both to [None]. *)
Definition render (c : ControllerModel.ctl) (r : resource) (req : request) : reply * option effect :=
  let method := r_method req in
  match r with
  | Error_ status => (Now (Response status []), None)
  | Recover => (Later, Some OpenRecovery)
  | _ =>
      if bytes_eqb method GET then
        (Now (match get_of c r with Some answer => answer | None => unsupported method end), None)
      else if bytes_eqb method HEAD then
        (Now (match get_of c r, r with
              | Some answer, _ => without_body answer
              | None, CalculatePrice => unsupported method
              | None, _ => Crash
              end), None)
      else
        match r with
        | Replicate => if bytes_eqb method POST then (Later, Some SetUpReplication) else (Now (unsupported method), None)
        | CalculatePrice =>
            if bytes_eqb method POST then
              (Now (calculate_price float_of float_repr is_one max_digits decode depth needed total pass_value period
                      (r_content_types req) (r_body req)), None)
            else (Now (unsupported method), None)
        | Vouchers =>
            if bytes_eqb method PUT then
              match put_voucher float_of max_digits decode depth (r_body req) with
              | Ok (Redeem v) => (Now (Response 200 []), Some (SubmitVoucher v))
              | Ok Refuse => (Now (Response 400 []), None)
              | Err _ => (Now Crash, None)
              end
            else (Now (unsupported method), None)
        | _ => (Now (unsupported method), None)
        end
  end.

(** The whole: resource.py:168-181 [create_private_tree] around the tree.
    [HTTPAuthSessionWrapper] answers 401 to every request without the token, whatever its path. *)
Definition handle (c : ControllerModel.ctl) (req : request) : reply * option effect :=
  if authorized secret (r_authorization req) then
    match find c (r_path req) with
    | None => (Now Crash, None)
    | Some r => render c r req
    end
  else (Now (Response 401 []), None).

(** ** Histories *)

(** A request, or something else that happens to the node: the redeemer answers, the timer
    fires, the process starts or ends, something uses the wallet. *)
Inductive web_event := Http (r : request) | Other (e : ControllerModel.event).
Definition web_timed := (web_event * Z * (Z -> Z -> Z -> list Z))%type.

Variables num_redemption_groups default_token_count : Z.
Variable allowed_public_keys : list Z.

(** resource.py:697-700: the coroutine of [redeem] runs up to its first [await] before the
    request is answered; an exception in it does not change the answer. *)
Definition web_step (c : ControllerModel.ctl) (te : web_timed) : option reply * ControllerModel.ctl :=
  let '(e, now, gen) := te in
  match e with
  | Other e => (None, snd (ControllerModel.controller_step num_redemption_groups default_token_count allowed_public_keys c (e, now, gen)))
  | Http req =>
      let '(answer, eff) := handle c req in
      (Some answer,
       match eff with
       | Some (SubmitVoucher v) => snd (ControllerModel.redeem num_redemption_groups default_token_count now gen (code v) None c)
       | _ => c
       end)
  end.
Fixpoint web_run (c : ControllerModel.ctl) (es : list web_timed) : list (option reply) * ControllerModel.ctl :=
  match es with
  | [] => ([], c)
  | te :: rest =>
      let '(a, c1) := web_step c te in
      let '(l, c2) := web_run c1 rest in (a :: l, c2)
  end.
End Web.
