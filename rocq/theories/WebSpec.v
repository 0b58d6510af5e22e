(** What is said about requests to the HTTP interface. *)
From Verif Require Import Prelude BytesModel CborModel StreamModel DateModel JsonModel JsonSpec HttpModel HttpSpec WebModel.
From Verif Require PassModel VoucherModel VoucherSpec StoreModel ControllerModel ControllerSpec.
From Coq Require Strings.String.
Import Coq.Strings.String.StringSyntax.
Set Implicit Arguments.

(** The request carries the token: its last header of this kind does. *)
Definition carries (secret : bytes) (req : request) : Prop :=
  exists before header, r_authorization req = before ++ [header] /\ opens secret header.

(** The request is for this and carries the token. *)
Definition asks (secret method : bytes) (path : list bytes) (req : request) : Prop :=
  carries secret req /\ r_method req = method /\ r_path req = path.

Definition vouchers_path : list bytes := [PassModel.ascii "voucher"].
Definition voucher_path (b : bytes) : list bytes := [PassModel.ascii "voucher"; b].
Definition maintenance_path : list bytes := [PassModel.ascii "lease-maintenance"].

(** What there is at the top. *)
Definition top : list bytes :=
  map PassModel.ascii ["recover"; "replicate"; "voucher"; "lease-maintenance"; "version"; "calculate-price"]%string.

(** Numbers that vouchers can have. *)
Definition voucher_number (b : bytes) : Prop := voucher_text (ascii b).

Section Life.
Variable F : Type.
Variable float_of : text -> F.
Variable max_digits : nat.
Variable decode : bytes -> option text.
Variable depth : nat.
Variable secret : bytes.

(** The request submits the voucher [b]: a PUT with a JSON object that has it, and nothing
    else. *)
Definition submits (req : request) (b : bytes) : Prop :=
  asks secret (PassModel.ascii "PUT") vouchers_path req /\ voucher_number b /\
  json_body float_of max_digits decode depth (r_body req) (JObj [(str "voucher", JStr (ascii b))]).
End Life.

(** Of other things that happen, none submits a voucher, and the other users of the wallet
    leave vouchers alone; the redeemer makes as many tokens as it is asked for. *)
Definition ordinary (te : web_timed) : Prop :=
  match te with
  | (Http _, _, gen) => ControllerSpec.enough gen
  | (Other (ControllerModel.ESubmit _ _), _, _) => False
  | (Other e, now, gen) => ControllerSpec.proper (e, now, gen)
  end.

(** What a voucher's page and the list say of the voucher of row [r] with number [b]. *)
Definition tells {F} (time : Z -> stamp) (words : Z -> text) (c : ControllerModel.ctl) (r : StoreModel.voucher_row) (b : bytes) (j : json F) : Prop :=
  exists s st, ControllerSpec.reported c r s /\
    j = JObj [(str "number", JStr (ascii b));
              (str "expected-tokens", JInt (StoreModel.v_expected r));
              (str "created", JStr (ascii (stamp_text x54 (time (StoreModel.v_created r)))));
              (str "state", JObj st);
              (str "version", JInt 1)] /\
    let at_ t := JStr (ascii (stamp_text x54 (time t))) in
    st = match s with
         | ControllerModel.CPending k => [(str "name", JStr (str "pending")); (str "counter", JInt k)]
         | ControllerModel.CRedeeming t k => [(str "name", JStr (str "redeeming")); (str "started", at_ t); (str "counter", JInt k)]
         | ControllerModel.CRedeemed t n => [(str "name", JStr (str "redeemed")); (str "finished", at_ t); (str "token-count", JInt n)]
         | ControllerModel.CDoubleSpend t => [(str "name", JStr (str "double-spend")); (str "finished", at_ t)]
         | ControllerModel.CUnpaid t => [(str "name", JStr (str "unpaid")); (str "finished", at_ t)]
         | ControllerModel.CError t x => [(str "name", JStr (str "error")); (str "finished", at_ t); (str "details", JStr (words x))]
         end.

(** The vouchers that the node has. *)
Definition known (c : ControllerModel.ctl) : list Z := map StoreModel.v_number (StoreModel.vouchers (ControllerModel.c_db c)).

(** The node's life so far, if [run] is how events change it. *)
Definition life (run : ControllerModel.ctl -> list web_timed -> list (option reply) * ControllerModel.ctl)
    (es : list web_timed) (c : ControllerModel.ctl) : Prop :=
  Forall ordinary es /\ snd (run ControllerModel.new_node es) = c.

(** [l'] is [l] without some of the requests that do not carry the token, all of which were
    answered with 401. *)
Inductive sifted (secret : bytes) : list (web_timed * option reply) -> list (web_timed * option reply) -> Prop :=
| sifted_nil : sifted secret [] []
| sifted_keep x l l' : sifted secret l l' -> sifted secret (x :: l) (x :: l')
| sifted_drop req now gen l l' : ~ carries secret req -> sifted secret l l' ->
    sifted secret (((Http req, now, gen), Some (Now (Response 401 []))) :: l) l'.

(** [n] tokens can be had from the wallet, and no more. *)
Definition can_spend (d : StoreModel.db) (n : Z) : Prop :=
  0 <= n /\
  forall scan m, (forall l, Permutation.Permutation (scan l) l) -> 0 <= m <= StoreModel.SQLITE3_INTEGER_MAX ->
  if m <=? n
  then exists toks, fst (StoreModel.step d (StoreModel.OExtract scan m)) = Ok (StoreModel.RTokens toks) /\ NoDup toks /\ Z.of_nat (length toks) = m
  else StoreModel.step d (StoreModel.OExtract scan m) = (Err StoreModel.NotEnoughTokens, d).

(** What is said of the lease maintenance runs: nothing if none has finished, otherwise when
    the last to finish did and what it cost. *)
Definition last_run {F} (time : Z -> stamp) (d : StoreModel.db) (j : json F) : Prop :=
  (j = JNull /\ forall m, In m (StoreModel.maint d) -> StoreModel.m_finished m = None) \/
  exists m f, In m (StoreModel.maint d) /\ StoreModel.m_finished m = Some f /\
    (forall m' f', In m' (StoreModel.maint d) -> StoreModel.m_finished m' = Some f' -> f' <= f) /\
    j = JObj [(str "when", JStr (ascii (stamp_text x54 (time f)))); (str "count", JInt (StoreModel.m_count m))].

(** Numbers that can be written, and explanations that are texts. *)
Definition writable_rows (max_digits : nat) (words : Z -> text) (c : ControllerModel.ctl) : Prop :=
  let fits n := Z.abs n < 10 ^ Z.of_nat max_digits in
  forall r s, ControllerSpec.row c r -> ControllerSpec.reported c r s ->
  fits (StoreModel.v_expected r) /\
  match s with
  | ControllerModel.CPending n | ControllerModel.CRedeeming _ n | ControllerModel.CRedeemed _ n => fits n
  | ControllerModel.CError _ x => VoucherSpec.code_points (words x) /\ VoucherSpec.no_surrogate_pair (words x)
  | _ => True
  end.
