(** Model of the voucher store (model.py): the SQLite tables, every mutating
    statement, and the store operations as statement programs run in one
    transaction each.

    Abstractions, for the whole file: token texts, voucher numbers, public
    keys, failure reasons and times are integers; only equality (and, for
    times, order) of them is ever used by the code.  The [public-key] column of
    [vouchers] is selected but never used by [Voucher.from_row] and never
    written by this version, so it is left out.  Log messages are left out. *)
From Verif Require Import Prelude PricingModel.
Set Implicit Arguments.

(** * Tables *)

(** The values of [vouchers].[state], schema.py:79 *)
Inductive vstate := SPending | SDoubleSpend | SRedeemed.

(** A row of [vouchers]: schema.py:76-89, 139-148 (counter, expected-tokens),
    196-199 (sequestered-count). *)
Record voucher_row := VR {
  v_number : Z; v_created : Z; v_expected : Z; v_state : vstate;
  v_finished : option Z; v_token_count : option Z; v_sequestered : Z; v_counter : Z }.

(** A row of [tokens]: schema.py:92-99 and 131-134 (counter). *)
Record token_row := TR { t_text : Z; t_voucher : Z; t_counter : Z }.

(** A row of [unblinded-tokens]: schema.py:101-106 and 214-216 (group). *)
Record ub_row := UR { u_token : Z; u_group : Z }.

(** A row of [redemption-groups]: schema.py:164-180. *)
Record group_row := GR { g_id : Z; g_voucher : Z; g_pk : Z; g_spendable : bool }.

(** A row of [lease-maintenance-spending]: schema.py:108-125. *)
Record maint_row := MR { m_id : Z; m_started : Z; m_finished : option Z; m_count : Z }.

(** One connection's view of the database: the persistent tables and the three
    temporary ones of model.py:170-207.  Tables are lists of rows in insertion
    order.  [invalid] is [invalid-unblinded-tokens] (schema.py:152-158) as
    (token, reason) pairs. *)
Record db := DB {
  vouchers : list voucher_row;
  tokens : list token_row;
  unblinded : list ub_row;
  invalid : list (Z * Z);
  groups : list group_row;
  maint : list maint_row;
  in_use : list Z;
  to_discard : list Z;
  to_reset : list Z }.

(** A freshly created database: model.py:146-210 on an empty file. *)
Definition empty_db : db := DB [] [] [] [] [] [] [] [] [].

(** Record update, one setter per table (no counterpart in /repo). *)
Definition set_vouchers x d := DB x (tokens d) (unblinded d) (invalid d) (groups d) (maint d) (in_use d) (to_discard d) (to_reset d).
Definition set_tokens x d := DB (vouchers d) x (unblinded d) (invalid d) (groups d) (maint d) (in_use d) (to_discard d) (to_reset d).
Definition set_unblinded x d := DB (vouchers d) (tokens d) x (invalid d) (groups d) (maint d) (in_use d) (to_discard d) (to_reset d).
Definition set_invalid x d := DB (vouchers d) (tokens d) (unblinded d) x (groups d) (maint d) (in_use d) (to_discard d) (to_reset d).
Definition set_groups x d := DB (vouchers d) (tokens d) (unblinded d) (invalid d) x (maint d) (in_use d) (to_discard d) (to_reset d).
Definition set_maint x d := DB (vouchers d) (tokens d) (unblinded d) (invalid d) (groups d) x (in_use d) (to_discard d) (to_reset d).
Definition set_in_use x d := DB (vouchers d) (tokens d) (unblinded d) (invalid d) (groups d) (maint d) x (to_discard d) (to_reset d).
Definition set_to_discard x d := DB (vouchers d) (tokens d) (unblinded d) (invalid d) (groups d) (maint d) (in_use d) x (to_reset d).
Definition set_to_reset x d := DB (vouchers d) (tokens d) (unblinded d) (invalid d) (groups d) (maint d) (in_use d) (to_discard d) x.

(** What a new connection to the same file sees: the persistent tables are
    kept, the temporary tables are created empty (model.py:170-207). *)
Definition restart (d : db) : db :=
  DB (vouchers d) (tokens d) (unblinded d) (invalid d) (groups d) (maint d) [] [] [].

(** * Statements *)

(** The exceptions that matter: a violated constraint (sqlite3.IntegrityError),
    and those raised by the Python code. *)
Inductive exn :=
| IntegrityError | NotEnoughTokens | ValueError | KeyError | AssertionError
| ZeroDivisionError | OtherError.

(** Every mutating statement of model.py with its arguments; one row of an
    [executemany] is one of these. *)
Inductive mut :=
| InsVoucherIgnore (number expected created : Z)             (* model.py:477-479 *)
| InsToken (voucher counter text : Z)                        (* model.py:483-486 *)
| InsGroup (voucher pk : Z) (spendable : bool)               (* model.py:562-567 *)
| UpdVoucherGroupDone (state : vstate) (tok_inc seq_inc now number : Z)  (* model.py:577-594 *)
| InsUnblinded (token group : Z)                             (* model.py:610-618 *)
| DelTokens (voucher counter : Z)                            (* model.py:628-633 *)
| UpdVoucherDoubleSpend (now number : Z)                     (* model.py:643-652 *)
| InsInUse (token : Z)                                       (* model.py:714-719 *)
| InsToDiscard (token : Z)                                   (* model.py:774-781 *)
| DelInUseToDiscard                                          (* model.py:782-788 *)
| DelUnblindedToDiscard                                      (* model.py:789-795 *)
| DelToDiscard                                               (* model.py:796-801 *)
| InsInvalid (token reason : Z)                              (* model.py:821-829 *)
| DelInUseInvalid                                            (* model.py:830-836 *)
| DelUnblindedInvalid                                        (* model.py:837-843 *)
| InsToReset (token : Z)                                     (* model.py:859-866 *)
| DelInUseToReset                                            (* model.py:867-873 *)
| DelToReset                                                 (* model.py:874-879 *)
| InsMaint (started : Z)                                     (* model.py:962-968 *)
| UpdMaintCount (n id : Z)                                   (* model.py:977-984 *)
| UpdMaintFinish (now id : Z).                               (* model.py:991-997 *)

(** SQLite's choice of a new [INTEGER PRIMARY KEY]: one more than the largest. *)
Definition next_id (ids : list Z) : Z := fold_right Z.max 0 ids + 1.

Definition coalesce0 (o : option Z) : Z := match o with Some n => n | None => 0 end.

(** Number of rows satisfying a predicate ([cursor.rowcount]). *)
Definition count_if {A} (f : A -> bool) (l : list A) : Z := lenZ (filter f l).

Definition vstate_eqb (a b : vstate) : bool :=
  match a, b with
  | SPending, SPending | SDoubleSpend, SDoubleSpend | SRedeemed, SRedeemed => true
  | _, _ => false
  end.

(** model.py:577-594, the assignment list of the UPDATE *)
Definition group_done (state : vstate) (tok_inc seq_inc now : Z) (r : voucher_row) : voucher_row :=
  VR (v_number r) (v_created r) (v_expected r) state (Some now)
     (Some (coalesce0 (v_token_count r) + tok_inc)) (v_sequestered r + seq_inc) (v_counter r + 1).

(** model.py:643-652, the assignment list of the UPDATE *)
Definition double_spent (now : Z) (r : voucher_row) : voucher_row :=
  VR (v_number r) (v_created r) (v_expected r) SDoubleSpend (Some now)
     (v_token_count r) (v_sequestered r) (v_counter r).

(** Execution of one statement: the result carries [lastrowid] for the INSERTs
    whose caller uses it and [rowcount] for the UPDATEs (0 otherwise), and the
    new contents.  Primary keys and the foreign key tokens.voucher ->
    vouchers.number (enforced by model.py:162) are checked. *)
Definition exec_mut (m : mut) (d : db) : res exn (Z * db) :=
  match m with
  | InsVoucherIgnore number expected created =>
      if memZ number (map v_number (vouchers d)) then Ok (0, d)
      else Ok (0, set_vouchers (vouchers d ++ [VR number created expected SPending None None 0 0]) d)
  | InsToken voucher counter text =>
      if memZ text (map t_text (tokens d)) then Err IntegrityError
      else if memZ voucher (map v_number (vouchers d))
           then Ok (0, set_tokens (tokens d ++ [TR text voucher counter]) d)
           else Err IntegrityError
  | InsGroup voucher pk spendable =>
      let id := next_id (map g_id (groups d)) in
      Ok (id, set_groups (groups d ++ [GR id voucher pk spendable]) d)
  | UpdVoucherGroupDone state tok_inc seq_inc now number =>
      let hit r := v_number r =? number in
      Ok (count_if hit (vouchers d),
          set_vouchers (map (fun r => if hit r then group_done state tok_inc seq_inc now r else r)
                            (vouchers d)) d)
  | InsUnblinded token group =>
      if memZ token (map u_token (unblinded d)) then Err IntegrityError
      else Ok (0, set_unblinded (unblinded d ++ [UR token group]) d)
  | DelTokens voucher counter =>
      Ok (0, set_tokens (filter (fun r => negb ((t_voucher r =? voucher) && (t_counter r =? counter)))
                                (tokens d)) d)
  | UpdVoucherDoubleSpend now number =>
      let hit r := (v_number r =? number) && vstate_eqb (v_state r) SPending in
      Ok (count_if hit (vouchers d),
          set_vouchers (map (fun r => if hit r then double_spent now r else r) (vouchers d)) d)
  | InsInUse token =>
      if memZ token (in_use d) then Err IntegrityError
      else Ok (0, set_in_use (in_use d ++ [token]) d)
  | InsToDiscard token => Ok (0, set_to_discard (to_discard d ++ [token]) d)
  | DelInUseToDiscard =>
      Ok (0, set_in_use (filter (fun t => negb (memZ t (to_discard d))) (in_use d)) d)
  | DelUnblindedToDiscard =>
      Ok (0, set_unblinded (filter (fun r => negb (memZ (u_token r) (to_discard d))) (unblinded d)) d)
  | DelToDiscard => Ok (0, set_to_discard [] d)
  | InsInvalid token reason =>
      if memZ token (map fst (invalid d)) then Err IntegrityError
      else Ok (0, set_invalid (invalid d ++ [(token, reason)]) d)
  | DelInUseInvalid =>
      Ok (0, set_in_use (filter (fun t => negb (memZ t (map fst (invalid d)))) (in_use d)) d)
  | DelUnblindedInvalid =>
      Ok (0, set_unblinded (filter (fun r => negb (memZ (u_token r) (map fst (invalid d)))) (unblinded d)) d)
  | InsToReset token => Ok (0, set_to_reset (to_reset d ++ [token]) d)
  | DelInUseToReset =>
      Ok (0, set_in_use (filter (fun t => negb (memZ t (to_reset d))) (in_use d)) d)
  | DelToReset => Ok (0, set_to_reset [] d)
  | InsMaint started =>
      let id := next_id (map m_id (maint d)) in
      Ok (id, set_maint (maint d ++ [MR id started None 0]) d)
  | UpdMaintCount n id =>
      Ok (0, set_maint (map (fun r => if m_id r =? id
                             then MR (m_id r) (m_started r) (m_finished r) (m_count r + n) else r)
                            (maint d)) d)
  | UpdMaintFinish now id =>
      Ok (0, set_maint (map (fun r => if m_id r =? id
                             then MR (m_id r) (m_started r) (Some now) (m_count r) else r)
                            (maint d)) d)
  end.

(** [cursor.executemany]: row after row, stopping at the first failure. *)
Fixpoint exec_muts (ms : list mut) (d : db) : res exn db :=
  match ms with
  | [] => Ok d
  | m :: ms' => rd <- exec_mut m d ;; exec_muts ms' (snd rd)
  end.

(** * Statement programs *)

(** The body of a store method: [Mut] is [cursor.execute] of a mutating
    statement, [Many] is [cursor.executemany], [Qry] a SELECT (any pure function
    of the contents), [Raise] a Python [raise].  The flag of [Mut]/[Many] is the
    cursor's "important" flag (replicate.py:350-364, 548-553). *)
Inductive prog (A : Type) : Type :=
| Ret (a : A)
| Raise (e : exn)
| Mut (important : bool) (m : mut) (k : Z -> prog A)
| Many (important : bool) (ms : list mut) (k : prog A)
| Qry (k : db -> prog A).
Arguments Ret {A} a.
Arguments Raise {A} e.
Arguments Mut {A} important m k.
Arguments Many {A} important ms k.
Arguments Qry {A} k.

(** A recorded change: important flag and the executed rows, as appended to
    [_mutations] by replicate.py:519-531 and 542-546. *)
Definition recorded := (bool * list mut)%type.

(** Run a body: its result, the contents it leaves in the open transaction, and
    the statements recorded (a statement is recorded after it succeeded). *)
Fixpoint run {A} (p : prog A) (d : db) : res exn A * db * list recorded :=
  match p with
  | Ret a => (Ok a, d, [])
  | Raise e => (Err e, d, [])
  | Mut imp m k =>
      match exec_mut m d with
      | Err e => (Err e, d, [])
      | Ok (n, d') => let '(r, d'', rec) := run (k n) d' in (r, d'', (imp, [m]) :: rec)
      end
  | Many imp ms k =>
      match exec_muts ms d with
      | Err e => (Err e, d, [])
      | Ok d' => let '(r, d'', rec) := run k d' in (r, d'', (imp, ms) :: rec)
      end
  | Qry k => run (k d) d
  end.

(** model.py:240-263 [with_cursor]: commit when the body returns, roll back (all
    tables, temporary ones included) when it raises. *)
Definition with_cursor {A} (p : prog A) (d : db) : res exn A * db :=
  match run p d with
  | (Ok a, d', _) => (Ok a, d')
  | (Err e, _, _) => (Err e, d)
  end.

(** * Store operations *)

(** The states a persisted voucher can be read back in: model.py:1063, 1112,
    1140 (the transient ones are in the controller model). *)
Inductive pstate :=
| PPending (counter : Z)
| PRedeemed (finished token_count : Z)
| PDoubleSpend (finished : Z).

Record voucher := V { number : Z; expected_tokens : Z; created : Z; state : pstate }.

(** model.py:1255-1293 [Voucher.from_row]; assertions on NULL columns become
    [AssertionError], the attribute validators (model.py:1072
    non_negative_integer, 1237 positive_integer) [ValueError]. *)
Definition from_row (r : voucher_row) : res exn voucher :=
  st <- match v_state r with
        | SPending => if v_counter r <? 0 then Err ValueError else Ok (PPending (v_counter r))
        | SDoubleSpend =>
            match v_finished r with Some f => Ok (PDoubleSpend f) | None => Err AssertionError end
        | SRedeemed =>
            match v_token_count r, v_finished r with
            | Some n, Some f => Ok (PRedeemed f n)
            | _, _ => Err AssertionError
            end
        end ;;
  if v_expected r <=? 0 then Err ValueError
  else Ok (V (v_number r) (v_expected r) (v_created r) st).

(** Lift a pure result into a program. *)
Definition lift {A} (r : res exn A) : prog A :=
  match r with Ok a => Ret a | Err e => Raise e end.

Fixpoint map_res {E A B} (f : A -> res E B) (l : list A) : res E (list B) :=
  match l with
  | [] => Ok []
  | x :: l' => y <- f x ;; ys <- map_res f l' ;; Ok (y :: ys)
  end.

(** model.py:391-412 [VoucherStore.get] *)
Definition get (voucher : Z) : prog _ :=
  Qry (fun d =>
    match filter (fun r => v_number r =? voucher) (vouchers d) with
    | [] => Raise KeyError
    | r :: _ => lift (from_row r)
    end).

(** model.py:499-517 [VoucherStore.list] *)
Definition list_vouchers : prog (list voucher) :=
  Qry (fun d => lift (map_res from_row (vouchers d))).

(** model.py:414-497 [VoucherStore.add]; [get_tokens] is the list its callable
    argument returns when called, [now] the clock. *)
Definition add (voucher expected_tokens counter : Z) (get_tokens : list Z) (now : Z)
  : prog (list Z) :=
  Qry (fun d =>
    match filter (fun r => (t_voucher r =? voucher) && (t_counter r =? counter)) (tokens d) with
    | (_ :: _) as rows => Ret (map t_text rows)
    | [] =>
        Mut true (InsVoucherIgnore voucher expected_tokens now) (fun _ =>
        Many true (map (InsToken voucher counter) get_tokens)
        (Ret get_tokens))
    end).

(** model.py:519-633 [VoucherStore.insert_unblinded_tokens_for_voucher] and
    [_delete_corresponding_tokens] *)
Definition insert_unblinded_tokens_for_voucher
  (voucher public_key : Z) (unblinded_tokens : list Z) (completed spendable : bool) (now : Z)
  : prog unit :=
  let voucher_state := if completed then SRedeemed else SPending in
  let token_count_increase := if spendable then lenZ unblinded_tokens else 0 in
  let sequestered_count_increase := if spendable then 0 else lenZ unblinded_tokens in
  Mut false (InsGroup voucher public_key spendable) (fun group_id =>
  Mut false (UpdVoucherGroupDone voucher_state token_count_increase
               sequestered_count_increase now voucher) (fun rowcount =>
  if rowcount =? 0 then Raise ValueError else
  Qry (fun d =>
    match filter (fun r => v_number r =? voucher) (vouchers d) with
    | [] => Raise AssertionError
    | r :: _ =>
        let new_counter := v_counter r in
        Many false (map (fun t => InsUnblinded t group_id) unblinded_tokens)
        (Mut false (DelTokens voucher (new_counter - 1)) (fun _ => Ret tt))
    end))).

(** model.py:635-669 [VoucherStore.mark_voucher_double_spent]; both failing
    branches raise [ValueError]. *)
Definition mark_voucher_double_spent (voucher now : Z) : prog unit :=
  Mut false (UpdVoucherDoubleSpend now voucher) (fun rowcount =>
  if rowcount =? 0 then Raise ValueError else Ret tt).

(** model.py:314 [_SQLITE3_INTEGER_MAX] *)
Definition SQLITE3_INTEGER_MAX : Z := 2 ^ 63 - 1.

(** The WHERE clause shared by model.py:699-709 and 745-754: the tokens joined
    with their group, of a spendable group and not in use.  A token joined with
    several group rows would appear several times. *)
Definition available (d : db) : list Z :=
  flat_map (fun t =>
    flat_map (fun g =>
      if (u_group t =? g_id g) && g_spendable g && negb (memZ (u_token t) (in_use d))
      then [u_token t] else [])
      (groups d))
    (unblinded d).

(** [LIMIT n]: a negative limit means no limit. *)
Definition limit {A} (n : Z) (l : list A) : list A :=
  if n <? 0 then l else firstn (Z.to_nat n) l.

(** model.py:671-724 [VoucherStore.get_unblinded_tokens].  SQL leaves the order
    of the result open (there is no ORDER BY): [scan] is the order the engine
    happens to choose. *)
Definition get_unblinded_tokens (scan : list Z -> list Z) (count : Z) : prog (list Z) :=
  if count >? SQLITE3_INTEGER_MAX then Raise NotEnoughTokens else
  Qry (fun d =>
    let texts := limit count (scan (available d)) in
    if lenZ texts <? count then Raise NotEnoughTokens else
    Many false (map InsInUse texts) (Ret texts)).

(** model.py:726-736 [VoucherStore.count_random_tokens] *)
Definition count_random_tokens : prog Z := Qry (fun d => Ret (lenZ (tokens d))).

(** model.py:738-757 [VoucherStore.count_unblinded_tokens] *)
Definition count_unblinded_tokens : prog Z := Qry (fun d => Ret (lenZ (available d))).

(** model.py:759-802 [VoucherStore.discard_unblinded_tokens] *)
Definition discard_unblinded_tokens (toks : list Z) : prog unit :=
  Many false (map InsToDiscard toks) (
  Mut false DelInUseToDiscard (fun _ =>
  Mut false DelUnblindedToDiscard (fun _ =>
  Mut false DelToDiscard (fun _ => Ret tt)))).

(** model.py:804-845 [VoucherStore.invalidate_unblinded_tokens] *)
Definition invalidate_unblinded_tokens (reason : Z) (toks : list Z) : prog unit :=
  Many false (map (fun t => InsInvalid t reason) toks) (
  Mut false DelInUseInvalid (fun _ =>
  Mut false DelUnblindedInvalid (fun _ => Ret tt))).

(** model.py:847-879 [VoucherStore.reset_unblinded_tokens] *)
Definition reset_unblinded_tokens (toks : list Z) : prog unit :=
  Many false (map InsToReset toks) (
  Mut false DelInUseToReset (fun _ =>
  Mut false DelToReset (fun _ => Ret tt))).

(** model.py:955-969 [LeaseMaintenance.start], returning the new [_rowid].  The
    "cannot re-start" check of lines 960-961 cannot fire through
    [start_lease_maintenance] (model.py:881-890), which always starts a new
    object. *)
Definition maint_start (now : Z) : prog Z :=
  Mut false (InsMaint now) (fun rowid => Ret rowid).

(** model.py:971-985 [LeaseMaintenance.observe] for the run with id [rowid].  A
    finished object has [_rowid] None, which matches no row. *)
Definition maint_observe (pass_value : Z) (rowid : option Z) (sizes : list Z) : prog unit :=
  match required_passes pass_value sizes with
  | Err _ => Raise ZeroDivisionError
  | Ok count =>
      match rowid with
      | None => Ret tt
      | Some id => Mut false (UpdMaintCount count id) (fun _ => Ret tt)
      end
  end.

(** model.py:987-998 [LeaseMaintenance.finish] *)
Definition maint_finish (rowid : option Z) (now : Z) : prog unit :=
  match rowid with
  | None => Ret tt
  | Some id => Mut false (UpdMaintFinish now id) (fun _ => Ret tt)
  end.

(** ORDER BY finished DESC LIMIT 1 over the finished rows: the first row, in
    table order, none of which is later.  (SQLite leaves ties open.) *)
Fixpoint latest (l : list (Z * Z * Z)) : option (Z * Z * Z) :=
  match l with
  | [] => None
  | x :: rest =>
      match latest rest with
      | None => Some x
      | Some y => if snd y >? snd x then Some y else Some x
      end
  end.

(** model.py:892-921 [get_latest_lease_maintenance_activity], as
    (started, count, finished). *)
Definition get_latest_lease_maintenance_activity : prog (option (Z * Z * Z)) :=
  Qry (fun d =>
    Ret (latest (flat_map (fun r => match m_finished r with
                                    | Some f => [(m_started r, m_count r, f)]
                                    | None => []
                                    end) (maint d)))).

(** * Histories *)

(** A call on the store, or a restart of the process. *)
Inductive op :=
| OAdd (voucher expected counter : Z) (new_tokens : list Z) (now : Z)
| OInsert (voucher pk : Z) (toks : list Z) (completed spendable : bool) (now : Z)
| ODouble (voucher now : Z)
| OExtract (scan : list Z -> list Z) (count : Z)
| ODiscard (toks : list Z)
| OInvalidate (reason : Z) (toks : list Z)
| OReset (toks : list Z)
| OGet (voucher : Z)
| OList
| OCount
| OCountRandom
| OMaintStart (now : Z)
| OMaintObserve (pass_value : Z) (rowid : option Z) (sizes : list Z)
| OMaintFinish (rowid : option Z) (now : Z)
| OLatest
| ORestart.

(** What a call returns. *)
Inductive out :=
| RUnit
| RTokens (toks : list Z)
| RNum (n : Z)
| RVoucher (v : voucher)
| RVouchers (vs : list voucher)
| RActivity (a : option (Z * Z * Z)).

(** Apply a function to the result of a program (no counterpart in /repo). *)
Fixpoint pmap {A B} (f : A -> B) (p : prog A) : prog B :=
  match p with
  | Ret a => Ret (f a)
  | Raise e => Raise e
  | Mut i m k => Mut i m (fun n => pmap f (k n))
  | Many i ms k => Many i ms (pmap f k)
  | Qry k => Qry (fun d => pmap f (k d))
  end.

(** The program a call runs; [ORestart] runs none. *)
Definition op_prog (o : op) : prog out :=
  match o with
  | OAdd v e c toks now => pmap RTokens (add v e c toks now)
  | OInsert v pk toks completed spendable now =>
      pmap (fun _ => RUnit) (insert_unblinded_tokens_for_voucher v pk toks completed spendable now)
  | ODouble v now => pmap (fun _ => RUnit) (mark_voucher_double_spent v now)
  | OExtract scan n => pmap RTokens (get_unblinded_tokens scan n)
  | ODiscard toks => pmap (fun _ => RUnit) (discard_unblinded_tokens toks)
  | OInvalidate r toks => pmap (fun _ => RUnit) (invalidate_unblinded_tokens r toks)
  | OReset toks => pmap (fun _ => RUnit) (reset_unblinded_tokens toks)
  | OGet v => pmap RVoucher (get v)
  | OList => pmap RVouchers list_vouchers
  | OCount => pmap RNum count_unblinded_tokens
  | OCountRandom => pmap RNum count_random_tokens
  | OMaintStart now => pmap RNum (maint_start now)
  | OMaintObserve pv id sizes => pmap (fun _ => RUnit) (maint_observe pv id sizes)
  | OMaintFinish id now => pmap (fun _ => RUnit) (maint_finish id now)
  | OLatest => pmap RActivity get_latest_lease_maintenance_activity
  | ORestart => Ret RUnit
  end.

(** One step of a history. *)
Definition step (d : db) (o : op) : res exn out * db :=
  match o with
  | ORestart => (Ok RUnit, restart d)
  | _ => with_cursor (op_prog o) d
  end.

(** A whole history: the outcomes and the final contents. *)
Fixpoint steps (d : db) (os : list op) : list (res exn out) * db :=
  match os with
  | [] => ([], d)
  | o :: rest =>
      let '(r, d1) := step d o in
      let '(rs, d2) := steps d1 rest in (r :: rs, d2)
  end.
