(** Specification vocabulary for the wallet properties (C15-C20, C31-C33).
    It uses the types of calls, outcomes and tables of [StoreModel] but none of
    the functions implementing the calls. *)
From Verif Require Import Prelude StoreModel.
Set Implicit Arguments.

(** ** The ledger: what a user believes about each token *)
Inductive class := Available | InUse | Sequestered | Spent | Invalid.

(** [None]: the wallet never heard of the token. *)
Definition ledger := Z -> option class.
Definition empty_ledger : ledger := fun _ => None.

(** Being handed back. *)
Definition released (c : option class) : option class :=
  match c with Some InUse => Some Available | c => c end.

(** Being spent; a token known invalid or unknown is not affected. *)
Definition spent (c : option class) : option class :=
  match c with
  | Some Available | Some InUse | Some Sequestered => Some Spent
  | c => c
  end.

(** How a call with the given outcome moves the ledger. *)
Definition ledger_step (L : ledger) (o : op) (r : res exn out) (L' : ledger) : Prop :=
  match r with
  | Err _ => forall t, L' t = L t
  | Ok a =>
      match o with
      | OExtract _ _ =>
          exists toks, a = RTokens toks /\ NoDup toks /\
            forall t, (In t toks -> L t = Some Available /\ L' t = Some InUse) /\
                      (~ In t toks -> L' t = L t)
      | OInsert _ _ toks _ spendable _ =>
          NoDup toks /\
          forall t, (In t toks -> (L t = None \/ L t = Some Spent) /\
                                  L' t = Some (if spendable then Available else Sequestered)) /\
                    (~ In t toks -> L' t = L t)
      | ODiscard toks =>
          forall t, (In t toks -> L' t = spent (L t)) /\ (~ In t toks -> L' t = L t)
      | OInvalidate _ toks =>
          NoDup toks /\
          forall t, (In t toks -> L t <> Some Invalid /\ L' t = Some Invalid) /\
                    (~ In t toks -> L' t = L t)
      | OReset toks =>
          forall t, (In t toks -> L' t = released (L t)) /\ (~ In t toks -> L' t = L t)
      | ORestart => forall t, L' t = released (L t)
      | _ => forall t, L' t = L t
      end
  end.

(** A whole history of calls with their outcomes. *)
Inductive ledger_steps : ledger -> list op -> list (res exn out) -> ledger -> Prop :=
| ledger_nil L L' : (forall t, L' t = L t) -> ledger_steps L [] [] L'
| ledger_cons L o r L1 os rs L2 :
    ledger_step L o r L1 -> ledger_steps L1 os rs L2 ->
    ledger_steps L (o :: os) (r :: rs) L2.

(** ** What the tables say about a token *)

(** [t] is stored, in a group with the given spendability. *)
Definition stored (d : db) (spendable : bool) (t : Z) : Prop :=
  exists g v pk, In (UR t g) (unblinded d) /\ In (GR g v pk spendable) (groups d).

(** The tables and the ledger say the same thing about every token. *)
Definition agrees (d : db) (L : ledger) : Prop :=
  forall t,
    match L t with
    | None | Some Spent =>
        ~ In t (map u_token (unblinded d)) /\ ~ In t (in_use d) /\ ~ In t (map fst (invalid d))
    | Some Available =>
        stored d true t /\ ~ stored d false t /\ ~ In t (in_use d) /\ ~ In t (map fst (invalid d))
    | Some InUse =>
        stored d true t /\ ~ stored d false t /\ In t (in_use d) /\ ~ In t (map fst (invalid d))
    | Some Sequestered =>
        stored d false t /\ ~ stored d true t /\ ~ In t (in_use d) /\ ~ In t (map fst (invalid d))
    | Some Invalid =>
        ~ In t (map u_token (unblinded d)) /\ ~ In t (in_use d) /\ In t (map fst (invalid d))
    end.

(** ** Hypotheses on histories *)

(** SQLite may return rows in any order, but loses and invents none. *)
Definition fair (o : op) : Prop :=
  match o with OExtract scan _ => forall l, Permutation (scan l) l | _ => True end.

(** No token text that was declared invalid is ever received again; [banned]
    are those declared so far. *)
Fixpoint fresh_history (banned : list Z) (os : list op) : Prop :=
  match os with
  | [] => True
  | OInvalidate _ toks :: rest => fresh_history (toks ++ banned) rest
  | OInsert _ _ toks _ _ _ :: rest => (forall t, In t toks -> ~ In t banned) /\ fresh_history banned rest
  | _ :: rest => fresh_history banned rest
  end.

(** Some call of the history tries to put [t] into the wallet. *)
Definition reinserted (t : Z) (os : list op) : Prop :=
  exists v pk toks c s now, In (OInsert v pk toks c s now) os /\ In t toks.

(** Contents any number of calls can lead to. *)
Definition reachable (d : db) : Prop :=
  exists os rs, (forall o, In o os -> fair o) /\ steps empty_db os = (rs, d).

(** ** Tokens handed out and not given back, from the history alone *)
Fixpoint held (h : list Z) (os : list op) (rs : list (res exn out)) : list Z :=
  match os, rs with
  | o :: os', r :: rs' =>
      let h' :=
        match o, r with
        | OExtract _ _, Ok (RTokens toks) => toks ++ h
        | ODiscard toks, Ok _ | OInvalidate _ toks, Ok _ | OReset toks, Ok _ =>
            filter (fun t => negb (memZ t toks)) h
        | ORestart, _ => []
        | _, _ => h
        end in
      held h' os' rs'
  | _, _ => h
  end.

(** ** The tables which survive a restart *)
Definition same_persistent (d d' : db) : Prop :=
  vouchers d' = vouchers d /\ tokens d' = tokens d /\ unblinded d' = unblinded d /\
  invalid d' = invalid d /\ groups d' = groups d /\ maint d' = maint d.

(** ** Statement-level execution with crash points *)

(** A store call in progress: what is committed, and either the rest of its body
    together with the contents as seen inside the open transaction, or its
    outcome.  [with_cursor] (model.py:253-260) opens a transaction, runs the
    body, commits on return and rolls back on an exception. *)
Inductive call (A : Type) :=
| Running (p : prog A) (work : db)
| Done (r : res exn A).
Arguments Running {A} p work.
Arguments Done {A} r.

(** One statement, one row of an executemany, one query, or the commit. *)
Inductive stmt_step {A} : db * call A -> db * call A -> Prop :=
| st_mut c i m k w n w' : exec_mut m w = Ok (n, w') ->
    stmt_step (c, Running (Mut i m k) w) (c, Running (k n) w')
| st_mut_err c i m k w e : exec_mut m w = Err e ->
    stmt_step (c, Running (Mut i m k) w) (c, Done (Err e))
| st_many c i m ms k w n w' : exec_mut m w = Ok (n, w') ->
    stmt_step (c, Running (Many i (m :: ms) k) w) (c, Running (Many i ms k) w')
| st_many_err c i m ms k w e : exec_mut m w = Err e ->
    stmt_step (c, Running (Many i (m :: ms) k) w) (c, Done (Err e))
| st_many_end c i k w : stmt_step (c, Running (Many i [] k) w) (c, Running k w)
| st_query c k w : stmt_step (c, Running (Qry k) w) (c, Running (k w) w)
| st_raise c e w : stmt_step (c, Running (Raise e) w) (c, Done (Err e))
| st_commit c a w : stmt_step (c, Running (Ret a) w) (w, Done (Ok a)).

Inductive stmt_steps {A} : db * call A -> db * call A -> Prop :=
| ss_refl s : stmt_steps s s
| ss_step s s' s'' : stmt_step s s' -> stmt_steps s' s'' -> stmt_steps s s''.
