(** Timestamp oracle and watermark.  Models src/concurrency/watermark.rs and
    the timestamp part of src/concurrency/transaction.rs and
    src/concurrency/transaction_manager.rs. *)
From Coq Require Import List NArith.
Import ListNotations.
Local Open Scope N_scope.

(** src/concurrency/watermark.rs 165-183. The [HashSet] of active timestamps is
    a duplicate-free list; its order is irrelevant to every function below. *)
Record wm := mkWm { wm_active : list N; wm_mark : N; wm_next : N }.

(** watermark.rs 203-210, [Watermark::new]. *)
Definition wm_new : wm := mkWm [] 1 1.

(** [AtomicU64::fetch_add(1)] wraps at 2^64. *)
Definition u64_incr (x : N) : N := (x + 1) mod 2 ^ 64.
(** [u64::saturating_add(1)]. *)
Definition u64_sat_succ (x : N) : N := N.min (x + 1) (2 ^ 64 - 1).

(** watermark.rs 226-228, [get_next_ts]. *)
Definition get_next_ts (w : wm) : wm * N :=
  (mkWm (wm_active w) (wm_mark w) (u64_incr (wm_next w)), wm_next w).

Definition list_min (x : N) (l : list N) : N := fold_left N.min l x.

(** watermark.rs 323-329, [update_watermark]. *)
Definition update_watermark (w : wm) : wm :=
  match wm_active w with
  | [] => mkWm [] (wm_next w) (wm_next w)
  | x :: l => mkWm (x :: l) (list_min x l) (wm_next w)
  end.

(** [HashSet::insert] / [HashSet::remove]. *)
Definition set_insert (x : N) (l : list N) : list N :=
  if existsb (N.eqb x) l then l else x :: l.
Definition set_remove (x : N) (l : list N) : list N :=
  filter (fun y => negb (N.eqb x y)) l.

(** watermark.rs 243-246, [add_txn]. *)
Definition add_txn (w : wm) (ts : N) : wm :=
  update_watermark (mkWm (set_insert ts (wm_active w)) (wm_mark w) (wm_next w)).

(** watermark.rs 260-263, [remove_txn]. *)
Definition remove_txn (w : wm) (ts : N) : wm :=
  update_watermark (mkWm (set_remove ts (wm_active w)) (wm_mark w) (wm_next w)).

(** watermark.rs 281-298, [update_commit_ts]. The compare-exchange loop raises
    [next_ts] to [ts + 1] unless it is already there; callers hold the write
    lock, so the loop is one atomic step. *)
Definition update_commit_ts (w : wm) (ts : N) : wm :=
  let desired := u64_sat_succ ts in
  let nxt := if wm_next w <? desired then desired else wm_next w in
  update_watermark (mkWm (wm_active w) (wm_mark w) nxt).

(** watermark.rs 310-312, [get_watermark]. *)
Definition get_watermark (w : wm) : N := wm_mark w.

(** watermark.rs 348-352, [get_next_ts_and_register]. *)
Definition get_next_ts_and_register (w : wm) : wm * N :=
  let (w1, ts) := get_next_ts w in (add_txn w1 ts, ts).

(** watermark.rs 367-370, [unregister_txn]. *)
Definition unregister_txn (w : wm) (ts : N) : wm * N :=
  let w1 := remove_txn w ts in (w1, get_watermark w1).

(** watermark.rs 384-387, [update_commit_ts_and_get_watermark]. *)
Definition update_commit_ts_and_get_watermark (w : wm) (ts : N) : wm * N :=
  let w1 := update_commit_ts w ts in (w1, get_watermark w1).

(** The public calls; every call returns a timestamp ([add_txn] returns unit in
    the code, modelled as 0). *)
Inductive wm_op :=
| OpNext | OpRegister | OpAdd (ts : N) | OpUnregister (ts : N) | OpCommitTs (ts : N).

Definition wm_step (w : wm) (o : wm_op) : wm * N :=
  match o with
  | OpNext => get_next_ts w
  | OpRegister => get_next_ts_and_register w
  | OpAdd ts => (add_txn w ts, 0)
  | OpUnregister ts => unregister_txn w ts
  | OpCommitTs ts => update_commit_ts_and_get_watermark w ts
  end.

(** Run a history from [Watermark::new]; the trace pairs each call with its result. *)
Fixpoint wm_run_from (w : wm) (ops : list wm_op) : wm * list (wm_op * N) :=
  match ops with
  | [] => (w, [])
  | o :: rest =>
      let (w1, r) := wm_step w o in
      let (w2, tr) := wm_run_from w1 rest in
      (w2, (o, r) :: tr)
  end.
Definition wm_run (ops : list wm_op) : wm * list (wm_op * N) := wm_run_from wm_new ops.

(** Transactions, reduced to what the oracle sees.
    src/concurrency/transaction.rs (state, read_ts, commit_ts). Tainted, Shrinking
    and Growing behave like Running in the functions below. *)
Inductive tstate := TRunning | TCommitted | TAborted.
Record ttxn := mkTtxn { tt_read : N; tt_commit : option N; tt_state : tstate }.
Record tsys := mkTsys { ts_wm : wm; ts_txns : list ttxn }.
Definition tsys_init : tsys := mkTsys wm_new [].

Fixpoint set_nth {A} (i : nat) (x : A) (l : list A) : list A :=
  match l, i with
  | [], _ => []
  | _ :: t, O => x :: t
  | h :: t, S i' => h :: set_nth i' x t
  end.

(** [TBegin] is transaction_manager.rs 444-469, [TCommit i] is transaction.rs
    707-737 called from transaction_manager.rs 481-519, [TAbort i] is
    transaction.rs 770-792. A transaction is named by its position in begin order
    (transaction ids are issued in that order, transaction_manager.rs 450). *)
Inductive t_op := TBegin | TCommit (i : nat) | TAbort (i : nat).

Definition t_step (s : tsys) (o : t_op) : tsys * option N :=
  match o with
  | TBegin =>
      let (w1, ts) := get_next_ts_and_register (ts_wm s) in
      (mkTsys w1 (ts_txns s ++ [mkTtxn ts None TRunning]), Some ts)
  | TCommit i =>
      match nth_error (ts_txns s) i with
      | Some t =>
          match tt_state t with
          | TRunning =>
              let (w1, cts) := get_next_ts (ts_wm s) in
              let w2 := update_commit_ts w1 cts in
              let w3 := remove_txn w2 (tt_read t) in
              (mkTsys w3 (set_nth i (mkTtxn (tt_read t) (Some cts) TCommitted) (ts_txns s)), Some cts)
          | _ => (s, None)
          end
      | None => (s, None)
      end
  | TAbort i =>
      match nth_error (ts_txns s) i with
      | Some t =>
          match tt_state t with
          | TRunning =>
              (mkTsys (remove_txn (ts_wm s) (tt_read t))
                      (set_nth i (mkTtxn (tt_read t) (tt_commit t) TAborted) (ts_txns s)), None)
          | _ => (s, None)
          end
      | None => (s, None)
      end
  end.

Fixpoint t_run_from (s : tsys) (ops : list t_op) : tsys * list (option N) :=
  match ops with
  | [] => (s, [])
  | o :: rest =>
      let (s1, r) := t_step s o in
      let (s2, rs) := t_run_from s1 rest in
      (s2, r :: rs)
  end.
Definition t_run (ops : list t_op) : tsys * list (option N) := t_run_from tsys_init ops.
