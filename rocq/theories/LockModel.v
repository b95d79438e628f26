(** * The lock manager

    Models src/concurrency/lock_manager.rs: request queues, table and row locks, the
    isolation-level checks and the deadlock detector.

    Simplifications, for the whole file:
    - Every public operation holds the map mutex and the queue mutex while it works, so it is
      one atomic step; waiting on the condition variable is left to the caller (the code's
      lock calls return Ok(false) instead of blocking).
    - INVALID_TXN_ID as a marker is [None].
    - The detector thread is an operation of its own, [ODetect], that may happen at any time.
    - What the transaction manager does to a transaction's state around these calls is
      [OBegin], [OCommit] and [OAbort]. *)
From stdpp Require Import gmap list sets.
From Coq Require Import NArith.

Inductive mode := MS | MX | MIS | MIX | MSIX.
Global Instance mode_eq_dec : EqDecision mode.
Proof. solve_decision. Defined.

(** src/concurrency/lock_manager.rs:874-909, are_compatible. *)
Definition are_compatible (a b : mode) : bool :=
  match a, b with
  | MIS, MX => false
  | MIS, _ => true
  | MIX, MIS | MIX, MIX => true
  | MIX, _ => false
  | MS, MIS | MS, MS => true
  | MS, _ => false
  | MSIX, MIS => true
  | MSIX, _ => false
  | MX, _ => false
  end.

(** ** Request queues *)

(** src/concurrency/lock_manager.rs:196-212, LockRequest. *)
Record request := Req { rq_txn : N; rq_mode : mode; rq_granted : bool }.

(** src/concurrency/lock_manager.rs:214-223, LockRequestQueue. *)
Record queue := Queue { q_reqs : list request; q_up : option N }.

Definition empty_queue : queue := Queue [] None.

(** The test used throughout for a transaction's own granted request. *)
Definition own (t : N) (r : request) : bool := rq_granted r && N.eqb (rq_txn r) t.

(** The first granted request of [t] (lines 394-396, 443-445). *)
Fixpoint own_granted (t : N) (l : list request) : option mode :=
  match l with
  | [] => None
  | r :: l => if own t r then Some (rq_mode r) else own_granted t l
  end.

(** Removing the first granted request of [t] (lines 469, 725, 765). *)
Fixpoint remove_own (t : N) (l : list request) : list request :=
  match l with
  | [] => []
  | r :: l => if own t r then l else r :: remove_own t l
  end.

(** src/concurrency/lock_manager.rs:399-418. *)
Definition may_convert (old new : mode) : bool :=
  match old, new with
  | MIS, _ => true
  | MS, MX | MS, MSIX => true
  | MIX, MX | MIX, MSIX => true
  | MSIX, MX => true
  | _, _ => bool_decide (old = new)
  end.

(** Another transaction is upgrading (lines 388, 465). *)
Definition other_upgrading (up : option N) (t : N) : bool :=
  match up with
  | Some u => negb (N.eqb u t)
  | None => false
  end.

(** src/concurrency/lock_manager.rs:383-434, compatible_with_existing_locks. *)
Definition compat (q : queue) (t : N) (m : mode) : bool :=
  if other_upgrading (q_up q) t then false
  else match own_granted t (q_reqs q) with
       | Some old => may_convert old m
       | None => forallb (fun r => negb (rq_granted r) || are_compatible (rq_mode r) m) (q_reqs q)
       end.

(** src/concurrency/lock_manager.rs:475-488, the end of grant_lock. *)
Definition finish_grant (q : queue) (t : N) (m : mode) : bool * queue :=
  if compat q t m then
    (true, Queue (q_reqs q ++ [Req t m true])
             (match q_up q with Some u => if N.eqb u t then None else q_up q | None => None end))
  else (false, Queue (q_reqs q ++ [Req t m false]) (q_up q)).

(** src/concurrency/lock_manager.rs:437-489, grant_lock. *)
Definition grant_lock (q : queue) (t : N) (m : mode) : bool * queue :=
  match own_granted t (q_reqs q) with
  | None => finish_grant q t m
  | Some old =>
      if bool_decide (old = m) then (true, q)
      else match old, m with
           | MIS, MS | MIX, MX => finish_grant q t m
           | _, _ =>
               if other_upgrading (q_up q) t then (false, q)
               else finish_grant (Queue (remove_own t (q_reqs q)) (Some t)) t m
           end
  end.

(** [compatible_with_existing_locks(&request.lock())] for a request [r] that is itself in the
    queue (lines 737-739 and 835): the argument holds [r]'s mutex while the function locks
    every request of the queue in turn, so unless it returns before it gets to [r] the thread
    waits for itself for ever ([None]).  [done] is the part of the queue before [r]. *)
Definition compat_held (up : option N) (done : list request) (r : request) : option bool :=
  if other_upgrading up (rq_txn r) then Some false
  else match own_granted (rq_txn r) done with
       | Some old => Some (may_convert old (rq_mode r))
       | None => None
       end.

(** src/concurrency/lock_manager.rs:734-743 and 830-843, granting waiters front to back;
    [done] has been passed; [None]: never returns. *)
Fixpoint grant_waiters (up : option N) (done rest : list request) : option (list request) :=
  match rest with
  | [] => Some done
  | r :: rest =>
      if rq_granted r then grant_waiters up (done ++ [r]) rest
      else match compat_held up done r with
           | None => None
           | Some b => grant_waiters up (done ++ [Req (rq_txn r) (rq_mode r) b]) rest
           end
  end.

(** What a call that may never return yields. *)
Inductive call (A : Type) := Hangs | Fails | Returns (a : A).
Arguments Hangs {A}.
Arguments Fails {A}.
Arguments Returns {A} _.

(** src/concurrency/lock_manager.rs:720-744 and 761-775: [Fails] if [t] holds nothing. *)
Definition release (q : queue) (t : N) : call queue :=
  match own_granted t (q_reqs q) with
  | None => Fails
  | Some _ =>
      match grant_waiters (q_up q) [] (remove_own t (q_reqs q)) with
      | None => Hangs
      | Some l => Returns (Queue l (q_up q))
      end
  end.

(** src/concurrency/lock_manager.rs:799-803 and 813-817. *)
Definition purge (t : N) (q : queue) : option queue :=
  match grant_waiters (q_up q) [] (filter (fun r => rq_txn r <> t) (q_reqs q)) with
  | None => None
  | Some l => Some (Queue l (q_up q))
  end.

(** ** Deadlock detection *)

(** [*path.iter().skip_while(|x| x != next).max()] of src/concurrency/lock_manager.rs:610-614
    (the path is kept newest first here, so this is the part up to [next]). *)
Fixpoint upto (next : N) (path : list N) : list N :=
  match path with
  | [] => []
  | x :: p => if N.eqb x next then [x] else x :: upto next p
  end.
Definition list_max (d : N) (l : list N) : N := foldr N.max d l.

(** src/concurrency/lock_manager.rs:605-623, the loop over one transaction's edges; [rec] is
    the recursive call; [path] is newest first and on_path is its set of elements.  [inl v]: a
    cycle with victim [v]; [inr visited]: none; [None]: the fuel of [dfs] ran out. *)
Fixpoint dfs_edges (rec : N -> gset N -> option (N + gset N)) (path : list N) (es : list N)
    (visited : gset N) : option (N + gset N) :=
  match es with
  | [] => Some (inr visited)
  | next :: es =>
      if bool_decide (next ∈ path) then Some (inl (list_max next (upto next path)))
      else if bool_decide (next ∈ visited) then dfs_edges rec path es visited
      else match rec next visited with
           | Some (inr visited2) => dfs_edges rec path es visited2
           | r => r
           end
  end.

(** src/concurrency/lock_manager.rs:594-628, dfs_cycle.  The fuel never runs out if it is
    above the number of transactions (LockProps.v). *)
Fixpoint dfs (fuel : nat) (g : gmap N (list N)) (curr : N) (path : list N) (visited : gset N)
  : option (N + gset N) :=
  match fuel with
  | O => None
  | S fuel =>
      dfs_edges (fun next v => dfs fuel g next (curr :: path) v) (curr :: path)
        (default [] (g !! curr)) ({[curr]} ∪ visited)
  end.

(** src/concurrency/lock_manager.rs:577-591, the loop over the map's keys in the order [it]. *)
Fixpoint find_cycle_from (fuel : nat) (g : gmap N (list N)) (it : list N) (visited : gset N)
  : option (option N) :=
  match it with
  | [] => Some None
  | t :: it =>
      if bool_decide (t ∈ visited) then find_cycle_from fuel g it visited
      else match dfs fuel g t [] visited with
           | None => None
           | Some (inl v) => Some (Some v)
           | Some (inr v2) => find_cycle_from fuel g it v2
           end
  end.

(** All transactions of the graph: enough fuel. *)
Definition graph_nodes (g : gmap N (list N)) : gset N :=
  dom g ∪ list_to_set (concat (map_to_list g).*2).

(** src/concurrency/lock_manager.rs:572-592, find_cycle_in_graph. *)
Definition find_cycle (g : gmap N (list N)) (it : list N) : option (option N) :=
  find_cycle_from (S (size (graph_nodes g))) g it ∅.

(** ** Transactions, as far as locking looks at them *)
Inductive iso := RU | RC | RR | Ser | Snap.
Inductive tstate := Growing | Shrinking | Running | Tainted | Committed | Aborted.

Inductive lock_err := ESharedOnRU | EShrinking | ETxnAborted | ETxnCommitted
  | ENoLockHeld | ETableBeforeRows | EIntentionOnRow | ETableLockMissing.

(** src/concurrency/lock_manager.rs:929-1006, validate_lock_request: an error, or the state
    it leaves the transaction in. *)
Definition validate (i : iso) (s : tstate) (m : mode) : lock_err + tstate :=
  match i with
  | RU => match m with
          | MS | MIS | MSIX => inl ESharedOnRU
          | MX | MIX => match s with Shrinking => inl EShrinking | _ => inr s end
          end
  | RC => match s with
          | Growing | Running => inr s
          | Shrinking => match m with MS | MIS => inr s | _ => inl EShrinking end
          | Aborted | Tainted => inl ETxnAborted
          | Committed => inl ETxnCommitted
          end
  | RR => match s with
          | Growing | Running => inr s
          | Shrinking => inl EShrinking
          | Aborted | Tainted => inl ETxnAborted
          | Committed => inl ETxnCommitted
          end
  | Ser => inr s
  | Snap => match m with MS | MX => inr Shrinking | _ => inr s end
  end.

(** src/concurrency/lock_manager.rs:1134-1160 and 1297-1323. *)
Definition state_after_unlock (i : iso) (m : mode) (s : tstate) : tstate :=
  match i, m with
  | (RR | Ser | Snap), (MS | MX) => Shrinking
  | (RC | RU), MX => Shrinking
  | _, _ => s
  end.

(** src/concurrency/lock_manager.rs:1211-1227: the table modes that permit a row lock. *)
Definition table_permits (tm rm : mode) : bool :=
  match rm, tm with
  | MX, (MX | MIX | MSIX) => true
  | MS, (MS | MIS | MSIX) => true
  | _, _ => false
  end.

(** ** The manager *)
Definition rid : Type := (N * N)%type.

(** src/concurrency/lock_manager.rs:225-272, LockManager with its LockStateManager and
    DeadlockDetector; [sets] is txn_lock_sets: the tables, and the rows with the page id that
    grant_row_lock stores beside them (line 706). *)
Record lm := LM {
  tables : gmap N queue;
  rows : gmap rid queue;
  sets : gmap N (gset N * gset (N * rid));
  waits : gmap N (list N);
  victim : option N;
  txns : gmap N (iso * tstate);
}.

Definition lm_init : lm := LM ∅ ∅ ∅ ∅ None ∅.

Inductive lres := LOk (b : bool) | LErr (e : lock_err) | LNone.

Definition set_state (t : N) (s : tstate) (st : lm) : lm :=
  LM (tables st) (rows st) (sets st) (waits st) (victim st)
     (alter (fun p => (p.1, s)) t (txns st)).

Definition locks_of (t : N) (st : lm) : gset N * gset (N * rid) := default (∅, ∅) (sets st !! t).

(** src/concurrency/lock_manager.rs:510-513, add_edge to every granted holder (lines
    1079-1085, 1249-1255). *)
Definition add_edges (t : N) (q : queue) (g : gmap N (list N)) : gmap N (list N) :=
  match rq_txn <$> filter (fun r => rq_granted r = true) (q_reqs q) with
  | [] => g
  | hs => <[t := default [] (g !! t) ++ hs]> g
  end.

(** src/concurrency/lock_manager.rs:1368-1376, check_deadlock: the answer of a lock call that
    was not granted. *)
Definition check_deadlock (t : N) (st : lm) : lm :=
  let st2 := LM (tables st) (rows st) (sets st) (waits st) None (txns st) in
  match victim st with
  | Some v => if N.eqb v t then set_state t Aborted st2 else st2
  | None => st2
  end.

(** src/concurrency/lock_manager.rs:1041-1094, lock_table. *)
Definition lock_table (t : N) (m : mode) (oid : N) (st : lm) : lres * lm :=
  match txns st !! t with
  | None => (LNone, st)
  | Some (i, s) =>
      match validate i s m with
      | inl e => (LErr e, st)
      | inr s2 =>
          let st := set_state t s2 st in
          let '(granted, q) := grant_lock (default empty_queue (tables st !! oid)) t m in
          if granted then
            (LOk true,
             LM (<[oid := q]> (tables st)) (rows st)
                (<[t := ({[oid]} ∪ (locks_of t st).1, (locks_of t st).2)]> (sets st))
                (waits st) (victim st) (txns st))
          else
            (LOk false,
             check_deadlock t
               (LM (<[oid := q]> (tables st)) (rows st) (sets st)
                   (add_edges t q (waits st)) (victim st) (txns st)))
      end
  end.

(** src/concurrency/lock_manager.rs:1181-1265, lock_row (and 685-710, grant_row_lock). *)
Definition lock_row (t : N) (m : mode) (oid : N) (r : rid) (st : lm) : lres * lm :=
  match txns st !! t with
  | None => (LNone, st)
  | Some (i, s) =>
      match validate i s m with
      | inl e => (LErr e, st)
      | inr s2 =>
          let st := set_state t s2 st in
          match m with
          | MIS | MIX | MSIX => (LErr EIntentionOnRow, set_state t Aborted st)
          | _ =>
              if existsb (fun q => own t q && table_permits (rq_mode q) m)
                   (q_reqs (default empty_queue (tables st !! oid)))
              then
                let '(granted, q) := grant_lock (default empty_queue (rows st !! r)) t m in
                if granted then
                  (LOk true,
                   LM (tables st) (<[r := q]> (rows st))
                      (<[t := ((locks_of t st).1, {[(r.1, r)]} ∪ (locks_of t st).2)]> (sets st))
                      (waits st) (victim st) (txns st))
                else
                  (LOk false,
                   check_deadlock t
                     (LM (tables st) (<[r := q]> (rows st)) (sets st)
                         (add_edges t q (waits st)) (victim st) (txns st)))
              else (LErr ETableLockMissing, set_state t Aborted st)
          end
      end
  end.

(** src/concurrency/lock_manager.rs:1105-1166, unlock_table (and 713-751,
    release_table_lock). *)
Definition unlock_table (t : N) (m : mode) (oid : N) (st : lm) : option (lres * lm) :=
  match txns st !! t with
  | None => Some (LNone, st)
  | Some (i, s) =>
      if negb (bool_decide (oid ∈ (locks_of t st).1)) then Some (LErr ENoLockHeld, set_state t Aborted st)
      else if negb (bool_decide (filter (fun x => x.1 = oid) (locks_of t st).2 = ∅)) then
        Some (LErr ETableBeforeRows, set_state t Aborted st)
      else match release (default empty_queue (tables st !! oid)) t with
           | Hangs => None
           | Fails => Some (LErr ENoLockHeld, st)
           | Returns q =>
               Some (LOk true,
                set_state t (state_after_unlock i m s)
                  (LM (<[oid := q]> (tables st)) (rows st)
                      (alter (fun l => (l.1 ∖ {[oid]}, l.2)) t (sets st))
                      (delete t (waits st)) (victim st) (txns st)))
           end
  end.

(** src/concurrency/lock_manager.rs:1276-1329, unlock_row (and 754-780, release_row_lock). *)
Definition unlock_row (t : N) (m : mode) (oid : N) (r : rid) (st : lm) : option (lres * lm) :=
  match txns st !! t with
  | None => Some (LNone, st)
  | Some (i, s) =>
      if negb (bool_decide ((oid, r) ∈ (locks_of t st).2)) then Some (LErr ENoLockHeld, set_state t Aborted st)
      else match release (default empty_queue (rows st !! r)) t with
           | Hangs => None
           | Fails => Some (LErr ENoLockHeld, st)
           | Returns q =>
               Some (LOk true,
                set_state t (state_after_unlock i m s)
                  (LM (tables st) (<[r := q]> (rows st))
                      (alter (fun l => (l.1, l.2 ∖ {[(r.1, r)]})) t (sets st))
                      (delete t (waits st)) (victim st) (txns st)))
           end
  end.

(** [purge] in the queues selected by [sel]. *)
Definition purge_all {K} `{Countable K} (t : N) (sel : K -> bool) (m : gmap K queue)
  : option (gmap K queue) :=
  if forallb (fun kq => negb (sel kq.1) || bool_decide (is_Some (purge t kq.2))) (map_to_list m)
  then Some (map_imap (fun k q => if sel k then purge t q else Some q) m)
  else None.

(** src/concurrency/lock_manager.rs:783-827 and 1359-1363, force_release_txn: in every queue
    recorded for the transaction its requests are dropped and waiters granted.  The queues
    are independent, so the order in which the sets are enumerated does not matter. *)
Definition force_release (t : N) (st : lm) : option lm :=
  match sets st !! t with
  | None => Some (LM (tables st) (rows st) (sets st) (delete t (waits st)) (victim st) (txns st))
  | Some (ts, rs) =>
      match purge_all t (fun r => existsb (fun x => bool_decide (x.2 = r)) (elements rs)) (rows st),
            purge_all t (fun oid => bool_decide (oid ∈ ts)) (tables st) with
      | Some rows2, Some tables2 =>
          Some (LM tables2 rows2 (delete t (sets st)) (delete t (waits st)) (victim st) (txns st))
      | _, _ => None
      end
  end.

(** src/concurrency/lock_manager.rs:1332-1356, unlock_all. *)
Definition unlock_all (st : lm) : lm := LM ∅ ∅ ∅ ∅ (victim st) (txns st).

Inductive lop :=
| OLockTable (t : N) (m : mode) (oid : N)
| OUnlockTable (t : N) (m : mode) (oid : N)
| OLockRow (t : N) (m : mode) (oid : N) (r : rid)
| OUnlockRow (t : N) (m : mode) (oid : N) (r : rid)
| OBegin (t : N) (i : iso)
| OCommit (t : N)
| OAbort (t : N)
| ODetect (it : list N)
| OUnlockAll.

(** One operation; [None] if it never returns.  [OBegin] of a known transaction does nothing
    (ids are never reused within a run); [ODetect it] enumerates the graph's keys in the order
    [it] (src/concurrency/lock_manager.rs:533-546). *)
Definition lstep (st : lm) (o : lop) : option (lres * lm) :=
  match o with
  | OLockTable t m oid => Some (lock_table t m oid st)
  | OUnlockTable t m oid => unlock_table t m oid st
  | OLockRow t m oid r => Some (lock_row t m oid r st)
  | OUnlockRow t m oid r => unlock_row t m oid r st
  | OBegin t i =>
      match txns st !! t with
      | Some _ => Some (LNone, st)
      | None => Some (LNone, LM (tables st) (rows st) (sets st) (waits st) (victim st) (<[t := (i, Running)]> (txns st)))
      end
  | OCommit t =>
      match force_release t (set_state t Committed st) with
      | Some st2 => Some (LNone, st2)
      | None => None
      end
  | OAbort t =>
      match force_release t (set_state t Aborted st) with
      | Some st2 => Some (LNone, st2)
      | None => None
      end
  | ODetect it =>
      match find_cycle (waits st) it with
      | Some (Some v) => Some (LNone, LM (tables st) (rows st) (sets st) (waits st) (Some v) (txns st))
      | _ => Some (LNone, st)
      end
  | OUnlockAll => Some (LNone, unlock_all st)
  end.

(** A history: the results and the final state, or [None] if an operation never returns (the
    mutexes it holds then block the others too; nothing is modelled past that point). *)
Fixpoint lrun (st : lm) (ops : list lop) : option (list lres * lm) :=
  match ops with
  | [] => Some ([], st)
  | o :: ops =>
      match lstep st o with
      | None => None
      | Some (r, st2) =>
          match lrun st2 ops with
          | None => None
          | Some (rs, st3) => Some (r :: rs, st3)
          end
      end
  end.
