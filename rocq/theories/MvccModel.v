(** * Multi-version rows

    Models the transactional operations of src/storage/table/transactional_table_heap.rs,
    src/concurrency/transaction_manager.rs and src/concurrency/transaction.rs on rows.

    A tuple's contents are never inspected here; they are numbers.  A table page is the map
    from RIDs to metadata and tuple; what can go wrong inside a page (no room, ...) is not
    modelled here but in PageModel.v. *)
From stdpp Require Import gmap list.
From Coq Require Import NArith.
From Verif Require Import WatermarkModel.
Local Open Scope N_scope.

Definition rid : Type := (N * N)%type.
Definition tuple : Type := N.

(** src/concurrency/transaction.rs, IsolationLevel. *)
Inductive level := LRU | LRC | LRR | LSer | LSnap.

(** src/storage/table/tuple.rs:219-234, TupleMeta. *)
Record meta := Meta { m_creator : N; m_ts : option N; m_del : bool; m_idx : option nat }.

(** src/concurrency/transaction.rs:246-262, UndoLog.  INVALID_TS and the log index usize::MAX
    are [None].  Every undo log made by TransactionalTableHeap has original_rid set
    (transactional_table_heap.rs:528-535, 785-792); its is_deleted flag is then never looked
    at (lines 661-666, and transaction_manager.rs:671-684), so it is left out. *)
Record ulog := ULog { u_tuple : tuple; u_ts : option N; u_ptxn : N; u_pidx : option nat }.

(** src/concurrency/transaction.rs:227-233, UndoLink. *)
Notation link := (N * nat)%type.

(** src/concurrency/transaction.rs:391-393, is_valid, for an undo log's prev_version. *)
Definition prev_link (g : ulog) : option link :=
  match u_pidx g with Some i => Some (u_ptxn g, i) | None => None end.

(** src/concurrency/transaction.rs, TransactionState: Tainted, Growing and Shrinking are never
    set by the operations modelled here. *)
Inductive tstate := Running | Committed | Aborted.

(** src/concurrency/transaction.rs:430-454, Transaction. *)
Record txn := Txn { x_level : level; x_state : tstate; x_read : N; x_commit : N;
                    x_logs : list ulog; x_ws : gset rid }.

(** The table pages [pg], the undo links [lk] (version_info), txn_map [tx], next_txn_id [nid]
    and the watermark [wk].  [nlogs] counts the undo logs made so far; it is not in the code
    and only bounds the loop of [walk]. *)
Record mv := MV { pg : gmap rid (meta * tuple); lk : gmap rid link; tx : gmap N txn;
                  nid : N; wk : wm; nlogs : nat }.

Definition mv_init : mv := MV ∅ ∅ ∅ 0 wm_new 0.

(** src/storage/table/tuple.rs:303-331, visibility_status. *)
Inductive vis := Invisible | Visible | Deleted.
Definition visibility (m : meta) (t r : N) : vis :=
  if N.eqb (m_creator m) t then (if m_del m then Deleted else Visible)
  else match m_ts m with
       | None => Invisible
       | Some ts => if N.ltb r ts then Invisible else if m_del m then Deleted else Visible
       end.

(** src/concurrency/transaction_manager.rs:990-1025, get_undo_log_optional. *)
Definition get_log (txs : gmap N txn) (l : link) : option ulog :=
  match txs !! l.1 with Some x => x_logs x !! l.2 | None => None end.

(** src/storage/table/transactional_table_heap.rs:626-713, the loop of get_visible_version. *)
Fixpoint walk (fuel : nat) (txs : gmap N txn) (t r : N) (l : option link) : option tuple :=
  match fuel, l with
  | S fuel, Some l =>
      match get_log txs l with
      | None => None
      | Some g =>
          match visibility (Meta (u_ptxn g) (u_ts g) false (u_pidx g)) t r with
          | Visible => Some (u_tuple g)
          | Deleted => None
          | Invisible => walk fuel txs t r (prev_link g)
          end
      end
  | _, _ => None
  end.

(** src/storage/table/transactional_table_heap.rs:585-714, get_visible_version. *)
Definition get_visible (st : mv) (t r : N) (rd : rid) (p : meta * tuple) : option tuple :=
  match visibility p.1 t r with
  | Visible => Some p.2
  | Deleted => None
  | Invisible => walk (S (nlogs st)) (tx st) t r (lk st !! rd)
  end.

Definition committed (m : meta) : bool := match m_ts m with Some _ => true | None => false end.

(** src/storage/table/transactional_table_heap.rs:451-477, get_tuple after the page has been
    read ([p] is what was read there); [None] for every error. *)
Definition resolve (st : mv) (t : N) (rd : rid) (p : meta * tuple) : option tuple :=
  match tx st !! t with
  | None => None
  | Some x =>
      match x_level x with
      | LRU => if m_del p.1 then None else Some p.2
      | LRC => if N.eqb (m_creator p.1) t || committed p.1
               then (if m_del p.1 then None else Some p.2)
               else get_visible st t (x_read x) rd p
      | _ => get_visible st t (x_read x) rd p
      end
  end.

(** src/storage/table/transactional_table_heap.rs:441-477, get_tuple. *)
Definition read (st : mv) (t : N) (rd : rid) : option tuple :=
  match pg st !! rd with Some p => resolve st t rd p | None => None end.

(** src/storage/table/table_heap.rs:570-716, TableHeap::get_tuple_with_txn, the non-transactional
    heap's own version of the same read. *)
Definition heap_read (st : mv) (t : N) (rd : rid) : option tuple :=
  match pg st !! rd, tx st !! t with
  | Some (m, y), Some x =>
      if N.eqb (m_creator m) t then (if m_del m then None else Some y)
      else match x_level x with
           | LRU => if m_del m then None else Some y
           | LRC => if committed m then (if m_del m then None else Some y)
                    else match lk st !! rd with
                         | None => None
                         | Some l => match get_log (tx st) l with Some g => Some (u_tuple g) | None => None end
                         end
           | LRR | LSer => get_visible st t (x_read x) rd (m, y)
           | LSnap => if m_del m then None else Some y
           end
  | _, _ => None
  end.

Inductive mres := RBegan (t ts : N) | ROk | RRefused | RRow (v : option tuple) | RCommitted (ts : N).

(** src/concurrency/transaction_manager.rs:444-469, begin. *)
Definition begin (i : level) (st : mv) : mres * mv :=
  let (w, ts) := get_next_ts_and_register (wk st) in
  (RBegan (nid st) ts,
   MV (pg st) (lk st) (<[nid st := Txn i Running ts 0 [] ∅]> (tx st)) (nid st + 1) w (nlogs st)).

Definition running (st : mv) (t : N) : option txn :=
  match tx st !! t with
  | Some x => match x_state x with Running => Some x | _ => None end
  | None => None
  end.

(** src/storage/table/transactional_table_heap.rs:388-439, insert_tuple, with the metadata
    [TupleMeta::new(txn_id)] its callers pass.  [rd] is the slot the heap picks: a new one.  The
    table lock it asks for is always an intention-exclusive one, which is never refused to a
    running transaction with an error (LockModel.v, validate) and whose outcome is ignored. *)
Definition insert (t : N) (rd : rid) (y : tuple) (st : mv) : mres * mv :=
  match running st t, pg st !! rd with
  | Some x, None =>
      (ROk, MV (<[rd := (Meta t None false None, y)]> (pg st)) (lk st)
               (<[t := Txn (x_level x) (x_state x) (x_read x) (x_commit x) (x_logs x) ({[rd]} ∪ x_ws x)]> (tx st))
               (nid st) (wk st) (nlogs st))
  | _, _ => (RRefused, st)
  end.

(** The common part of src/storage/table/transactional_table_heap.rs:504-579 and 761-824: the
    current version goes to an undo log of [t], the row becomes [y] ([del]: a tombstone). *)
Definition overwrite (t : N) (x : txn) (rd : rid) (m : meta) (old y : tuple) (del : bool) (st : mv) : mv :=
  let i := length (x_logs x) in
  MV (<[rd := (Meta t None del (Some i), y)]> (pg st)) (<[rd := (t, i)]> (lk st))
     (<[t := Txn (x_level x) (x_state x) (x_read x) (x_commit x)
               (x_logs x ++ [ULog old (m_ts m) (m_creator m) (m_idx m)]) ({[rd]} ∪ x_ws x)]> (tx st))
     (nid st) (wk st) (S (nlogs st)).

(** src/storage/table/transactional_table_heap.rs:479-582, update_tuple; [claim] is the creator
    in the metadata the caller passes.  The reads and writes of one call are one step. *)
Definition update (t claim : N) (rd : rid) (y : tuple) (st : mv) : mres * mv :=
  match running st t, pg st !! rd with
  | Some x, Some (m, old) =>
      if m_del m then (RRefused, st)
      else if negb (N.eqb (m_creator m) claim) && negb (committed m) then (RRefused, st)
      else (ROk, overwrite t x rd m old y false st)
  | _, _ => (RRefused, st)
  end.

(** src/storage/table/transactional_table_heap.rs:737-827, delete_tuple. *)
Definition delete_row (t : N) (rd : rid) (st : mv) : mres * mv :=
  match running st t, pg st !! rd with
  | Some x, Some (m, old) =>
      if m_del m then (RRefused, st)
      else if negb (N.eqb (m_creator m) t) && negb (committed m) then (RRefused, st)
      else (ROk, overwrite t x rd m old old true st)
  | _, _ => (RRefused, st)
  end.

(** src/concurrency/transaction_manager.rs:1118-1126. *)
Definition kept (w : N) (x : txn) : bool :=
  match x_state x with
  | Running => true
  | Committed => N.eqb (x_commit x) 0 || N.leb w (x_commit x)
  | Aborted => N.leb w (x_read x)
  end.

(** src/concurrency/transaction_manager.rs:1114-1127, prune_completed_transactions. *)
Definition prune (st : mv) : mv :=
  MV (pg st) (lk st) (omap (fun x => if kept (get_watermark (wk st)) x then Some x else None) (tx st))
     (nid st) (wk st) (nlogs st).

(** src/concurrency/transaction_manager.rs:515-525 and src/concurrency/transaction.rs:707-737. *)
Definition commit_start (t : N) (st : mv) : mres * mv :=
  match running st t with
  | Some x =>
      let (w1, cts) := get_next_ts (wk st) in
      let w := remove_txn (update_commit_ts w1 cts) (x_read x) in
      (RCommitted cts,
       MV (pg st) (lk st) (<[t := Txn (x_level x) Committed (x_read x) cts (x_logs x) (x_ws x)]> (tx st))
          (nid st) w (nlogs st))
  | None => (RRefused, st)
  end.

(** src/concurrency/transaction_manager.rs:531-574, one row of the write set. *)
Definition stamp (t cts : N) (rd : rid) (st : mv) : mv :=
  MV (alter (fun p => if N.eqb (m_creator p.1) t
                      then (Meta (m_creator p.1) (Some cts) (m_del p.1) (m_idx p.1), p.2) else p) rd (pg st))
     (lk st) (tx st) (nid st) (wk st) (nlogs st).

(** src/concurrency/transaction_manager.rs:481-580, commit, as if nothing ran in between. *)
Definition commit (t : N) (st : mv) : mres * mv :=
  match running st t, commit_start t st with
  | Some x, (RCommitted cts, st1) => (RCommitted cts, prune (foldr (stamp t cts) st1 (elements (x_ws x))))
  | _, _ => (RRefused, st)
  end.

(** src/concurrency/transaction_manager.rs:633-793, the rollback of one row. *)
Definition undo_row (t : N) (rd : rid) (st : mv) : mv :=
  match lk st !! rd with
  | Some l =>
      match get_log (tx st) l with
      | None => st
      | Some g =>
          MV (alter (fun _ => (Meta l.1 (u_ts g) false (Some l.2), u_tuple g)) rd (pg st))
             (match prev_link g with Some l2 => <[rd := l2]> (lk st) | None => delete rd (lk st) end)
             (tx st) (nid st) (wk st) (nlogs st)
      end
  | None =>
      MV (alter (fun p => (Meta t None true None, p.2)) rd (pg st)) (lk st) (tx st) (nid st) (wk st) (nlogs st)
  end.

(** src/concurrency/transaction_manager.rs:586-807, abort.  The rows of the write set are
    visited in some order; each visit only touches its own row. *)
Definition abort (t : N) (st : mv) : mres * mv :=
  match running st t with
  | Some x =>
      let st1 := foldr (undo_row t) st (elements (x_ws x)) in
      (ROk, prune (MV (pg st1) (lk st1)
                      (<[t := Txn (x_level x) Aborted (x_read x) (x_commit x) (x_logs x) (x_ws x)]> (tx st1))
                      (nid st1) (remove_txn (wk st1) (x_read x)) (nlogs st1)))
  | None => (RRefused, st)
  end.

(** src/concurrency/transaction_manager.rs:823-843, garbage_collection. *)
Definition gc (st : mv) : mv :=
  prune (MV (pg st)
            (omap (fun l => match tx st !! l.1 with
                            | Some x => if N.ltb (get_watermark (wk st)) (x_read x) then Some l else None
                            | None => None
                            end) (lk st))
            (tx st) (nid st) (wk st) (nlogs st)).

(** The calls.  [OCommit] is a commit nobody interferes with; [OCommitStart], [OStamp] and
    [OPrune] are its steps one by one, between which other threads can run. *)
Inductive mop :=
| OBegin (i : level)
| OInsert (t : N) (rd : rid) (y : tuple)
| OUpdate (t claim : N) (rd : rid) (y : tuple)
| ODelete (t : N) (rd : rid)
| ORead (t : N) (rd : rid)
| OCommit (t : N)
| OAbort (t : N)
| OGc
| OCommitStart (t : N)
| OStamp (t : N) (rd : rid)
| OPrune.

Definition mstep (o : mop) (st : mv) : mres * mv :=
  match o with
  | OBegin i => begin i st
  | OInsert t rd y => insert t rd y st
  | OUpdate t c rd y => update t c rd y st
  | ODelete t rd => delete_row t rd st
  | ORead t rd => (RRow (read st t rd), st)
  | OCommit t => commit t st
  | OAbort t => abort t st
  | OGc => (ROk, gc st)
  | OCommitStart t => commit_start t st
  | OStamp t rd =>
      match tx st !! t with
      | Some x =>
          match x_state x with
          | Committed => if bool_decide (rd ∈ x_ws x) then (ROk, stamp t (x_commit x) rd st) else (RRefused, st)
          | _ => (RRefused, st)
          end
      | None => (RRefused, st)
      end
  | OPrune => (ROk, prune st)
  end.

Fixpoint mrun (st : mv) (ops : list mop) : list mres * mv :=
  match ops with
  | [] => ([], st)
  | o :: ops =>
      let (r, st1) := mstep o st in
      let (rs, st2) := mrun st1 ops in (r :: rs, st2)
  end.
