(** * Committing, rolling back and client sessions

    Models src/concurrency/transaction_manager_factory.rs, the commit, abort and transaction
    statements of src/sql/execution/execution_engine.rs and the requests of
    src/common/db_instance.rs, on top of the rows of MvccModel.v.

    Simplified: a statement is the row operations it makes, not its SQL text; the locks are
    the set of transactions that hold some; the log is the list of begin, commit and abort
    records (the row records of the executors, and the log's own failures, are left out: see
    WalModel.v); a request runs from start to end without another one in between. *)
From stdpp Require Import gmap list.
From Coq Require Import NArith.
From Verif Require Import WatermarkModel MvccModel.
Local Open Scope N_scope.

(** src/recovery/wal_manager.rs, write_begin_record, write_commit_record, write_abort_record. *)
Inductive wrec := WBegin (t : N) | WCommit (t : N) | WAbort (t : N).

(** src/common/db_instance.rs, ClientSession. *)
Record session := Sess { s_cur : option N; s_level : level }.

(** The rows and the transaction manager [mvs]; the transactions that have ended, whose objects
    are still referred to after txn_map has dropped them [d_old]; the log; the transactions that
    hold locks; client_sessions. *)
Record db := DB { mvs : mv; d_old : gmap N txn; d_log : list wrec; d_locks : gset N;
                  d_sess : gmap N session }.

Definition db_init : db := DB mv_init ∅ [] ∅ ∅.

Definition set_mv (m : mv) (d : db) : db := DB m (d_old d) (d_log d) (d_locks d) (d_sess d).
Definition end_txn (t : N) (x : txn) (m : mv) (d : db) : db :=
  DB m (<[t := x]> (d_old d)) (d_log d) (d_locks d) (d_sess d).
Definition add_log (r : wrec) (d : db) : db := DB (mvs d) (d_old d) (d_log d ++ [r]) (d_locks d) (d_sess d).
Definition set_locks (l : gset N) (d : db) : db := DB (mvs d) (d_old d) (d_log d) l (d_sess d).
Definition set_sess (s : gmap N session) (d : db) : db := DB (mvs d) (d_old d) (d_log d) (d_locks d) s.

(** The transaction object [t] that a caller holds. *)
Definition obj (d : db) (t : N) : option txn :=
  match running (mvs d) t with Some x => Some x | None => d_old d !! t end.

(** What happens around one commit: the rows whose page could not be fetched or whose table heap
    is not registered, the pages in the buffer pool when the flushes come, the pages whose
    write fails, and whether the disk manager's own flush fails. *)
Record env := Env { e_bad : gset rid; e_pool : gset N; e_wfail : gset N; e_sfail : bool }.

(** src/concurrency/transaction_manager.rs:529-577, the stamping of the write set and the pruning. *)
Definition stamp_all (t cts : N) (bad ws : gset rid) (st : mv) : mv :=
  prune (foldr (stamp t cts) st (elements (ws ∖ bad))).

(** src/concurrency/transaction_manager.rs:481-580, commit. *)
Definition tm_commit (t : N) (bad : gset rid) (d : db) : bool * db :=
  match obj d t with
  | None => (false, d)
  | Some x =>
      match x_state x with
      | Aborted => (false, d)
      | Committed => (true, d)
      | Running =>
          match commit_start t (mvs d) with
          | (RCommitted cts, st1) =>
              (true, end_txn t (Txn (x_level x) Committed (x_read x) cts (x_logs x) (x_ws x))
                             (stamp_all t cts bad (x_ws x) st1) d)
          | _ => (false, d)
          end
      end
  end.

(** src/concurrency/transaction_manager.rs:586-807, abort. *)
Definition tm_abort (t : N) (d : db) : db :=
  match obj d t with
  | None => d
  | Some x =>
      match x_state x with
      | Aborted | Committed => d
      | Running => end_txn t (Txn (x_level x) Aborted (x_read x) (x_commit x) (x_logs x) (x_ws x))
                           (abort t (mvs d)).2 d
      end
  end.

(** src/buffer/buffer_pool_manager_async.rs:784-804, flush_page_async: an error unless the page
    is in the pool and its write succeeds.  The flushes of a commit stop at the first error, in the
    order of a HashSet; only whether there is one shows in the result. *)
Definition flush_ok (e : env) (p : N) : bool := bool_decide (p ∈ e_pool e) && negb (bool_decide (p ∈ e_wfail e)).
Definition flushes_ok (e : env) (ws : gset rid) : bool :=
  forallb (flush_ok e) (map fst (elements ws)).

Definition ws_of (d : db) (t : N) : gset rid := match obj d t with Some x => x_ws x | None => ∅ end.

(** src/concurrency/transaction_manager_factory.rs:269-283, begin_transaction. *)
Definition f_begin (i : level) (d : db) : N * db :=
  let n := nid (mvs d) in (n, add_log (WBegin n) (set_mv (begin i (mvs d)).2 d)).

(** src/concurrency/lock_manager.rs, force_release_txn. *)
Definition release (t : N) (d : db) : db := set_locks (d_locks d ∖ {[t]}) d.

(** src/concurrency/transaction_manager_factory.rs:305-360, commit_transaction. *)
Definition f_commit (t : N) (e : env) (d : db) : bool * db :=
  match tm_commit t (e_bad e) (add_log (WCommit t) d) with
  | (false, d1) => (false, release t d1)
  | (true, d1) => (flushes_ok e (ws_of d1 t), release t d1)
  end.

(** src/concurrency/transaction_manager_factory.rs:372-390, abort_transaction. *)
Definition f_abort (t : N) (d : db) : db := release t (tm_abort t (add_log (WAbort t) d)).

(** src/sql/execution/execution_engine.rs:866-941, commit_transaction; [None] is an error. *)
Definition e_commit (t : N) (e : env) (d : db) : option bool * db :=
  match tm_commit t (e_bad e) (add_log (WCommit t) d) with
  | (false, d1) => (Some false, d1)
  | (true, d1) => (if flushes_ok e (ws_of d1 t) && negb (e_sfail e) then Some true else None, d1)
  end.

(** src/sql/execution/execution_engine.rs:1048-1073, abort_transaction. *)
Definition e_abort (t : N) (d : db) : db := tm_abort t (add_log (WAbort t) d).

(** The row operations of a statement.  The slot of a new row is the heap's choice. *)
Inductive rop := Ins (rd : rid) (y : tuple) | Upd (rd : rid) (y : tuple) | Del (rd : rid).

(** src/storage/table/transactional_table_heap.rs:337-386 (insert, which takes a table lock),
    src/sql/execution/executors/update_executor.rs:159-160 (update, in the name of transaction 0)
    and transactional_table_heap.rs:737-827 (delete). *)
Definition row_op (t : N) (o : rop) (d : db) : bool * db :=
  let d1 := match o, running (mvs d) t with
            | Ins _ _, Some _ => set_locks ({[t]} ∪ d_locks d) d
            | _, _ => d
            end in
  let r := match o with
           | Ins rd y => insert t rd y (mvs d1)
           | Upd rd y => update t 0 rd y (mvs d1)
           | Del rd => delete_row t rd (mvs d1)
           end in
  (match r.1 with ROk => true | _ => false end, set_mv r.2 d1).

Fixpoint row_ops (t : N) (ops : list rop) (d : db) : bool * db :=
  match ops with
  | [] => (true, d)
  | o :: ops => match row_op t o d with
                | (true, d1) => row_ops t ops d1
                | (false, d1) => (false, d1)
                end
  end.

(** A statement: row changes and whether any row was affected; a query; BEGIN; COMMIT and
    ROLLBACK, with or without AND CHAIN. *)
Inductive stmt :=
| SWork (ops : list rop) (affected : bool)
| SSelect (rds : list rid)
| SBegin (i : level)
| SCommit (chain : bool)
| SRollback (chain : bool).

(** src/storage/table/transactional_table_heap.rs:441-477, get_tuple, with the object [t]. *)
Definition obj_read (d : db) (t : N) (rd : rid) : option tuple :=
  match obj d t with
  | Some x => read (MV (pg (mvs d)) (lk (mvs d)) (<[t := x]> (tx (mvs d))) (nid (mvs d)) (wk (mvs d)) (nlogs (mvs d))) t rd
  | None => None
  end.

(** src/sql/execution/executors/start_transaction_executor.rs:277-347 and
    src/sql/execution/execution_engine.rs:967-1021: the new transaction goes into the statement's
    execution context, which its caller then drops. *)
Definition t_begin (i : level) (d : db) : db := set_mv (begin i (mvs d)).2 d.

Definition level_of (d : db) (t : N) : level := match obj d t with Some x => x_level x | None => LRC end.

(** src/sql/execution/execution_engine.rs:287-298 and 397-640, execute_sql for a transaction [t]:
    [None] is an error.  UPDATE and DELETE answer whether a row was affected (449-489). *)
Definition engine (t : N) (s : stmt) (e : env) (d : db) : option bool * list (option tuple) * db :=
  match s with
  | SWork ops aff => match row_ops t ops d with
                     | (true, d1) => (Some aff, [], d1)
                     | (false, d1) => (None, [], d1)
                     end
  | SSelect rds => (Some true, map (obj_read d t) rds, d)
  | SBegin i => (Some true, [], t_begin i d)
  | SCommit chain => match e_commit t e d with
                     | (None, d1) => (None, [], d1)
                     | (Some b, d1) => (Some b, [], if chain then t_begin (level_of d1 t) d1 else d1)
                     end
  | SRollback chain => let d1 := e_abort t d in
                       (Some true, [], if chain then t_begin (level_of d1 t) d1 else d1)
  end.

(** What a client is told. *)
Inductive resp := POk (rows : list (option tuple)) | PFail.

(** src/common/db_instance.rs:588-647, execute_sql. *)
Definition execute_sql (i : level) (s : stmt) (e : env) (d : db) : resp * db :=
  let (t, d0) := f_begin i d in
  match engine t s e d0 with
  | (None, _, d1) => (PFail, f_abort t d1)
  | (Some ok, rows, d1) =>
      match s with
      | SRollback _ => (if ok then POk rows else PFail, d1)
      | _ => if ok then match f_commit t e d1 with
                        | (true, d2) => (POk rows, d2)
                        | (false, d2) => (PFail, f_abort t d2)
                        end
             else (PFail, f_abort t d1)
      end
  end.

(** src/common/db_instance.rs:858-917, a query of a client. *)
Definition net_query (ss : session) (s : stmt) (e : env) (d : db) : resp * db :=
  match s_cur ss with
  | Some t => match engine t s e d with
              | (None, _, d1) => (PFail, d1)
              | (Some _, rows, d1) => (POk rows, d1)
              end
  | None =>
      let (t, d0) := f_begin (s_level ss) d in
      match engine t s e d0 with
      | (None, _, d1) => (PFail, f_abort t d1)
      | (Some _, rows, d1) => match f_commit t e d1 with
                              | (true, d2) => (POk rows, d2)
                              | (false, d2) => (PFail, f_abort t d2)
                              end
      end
  end.

(** src/common/db_instance.rs:970-1007, handle_sql_query, and 663-677. *)
Definition sql_query (ss : session) (s : stmt) (e : env) (d : db) : resp * db :=
  match s_cur ss with
  | Some t => match engine t s e d with
              | (Some true, rows, d1) => (POk rows, d1)
              | (_, _, d1) => (PFail, d1)
              end
  | None => execute_sql (s_level ss) s e d
  end.

(** The requests: src/common/db_instance.rs:1086-1116 (a session opens, closes), 853-965 (a
    client's requests), 588 (execute_sql without a session), 797-834 (commit_transaction and
    abort_transaction, by transaction id). *)
Inductive req :=
| QOpen (c : N)
| QClose (c : N)
| QQuery (c : N) (s : stmt) (e : env)
| QPrepare (c : N) (s : stmt) (e : env)
| QBegin (c : N) (i : level)
| QCommit (c : N) (e : env)
| QRollback (c : N)
| QSql (i : level) (s : stmt) (e : env)
| QCommitId (t : N) (e : env)
| QAbortId (t : N).

Definition take_txn (c : N) (ss : session) (d : db) : db :=
  set_sess (<[c := Sess None (s_level ss)]> (d_sess d)) d.

Definition dstep (q : req) (d : db) : resp * db :=
  match q with
  | QOpen c => (POk [], set_sess (<[c := Sess None LRC]> (d_sess d)) d)
  | QClose c =>
      match d_sess d !! c with
      | Some ss => let d1 := set_sess (delete c (d_sess d)) d in
                   (POk [], match s_cur ss with Some t => f_abort t d1 | None => d1 end)
      | None => (POk [], d)
      end
  | QQuery c s e => match d_sess d !! c with Some ss => net_query ss s e d | None => (PFail, d) end
  | QPrepare c s e => match d_sess d !! c with Some ss => sql_query ss s e d | None => (PFail, d) end
  | QBegin c i =>
      match d_sess d !! c with
      | Some ss => match s_cur ss with
                   | Some _ => (PFail, d)
                   | None => let (t, d1) := f_begin i d in
                             (POk [], set_sess (<[c := Sess (Some t) i]> (d_sess d1)) d1)
                   end
      | None => (PFail, d)
      end
  | QCommit c e =>
      match d_sess d !! c with
      | Some ss => match s_cur ss with
                   | Some t => match f_commit t e (take_txn c ss d) with
                               | (true, d1) => (POk [], d1)
                               | (false, d1) => (PFail, d1)
                               end
                   | None => (PFail, d)
                   end
      | None => (PFail, d)
      end
  | QRollback c =>
      match d_sess d !! c with
      | Some ss => match s_cur ss with
                   | Some t => (POk [], f_abort t (take_txn c ss d))
                   | None => (PFail, d)
                   end
      | None => (PFail, d)
      end
  | QSql i s e => execute_sql i s e d
  | QCommitId t e =>
      match tx (mvs d) !! t with
      | Some _ => match tm_commit t (e_bad e) d with (true, d1) => (POk [], d1) | (false, d1) => (PFail, d1) end
      | None => (PFail, d)
      end
  | QAbortId t =>
      match tx (mvs d) !! t with Some _ => (POk [], tm_abort t d) | None => (PFail, d) end
  end.

Fixpoint drun (d : db) (qs : list req) : list resp * db :=
  match qs with
  | [] => ([], d)
  | q :: qs =>
      let (r, d1) := dstep q d in
      let (rs, d2) := drun d1 qs in (r :: rs, d2)
  end.
