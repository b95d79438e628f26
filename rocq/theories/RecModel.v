(** * Recovery: analysis, redo, undo *)
(** src/recovery/log_recovery.rs (V). The log is the list of records the iterator gives (C36). A table page is its list of rows
    (C31); whether a page finds room for a row is up to a parameter. Pages stay in the buffer pool once fetched. Where the code
    walks over a hash map (V 516), the order is a parameter. *)
From Coq Require Import NArith Lia.
From stdpp Require Import gmap list.
From Verif Require Import RecSpec.
Local Open Scope N_scope.

Definition no_lsn : N := 2 ^ 64 - 1.
(** A row: TupleMeta (creator, commit timestamp, deleted) and the tuple's bytes. *)
Record row := mkRow { w_txn : N; w_ts : option N; w_del : bool; w_data : list N }.
(** TupleMeta::new, src/storage/table/tuple.rs:238-245. *)
Definition fresh_row (txn : N) (t : list N) : row := mkRow txn None false t.
(** The pages that can be fetched, and whether a page refused an operation. *)
Record pst := mkP { p_pages : gmap N (list row); p_refused : bool }.

Section Recovery.
(** Does a page holding these rows take this one, as a new row ([None]) or for row [k]? *)
Context (room : list row -> option nat -> list N -> bool).

(** bpm.fetch_page, then insert_tuple_with_rid, which does not look at the slot it is given (table_page.rs:1052-1134). *)
Definition put_new (p : N) (r : row) (s : pst) : pst :=
  match p_pages s !! p with
  | None => s
  | Some rows => if room rows None (w_data r) then mkP (<[p := rows ++ [r]]> (p_pages s)) (p_refused s) else mkP (p_pages s) true
  end.
(** update_tuple (table_page.rs:293-379): an error if there is no such row. *)
Definition put (d : rid) (r : row) (s : pst) : pst :=
  match p_pages s !! d.1 with
  | None => s
  | Some rows =>
      match rows !! d.2 with
      | None => s
      | Some _ => if room rows (Some d.2) (w_data r) then mkP (<[d.1 := <[d.2 := r]> rows]> (p_pages s)) (p_refused s) else mkP (p_pages s) true
      end
  end.
(** get_tuple with deleted rows allowed. *)
Definition get (d : rid) (s : pst) : option row := match p_pages s !! d.1 with Some rows => rows !! d.2 | None => None end.
(** V 680-684, 693-697, 723-727: the row is read and written with its deleted mark set. *)
Definition mark (d : rid) (s : pst) : pst :=
  match get d s with Some r => put d (mkRow (w_txn r) (w_ts r) true (w_data r)) s | None => s end.

(** V 641-712, redo_record. *)
Definition redo_record (r : lrec) (s : pst) : pst :=
  match r_act r with
  | AInsert d t => put_new d.1 (fresh_row (r_txn r) t) s
  | AUpdate d _ t => put d (fresh_row (r_txn r) t) s
  | ADelete d _ | AApply d _ => mark d s
  | ANewPage p => match p_pages s !! p with None => mkP (<[fresh (dom (p_pages s)) := []]> (p_pages s)) (p_refused s) | Some _ => s end
  | _ => s
  end.

(** V 367-435: the transaction table, the dirty pages, the first number. *)
Record ana := mkA { a_txns : gmap N N; a_dirty : gmap N N; a_start : N }.
(** V 617-635. *)
Definition page_of (a : act) : option N :=
  match a with
  | AInsert d _ | AUpdate d _ _ | ADelete d _ | AApply d _ | ARollback d _ => Some d.1
  | ANewPage p => Some p
  | _ => None
  end.
Definition add_page (p : N) (lsn : N) (m : gmap N N) : gmap N N := match m !! p with None => <[p := lsn]> m | Some _ => m end.
Definition analyze_one (x : ana) (r : lrec) : ana :=
  let start := if a_start x =? no_lsn then r_lsn r else a_start x in
  match r_act r with
  | ABegin => mkA (<[r_txn r := r_lsn r]> (a_txns x)) (a_dirty x) start
  | ACommit | AAbort => mkA (delete (r_txn r) (a_txns x)) (a_dirty x) start
  | a => mkA (<[r_txn r := r_lsn r]> (a_txns x))
           (match page_of a with Some p => add_page p (r_lsn r) (a_dirty x) | None => a_dirty x end) start
  end.
Definition analyze (log : list lrec) : ana := fold_left analyze_one log (mkA ∅ ∅ no_lsn).

(** V 443-498. *)
Definition should_redo (x : ana) (r : lrec) : bool :=
  (a_start x <=? r_lsn r) &&
  match page_of (r_act r) with
  | Some p => match a_dirty x !! p with Some l => l <=? r_lsn r | None => false end
  | None => false
  end.
Definition redo (x : ana) (log : list lrec) (s : pst) : pst :=
  fold_left (fun s r => if should_redo x r then redo_record r s else s) log s.

(** V 590-608 and 529-534: the record found for a number is the last one in the log that has it. *)
Definition find_lsn (log : list lrec) (lsn : N) : option lrec := last (filter (fun r => r_lsn r = lsn) log).
(** V 536-558. V 718-772: undo_insert, undo_update, undo_delete. *)
Definition undo_record (r : lrec) (s : pst) : pst :=
  match r_act r with
  | AInsert d _ => mark d s
  | AUpdate d old _ => put d (fresh_row (r_txn r) old) s
  | ADelete d t => put d (fresh_row (r_txn r) t) s
  | _ => s
  end.
(** V 527-575: follow the transaction's records back. The chain has at most as many records as the log (proved, when a record's
    predecessor has a smaller number; the code would not stop on a circle). *)
Fixpoint undo_txn (fuel : nat) (log : list lrec) (t lsn : N) (s : pst) : pst :=
  match fuel with
  | O => s
  | S f =>
      if lsn =? no_lsn then s
      else match find_lsn log lsn with
           | None => s
           | Some r =>
               if r_txn r =? t
               then match r_act r with ABegin => s | _ => undo_txn f log t (r_prev r) (undo_record r s) end
               else s
           end
  end.
(** V 504-584: [order] is the order in which the hash map gives the transactions. *)
Definition undo (x : ana) (log : list lrec) (order : list N) (s : pst) : pst :=
  fold_left (fun s t => undo_txn (S (length log)) log t (default no_lsn (a_txns x !! t)) s) order s.

(** V 338-358. *)
Definition recover (log : list lrec) (order : list N) (s : pst) : pst :=
  let x := analyze log in undo x log order (redo x log s).
End Recovery.

(** What the buffer pool gives for the pages of a database that is opened: table pages without rows (C62). *)
Definition opened (pages : gset N) : pst := mkP (gset_to_gmap [] pages) false.
(** The rows that are not marked deleted. *)
Definition live (s : pst) (d : rid) : option (list N) := match get d s with Some r => if w_del r then None else Some (w_data r) | None => None end.
(** src/storage/table/tuple.rs:303-330, TupleMeta::visibility_status: is the row visible? *)
Definition visible (r : row) (txn read_ts : N) : bool :=
  if w_txn r =? txn then negb (w_del r)
  else match w_ts r with None => false | Some c => if read_ts <? c then false else negb (w_del r) end.
