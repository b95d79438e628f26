(** * What a user expects of recovery *)
From Coq Require Import NArith Lia Sorted.
From stdpp Require Import gmap list.
Local Open Scope N_scope.

Notation bytes := (list N) (only parsing).
Notation rid := (N * nat)%type.
(** What a log record says. Deleting logs the row that is deleted. *)
Inductive act :=
| ABegin | ACommit | AAbort
| AInsert (r : rid) (t : bytes)
| AUpdate (r : rid) (old new : bytes)
| ADelete (r : rid) (t : bytes)         (* mark-delete *)
| AApply (r : rid) (t : bytes)          (* apply-delete *)
| ARollback (r : rid) (t : bytes)       (* rollback-delete *)
| ANewPage (p : N).
(** A record: its number, its transaction, the number of the transaction's previous record, what it says. *)
Record lrec := mkR { r_lsn : N; r_txn : N; r_prev : N; r_act : act }.

Definition row_of (a : act) : option rid :=
  match a with AInsert r _ | AUpdate r _ _ | ADelete r _ | AApply r _ | ARollback r _ => Some r | _ => None end.

(** The rows a table holds, by their place. *)
Notation table := (gmap rid bytes).
Definition effect (a : act) (m : table) : table :=
  match a with
  | AInsert r t => <[r := t]> m
  | AUpdate r _ t => <[r := t]> m
  | ADelete r _ | AApply r _ => delete r m
  | _ => m
  end.
(** The transactions with a commit record. *)
Definition committed (log : list lrec) (t : N) : Prop := exists r, r ∈ log /\ r_txn r = t /\ r_act r = ACommit.
Global Instance act_eq_dec : EqDecision act.
Proof. solve_decision. Defined.
Global Instance lrec_eq_dec : EqDecision lrec.
Proof. solve_decision. Defined.
Definition committedb (log : list lrec) (t : N) : bool := existsb (fun r => (r_txn r =? t) && bool_decide (r_act r = ACommit)) log.
(** What the table should hold: the effects of the committed transactions, in the order of the log. *)
Definition committed_table (log : list lrec) : table :=
  fold_left (fun m r => if committedb log (r_txn r) then effect (r_act r) m else m) log ∅.

(** The effects of all records, committed or not. *)
Definition all_table (log : list lrec) : table := fold_left (fun m r => effect (r_act r) m) log ∅.
(** How many rows were inserted into a page. *)
Definition is_insert (p : N) (a : act) : bool := match a with AInsert d _ => d.1 =? p | _ => false end.
Definition inserts (p : N) (log : list lrec) : nat := length (List.filter (fun r => is_insert p (r_act r)) log).

(** The logs of one process that keeps to the rules: numbers increase; each record points to the transaction's previous one; a begin
    record is a transaction's first and a commit or abort record its last; rows are inserted, changed and marked deleted, new rows getting
    the next place in a page; updates and deletes log the row as it is; a row changed by a transaction is changed by no other before it
    has committed; and the aborted transactions have changed nothing. *)
Record wf (pages : gset N) (log : list lrec) : Prop := mkWf {
  wf_lsn : StronglySorted N.lt (map r_lsn log);
  wf_max : forall r, r ∈ log -> r_lsn r < 2 ^ 64 - 1;
  wf_prev : forall i r, log !! i = Some r ->
    r_prev r = match last (filter (fun q => r_txn q = r_txn r) (take i log)) with Some q => r_lsn q | None => 2 ^ 64 - 1 end;
  wf_begin : forall i r q, log !! i = Some r -> r_act r = ABegin -> q ∈ take i log -> r_txn q <> r_txn r;
  wf_end : forall i r q, log !! i = Some r -> r_act r = ACommit \/ r_act r = AAbort -> q ∈ drop (S i) log -> r_txn q <> r_txn r;
  wf_abort : forall r q, r ∈ log -> r_act r = AAbort -> q ∈ log -> r_txn q = r_txn r -> row_of (r_act q) = None;
  wf_acts : forall r, r ∈ log ->
    match r_act r with AApply _ _ | ARollback _ _ => False | ANewPage p => p ∈ pages | AInsert d _ => d.1 ∈ pages | _ => True end;
  wf_rows : forall i r, log !! i = Some r ->
    match r_act r with
    | AInsert d _ => d.2 = inserts d.1 (take i log)
    | AUpdate d old _ | ADelete d old => all_table (take i log) !! d = Some old
    | _ => True
    end;
  wf_strict : forall i r q d, log !! i = Some r -> q ∈ take i log -> row_of (r_act q) = Some d -> row_of (r_act r) = Some d ->
    r_txn q <> r_txn r -> exists c, c ∈ take i log /\ r_txn c = r_txn q /\ r_act c = ACommit
}.
