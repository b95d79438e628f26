(** * The nested index join executor

    Models src/sql/execution/executors/nested_index_join_executor.rs (J), on top of the index scans
    of IdxModel.v.

    Simplifications:
    - A tuple is its row of values.  The left child is given by its drained answers, the right
      table by its visible rows in the order of a scan.
    - The executor of the right side is its remaining answers; it does not change while it is read.
    - Of an index: how many columns it has, the position of its column, the tree. *)
From Coq Require Import ZArith.
From stdpp Require Import list.
From Verif Require Import ExprModel BtreeModel IdxModel ExecModel JoinModel.
Open Scope nat_scope.

(** A secondary index of the right table (src/storage/index/mod.rs, IndexInfo). *)
Record tindex := TIndex { ti_cols : nat; ti_attr : nat; ti_tree : index }.

(** The plans a right child may have: a table scan, an index scan with its own conditions, or
    anything else (421-426). *)
Inductive rchild := RSeq | RIdx (preds : list expr) | ROther.

(** src/sql/execution/plans/nested_index_join_plan.rs:12-21, with the table and the indexes the
    catalog has for the right child's name (428-429). *)
Record node := Node {
  n_kind : jkind;
  n_pred : row -> row -> res val;
  n_lkeys : list expr;
  n_rkeys : list expr;
  n_child : rchild;
  n_table : list (row * rid);
  n_get : rid -> option row;
  n_indexes : list tindex }.

(** J 393-413: the conditions for the right side; a left key that cannot be evaluated gives none. *)
Fixpoint key_conds (lks rks : list expr) (l : row) : list expr :=
  match lks, rks with
  | lk :: lks, rk :: rks =>
      match eval lk l with
      | Ok v => [ECmp Eq rk (EConst v)]
      | Err => []
      end ++ key_conds lks rks l
  | _, _ => []
  end.

(** J 432-435: an index is taken for the number of its columns alone. *)
Definition choose (n : node) : option tindex :=
  head (List.filter (fun i => ti_cols i =? length (n_rkeys n)) (n_indexes n)).

(** What create_right_executor makes: an executor, nothing, or a panic. *)
Inductive made := MRows (l : list (row * rid)) | MNone | MPanic.

(** J 383-474, create_right_executor.  The conditions of the right child are not looked at.
    Bounds are tuples of one value made with the index's schema (index_scan_executor.rs:449-457),
    whose key is then taken by the position of the column in the table
    (src/storage/index/b_plus_tree.rs:1067-1082). *)
Inductive makes (n : node) (l : row) : made -> Prop :=
| mk_other : n_child n = ROther -> makes n l MNone
| mk_seq : n_child n <> ROther -> choose n = None -> makes n l (MRows (n_table n))
| mk_index i out : n_child n <> ROther -> choose n = Some i ->
    bounds (key_conds (n_lkeys n) (n_rkeys n) l) = (None, None) \/ (ti_cols i = 1 /\ ti_attr i = 0) ->
    index_scan (ti_tree i) (n_get n) (key_conds (n_lkeys n) (n_rkeys n) l) out ->
    makes n l (MRows out)
| mk_panic i : n_child n <> ROther -> choose n = Some i ->
    bounds (key_conds (n_lkeys n) (n_rkeys n) l) <> (None, None) -> ti_cols i <> 1 \/ ti_attr i <> 0 ->
    makes n l MPanic.

(** J 153-162. *)
Record nst := Nst {
  s_left : list (item row);
  s_cur : option row;
  s_spent : bool;
  s_exec : option (list (row * rid));
  s_seen : list rid }.

Definition nstart (L : list (item row)) : nst := Nst L None false None [].

(** J 298-312: the next row whose RID has not been seen. *)
Fixpoint unseen (seen : list rid) (l : list (row * rid)) : option (row * rid * list (row * rid)) :=
  match l with
  | [] => None
  | (r, rd) :: l => if decide (rd ∈ seen) then unseen seen l else Some (r, rd, l)
  end.

(** J 214-244, evaluate_predicate. *)
Definition accepts (n : node) (l r : row) : bool :=
  match n_pred n l r with Ok (VBool b) => b | _ => false end.

(** One iteration of the loop of next (J 566-627): a row for the caller, nothing yet, the end, an
    error of the left child, a panic. *)
Inductive nev := NRow (r : row) | NTau | NDone | NFail | NPanic.

(** J 579-592 and 593-598, after get_next_inner_tuple (295-352) has an executor with answers [ex]:
    the row found, or that there is none. *)
Definition inner_step (n : node) (l : row) (rest : list (item row)) (ex : list (row * rid)) (seen : list rid) : nev * nst :=
  match unseen seen ex with
  | Some (r, rd, ex) =>
      (if accepts n l r then NRow (l ++ r) else NTau, Nst rest (Some l) false (Some ex) (rd :: seen))
  | None => (NTau, Nst rest (Some l) true None seen)
  end.

(** J 605-626: the next left row. *)
Definition left_step (s : nst) : nev * nst :=
  match s_left s with
  | [] => (NDone, s)
  | Fail :: rest => (NFail, Nst rest (s_cur s) (s_spent s) (s_exec s) (s_seen s))
  | Row l :: rest => (NTau, Nst rest (Some l) false (s_exec s) [])
  end.

(** J 558-628. *)
Inductive nstep (n : node) : nst -> nev -> nst -> Prop :=
| ns_left s e s2 : s_spent s = true \/ s_cur s = None -> left_step s = (e, s2) -> nstep n s e s2
| ns_inner s l ex e s2 : s_spent s = false -> s_cur s = Some l -> s_exec s = Some ex ->
    inner_step n l (s_left s) ex (s_seen s) = (e, s2) -> nstep n s e s2
| ns_make s l ex e s2 : s_spent s = false -> s_cur s = Some l -> s_exec s = None ->
    makes n l (MRows ex) -> inner_step n l (s_left s) ex (s_seen s) = (e, s2) -> nstep n s e s2
| ns_none s l : s_spent s = false -> s_cur s = Some l -> s_exec s = None -> makes n l MNone ->
    nstep n s NTau (Nst (s_left s) (Some l) true None (s_seen s))
| ns_panic s l : s_spent s = false -> s_cur s = Some l -> s_exec s = None -> makes n l MPanic ->
    nstep n s NPanic s.

Inductive ending := Ends | Errs | Panics.

(** Calling next until it has no more: the rows, and how it ends. *)
Inductive joins (n : node) : nst -> list row -> ending -> Prop :=
| jo_tau s s2 out e : nstep n s NTau s2 -> joins n s2 out e -> joins n s out e
| jo_row s s2 r out e : nstep n s (NRow r) s2 -> joins n s2 out e -> joins n s (r :: out) e
| jo_done s s2 : nstep n s NDone s2 -> joins n s [] Ends
| jo_fail s s2 : nstep n s NFail s2 -> joins n s [] Errs
| jo_panic s s2 : nstep n s NPanic s2 -> joins n s [] Panics.
