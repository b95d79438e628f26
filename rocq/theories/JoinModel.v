(** * Joins: the nested-loop join executor and the planner's join condition

    Models src/sql/execution/executors/nested_loop_join_executor.rs and extract_join_keys of
    src/sql/planner/logical_plan.rs.

    Simplifications:
    - A tuple is its row of values; RIDs and schemas are left out, a schema being its number
      of columns where that matters.
    - The two children are given by their drained answers.  The right child is executed anew
      for every left row (reset_right_executor, lines 900-916) and answers the same each time.
    - The loops of [next] and [execute_main_join] are run one iteration at a time ([jstep]);
      [drains] repeats it the way the engine does (see [ExecModel.produces]).  An iteration
      that reads a left row stops there and the one that finds the right side exhausted
      goes straight to the exhausted branch. *)
From Coq Require Import ZArith List Bool Arith.
From Verif Require Import ExprModel ExecModel ExecSpec.
Import ListNotations.
Local Open Scope nat_scope.

(** sqlparser's JoinType, the kinds src/.../nested_loop_join_executor.rs:651-679 handles. *)
Inductive jkind := JInner | JLeft | JRight | JFull | JCross.

(** src/sql/execution/executors/nested_loop_join_executor.rs:149-164, JoinPhase. *)
Inductive jphase := PMain | PRight | PLeft | PDone.

(** src/sql/execution/executors/nested_loop_join_executor.rs:166-196, JoinState: the
    remaining answers of the left child; the current left row, whether it has matched, and
    the remaining answers of the right child; all_right_tuples; matched_right_tuples; the
    unmatched rows still to return. *)
Record jstate := JState {
  j_phase : jphase;
  j_left : list (item row);
  j_cur : option (row * bool * list (item row));
  j_all : list row;
  j_matched : list nat;
  j_unr : list row;
  j_unl : list row;
}.

(** src/sql/execution/executors/nested_loop_join_executor.rs:206-220. *)
Definition jinit (left : list (item row)) : jstate := JState PMain left None [] [] [] [].

Definition nulls (w : nat) : row := repeat VNull w.

Definition row_eqb (a b : row) : bool := if row_eq_dec a b then true else false.

(** [iter().position(|t| t == r)]. *)
Fixpoint position (r : row) (l : list row) : option nat :=
  match l with
  | [] => None
  | x :: l => if row_eqb x r then Some 0 else option_map S (position r l)
  end.

(** src/sql/execution/executors/nested_loop_join_executor.rs:312-320. *)
Fixpoint collect_unmatched (i : nat) (all : list row) (matched : list nat) : list row :=
  match all with
  | [] => []
  | r :: rest =>
      if existsb (Nat.eqb i) matched then collect_unmatched (S i) rest matched
      else r :: collect_unmatched (S i) rest matched
  end.

(** src/sql/execution/executors/nested_loop_join_executor.rs:235-255, advance_phase. *)
Definition advance (k : jkind) (st : jstate) : jstate :=
  match j_phase st, k with
  | PMain, JRight | PMain, JFull =>
      JState PRight (j_left st) (j_cur st) (j_all st) (j_matched st)
        (collect_unmatched 0 (j_all st) (j_matched st)) (j_unl st)
  | PRight, JFull => JState PLeft (j_left st) (j_cur st) (j_all st) (j_matched st) (j_unr st) (j_unl st)
  | _, _ => JState PDone (j_left st) (j_cur st) (j_all st) (j_matched st) (j_unr st) (j_unl st)
  end.

(** src/sql/execution/executors/nested_loop_join_executor.rs:533-583, the evaluator: only
    Boolean TRUE matches; an error is passed on. *)
Definition on_true (pred : row -> row -> res val) (l r : row) : res bool :=
  match pred l r with
  | Ok (VBool b) => Ok b
  | Ok _ => Ok false
  | Err => Err
  end.

(** src/sql/execution/executors/nested_loop_join_executor.rs:651-795: whether the pair
    joins; a cross join does not look at the condition. *)
Definition pair_joins (k : jkind) (pred : row -> row -> res val) (l r : row) : res bool :=
  match k with
  | JCross => Ok true
  | _ => on_true pred l r
  end.

(** The join kinds for which the right rows are remembered (lines 1092-1097, 1117-1122). *)
Definition tracks_right (k : jkind) : bool := match k with JRight | JFull => true | _ => false end.

(** src/sql/execution/executors/nested_loop_join_executor.rs:1060-1230 and 1274-1301, one
    iteration; [None] means that the loop goes on.  [lw] and [rw] are the numbers of columns.
    The code also pushes a right row onto unmatched_right_tuples when a pair of a right join
    fails (line 737); collect_unmatched_right_tuples clears the list before it is read. *)
Definition jstep (k : jkind) (pred : row -> row -> res val) (lw rw : nat) (right : list (item row))
  (st : jstate) : option (outcome row) * jstate :=
  match j_phase st with
  | PMain =>
      match j_cur st with
      | None =>
          match j_left st with
          | [] => (None, advance k st)
          | Fail :: rest => (Some OFail, JState PMain rest None (j_all st) (j_matched st) (j_unr st) (j_unl st))
          | Row l :: rest =>
              (None, JState PMain rest (Some (l, false, right)) (j_all st) (j_matched st) (j_unr st) (j_unl st))
          end
      | Some (l, m, Row r :: rem) =>
          let all := if tracks_right k && negb (existsb (fun t => row_eqb t r) (j_all st))
                     then j_all st ++ [r] else j_all st in
          match pair_joins k pred l r with
          | Err => (Some OFail, JState PMain (j_left st) (Some (l, m, rem)) all (j_matched st) (j_unr st) (j_unl st))
          | Ok false => (None, JState PMain (j_left st) (Some (l, m, rem)) all (j_matched st) (j_unr st) (j_unl st))
          | Ok true =>
              let matched := match position r all with
                             | Some i => if tracks_right k then i :: j_matched st else j_matched st
                             | None => j_matched st
                             end in
              (Some (ORow (l ++ r)), JState PMain (j_left st) (Some (l, true, rem)) all matched (j_unr st) (j_unl st))
          end
      | Some (l, m, Fail :: rem) =>
          (Some OFail, JState PMain (j_left st) (Some (l, m, rem)) (j_all st) (j_matched st) (j_unr st) (j_unl st))
      | Some (l, m, []) =>
          match k with
          | JLeft =>
              (if m then None else Some (ORow (l ++ nulls rw)),
               JState PMain (j_left st) None (j_all st) (j_matched st) (j_unr st) (j_unl st))
          | JFull =>
              (None, JState PMain (j_left st) None (j_all st) (j_matched st) (j_unr st)
                       (if m then j_unl st else j_unl st ++ [l]))
          | _ => (None, JState PMain (j_left st) None (j_all st) (j_matched st) (j_unr st) (j_unl st))
          end
      end
  | PRight =>
      match j_unr st with
      | r :: rest =>
          (Some (ORow (nulls lw ++ r)), JState PRight (j_left st) (j_cur st) (j_all st) (j_matched st) rest (j_unl st))
      | [] => (None, advance k st)
      end
  | PLeft =>
      match j_unl st with
      | l :: rest =>
          (Some (ORow (l ++ nulls rw)), JState PLeft (j_left st) (j_cur st) (j_all st) (j_matched st) (j_unr st) rest)
      | [] => (None, advance k st)
      end
  | PDone => (Some ODone, st)
  end.

(** Calling [next] until it has no more, an iteration at a time. *)
Inductive drains {S T} (step : S -> option (outcome T) * S) : S -> list (item T) -> Prop :=
| dr_tau st st2 out : step st = (None, st2) -> drains step st2 out -> drains step st out
| dr_done st st2 : step st = (Some ODone, st2) -> drains step st []
| dr_fail st st2 : step st = (Some OFail, st2) -> drains step st [Fail]
| dr_row st st2 t out : step st = (Some (ORow t), st2) -> drains step st2 out -> drains step st (Row t :: out).

(** ** The join condition *)

(** A column reference of a join condition with its tuple index. *)
Inductive jexpr :=
| JCol (tuple : nat) (column : nat)
| JEq (a b : jexpr)
| JAnd (a b : jexpr).

(** evaluate_join of src/sql/execution/expressions/column_value_expression.rs:63-116,
    comparison_expression.rs:169-191 and logic_expression.rs:148-163; [lw] is the number of
    columns of the left schema. *)
Fixpoint eval_join (lw : nat) (e : jexpr) (l r : row) : res val :=
  match e with
  | JCol 0 c => match nth_error l c with Some v => Ok v | None => Err end
  | JCol 1 c =>
      match nth_error r (if lw <=? c then c - lw else c) with Some v => Ok v | None => Err end
  | JCol _ _ => Err
  | JEq a b =>
      bind (eval_join lw a l r) (fun x => bind (eval_join lw b l r) (fun y =>
        bind (perform_comparison ExprModel.Eq x y) (fun c => Ok (of_cmpbool c))))
  | JAnd a b =>
      bind (eval_join lw a l r) (fun x => bind (eval_join lw b l r) (fun y =>
        Ok (of_cmpbool (perform_and (as_cmpbool x) (as_cmpbool y)))))
  end.

(** src/sql/planner/logical_plan.rs:3638-3747, extract_join_keys, the fixed predicate.  The
    condition's columns are numbered in the combined schema
    (src/sql/execution/expression_parser.rs:298-410).  [did i] says that column [i] is named
    "d.id".  [None] is a rejected condition. *)
Fixpoint extract_join_keys (did : nat -> bool) (e : expr) : option jexpr :=
  match e with
  | ECmp ExprModel.Eq (ECol i) (ECol j) => Some (JEq (JCol 0 i) (JCol 1 (if did j then 0 else j)))
  | EAnd a b =>
      match extract_join_keys did a, extract_join_keys did b with
      | Some x, Some y => Some (JAnd x y)
      | _, _ => None
      end
  | _ => None
  end.
