(** * VALUES as a query

    Models src/sql/planner/plan_builder.rs:306-309 and 3291-3316 (P),
    src/sql/planner/schema_manager.rs:381-397 and 1025-1040 (S),
    src/sql/execution/expressions/literal_value_expression.rs:28-56 (L),
    src/sql/execution/plans/values_plan.rs:111-160 (N),
    src/sql/execution/executors/values_executor.rs (X) and the loop of
    src/sql/execution/execution_engine.rs:632-680 that writes the rows.

    Simplifications: an expression that is no literal is given by its value (its
    evaluation on the row of NULLs of N 115-128 has no error); ORDER BY and LIMIT around
    the VALUES are C122's; decimals are finite; the optimizer is not run. *)
From Coq Require Import ZArith NArith.
From stdpp Require Import list.
From Verif Require Import CastSpec CastModel VqSpec.
Local Open Scope Z_scope.

(** S 1025-1040: the type of a column from the cell of the first row; None is Invalid.
    Every number is taken for an INTEGER. *)
Definition infer (c : cell) : option cty :=
  match c with
  | Whole _ | Point _ _ => Some TInt
  | Text _ => Some TVar
  | Truth _ => Some TBool
  | Null => None
  | Calc _ => None
  end.
(** L 29-56: the value of a cell; None is "too large to represent". *)
Definition cell_value (c : cell) : option (option val) :=
  match c with
  | Whole z =>
      if in_range TTiny z then Some (Some (VTiny z))
      else if in_range TSmall z then Some (Some (VSmall z))
      else if in_range TInt z then Some (Some (VInt z))
      else if in_range TBig z then Some (Some (VBig z))
      else None
  | Point n k => Some (Some (VDec n k))
  | Text s => Some (Some (VVar s))
  | Truth b => Some (Some (VBool b))
  | Null => Some None
  | Calc v => Some v
  end.

Section Run.
Context (sd : Z -> nat -> list N) (rd rf : list N -> option (Z * nat)).
Context (f32 : Z -> nat -> Z * nat) (ch : cty -> list N -> option Z).

(** N 136-155 with value.rs:408-417 for the type Invalid: nothing but NULL becomes it. *)
Definition to_column (v : option val) (t : option cty) : option (option val) :=
  match v, t with
  | None, None => Some None
  | None, Some t => Some (Some (VNull t))
  | Some (VNull _), None => Some None
  | Some _, None => None
  | Some v, Some t => Some <$> cast_to sd rd rf f32 ch v t
  end.
(** N 111-160: the values of a row, or the error of the first that cannot be cast. *)
Fixpoint evaluate_row (vs : list (option val)) (ts : list (option cty)) : option (list (option val)) :=
  match vs, ts with
  | v :: vs, t :: ts =>
      match to_column v t with
      | Some x => cons x <$> evaluate_row vs ts
      | None => None
      end
  | _, _ => Some []
  end.
(** P 3298-3313: the rows of the plan; None is an error. *)
Fixpoint plan_rows (columns : nat) (rows : list (list cell)) : option (list (list (option val))) :=
  match rows with
  | [] => Some []
  | r :: rows =>
      if decide (length r = columns) then
        match mapM cell_value r, plan_rows columns rows with
        | Some vs, Some rest => Some (vs :: rest)
        | _, _ => None
        end
      else None
  end.
(** X 41-84 called until it ends or fails. *)
Fixpoint drain (ts : list (option cty)) (rows : list (list (option val))) : list (list (option val)) * bool :=
  match rows with
  | [] => ([], false)
  | r :: rows =>
      match evaluate_row r ts with
      | Some vs => let (out, failed) := drain ts rows in (vs :: out, failed)
      | None => ([], true)
      end
  end.
(** P 306-309 with S 381-397: the columns are those of the first row. *)
Definition values_query (rows : list (list cell)) : ending :=
  match rows with
  | [] => Refused
  | first :: _ =>
      let ts := map infer first in
      match plan_rows (length ts) rows with
      | None => Refused
      | Some planned => let (out, failed) := drain ts planned in Ran out failed
      end
  end.
End Run.
