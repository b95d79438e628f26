(** * HAVING without groups

    Models src/sql/planner/plan_builder.rs:488-674 for a SELECT without GROUP BY whose SELECT
    list has no aggregate: 660-673 put a filter above the projection whose columns are the
    positions of the table's columns.  The plans and their running are those of QryModel.v
    (its simplifications apply; conditions with aggregates are not modelled). *)
From Coq Require Import Strings.String List.
From Verif Require Import ExprModel ExecModel QrySpec QryModel.
Import ListNotations.

(** src/sql/planner/plan_builder.rs:503-523, 655 and 660-673. *)
Definition build_having_plan (text : nexpr -> string) (cols : list string) (items : list sitem)
    (w : option nexpr) (h : nexpr) : option plan :=
  let scanned :=
    match w with
    | None => Some PScan
    | Some w => option_map (fun e => PFilter e PScan) (parse_expression cols w)
    end in
  match scanned, projection text cols items, parse_expression cols h with
  | Some before, Some proj, Some cond => Some (PFilter cond (PProject (map fst proj) before))
  | _, _, _ => None
  end.
