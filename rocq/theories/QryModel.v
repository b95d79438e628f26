(** * From a SELECT without grouping to its rows (C98)

    Models the planning of an ungrouped SELECT over one table
    (src/sql/planner/plan_builder.rs: build_query_plan and
    build_select_plan_with_order_by) and the running of the plan on the executors of
    ExecModel.v.

    Simplifications:
    - FROM is one table without an alias; its rows are given.  HAVING, SORT BY, TOP
      and window clauses are left out, as is DISTINCT ON (planned as DISTINCT).
    - Parsing an expression is resolving its names; the casts the parser puts around
      literals of comparisons are in NumModel.v (C96).
    - The optimizer (C56) is not run on the plan.
    - LIMIT, OFFSET and FETCH quantities are numbers of rows; other texts are
      rejected by the code. *)
From Coq Require Import Strings.String Strings.Ascii ZArith List Bool.
From Verif Require Import ExprModel ExecModel NameModel QrySpec.
Import ListNotations.
Local Open Scope nat_scope.

(** An expression with its names resolved; [None] is an unknown column.
    Models src/sql/execution/expression_parser.rs:298-319 (identifiers) and the
    recursion of parse_expression on operators. *)
Fixpoint parse_expression (cols : list string) (n : nexpr) : option expr :=
  match n with
  | NCol c => option_map ECol (parse_identifier cols c)
  | NConst v => Some (EConst v)
  | NArith op a b =>
      match parse_expression cols a, parse_expression cols b with
      | Some x, Some y => Some (EArith op x y) | _, _ => None end
  | NCmp op a b =>
      match parse_expression cols a, parse_expression cols b with
      | Some x, Some y => Some (ECmp op x y) | _, _ => None end
  | NAnd a b =>
      match parse_expression cols a, parse_expression cols b with
      | Some x, Some y => Some (EAnd x y) | _, _ => None end
  | NOr a b =>
      match parse_expression cols a, parse_expression cols b with
      | Some x, Some y => Some (EOr x y) | _, _ => None end
  | NNot a => option_map ENot (parse_expression cols a)
  | NIs c neg a => option_map (EIs c neg) (parse_expression cols a)
  end.

(** src/sql/planner/logical_plan.rs, the nodes used, and the executors they become
    (3066-3264, 3549). *)
Inductive plan :=
| PScan
| PFilter (e : expr) (p : plan)
| PProject (es : list expr) (p : plan)
| PDistinct (p : plan)
| PSort (specs : list order_by) (p : plan)
| POffset (m : nat) (p : plan)
| PLimit (n : nat) (p : plan).

(** All of a list, or nothing. *)
Fixpoint all_some {A} (l : list (option A)) : option (list A) :=
  match l with
  | [] => Some []
  | None :: _ => None
  | Some x :: r => option_map (cons x) (all_some r)
  end.

(** The name of a result column: the alias, the identifier, or the printed
    expression.
    Models src/sql/planner/plan_builder.rs:937-949 and 1023-1024; [text] is
    Expression's to_string. *)
Definition output_name (text : nexpr -> string) (e : nexpr) (alias : option string) : string :=
  match alias with
  | Some a => a
  | None => match e with NCol c => c | _ => text e end
  end.

(** The expressions and names of the SELECT list.
    Models src/sql/planner/plan_builder.rs:926-1125 for an input that is no
    aggregation. *)
Fixpoint projection (text : nexpr -> string) (cols : list string) (items : list sitem) : option (list (expr * string)) :=
  match items with
  | [] => Some []
  | IStar :: rest =>
      option_map (app (combine (map ECol (expand_star cols None)) cols)) (projection text cols rest)
  | IExpr n a :: rest =>
      match parse_expression cols n, projection text cols rest with
      | Some e, Some r => Some ((e, output_name text n a) :: r)
      | _, _ => None
      end
  end.

(** Models src/sql/execution/expression_parser.rs:3403-3424: the expression and the
    direction; NULLS FIRST/LAST is not looked at. *)
Definition parse_order_by (cols : list string) (keys : list okey) : option (list order_by) :=
  all_some (map (fun k => option_map (fun e => (e, k_desc k)) (parse_expression cols (k_expr k))) keys).

(** Models src/sql/planner/plan_builder.rs:488-523, 655, 677-682 and 685-771. *)
Definition build_select_plan (text : nexpr -> string) (cols : list string) (q : query) : option plan :=
  let scanned :=
    match q_where q with
    | None => Some PScan
    | Some w => option_map (fun e => PFilter e PScan) (parse_expression cols w)
    end in
  match scanned, projection text cols (q_items q) with
  | Some before, Some proj =>
      let es := map fst proj in
      let names := map snd proj in
      let distinct p := if q_distinct q then PDistinct p else p in
      let shown := distinct (PProject es before) in
      match q_order q with
      | [] => Some shown
      | keys =>
          match parse_order_by names keys with
          | Some specs => Some (PSort specs shown)
          | None =>
              match parse_order_by cols keys with
              | Some specs => Some (distinct (PProject es (PSort specs before)))
              | None => None
              end
          end
      end
  | _, _ => None
  end.

(** Models src/sql/planner/plan_builder.rs:368-441; PERCENT and WITH TIES of FETCH are
    not looked at. *)
Definition build_query_plan (text : nexpr -> string) (cols : list string) (q : query) : option plan :=
  option_map (fun p =>
    let p := match q_offset q with Some m => POffset m p | None => p end in
    let p := match q_limit q with Some n => PLimit n p | None => p end in
    match q_fetch q with Some f => PLimit (f_quantity f) p | None => p end)
    (build_select_plan text cols q).

(** The values of the projected expressions; [None] is an error. *)
Fixpoint eval_all (es : list expr) (r : row) : option row :=
  match es with
  | [] => Some []
  | e :: rest =>
      match eval e r, eval_all rest r with
      | Ok v, Some vs => Some (v :: vs)
      | _, _ => None
      end
  end.

(** Models src/sql/execution/executors/projection_executor.rs:256-309.  An
    InvalidColumnIndex error makes the code skip the row; it cannot occur here, the
    positions come from the schema of the rows. *)
Definition project_next (es : list expr) (l : list (item row)) : outcome row * list (item row) :=
  match l with
  | [] => (ODone, [])
  | Fail :: r => (OFail, r)
  | Row t :: r => match eval_all es t with Some o => (ORow o, r) | None => (OFail, r) end
  end.

(** What draining the executor of a plan returns over a table with the given rows,
    every executor pulling from the answers of its child. *)
Inductive runs (dbg : val -> string) (rows : list row) : plan -> list (item row) -> Prop :=
| rn_scan : runs dbg rows PScan (map Row rows)
| rn_filter e p i o : runs dbg rows p i -> produces (filter_next e) i o ->
    runs dbg rows (PFilter e p) o
| rn_project es p i o : runs dbg rows p i -> produces (project_next es) i o ->
    runs dbg rows (PProject es p) o
| rn_distinct p i o : runs dbg rows p i -> produces (distinct_next dbg) (i, []) o ->
    runs dbg rows (PDistinct p) o
| rn_sort specs p i o : runs dbg rows p i -> produces sort_next (sort_init specs i) o ->
    runs dbg rows (PSort specs p) o
| rn_offset m p i o : runs dbg rows p i -> produces (offset_next m pull) (0, i) o ->
    runs dbg rows (POffset m p) o
| rn_limit n p i o : runs dbg rows p i -> produces (limit_next n pull) (0, i) o ->
    runs dbg rows (PLimit n p) o.
