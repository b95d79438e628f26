(** Model of how a SELECT with aggregates, GROUP BY, HAVING and ORDER BY is
    planned and projected (C94, C95).  Column lookup is NameModel's.  Grouping
    and the values of the aggregates are C49's: here the groups and the value
    of every aggregate over every group are inputs. *)
From Coq Require Import Strings.String Strings.Ascii ZArith List Arith Bool.
From Verif Require Import NameSpec NameModel SelSpec.
Import ListNotations.
Open Scope string_scope.

(** The name of an aggregate function, upper case.
    Models src/sql/execution/expression_parser.rs 3738. *)
Definition fn_name (f : aggfn) : string :=
  match f with
  | Count => "COUNT" | Sum => "SUM" | Avg => "AVG" | Min => "MIN" | Max => "MAX"
  | StdDev => "STDDEV" | Variance => "VARIANCE"
  end.
Definition fn_eqb (f g : aggfn) : bool := String.eqb (fn_name f) (fn_name g).

(** Parsed expressions: a column reference carries its index and the name of
    the column found; the argument of an aggregate is a column here.
    Models Expression::ColumnRef, Aggregate and Arithmetic (addition of a
    literal) of src/sql/execution/expressions/abstract_expression.rs. *)
Inductive pexpr :=
| PCol (i : nat) (name : string)
| PAgg (f : aggfn) (arg : option (nat * string))
| PPlus (e : pexpr) (z : Z).

(** Models src/sql/execution/expression_parser.rs 301-412: the index, and the
    name of the schema's column at that index. *)
Definition parse_col (cols : list string) (r : colref) : option (nat * string) :=
  match (match r with
         | Bare c => parse_identifier cols c
         | Qual t c => parse_compound cols t c
         end) with
  | Some i => Some (i, nth i cols "")
  | None => None
  end.

(** Models src/sql/execution/expression_parser.rs 298-419 for the expressions
    of SelSpec, and 3727-3779 for aggregates (only COUNT takes a star;
    infer_aggregate_return_type refuses the others without an argument, except
    STDDEV and VARIANCE, which are refused here too: their argument is read
    unconditionally later). *)
Fixpoint parse_expr (cols : list string) (e : sexpr) : option pexpr :=
  match e with
  | SCol r => match parse_col cols r with
              | Some (i, n) => Some (PCol i n)
              | None => None
              end
  | SAgg f None => if fn_eqb f Count then Some (PAgg f None) else None
  | SAgg f (Some r) => match parse_col cols r with
                       | Some a => Some (PAgg f (Some a))
                       | None => None
                       end
  | SPlus e' z => match parse_expr cols e' with
                  | Some p => Some (PPlus p z)
                  | None => None
                  end
  end.

(** Evaluation of a parsed expression on one row; None is InvalidColumnIndex.
    Models src/sql/execution/expressions/column_value_expression.rs 51-61 and
    aggregate_expression.rs 105-166; addition is on unbounded numbers (C54 has
    the overflow) and NULL + z is NULL (C50 has the error). *)
Fixpoint eval_p (p : pexpr) (row : list value) : option value :=
  match p with
  | PCol i _ => nth_error row i
  | PAgg Count None => Some (Some 1%Z)
  | PAgg Count (Some (i, _)) =>
      match nth_error row i with
      | Some None => Some (Some 0%Z)
      | Some (Some _) => Some (Some 1%Z)
      | None => None
      end
  | PAgg Sum None => Some (Some 0%Z)
  | PAgg Sum (Some (i, _)) =>
      match nth_error row i with
      | Some None => Some (Some 0%Z)
      | o => o
      end
  | PAgg _ None => Some None
  | PAgg _ (Some (i, _)) => nth_error row i
  | PPlus e z => option_map (option_map (fun x => (x + z)%Z)) (eval_p e row)
  end.

(** str::rfind('.') and the rest of the string.
    Models src/sql/execution/expressions/aggregate_expression.rs 69-75. *)
Definition after_last_dot (s : string) : string := last (split_dot s) "".

(** The name an aggregate's column is looked up by.
    Models src/sql/execution/expressions/aggregate_expression.rs 55-85 (no
    alias is ever set by the planner). *)
Definition agg_column_name (f : aggfn) (arg : option (nat * string)) : string :=
  match f, arg with
  | Count, None => "COUNT_star"
  | _, None => fn_name f
  | _, Some (_, n) => fn_name f ++ "_" ++ after_last_dot n
  end.

(** Parse all items; fails if one fails.
    Models src/sql/planner/plan_builder.rs 538-565. *)
Fixpoint parse_items (cols : list string) (items : list sitem) : option (list pexpr) :=
  match items with
  | [] => Some []
  | it :: rest => match parse_expr cols (i_expr it), parse_items cols rest with
                  | Some p, Some ps => Some (p :: ps)
                  | _, _ => None
                  end
  end.

(** The aggregates of the list: only items that are aggregates themselves.
    Models src/sql/planner/plan_builder.rs 545-548 and 555-558. *)
Fixpoint top_aggs (ps : list pexpr) : list (aggfn * option (nat * string)) :=
  match ps with
  | [] => []
  | PAgg f a :: rest => (f, a) :: top_aggs rest
  | _ :: rest => top_aggs rest
  end.

(** GROUP BY columns.
    Models src/sql/execution/expression_parser.rs 2834-2842; expressions other
    than columns are not modelled. *)
Fixpoint parse_groups (cols : list string) (gs : list colref) : option (list (nat * string)) :=
  match gs with
  | [] => Some []
  | g :: rest => match parse_col cols g, parse_groups cols rest with
                 | Some x, Some xs => Some (x :: xs)
                 | _, _ => None
                 end
  end.

(** The part of a column name after its first dot, if it has one. *)
Fixpoint after_dot (s : string) : option string :=
  match s with
  | EmptyString => None
  | String a s' => if Ascii.eqb a "." then Some s' else after_dot s'
  end.

Definition in_names (n : string) (l : list string) : bool := existsb (String.eqb n) l.

(** Models src/sql/planner/plan_builder.rs 825-886. *)
Definition group_names (gs : list (nat * string)) : list string :=
  flat_map (fun g => snd g :: match after_dot (snd g) with Some u => [u] | None => [] end) gs.
Definition validate_group_by (gs : list (nat * string)) (ps : list pexpr) : bool :=
  forallb (fun p => match p with
                    | PCol _ n => in_names n (group_names gs) ||
                                  match after_dot n with
                                  | Some u => in_names u (group_names gs)
                                  | None => false
                                  end
                    | _ => true
                    end) ps.

(** The alias of each grouping column, newest entry first.
    Models src/sql/planner/schema_manager.rs 1199-1245. *)
Definition alias_mapping (items : list sitem) (gs : list (nat * string))
  : list (string * string) :=
  fold_left (fun m it =>
    match i_expr it, i_as it with
    | SCol (Qual t c), Some a => (t ++ "." ++ c, a) :: m
    | SCol (Qual t c), None =>
        if in_names (t ++ "." ++ c) (map snd gs) then (t ++ "." ++ c, c) :: m else m
    | _, _ => m
    end) items [].

Fixpoint lookup (m : list (string * string)) (n : string) : option string :=
  match m with
  | [] => None
  | (k, v) :: m' => if String.eqb k n then Some v else lookup m' n
  end.

(** Models the HashSet::insert guarded push of src/sql/planner/
    schema_manager.rs 332-336 and 346-348. *)
Definition push_new (acc : list string) (n : string) : list string :=
  if in_names n acc then acc else (acc ++ [n])%list.

(** The columns of the Aggregate node as the planner sees them.
    Models src/sql/planner/schema_manager.rs 304-360 with the column names of
    src/sql/execution/expression_parser.rs 3987-4036 (the function's name). *)
Definition agg_schema (m : list (string * string)) (gs : list (nat * string))
    (aggs : list (aggfn * option (nat * string))) : list string :=
  fold_left push_new
    (map (fun g => match lookup m (snd g) with Some a => a | None => snd g end) gs ++
     map (fun a => fn_name (fst a)) aggs)%list [].

(** Projecting an aggregate item over an Aggregate node.
    Models src/sql/planner/plan_builder.rs 959-992 and 1030-1063. *)
Definition agg_item_index (schema : list string) (i : nat) (f : aggfn)
    (arg : option (nat * string)) : nat :=
  match position (fun col => String.eqb col (agg_column_name f arg) ||
                             starts_with (fn_name f ++ "(") col ||
                             starts_with (fn_name f ++ "_") col) schema with
  | Some k => k
  | None => Nat.min i (length schema - 1)
  end.

(** The name a column item is looked up by in the Aggregate node, and the
    index found.
    Models src/sql/planner/plan_builder.rs 937-949 and 995-1008 (no alias),
    1066-1107 (alias).  An item [e + z] is never found: its name is a formula
    in parentheses. *)
Definition col_item_index (schema : list string) (it : sitem) : option nat :=
  match i_as it with
  | None =>
      match i_expr it with
      | SCol (Bare c) => get_qualified_column_index schema c
      | SCol (Qual t c) => get_qualified_column_index schema (t ++ "." ++ c)
      | _ => None
      end
  | Some a =>
      match get_qualified_column_index schema a with
      | Some i => Some i
      | None =>
          match i_expr it with
          | SCol (Qual t c) =>
              get_qualified_column_index schema
                (if String.eqb t "e" && String.eqb c "name" then "employee"
                 else if String.eqb t "d" && String.eqb c "name" then "department"
                 else t ++ "." ++ c)
          | _ => None
          end
      end
  end.

Definition project_item (schema : list string) (i : nat) (it : sitem) (p : pexpr) : pexpr :=
  match p with
  | PAgg f arg => let k := agg_item_index schema i f arg in PCol k (nth k schema "")
  | _ => match col_item_index schema it with
         | Some k => PCol k (nth k schema "")
         | None => p
         end
  end.

Fixpoint project_items (schema : list string) (i : nat) (items : list sitem)
    (ps : list pexpr) : list pexpr :=
  match items, ps with
  | it :: items', p :: ps' => project_item schema i it p :: project_items schema (S i) items' ps'
  | _, _ => []
  end.

(** HAVING conditions after parsing. *)
Inductive phaving :=
| PHCmp (op : relop) (e : pexpr) (z : Z)
| PHAnd (a b : phaving)
| PHOr (a b : phaving)
| PHNot (a : phaving).

Fixpoint parse_having (cols : list string) (h : shaving) : option phaving :=
  match h with
  | HCmp op e z => option_map (fun p => PHCmp op p z) (parse_expr cols e)
  | HAnd a b => match parse_having cols a, parse_having cols b with
                | Some x, Some y => Some (PHAnd x y)
                | _, _ => None
                end
  | HOr a b => match parse_having cols a, parse_having cols b with
               | Some x, Some y => Some (PHOr x y)
               | _, _ => None
               end
  | HNot a => option_map PHNot (parse_having cols a)
  end.

(** Same aggregate: same type (COUNT star is a type of its own), arguments that
    print the same.
    Models src/sql/execution/expression_parser.rs 4111-4145. *)
Definition same_agg (f : aggfn) (a : option (nat * string)) (g : aggfn)
    (b : option (nat * string)) : bool :=
  fn_eqb f g && match a, b with
                | None, None => true
                | Some (_, n), Some (_, m) => String.eqb n m
                | _, _ => false
                end.

(** The column that holds an aggregate of the HAVING clause: the columns
    before the aggregates are the schema's columns minus the number of
    aggregates (in u32: a negative difference panics in a checked build, and
    is a failure here), plus the aggregate's place.
    Models src/sql/execution/expression_parser.rs 4106-4175. *)
Fixpoint having_agg_index (schema : list string) (total k : nat) (f : aggfn)
    (a : option (nat * string)) (aggs : list (aggfn * option (nat * string))) : option nat :=
  match aggs with
  | [] => None
  | (g, b) :: rest =>
      if same_agg f a g b then
        if Nat.ltb (length schema) total then None
        else if Nat.ltb (length schema - total + k) (length schema)
             then Some (length schema - total + k)
             else having_agg_index schema total (S k) f a rest
      else having_agg_index schema total (S k) f a rest
  end.

(** Models src/sql/execution/expression_parser.rs 4099-4217: aggregates that
    are operands of comparisons, directly or below AND and OR, become column
    references; everything else stays. *)
Definition replace_expr (schema : list string) (aggs : list (aggfn * option (nat * string)))
    (p : pexpr) : option pexpr :=
  match p with
  | PAgg f a => option_map (fun k => PCol k (nth k schema ""))
                  (having_agg_index schema (length aggs) 0 f a aggs)
  | _ => Some p
  end.
Fixpoint replace_having (schema : list string) (aggs : list (aggfn * option (nat * string)))
    (h : phaving) : option phaving :=
  match h with
  | PHCmp op e z => option_map (fun p => PHCmp op p z) (replace_expr schema aggs e)
  | PHAnd a b => match replace_having schema aggs a, replace_having schema aggs b with
                 | Some x, Some y => Some (PHAnd x y)
                 | _, _ => None
                 end
  | PHOr a b => match replace_having schema aggs a, replace_having schema aggs b with
                | Some x, Some y => Some (PHOr x y)
                | _, _ => None
                end
  | PHNot a => Some (PHNot a)
  end.

(** Evaluation of a condition on a row; None is an evaluation error.
    Models comparison, AND, OR and NOT as C50 proves them to be. *)
Fixpoint eval_h (h : phaving) (row : list value) : option (option bool) :=
  match h with
  | PHCmp op e z => option_map (fun v => cmp3 op v z) (eval_p e row)
  | PHAnd a b => match eval_h a row, eval_h b row with
                 | Some x, Some y => Some (and3 x y)
                 | _, _ => None
                 end
  | PHOr a b => match eval_h a row, eval_h b row with
                | Some x, Some y => Some (or3 x y)
                | _, _ => None
                end
  | PHNot a => option_map not3 (eval_h a row)
  end.

(** Models src/sql/execution/executors/filter_executor.rs 186-216. *)
Definition passes (h : phaving) (row : list value) : bool :=
  match eval_h h row with
  | Some (Some true) => true
  | _ => false
  end.

(** A planned SELECT: either a projection of the table's rows, or a projection
    of the rows of an Aggregate node, filtered by HAVING. *)
Inductive plan :=
| PlainPlan (exprs : list pexpr)
| AggPlan (gs : list (nat * string)) (aggs : list (aggfn * option (nat * string)))
    (having : option phaving) (exprs : list pexpr).

(** Models src/sql/planner/plan_builder.rs 526-656.  [cols] are the columns of
    the FROM clause after WHERE.  HAVING without groups and aggregates
    (660-674) is not modelled. *)
Definition plan_select (cols : list string) (items : list sitem) (gs : list colref)
    (having : option shaving) : option plan :=
  match parse_items cols items, parse_groups cols gs with
  | Some ps, Some g =>
      let aggs := top_aggs ps in
      match g, aggs with
      | [], [] => Some (PlainPlan ps)
      | _, _ =>
          if match g with [] => true | _ => validate_group_by g ps end then
            let schema := agg_schema (alias_mapping items g) g aggs in
            match having with
            | None => Some (AggPlan g aggs None (project_items schema 0 items ps))
            | Some h =>
                match parse_having cols h with
                | None => None
                | Some ph =>
                    match replace_having schema aggs ph with
                    | None => None
                    | Some rh => Some (AggPlan g aggs (Some rh) ps)
                    end
                end
            end
          else None
      end
  | _, _ => None
  end.

(** The row the Aggregate node makes of a group: the values of the grouping
    columns, then the values of the aggregates.
    Models src/sql/execution/executors/aggregation_executor.rs 599-611 (the
    row's length is that of the schema of aggregation_plan.rs 36-67 when all
    grouping expressions are columns). *)
Definition agg_row (aggv : agg -> value) (row : list value) (gs : list (nat * string))
    (aggs : list (aggfn * option (nat * string))) : list value :=
  (map (fun g => nth (fst g) row None) gs ++
   map (fun a => aggv (Agg (fst a) (option_map fst (snd a)))) aggs)%list.

(** Projection of a row; None when an expression has an invalid column index,
    and then the row is left out.
    Models src/sql/execution/executors/projection_executor.rs 256-300. *)
Fixpoint eval_all (ps : list pexpr) (row : list value) : option (list value) :=
  match ps with
  | [] => Some []
  | p :: rest => match eval_p p row, eval_all rest row with
                 | Some v, Some vs => Some (v :: vs)
                 | _, _ => None
                 end
  end.

Definition opt_list {A} (o : option A) : list A := match o with Some x => [x] | None => [] end.

(** A group: its rows' aggregates and one of its rows. *)
Definition group := ((agg -> value) * list value)%type.

(** The rows of the answer, for the rows of the table and its groups in the
    order in which the hash table gives them. *)
Definition run (p : plan) (rows : list (list value)) (groups : list group)
  : list (list value) :=
  match p with
  | PlainPlan ps => flat_map (fun r => opt_list (eval_all ps r)) rows
  | AggPlan gs aggs h ps =>
      flat_map (fun g => opt_list (eval_all ps (agg_row (fst g) (snd g) gs aggs)))
        (filter (fun g => match h with
                          | None => true
                          | Some ph => passes ph (agg_row (fst g) (snd g) gs aggs)
                          end) groups)
  end.

(** ** ORDER BY *)

(** The names of the output columns.
    Models src/sql/planner/plan_builder.rs 937-954 and 1023-1026; the printed
    form of [e + z] is not modelled (a name no identifier can be). *)
Definition output_name (it : sitem) (p : pexpr) : string :=
  match i_as it with
  | Some a => a
  | None =>
      match i_expr it with
      | SCol (Bare c) => c
      | SCol (Qual t c) => t ++ "." ++ c
      | _ => match p with
             | PAgg f a => agg_column_name f a
             | _ => "(formula)"
             end
      end
  end.
Fixpoint output_names (items : list sitem) (ps : list pexpr) : list string :=
  match items, ps with
  | it :: items', p :: ps' => output_name it p :: output_names items' ps'
  | _, _ => []
  end.

(** A planned SELECT with ORDER BY: sort keys over the answer, or sort keys over
    the rows of the table with a projection above the sort. *)
Inductive sorted_plan :=
| SortAnswer (keys : list pexpr) (p : plan)
| SortTable (keys : list pexpr) (exprs : list pexpr).

Fixpoint parse_all (cols : list string) (es : list sexpr) : option (list pexpr) :=
  match es with
  | [] => Some []
  | e :: rest => match parse_expr cols e, parse_all cols rest with
                 | Some p, Some ps => Some (p :: ps)
                 | _, _ => None
                 end
  end.

(** Models src/sql/planner/plan_builder.rs 685-770: if one of the keys does
    not parse against the output columns, everything built since WHERE is
    dropped, the rows of the table are sorted and the SELECT list is projected
    from them (build_projection_plan_with_schema over a Sort node: the items as
    parsed). *)
Definition plan_ordered (cols : list string) (items : list sitem) (gs : list colref)
    (having : option shaving) (order : list sexpr) : option sorted_plan :=
  match plan_select cols items gs having, parse_items cols items with
  | Some p, Some ps =>
      match parse_all (output_names items ps) order with
      | Some keys => Some (SortAnswer keys p)
      | None => match parse_all cols order with
                | Some keys => Some (SortTable keys ps)
                | None => None
                end
      end
  | _, _ => None
  end.

(** The rows of the answer before they are put in order. *)
Definition run_unsorted (p : sorted_plan) (rows : list (list value)) (groups : list group)
  : list (list value) :=
  match p with
  | SortAnswer _ q => run q rows groups
  | SortTable _ ps => flat_map (fun r => opt_list (eval_all ps r)) rows
  end.

(** The key an answer row is sorted by. *)
Definition sort_key (p : sorted_plan) (row : list value) : option (list value) :=
  match p with
  | SortAnswer keys _ => eval_all keys row
  | SortTable keys _ => eval_all keys row
  end.
