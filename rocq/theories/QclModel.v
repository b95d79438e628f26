(** * Planning of whole queries (C122)

    Models src/sql/planner/plan_builder.rs: build_query_plan (299-443) with its bodies
    and tail, and the parts of build_select_plan_with_order_by (488-803) that decide
    which clauses are read.  The planner reads [query.body], [query.order_by],
    [query.limit_clause] and [query.fetch], and of a SELECT its distinct, from, group_by,
    having, projection, selection and sort_by; the other fields of the parser's tree are
    never mentioned there.

    Simplifications:
    - FROM is one table without an alias; GROUP BY, HAVING, window functions, VALUES and
      UPDATE as bodies are left out (VALUES: C123).
    - The planning of the SELECT itself is that of QryModel.v (C98).
    - ORDER BY ALL is refused by the code and left out. *)
From Coq Require Import Strings.String ZArith List Bool.
From Verif Require Import ExprModel ExecModel NameModel QrySpec QryModel QclSpec.
Import ListNotations.
Local Open Scope nat_scope.
Local Open Scope list_scope.

(** What the planner makes of a query: the table scanned at the bottom
    (plan_builder.rs:1717-1749), the names of the plan's schema, and the plan. *)
Definition planned : Type := (string * list string * plan)%type.

(** The part of a SELECT the planner reads; DISTINCT ON is read as DISTINCT.
    Models plan_builder.rs:506-507 (selection), 655 (projection) and 677
    ([select.distinct.is_some()]). *)
Definition read_select (s : select) (order : list okey) : query :=
  Query (match s_distinct s with AllRows => false | DistinctRows => true | DistinctOn _ => true end)
    (s_items s) (s_where s) order None None None.

(** Models src/sql/execution/expression_parser.rs:3464-3503,
    parse_expression_with_fallback. *)
Definition parse_with_fallback (names cols : list string) (n : nexpr) : option expr :=
  match parse_expression names n with
  | Some e => Some e
  | None => parse_expression cols n
  end.

(** Models plan_builder.rs:773-800: SORT BY, always ascending. *)
Definition apply_sort_by (names cols : list string) (keys : list okey) (p : plan) : option plan :=
  match keys with
  | [] => Some p
  | _ => option_map (fun es => PSort (map (fun e => (e, false)) es) p)
           (all_some (map (fun k => parse_with_fallback names cols (k_expr k)) keys))
  end.

(** Models plan_builder.rs:488-803 for one table. *)
Definition plan_select (text : nexpr -> string) (db : database) (s : select) (order : list okey) : option planned :=
  match db (s_from s) with
  | None => None
  | Some (cols, _) =>
      match build_select_plan text cols (read_select s order), projection text cols (s_items s) with
      | Some p, Some proj =>
          option_map (fun p => (s_from s, map snd proj, p)) (apply_sort_by (map snd proj) cols (s_sort_by s) p)
      | _, _ => None
      end
  end.

(** Models plan_builder.rs:346-366: ORDER BY of a body that is no SELECT. *)
Definition apply_order_by (order : list okey) (r : planned) : option planned :=
  let '(t, names, p) := r in
  match order with
  | [] => Some r
  | _ => option_map (fun specs => (t, names, PSort specs p)) (parse_order_by names order)
  end.

(** Models plan_builder.rs:368-441; [LimitOffset { limit, offset, .. }] drops the keys of
    LIMIT BY. *)
Definition apply_limits (tl : tail) (r : planned) : planned :=
  let '(t, names, p) := r in
  let p := match t_offset tl with Some m => POffset m p | None => p end in
  let p := match t_limit tl with Some n => PLimit n p | None => p end in
  let p := match t_fetch tl with Some f => PLimit (f_quantity f) p | None => p end in
  (t, names, p).

(** Models plan_builder.rs:299-443; the named queries of WITH and the locks of FOR UPDATE
    are not looked at.  The bodies: 302-343. *)
Fixpoint plan_query (text : nexpr -> string) (db : database) (q : stmt) : option planned :=
  match q with
  | Stmt _ b tl => option_map (apply_limits tl) (plan_body text db b (t_order tl))
  end
with plan_body (text : nexpr -> string) (db : database) (b : body) (order : list okey) : option planned :=
  match b with
  | BSelect s => plan_select text db s order
  | BParens q =>
      match plan_query text db q with
      | Some r => apply_order_by order r
      | None => None
      end
  | BUnion _ _ => None
  | BTable _ => None
  end.

(** The plan is made and drained over the stored rows of the table it scans. *)
Definition executes (text : nexpr -> string) (dbg : val -> string) (db : database) (q : stmt)
  (out : list (item row)) : Prop :=
  exists t names p cols rows, plan_query text db q = Some (t, names, p) /\
    db t = Some (cols, rows) /\ runs dbg rows p out.
