(** Specification for C122: queries with the clauses the parser accepts, and what they
    mean.  The planner and the executors are not mentioned.  A SELECT over one table
    without the further clauses means what QrySpec.v (C98) says. *)
From Coq Require Import Strings.String ZArith List Bool.
From Verif Require Import ExprModel ExprSpec ExecSpec NameSpec QrySpec.
Import ListNotations.
Local Open Scope nat_scope.
Local Open Scope list_scope.

(** ** Queries *)

(** [SELECT], [SELECT DISTINCT], [SELECT DISTINCT ON (...)]. *)
Inductive distinct := AllRows | DistinctRows | DistinctOn (keys : list nexpr).

(** [SELECT [DISTINCT] [TOP n] items [INTO t] FROM t WHERE .. SORT BY .. QUALIFY ..]. *)
Record select := Select {
  s_distinct : distinct;
  s_top : option nat;
  s_items : list sitem;
  s_into : option string;
  s_from : string;
  s_where : option nexpr;
  s_sort_by : list okey;
  s_qualify : option nexpr
}.

(** What follows the body of a query: ORDER BY, OFFSET, LIMIT, [LIMIT n BY keys], FETCH,
    [FOR UPDATE]. *)
Record tail := Tail {
  t_order : list okey;
  t_offset : option nat;
  t_limit : option nat;
  t_limit_by : list nexpr;
  t_fetch : option fetch;
  t_for_update : bool
}.

(** A query has named queries before it (WITH), a body and a tail.  A body is a SELECT, a
    query in parentheses, a UNION of two bodies or [TABLE t]. *)
Inductive stmt := Stmt (ctes : list (string * stmt)) (b : body) (t : tail)
with body :=
| BSelect (s : select)
| BParens (q : stmt)
| BUnion (a b : body)
| BTable (t : string).

(** ** Meaning *)

(** The tables: column names and rows. *)
Definition database := string -> option (list string * list row).
Definition add_table (n : string) (t : list string * list row) (db : database) : database :=
  fun m => if String.eqb m n then Some t else db m.

(** The SELECT with the clauses of C98 only. *)
Definition whole (s : select) (t : tail) : query :=
  Query (match s_distinct s with AllRows => false | _ => true end)
    (s_items s) (s_where s) (t_order t) (t_offset t) (t_limit t) (t_fetch t).
Definition ordinary_select (s : select) : Prop :=
  s_top s = None /\ (forall keys, s_distinct s <> DistinctOn keys) /\
  s_into s = None /\ s_sort_by s = [] /\ s_qualify s = None.
Definition ordinary_fetch (f : option fetch) : Prop :=
  match f with Some f => f_percent f = false /\ f_ties f = false | None => True end.
Definition ordinary_tail (t : tail) : Prop :=
  t_limit_by t = [] /\ t_for_update t = false /\ ordinary_fetch (t_fetch t).
(** [SELECT * FROM t]. *)
Definition star (t : string) : select := Select AllRows None [IStar] None t None [] None.
Definition no_tail : tail := Tail [] None None [] None false.

(** OFFSET, LIMIT and FETCH of a tail. *)
Definition cut (t : tail) (l : list row) : list row :=
  slice (Query false [] None [] (t_offset t) (t_limit t) (t_fetch t)) l.

(** The result column [i] is the only one called [c]. *)
Definition one_called (names : list (option string)) (c : string) (i : nat) : Prop :=
  nth_error names i = Some (Some c) /\ forall j, nth_error names j = Some (Some c) -> j = i.

(** [means db q names ans]: the result of [q] has columns called [names] and the rows
    [ans].  A named query is a table for the rest of the query; [TOP n] keeps the first
    [n] rows; a query in parentheses is answered first. *)
Inductive means : database -> stmt -> list (option string) -> list row -> Prop :=
| mn_with db n c ctes b t cols1 ans1 names ans :
    means db c (map Some cols1) ans1 ->
    means (add_table n (cols1, ans1) db) (Stmt ctes b t) names ans ->
    means db (Stmt ((n, c) :: ctes) b t) names ans
| mn_select db s t cols rows ans :
    db (s_from s) = Some (cols, rows) -> ordinary_select s -> ordinary_tail t ->
    answer cols (whole s t) rows ans ->
    means db (Stmt [] (BSelect s) t) (map called (written_out cols (s_items s))) ans
| mn_top db n d items f w names ans t :
    t = Tail (t_order t) None None [] None false ->
    means db (Stmt [] (BSelect (Select d None items None f w [] None)) t) names ans ->
    means db (Stmt [] (BSelect (Select d (Some n) items None f w [] None)) t) names (firstn n ans)
| mn_parens db q t names ans specs sorted :
    means db q names ans -> ordinary_tail t ->
    Forall2 (fun k s => exists c i, k_expr k = NCol c /\ k_nulls_first k = None /\
                          one_called names c i /\ s = (ECol i, k_desc k))
      (t_order t) specs ->
    is_sorted_version specs ans sorted ->
    means db (Stmt [] (BParens q) t) names (cut t sorted).

(** What the other clauses demand of the rows returned.  DISTINCT ON: no two rows have
    the same values in the columns [js].  [LIMIT n BY]: of the rows with the same values
    in the columns [js], the first [n].  QUALIFY (without window functions): the condition
    holds of every row. *)
Definition at_columns (js : list nat) (r : row) : list (option val) := map (nth_error r) js.
Definition demand_distinct_on (js : list nat) (ans : list row) : Prop :=
  NoDup (map (at_columns js) ans).
Definition demand_limit_by (n : nat) (js : list nat) (rows ans : list row) : Prop :=
  forall group : row -> bool,
    (forall a b, group a = true -> (group b = true <-> at_columns js a = at_columns js b)) ->
    filter group ans = firstn n (filter group rows).
Definition demand_qualify (e : expr) (ans : list row) : Prop :=
  Forall (fun r => eval e r = Ok (VBool true)) ans.

(** ** The queries the theorem ranges over *)

(** The SELECT list at the bottom of nested parentheses, stars written out. *)
Fixpoint shown_items (db : database) (q : stmt) : option (list (nexpr * option string)) :=
  match q with
  | Stmt _ b _ => shown_items_body db b
  end
with shown_items_body (db : database) (b : body) : option (list (nexpr * option string)) :=
  match b with
  | BSelect s => option_map (fun t => written_out (fst t) (s_items s)) (db (s_from s))
  | BParens q => shown_items db q
  | _ => None
  end.

(** The key is the name of exactly one result column; unnamed columns, which the engine
    calls by their text, are not called so and have no dot in it. *)
Definition fine_key (text : nexpr -> string) (its : list (nexpr * option string)) (k : okey) : Prop :=
  k_nulls_first k = None /\
  exists c i, k_expr k = NCol c /\ one_called (map called its) c i /\
    forall it, In it its -> called it = None -> text (fst it) <> c.

(** At every depth: only the clauses of C98, and the conditions of C98 on the SELECT. *)
Fixpoint fine (text : nexpr -> string) (dbg : val -> string) (db : database) (q : stmt) : Prop :=
  match q with
  | Stmt ctes b t => ctes = [] /\ ordinary_tail t /\ fine_body text dbg db b t
  end
with fine_body (text : nexpr -> string) (dbg : val -> string) (db : database) (b : body) (t : tail) : Prop :=
  match b with
  | BSelect s =>
      ordinary_select s /\
      exists cols rows, db (s_from s) = Some (cols, rows) /\
        legal cols (whole s t) /\ quiet text cols (whole s t) /\ computable cols (whole s t) rows /\
        (s_distinct s = DistinctRows -> dbg_faithful dbg /\ exists tys, forall kept outs,
           keeps cols (s_where s) rows kept -> Forall2 (shows cols (s_items s)) kept outs ->
           Forall (plain_row dbg tys) outs)
  | BParens q =>
      fine text dbg db q /\
      exists its, shown_items db q = Some its /\ Forall (fine_key text its) (t_order t)
  | BUnion _ _ | BTable _ => False
  end.

(** The same query without the clauses that are not obeyed, DISTINCT ON read as
    DISTINCT, SORT BY read as ascending, LIMIT .. BY as LIMIT, FETCH as FETCH .. ONLY. *)
Definition bare_select (s : select) : select :=
  Select (match s_distinct s with AllRows => AllRows | _ => DistinctRows end) None (s_items s) None
    (s_from s) (s_where s) (map (fun k => Key (k_expr k) false None) (s_sort_by s)) None.
Definition bare_tail (t : tail) : tail :=
  Tail (map (fun k => Key (k_expr k) (k_desc k) None) (t_order t)) (t_offset t) (t_limit t) []
    (option_map (fun f => Fetch (f_quantity f) false false) (t_fetch t)) false.
Fixpoint bare (q : stmt) : stmt :=
  match q with Stmt _ b t => Stmt [] (bare_body b) (bare_tail t) end
with bare_body (b : body) : body :=
  match b with
  | BSelect s => BSelect (bare_select s)
  | BParens q => BParens (bare q)
  | BUnion x y => BUnion x y
  | BTable t => BTable t
  end.

(** A UNION or [TABLE t] at the bottom. *)
Fixpoint unsupported (q : stmt) : Prop :=
  match q with Stmt _ b _ => unsupported_body b end
with unsupported_body (b : body) : Prop :=
  match b with
  | BSelect _ => False
  | BParens q => unsupported q
  | BUnion _ _ | BTable _ => True
  end.
