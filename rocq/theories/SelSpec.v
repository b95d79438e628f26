(** Specification for C94 and C95: what a grouped SELECT returns.  The syntax
    of the queries, and their meaning by the SQL standard; nothing here refers
    to the model. *)
From Coq Require Import Strings.String ZArith List Bool.
From Verif Require Import NameSpec.
Import ListNotations.

(** NULL or a number. *)
Definition value := option Z.

(** ** Queries as they are written *)
Inductive aggfn := Count | Sum | Avg | Min | Max | StdDev | Variance.

(** A column reference: [c] or [t.c]. *)
Inductive colref := Bare (c : string) | Qual (t c : string).

(** An expression: a column, an aggregate of a star (None) or of a column, [e + z]. *)
Inductive sexpr :=
| SCol (r : colref)
| SAgg (f : aggfn) (arg : option colref)
| SPlus (e : sexpr) (z : Z).

(** An item of the SELECT list, with its AS name if it has one. *)
Record sitem := Item { i_expr : sexpr; i_as : option string }.

Inductive relop := Gt | Eq | Lt.

(** HAVING conditions. *)
Inductive shaving :=
| HCmp (op : relop) (e : sexpr) (z : Z)
| HAnd (a b : shaving)
| HOr (a b : shaving)
| HNot (a : shaving).

(** ** What the expressions mean *)

(** Aggregates and items once the names are resolved to columns. *)
Record agg := Agg { a_fn : aggfn; a_arg : option nat }.
Inductive item :=
| Column (i : nat)
| Aggregate (a : agg)
| Plus (e : item) (z : Z).

Definition col_means (sc : list source) (r : colref) (i : nat) : Prop :=
  match r with
  | Bare c => unqualified_at sc c i
  | Qual t c => qualified_at sc t c i
  end.

Inductive means (sc : list source) : sexpr -> item -> Prop :=
| means_col r i : col_means sc r i -> means sc (SCol r) (Column i)
| means_star f : means sc (SAgg f None) (Aggregate (Agg f None))
| means_agg f r i : col_means sc r i -> means sc (SAgg f (Some r)) (Aggregate (Agg f (Some i)))
| means_plus e it z : means sc e it -> means sc (SPlus e z) (Plus it z).

(** The value of an item for one group of rows.  [aggv] says what the
    aggregates are over the rows of the group; [row] is one of these rows (they
    agree on the grouping columns). *)
Fixpoint item_value (aggv : agg -> value) (row : list value) (it : item) : value :=
  match it with
  | Column i => nth i row None
  | Aggregate a => aggv a
  | Plus e z => option_map (fun x => (x + z)%Z) (item_value aggv row e)
  end.

(** Conditions: true, false or unknown (None). *)
Definition cmp3 (op : relop) (v : value) (z : Z) : option bool :=
  match v with
  | None => None
  | Some x => Some (match op with
                    | Gt => Z.gtb x z
                    | Eq => Z.eqb x z
                    | Lt => Z.ltb x z
                    end)
  end.
Definition and3 (a b : option bool) : option bool :=
  match a, b with
  | Some false, _ | _, Some false => Some false
  | Some true, Some true => Some true
  | _, _ => None
  end.
Definition or3 (a b : option bool) : option bool :=
  match a, b with
  | Some true, _ | _, Some true => Some true
  | Some false, Some false => Some false
  | _, _ => None
  end.
Definition not3 (a : option bool) : option bool := option_map negb a.

Inductive having_value (sc : list source) (aggv : agg -> value) (row : list value)
  : shaving -> option bool -> Prop :=
| hv_cmp op e it z : means sc e it ->
    having_value sc aggv row (HCmp op e z) (cmp3 op (item_value aggv row it) z)
| hv_and a b x y : having_value sc aggv row a x -> having_value sc aggv row b y ->
    having_value sc aggv row (HAnd a b) (and3 x y)
| hv_or a b x y : having_value sc aggv row a x -> having_value sc aggv row b y ->
    having_value sc aggv row (HOr a b) (or3 x y)
| hv_not a x : having_value sc aggv row a x -> having_value sc aggv row (HNot a) (not3 x).

(** The row a group contributes: the values of the SELECT items. *)
Definition shows (sc : list source) (aggv : agg -> value) (row : list value)
    (items : list sitem) (out : list value) : Prop :=
  Forall2 (fun it v => exists m, means sc (i_expr it) m /\ v = item_value aggv row m) items out.

(** ** The queries the theorems range over *)

(** The functions' names in SQL. *)
Definition sql_name (f : aggfn) : string :=
  match f with
  | Count => "COUNT" | Sum => "SUM" | Avg => "AVG" | Min => "MIN" | Max => "MAX"
  | StdDev => "STDDEV" | Variance => "VARIANCE"
  end.

(** A grouping column written by its name, or an aggregate over all rows
    (COUNT only) or over a column, with or without an alias. *)
Definition legal_item (cols gs : list string) (it : sitem) : Prop :=
  match i_expr it with
  | SCol (Bare c) => In c gs /\ i_as it = None
  | SAgg f None => f = Count
  | SAgg f (Some (Bare c)) => In c cols
  | _ => False
  end.
Definition is_column (it : sitem) : Prop := exists c, i_expr it = SCol (Bare c).
Definition is_aggregate (it : sitem) : Prop := exists f a, i_expr it = SAgg f a.
Definition functions (items : list sitem) : list aggfn :=
  flat_map (fun it => match i_expr it with SAgg f _ => [f] | _ => [] end) items.

(** No grouping column is called like an aggregate of the list: FN, FN_... or
    FN followed by a parenthesis. *)
Definition no_clash (gs : list string) (items : list sitem) : Prop :=
  forall f g, In f (functions items) -> In g gs ->
    g <> sql_name f /\
    (forall s, g <> (sql_name f ++ "_" ++ s)%string) /\
    (forall s, g <> (sql_name f ++ "(" ++ s)%string).

(** HAVING conditions made of comparisons of aggregates of the SELECT list. *)
Inductive over_items (items : list sitem) : shaving -> Prop :=
| oi_cmp op f a z it : In it items -> i_expr it = SAgg f a ->
    over_items items (HCmp op (SAgg f a) z)
| oi_and a b : over_items items a -> over_items items b -> over_items items (HAnd a b)
| oi_or a b : over_items items a -> over_items items b -> over_items items (HOr a b).

(** The name a result column has by the query's text. *)
Definition called (it : sitem) : option string :=
  match i_as it, i_expr it with
  | Some a, _ => Some a
  | None, SCol (Bare c) => Some c
  | None, _ => None
  end.
