(** * Quantified comparisons, IN lists and subqueries

    Models src/sql/execution/expressions/{any,all,in,exists,subquery,array}_expression.rs
    and the parts of src/sql/execution/expression_parser.rs that build them, on top of
    the scalar expressions of ExprModel.

    Simplifications, for the whole file:
    - A name has already been resolved: [ECol i] in the select list of a subquery is
      the i-th column of the first table of its FROM clause, which is the schema
      parse_setexpr resolves it with (expression_parser.rs:3178-3202).
    - FROM has one table; a subquery without FROM, with a derived table, with a set
      operation or with several select items (an error, 2302-2304) is left out.
    - The aggregate functions of a select list are one constructor, since evaluation
      never gets as far as telling them apart.
    - evaluate_join, the copy of each evaluator that takes two tuples, is left out. *)
From Coq Require Import String ZArith List Bool.
From Verif Require Import ExprModel.
Import ListNotations.
Open Scope Z_scope.

(** The loop of src/sql/execution/expressions/any_expression.rs:77-97; [null] is
    found_null.  compare_values (45-58) calls compare_* without casting. *)
Fixpoint any_loop (op : cmpop) (x : val) (l : list val) (null : bool) : val :=
  match l with
  | [] => if null then VNull else VBool false
  | y :: r =>
      match compare_op op x y with
      | CmpTrue => VBool true
      | CmpNull => any_loop op x r true
      | CmpFalse => any_loop op x r null
      end
  end.

(** The loop of src/sql/execution/expressions/all_expression.rs:62-96: FALSE and NULL
    are both returned at once. *)
Fixpoint all_loop (op : cmpop) (x : val) (l : list val) : val :=
  match l with
  | [] => VBool true
  | y :: r =>
      match compare_op op x y with
      | CmpFalse => VBool false
      | CmpNull => VNull
      | CmpTrue => all_loop op x r
      end
  end.

(** src/sql/execution/expressions/array_expression.rs:30-50 and
    tuple_expression.rs:28-35: the elements, from left to right. *)
Fixpoint eval_array (l : list expr) (r : row) : res (list val) :=
  match l with
  | [] => Ok []
  | e :: l => bind (eval e r) (fun v => bind (eval_array l r) (fun vs => Ok (v :: vs)))
  end.

(** src/sql/execution/expression_parser.rs:1289-1484: the value an item of an IN list
    is replaced with when the statement is parsed.  A literal or constant keeps its
    value (the narrowing of 1299-1373 does not change what it is equal to); anything
    else becomes NULL (1468-1473). *)
Definition list_item (e : expr) : val :=
  match e with EConst v => v | _ => VNull end.

(** What the select list of a subquery holds. *)
Inductive item :=
| IExpr (e : expr)          (* a column, a constant, an operator *)
| IFun (e : expr)           (* a scalar function call with the value of [e] *)
| IAgg (e : expr).          (* COUNT, SUM, AVG, MIN or MAX of [e] *)

(** SELECT item FROM sfrom WHERE swhere. *)
Record subquery := { sitem : item; sfrom : nat; swhere : expr }.

(** src/sql/execution/expressions/subquery_expression.rs:14-20, SubqueryType, restricted
    to the two that the parser makes. *)
Inductive stype := SScalar | SInList.

(** The database a statement runs on: a table's column count and its rows. *)
Definition db := nat -> option (nat * list row).

(** src/sql/execution/expression_parser.rs:3264-3391,
    determine_subquery_type_and_return_type, without the return type. *)
Definition subquery_type (it : item) : stype :=
  match it with IExpr _ => SInList | IFun _ => SScalar | IAgg _ => SScalar end.

(** Every column an expression mentions lies below [n]: resolving the others fails
    (expression_parser.rs:298-400). *)
Fixpoint cols_ok (n : nat) (e : expr) : bool :=
  match e with
  | ECol i => (i <? n)%nat
  | EConst _ => true
  | EArith _ a b | ECmp _ a b | EAnd a b | EOr a b | EDistinct _ a b | ECoalesce a b =>
      cols_ok n a && cols_ok n b
  | ENot a | ENeg a | EIs _ _ a | EIn _ a _ | ECast a _ => cols_ok n a
  | ECase c t f => cols_ok n c && cols_ok n t && cols_ok n f
  end.

Definition item_expr (it : item) : expr :=
  match it with IExpr e | IFun e | IAgg e => e end.

(** src/sql/execution/expression_parser.rs:3167-3251, parse_subquery and parse_setexpr:
    the catalog must know the table and the table must have the columns of the select
    list; WHERE is not looked at. *)
Definition parse_subquery (d : db) (q : subquery) : option (stype * item) :=
  match d (sfrom q) with
  | None => None
  | Some (n, _) =>
      if cols_ok n (item_expr (sitem q)) then Some (subquery_type (sitem q), sitem q)
      else None
  end.

(** A value, or the Val::Vector of src/types_db/value.rs:28. *)
Inductive sval := Sc (v : val) | Vec (l : list val).

(** src/sql/execution/expressions/subquery_expression.rs:130-187, evaluate, on the row of
    the enclosing query; cached_result is never filled in (with_cached_result, 48, has
    no caller). *)
Definition eval_subquery (s : stype * item) (r : row) : res sval :=
  match fst s with
  | SScalar =>
      match snd s with
      | IAgg _ => Err
      | it => bind (eval (item_expr it) r) (fun v => Ok (Sc v))
      end
  | SInList => bind (eval (item_expr (snd s)) r) (fun v => Ok (Vec [v]))
  end.

(** A condition, as written. *)
Inductive cond :=
| CExpr (e : expr)                                         (* an ordinary condition *)
| CAny (op : cmpop) (x : expr) (l : list expr)             (* x op ANY (ARRAY[l]) *)
| CAll (op : cmpop) (x : expr) (l : list expr)             (* x op ALL (ARRAY[l]) *)
| CIn (neg : bool) (x : expr) (l : list expr)              (* x [NOT] IN (l) *)
| CInSub (neg : bool) (x : expr) (q : subquery)            (* x [NOT] IN (q) *)
| CExists (neg : bool) (q : subquery)                      (* [NOT] EXISTS (q) *)
| CCmpSub (op : cmpop) (x : expr) (q : subquery).          (* x op (q) *)

(** What the parser builds: expression_parser.rs:978-1008, 1277-1508, 1823-1836. *)
Inductive pcond :=
| PExpr (e : expr)
| PAny (op : cmpop) (x : expr) (l : list expr)
| PAll (op : cmpop) (x : expr) (l : list expr)
| PInSub (neg : bool) (x : expr) (s : stype * item)
| PExists (neg : bool) (s : stype * item)
| PCmpSub (op : cmpop) (x : expr) (s : stype * item).

Definition parse_cond (d : db) (c : cond) : option pcond :=
  match c with
  | CExpr e => Some (PExpr e)
  | CAny op x l => Some (PAny op x l)
  | CAll op x l => Some (PAll op x l)
  | CIn neg x l => Some (PExpr (EIn neg x (map list_item l)))
  | CInSub neg x q => option_map (PInSub neg x) (parse_subquery d q)
  | CExists neg q => option_map (PExists neg) (parse_subquery d q)
  | CCmpSub op x q => option_map (PCmpSub op x) (parse_subquery d q)
  end.

(** src/sql/execution/expressions/in_expression.rs:94-109, evaluate_subquery. *)
Definition in_subquery (x : val) (s : sval) : val :=
  match s with
  | Vec l => check_in x l
  | Sc VNull => VNull
  | Sc v => check_in x [v]
  end.

(** src/sql/execution/expressions/comparison_expression.rs:80-132 when the right side may
    be a vector: nothing of the modelled types casts to or from one
    (src/types_db/value.rs:1063-1084), so the comparison is an error unless the left
    side is NULL. *)
Definition compare_subquery (op : cmpop) (x : val) (s : sval) : res val :=
  match s with
  | Sc v => bind (perform_comparison op x v) (fun c => Ok (of_cmpbool c))
  | Vec _ => match x with VNull => Ok VNull | _ => Err end
  end.

(** evaluate: any_expression.rs:62-98, all_expression.rs:45-97, in_expression.rs:228-252,
    exists_expression.rs:33-41 (a vector is not NULL), comparison_expression.rs:150-167. *)
Definition eval_cond (c : pcond) (r : row) : res val :=
  match c with
  | PExpr e => eval e r
  | PAny op x l => bind (eval x r) (fun v => bind (eval_array l r) (fun vs => Ok (any_loop op v vs false)))
  | PAll op x l => bind (eval x r) (fun v => bind (eval_array l r) (fun vs => Ok (all_loop op v vs)))
  | PInSub neg x s =>
      bind (eval x r) (fun v => bind (eval_subquery s r) (fun w =>
        if neg then perform_not (in_subquery v w) else Ok (in_subquery v w)))
  | PExists neg s =>
      bind (eval_subquery s r) (fun w =>
        let null := match w with Sc VNull => true | _ => false end in
        Ok (VBool (if neg then null else negb null)))
  | PCmpSub op x s =>
      bind (eval x r) (fun v => bind (eval_subquery s r) (fun w => compare_subquery op v w))
  end.

(** src/sql/execution/executors/filter_executor.rs:186-216: an error, NULL or any other
    value drops the row. *)
Definition cond_pass (c : pcond) (r : row) : bool :=
  match eval_cond c r with Ok (VBool b) => b | _ => false end.

(** SELECT * FROM t WHERE c: the filter executor over a scan of [t]; [None] is an error
    when the statement is planned. *)
Definition run_select (d : db) (t : nat) (c : cond) : option (list row) :=
  match d t, parse_cond d c with
  | Some (_, rows), Some p => Some (filter (cond_pass p) rows)
  | _, _ => None
  end.
