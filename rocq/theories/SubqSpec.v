(** * What quantified comparisons and subqueries mean in SQL

    Independent of the model's evaluator: it uses the meaning [sem] of scalar
    expressions and the three-valued comparison [sql_cmp] of ExprSpec only.  [None] is
    a run-time error.  FALSE is 0, UNKNOWN 1 and TRUE 2. *)
From Coq Require Import String ZArith List Bool.
From Verif Require Import ExprModel ExprSpec SubqModel.
Import ListNotations.
Open Scope Z_scope.

(** The truth values of [x op y] for all y of the list, if they are all defined. *)
Fixpoint each (op : cmpop) (x : val) (l : list val) : option (list Z) :=
  match l with
  | [] => Some []
  | y :: r =>
      match obind (sql_cmp op x y) truth, each op x r with
      | Some t, Some ts => Some (t :: ts)
      | _, _ => None
      end
  end.

(** ANY is the disjunction of the comparisons, ALL their conjunction. *)
Definition disj (ts : list Z) : Z := fold_right Z.max 0 ts.
Definition conj (ts : list Z) : Z := fold_right Z.min 2 ts.

Definition sql_any (op : cmpop) (x : val) (l : list val) : option val :=
  option_map (fun ts => of_truth (disj ts)) (each op x l).
Definition sql_all (op : cmpop) (x : val) (l : list val) : option val :=
  option_map (fun ts => of_truth (conj ts)) (each op x l).

(** [x IN l] is [x = ANY l]; NOT IN is its negation. *)
Definition sql_in_list (neg : bool) (x : val) (l : list val) : option val :=
  option_map (fun ts => of_truth (if neg then 2 - disj ts else disj ts)) (each Eq x l).

(** The values of a list of expressions. *)
Fixpoint values (l : list expr) (r : row) : option (list val) :=
  match l with
  | [] => Some []
  | e :: l =>
      match sem e r, values l r with Some v, Some vs => Some (v :: vs) | _, _ => None end
  end.

(** The rows a subquery selects: those of its own table for which WHERE is TRUE. *)
Definition sub_rows (d : db) (q : subquery) : list row :=
  match d (sfrom q) with
  | None => []
  | Some (_, rows) =>
      filter (fun r => match sem (swhere q) r with Some (VBool true) => true | _ => false end) rows
  end.

(** The one-column result of a subquery without aggregates. *)
Fixpoint column_of (e : expr) (rows : list row) : option (list val) :=
  match rows with
  | [] => Some []
  | r :: l =>
      match sem e r, column_of e l with Some v, Some vs => Some (v :: vs) | _, _ => None end
  end.
Definition sub_values (d : db) (q : subquery) : option (list val) :=
  match sitem q with
  | IExpr e | IFun e => column_of e (sub_rows d q)
  | IAgg _ => None
  end.

(** [EXISTS (q)] asks whether [q] has a row. *)
Definition sql_exists (neg : bool) (d : db) (q : subquery) : bool :=
  xorb neg (match sub_rows d q with [] => false | _ => true end).

(** The value of [q] where one value is expected: NULL if it has no row, an error if it
    has more than one. *)
Definition sql_scalar (d : db) (q : subquery) : option val :=
  match sub_values d q with
  | Some [] => Some VNull
  | Some [v] => Some v
  | _ => None
  end.
