(** * Evaluation over one row and over two *)
(** ExpressionOps::evaluate and evaluate_join in src/sql/execution/expressions/. None is an error. *)
From Coq Require Import ZArith.
From stdpp Require Import list.
From Verif Require Import CastSpec CastModel FltSpec FltModel EjSpec.
Local Open Scope Z_scope.

Definition int_of (v : val) : option (cty * Z) :=
  match v with
  | VTiny z => Some (TTiny, z) | VSmall z => Some (TSmall, z) | VInt z => Some (TInt, z) | VBig z => Some (TBig, z)
  | _ => None
  end.
(** checked_add, checked_sub, checked_mul and checked_div in the type [t]; None also for a division by zero. *)
Definition checked (t : cty) (op : aop) (x y : Z) : option val :=
  let z := match op with
           | Plus => Some (x + y) | Minus => Some (x - y) | Times => Some (x * y)
           | Over => if y =? 0 then None else Some (Z.quot x y)
           end in
  match z with Some z => if in_range t z then Some (mk_whole t z) else None | None => None end.
(** The wider of two integer types. *)
Definition wider (t u : cty) : cty := if (width t <? width u)%nat then u else t.
(** arithmetic_expression.rs:139-749, evaluate: the pairs of integers (145-216, 251-452); FltModel has the other pairs. *)
Definition arith_one (op : aop) (v w : val) : option val :=
  match int_of v, int_of w with
  | Some (t, x), Some (u, y) => checked (wider t u) op x y
  | _, _ => FltModel.arith op v w
  end.
(** arithmetic_expression.rs:752-872, evaluate_join: the pairs it lists. In the patterns of 804 and 853 the operands are bound the
    other way round when the decimal is on the left. *)
Definition arith_join (op : aop) (v w : val) : option val :=
  match v, w with
  | VInt x, VInt y => checked TInt op x y
  | VBig x, VBig y => checked TBig op x y
  | VDec _ _, VDec _ _ => at64 op v w
  | VInt _, VDec _ _ => at64 op v w
  | VDec _ _, VInt _ => at64 op w v
  | VBig x, VInt y => checked TBig op x y
  | VInt x, VBig y => checked TBig op x y
  | VBig _, VDec _ _ => at64 op v w
  | VDec _ _, VBig _ => at64 op w v
  | _, _ => None
  end.

Notation row := (list val).
Definition bind2 (a b : option val) (f : val -> val -> option val) : option val :=
  match a with Some x => match b with Some y => f x y | None => None end | None => None end.
Definition bind1 (a : option val) (f : val -> option val) : option val := match a with Some x => f x | None => None end.

(** evaluate: column_value_expression.rs:51-61 (the table number is not looked at), arithmetic_expression.rs:139,
    binary_op_expression.rs:209-243, ceil_floor_expression.rs:68-199, and the others. *)
Fixpoint evaluate (e : jx) (r : row) : option val :=
  match e with
  | XCol _ c => r !! c
  | XConst v => Some v
  | XArith op a b => bind2 (evaluate a r) (evaluate b r) (arith_one op)
  | XBin f a b | XFun2 f a b => bind2 (evaluate a r) (evaluate b r) f
  | XRound f a | XFun1 f a => bind1 (evaluate a r) f
  end.

(** evaluate_join: column_value_expression.rs:63-112 ([lw] is the number of columns of the left schema),
    arithmetic_expression.rs:752-872; binary_op_expression.rs:245-269 evaluates the whole expression again on a row of the two
    values; ceil_floor_expression.rs:201-210, at_timezone_expression.rs:63-72, interval_expression.rs:89-99 evaluate on the left
    row; comparison_expression.rs:169-191, logic_expression.rs:148-163, unary_op_expression.rs:111, is_check_expression.rs:83,
    like_expression.rs:130, regex_expression.rs:169 and the others do as [evaluate], with the operands evaluated over both rows. *)
Fixpoint evaluate_join (lw : nat) (e : jx) (l r : row) : option val :=
  match e with
  | XCol 0 c => l !! c
  | XCol 1 c => r !! (if (lw <=? c)%nat then c - lw else c)%nat
  | XCol _ _ => None
  | XConst v => Some v
  | XArith op a b => bind2 (evaluate_join lw a l r) (evaluate_join lw b l r) (arith_join op)
  | XBin f a b => bind2 (evaluate_join lw a l r) (evaluate_join lw b l r) (fun x y => evaluate (XBin f a b) [x; y])
  | XRound f a => evaluate (XRound f a) l
  | XFun1 f a => bind1 (evaluate_join lw a l r) f
  | XFun2 f a b => bind2 (evaluate_join lw a l r) (evaluate_join lw b l r) f
  end.
