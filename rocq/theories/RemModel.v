(** * The operators % and || (C97) *)
(** They are the only ones parsed to a BinaryOpExpression that can be planned
    (src/sql/execution/expression_parser.rs:418-705). *)
From Coq Require Import ZArith.
From stdpp Require Import list.
From Verif Require Import CastSpec CastModel NumSpec RemSpec.
Local Open Scope Z_scope.

(** src/sql/execution/expressions/literal_value_expression.rs:29-48: a whole number in the
    text of a statement gets the smallest type it fits in; None: it is too large. *)
Definition literal (z : Z) : option val :=
  if in_range TTiny z then Some (VTiny z)
  else if in_range TSmall z then Some (VSmall z)
  else if in_range TInt z then Some (VInt z)
  else if in_range TBig z then Some (VBig z)
  else None.

(** src/sql/execution/expressions/binary_op_expression.rs:81-120: the pairs of types
    infer_return_type accepts for arithmetic. *)
Definition arith_types (t u : cty) : bool :=
  match t, u with
  | TInt, TInt | TInt, TTiny | TTiny, TInt | TTiny, TTiny | TInt, TSmall | TSmall, TInt | TSmall, TSmall
  | TDec, TDec | TInt, TDec | TDec, TInt | TTiny, TDec | TDec, TTiny | TSmall, TDec | TDec, TSmall
  | TBig, TBig | TBig, TInt | TInt, TBig | TBig, TTiny | TTiny, TBig | TBig, TSmall | TSmall, TBig
  | TBig, TDec | TDec, TBig => true
  | _, _ => false
  end.
(** src/types_db/value.rs:249-275, is_zero. *)
Definition is_zero (v : val) : bool :=
  match v with
  | VTiny z | VSmall z | VInt z | VBig z => z =? 0
  | VDec n _ | VFloat n _ => n =? 0
  | VVar s | VChar s => match s with [] => true | _ => false end
  | _ => false
  end.
(** src/types_db/value.rs:1930-1944, modulo.  Value::new(Val::Null) is a NULL whose type
    does not matter here: the model gives it type INTEGER.  In Rust [i32::MIN % -1]
    panics. *)
Definition modulo (v w : val) : outcome :=
  if is_zero w then Gives (VNull TInt)
  else match type_of v, type_of w with
       | TInt, TInt =>
           match v, w with
           | VInt a, VInt b =>
               if (a =? - 2 ^ 31) && (b =? -1) then Panics else Gives (VInt (Z.rem a b))
           | _, _ => Gives (VNull TInt)
           end
       | _, _ => Gives (VNull TInt)
       end.
(** binary_op_expression.rs:26-41 and 209-218: [v % w]; the operands' declared types are
    those of their values. *)
Definition sql_mod (v w : val) : outcome :=
  if arith_types (type_of v) (type_of w) then modulo v w else Fails.
(** binary_op_expression.rs:123-128 and 231-236: [v || w]. *)
Definition sql_concat (v w : val) : outcome :=
  match type_of v, type_of w with
  | TVar, TVar =>
      match v, w with
      | VVar s, VVar t => Gives (VVar (s ++ t))
      | _, _ => Fails
      end
  | _, _ => Fails
  end.
