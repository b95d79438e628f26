(** * Comparisons between values of any two types (C96) *)
(** Casts are CastModel's; decimals and floats are finite. *)
From Coq Require Import ZArith NArith.
From stdpp Require Import list.
From Verif Require Import CastSpec CastModel NumSpec.
Local Open Scope Z_scope.

(** Comparison of two finite f64 (or f32): exact. *)
Definition cmp_float (n : Z) (k : nat) (m : Z) (j : nat) : comparison :=
  Z.compare (n * 2 ^ Z.of_nat j) (m * 2 ^ Z.of_nat k).
(** Comparison of two Rust strings: by UTF-8 bytes, which is by code points. *)
Fixpoint cmp_text (s t : list N) : comparison :=
  match s, t with
  | [], [] => Eq
  | [], _ => Lt
  | _, [] => Gt
  | a :: s', b :: t' => match N.compare a b with Eq => cmp_text s' t' | c => c end
  end.
(** src/types_db/value.rs:11-34: the derived PartialEq and PartialOrd of Val on two
    values of the same variant, neither NULL. *)
Definition cmp_val (v w : val) : comparison :=
  match v, w with
  | VBool a, VBool b => Z.compare (Z.b2z a) (Z.b2z b)
  | VTiny a, VTiny b | VSmall a, VSmall b | VInt a, VInt b | VBig a, VBig b
  | VTs a, VTs b | VDate a, VDate b | VTime a, VTime b | VItv a, VItv b => Z.compare a b
  | VDec n k, VDec m j | VFloat n k, VFloat m j => cmp_float n k m j
  | VVar s, VVar t | VChar s, VChar t => cmp_text s t
  | _, _ => Eq
  end.
(** src/types_db/value.rs:1312-1630: compare_equals, compare_not_equals,
    compare_less_than, compare_less_than_equals, compare_greater_than and
    compare_greater_than_equals for two values of the same type (the arms for
    different number types are not reached from a comparison in SQL: see
    [perform_comparison]); None is CmpNull. *)
Definition compare_op (op : cop) (v w : val) : option bool :=
  match v, w with
  | VNull _, _ | _, VNull _ => None
  | _, _ =>
      Some (match op, cmp_val v w with
            | Ceq, Eq => true | Ceq, _ => false
            | Cne, Eq => false | Cne, _ => true
            | Clt, Lt => true | Clt, _ => false
            | Cle, Gt => false | Cle, _ => true
            | Cgt, Gt => true | Cgt, _ => false
            | Cge, Lt => false | Cge, _ => true
            end)
  end.

Section Compare.
Context (sd : Z -> nat -> list N) (rd rf : list N -> option (Z * nat)).
Context (f32 : Z -> nat -> Z * nat) (ch : cty -> list N -> option Z).

(** src/sql/execution/expressions/comparison_expression.rs:80-146; None is an error,
    Some None is NULL. *)
Definition perform_comparison (op : cop) (v w : val) : option (option bool) :=
  match v, w with
  | VNull _, _ | _, VNull _ => Some None
  | _, _ =>
      if decide (type_of v = type_of w) then Some (compare_op op v w)
      else match cast_to sd rd rf f32 ch v (type_of w) with
           | Some v' => Some (compare_op op v' w)
           | None =>
               match cast_to sd rd rf f32 ch w (type_of v) with
               | Some w' => Some (compare_op op v w')
               | None => None
               end
           end
  end.

(** src/sql/execution/expression_parser.rs:538-556: types that are compared as they are. *)
Definition numeric_type (t : cty) : bool :=
  match t with TTiny | TSmall | TInt | TBig | TDec | TFloat => true | _ => false end.
Definition text_type (t : cty) : bool := match t with TVar | TChar => true | _ => false end.
Definition date_type (t : cty) : bool := match t with TDate | TTs => true | _ => false end.
Definition compatible (t u : cty) : bool :=
  bool_decide (t = u) || (numeric_type t && numeric_type u) ||
  (text_type t && text_type u) || (date_type t && date_type u).
(** src/sql/execution/expression_parser.rs:527-696, then the evaluation of the resulting
    comparison: operands of other types are compared after a cast of the literal one, the
    right one first.  [l] and [r] say which operand is a literal; an operand that is not is
    a column (or another expression) of its value's type.  None is an error, when the
    statement is planned or when it is evaluated. *)
Definition sql_compare (op : cop) (l : bool) (v : val) (r : bool) (w : val) : option (option bool) :=
  if compatible (type_of v) (type_of w) then perform_comparison op v w
  else if r then
    match cast_to sd rd rf f32 ch w (type_of v) with
    | Some w' => perform_comparison op v w'
    | None => None
    end
  else if l then
    match cast_to sd rd rf f32 ch v (type_of w) with
    | Some v' => perform_comparison op v' w
    | None => None
    end
  else None.
End Compare.
