(** * BETWEEN and IN over a column and literals *)
(** Models src/sql/execution/expression_parser.rs (P), src/sql/execution/expressions/in_expression.rs (I) and logic_expression.rs
    (L). A column's value has the column's type (see C119 for when it has). The comparisons are NumModel's. *)
From Coq Require Import ZArith NArith.
From stdpp Require Import list.
From Verif Require Import CastSpec CastModel NumSpec NumModel.
Local Open Scope Z_scope.

(** L 81-125: AND and OR of two values that are Boolean or NULL. *)
Definition logic_and (a b : option bool) : option bool :=
  match a, b with
  | Some false, _ | _, Some false => Some false
  | Some true, Some true => Some true
  | _, _ => None
  end.
Definition logic_or (a b : option bool) : option bool :=
  match a, b with
  | Some true, _ | _, Some true => Some true
  | Some false, Some false => Some false
  | _, _ => None
  end.

Section Between.
Context (sd : Z -> nat -> list N) (rd rf : list N -> option (Z * nat)).
Context (f32 : Z -> nat -> Z * nat) (ch : cty -> list N -> option Z).
(** P 786-834: comparisons are built without looking at the types; L 129-146: both sides are evaluated, the first error is the
    answer. *)
Definition between (neg : bool) (x lo hi : val) : option (option bool) :=
  let cmp := perform_comparison sd rd rf f32 ch in
  match cmp (if neg then Clt else Cge) x lo with
  | None => None
  | Some a =>
      match cmp (if neg then Cgt else Cle) x hi with
      | None => None
      | Some b => Some ((if neg then logic_or else logic_and) a b)
      end
  end.
End Between.

(** P 1294-1464 (when the list is planned) and I 142-190 (when it is looked at): the item [w] for a value of type [t]. [n as i32] of
    a float cuts off the fraction and saturates. *)
Definition list_item (t : cty) (w : val) : val :=
  match t, w with
  | TInt, VTiny z => VInt z
  | TInt, VSmall z => VInt z
  | TInt, VBig z => if in_range TInt z then VInt z else w
  | TInt, VDec n k =>
      let z := clamp TInt (trunc n k) in
      match cmp_float n k z 0 with Datatypes.Eq => VInt z | _ => w end
  | _, _ => w
  end.
(** src/types_db/value.rs:1312-1362, compare_equals. *)
Definition int_of (v : val) : option Z :=
  match v with VTiny z | VSmall z | VInt z | VBig z => Some z | _ => None end.
Definition is_eq (c : comparison) : bool := match c with Datatypes.Eq => true | _ => false end.
Definition equals (v w : val) : option bool :=
  match v, w with
  | VNull _, _ | _, VNull _ => None
  | VDec n k, VDec m j | VFloat n k, VFloat m j | VDec n k, VFloat m j | VFloat n k, VDec m j => Some (is_eq (cmp_float n k m j))
  | VDec n k, (VTiny b | VSmall b | VInt b | VBig b) => Some (is_eq (cmp_float n k (round_bits 53 b) 0))
  | VFloat n k, (VTiny b | VSmall b | VInt b | VBig b) => Some (is_eq (cmp_float n k (round_bits 24 b) 0))
  | (VTiny a | VSmall a | VInt a | VBig a), VDec n k => Some (is_eq (cmp_float (round_bits 53 a) 0 n k))
  | (VTiny a | VSmall a | VInt a | VBig a), VFloat n k => Some (is_eq (cmp_float (round_bits 24 a) 0 n k))
  | _, _ =>
      match int_of v, int_of w with
      | Some a, Some b => Some (a =? b)
      | _, _ => if decide (type_of v = type_of w) then Some (is_eq (cmp_val v w)) else Some false
      end
  end.
(** I 125-214, check_value_in_list: the loop over the items. *)
Fixpoint in_loop (x : val) (l : list val) (has_null : bool) : option bool :=
  match l with
  | [] => if has_null then None else Some false
  | w :: rest =>
      match w with
      | VNull _ => in_loop x rest true
      | _ => match equals x (list_item (type_of x) w) with
             | Some true => Some true
             | Some false => in_loop x rest has_null
             | None => in_loop x rest true
             end
      end
  end.
(** I 216-252: the list holds the planned items; NOT IN turns the answer around. *)
Definition in_list (neg : bool) (x : val) (l : list val) : option (option bool) :=
  let r := match x with
           | VNull _ => None
           | _ => in_loop x (map (list_item (type_of x)) l) false
           end in
  Some (if neg then match r with Some b => Some (negb b) | None => None end else r).
