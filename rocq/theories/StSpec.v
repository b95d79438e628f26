(* What it means that a stored value is one of its column's type.  This file is specification: it
   uses the values and columns of InsSpec.v and nothing of the engine. *)
From Coq Require Import ZArith.
From stdpp Require Import base list.
From Verif Require Import InsSpec.
Local Open Scope Z_scope.

(* The contents that a type has; NULL is in every type. *)
Definition in_type (ty : ITy) (p : IPay) : Prop :=
  match ty, p with
  | _, PNull => True
  | TTiny, PNum z => - 2 ^ 7 <= z < 2 ^ 7
  | TSmall, PNum z => - 2 ^ 15 <= z < 2 ^ 15
  | TInt, PNum z => - 2 ^ 31 <= z < 2 ^ 31
  | TBig, PNum z => - 2 ^ 63 <= z < 2 ^ 63
  | TTime, PNum _ => True
  | TText, PText _ => True
  | _, _ => False
  end.

(* A value of a type: marked with the type, and with contents of the type. *)
Definition of_type (ty : ITy) (v : IVal) : Prop := v_ty v = ty /\ in_type ty (v_pay v).

(* Every value of every row is of its column's type. *)
Definition rows_typed (cols : list ICol) (rows : list (list IVal)) : Prop :=
  forall r, r ∈ rows -> Forall2 (fun c v => of_type (c_ty c) v) cols r.
