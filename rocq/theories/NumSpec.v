(** * Specification: comparing numbers (C96) *)
From Coq Require Import ZArith QArith.
From Verif Require Import CastSpec.

(** The number a value is: integers, decimals (f64) and floats (f32), the last two
    being [n / 2^k]. *)
Definition number (v : val) : option Q :=
  match v with
  | VTiny z | VSmall z | VInt z | VBig z => Some (inject_Z z)
  | VDec n k | VFloat n k => Some (inject_Z n / inject_Z (2 ^ Z.of_nat k))%Q
  | _ => None
  end.

Inductive cop := Ceq | Cne | Clt | Cle | Cgt | Cge.
Definition holds (op : cop) (x y : Q) : Prop :=
  match op with
  | Ceq => x == y
  | Cne => ~ x == y
  | Clt => x < y
  | Cle => x <= y
  | Cgt => y < x
  | Cge => y <= x
  end%Q.

(** The value of type [t] that is the whole number [z]. *)
Definition integer (t : cty) (z : Z) : val :=
  match t with TTiny => VTiny z | TSmall => VSmall z | TInt => VInt z | _ => VBig z end.

(** A whole number with at most [p] significant bits. *)
Definition short (p : Z) (z : Z) : Prop :=
  exists m e : Z, (0 <= e)%Z /\ z = (m * 2 ^ e)%Z /\ (Z.abs m < 2 ^ p)%Z.

(** Pairs of numbers of which one can be expressed in the other's type. *)
Inductive comparable : val -> val -> Prop :=
| cmp_same v w : type_of v = type_of w -> comparable v w
| cmp_ints v w x y : whole v = Some x -> whole w = Some y ->
    integer_type (type_of v) -> integer_type (type_of w) ->
    fits (type_of v) x -> fits (type_of w) y -> comparable v w
| cmp_int_dec v z n k : whole v = Some z -> integer_type (type_of v) -> short 53 z ->
    comparable v (VDec n k)
| cmp_int_float v z n k : whole v = Some z -> integer_type (type_of v) -> short 24 z ->
    comparable v (VFloat n k)
| cmp_float_dec n k m j : comparable (VFloat n k) (VDec m j)
| cmp_dec_int n k z w y : n = (z * 2 ^ Z.of_nat k)%Z -> whole w = Some y ->
    integer_type (type_of w) -> fits (type_of w) z -> comparable (VDec n k) w
| cmp_float_int n k z w y : n = (z * 2 ^ Z.of_nat k)%Z -> whole w = Some y ->
    integer_type (type_of w) -> fits (type_of w) z -> comparable (VFloat n k) w.

(** The types of numbers. *)
Definition numeric (t : cty) : Prop := integer_type t \/ t = TDec \/ t = TFloat.
