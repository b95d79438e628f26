(** * Specification: casts (C76, C77) *)
From Coq Require Import ZArith NArith Lia.
From stdpp Require Import list.
Local Open Scope Z_scope.

(** The types. *)
Inductive cty := TBool | TTiny | TSmall | TInt | TBig | TDec | TFloat | TVar | TChar | TTs | TDate | TTime | TItv.
Global Instance cty_dec : EqDecision cty. Proof. solve_decision. Defined.

(** The values. A decimal (f64) or float (f32) is [n / 2^k]; texts are lists of code points. *)
Inductive val :=
| VNull (t : cty) | VBool (b : bool) | VTiny (z : Z) | VSmall (z : Z) | VInt (z : Z) | VBig (z : Z)
| VDec (n : Z) (k : nat) | VFloat (n : Z) (k : nat) | VVar (s : list N) | VChar (s : list N)
| VTs (z : Z) | VDate (z : Z) | VTime (z : Z) | VItv (z : Z).

Definition type_of (v : val) : cty :=
  match v with
  | VNull t => t | VBool _ => TBool | VTiny _ => TTiny | VSmall _ => TSmall | VInt _ => TInt | VBig _ => TBig
  | VDec _ _ => TDec | VFloat _ _ => TFloat | VVar _ => TVar | VChar _ => TChar
  | VTs _ => TTs | VDate _ => TDate | VTime _ => TTime | VItv _ => TItv
  end.

(** The range of the types whose values are whole numbers. *)
Definition range (t : cty) : option (Z * Z) :=
  match t with
  | TTiny => Some (- 2 ^ 7, 2 ^ 7 - 1)
  | TSmall => Some (- 2 ^ 15, 2 ^ 15 - 1)
  | TInt | TDate | TTime => Some (- 2 ^ 31, 2 ^ 31 - 1)
  | TBig | TItv => Some (- 2 ^ 63, 2 ^ 63 - 1)
  | TTs => Some (0, 2 ^ 64 - 1)
  | _ => None
  end.
Definition fits (t : cty) (z : Z) : Prop := match range t with Some (lo, hi) => lo <= z <= hi | None => False end.
(** The whole number a value of such a type is. *)
Definition whole (v : val) : option Z :=
  match v with
  | VTiny z | VSmall z | VInt z | VBig z | VTs z | VDate z | VTime z | VItv z => Some z
  | _ => None
  end.
(** A value a program can hold: whole numbers are in range. *)
Definition sane (v : val) : Prop := forall z, whole v = Some z -> fits (type_of v) z.

(** The four SQL integer types. *)
Definition integer_type (t : cty) : Prop := t = TTiny \/ t = TSmall \/ t = TInt \/ t = TBig.
