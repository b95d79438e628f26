(** * CASE: what SQL says (SQL:1999, 6.11) *)
From Coq Require Import ZArith.
From stdpp Require Import base list numbers.
From Verif Require Import VordSpec.

(** A test is TRUE, FALSE or unknown. *)
Inductive truth := TTrue | TFalse | TUnknown.
(** The truth of a condition's value; None if the value is no truth value. *)
Definition truth_of (v : value) : option truth :=
  match v with
  | Val _ _ (XInt KBoolean z) => Some (if Z.eqb z 0 then TFalse else TTrue)
  | Val _ _ XNull => Some TUnknown
  | _ => None
  end.

(** The number or the text of a value, whatever its exact type. *)
Definition number_of (v : value) : option Z :=
  match v with
  | Val _ _ (XInt (KTinyInt | KSmallInt | KInteger | KBigInt) z) => Some z
  | _ => None
  end.
Definition text_of (v : value) : option (list N) :=
  match v with
  | Val _ _ (XStr (KVarLen | KConstLen) s) => Some s
  | _ => None
  end.
Definition null (v : value) : Prop := match v with Val _ _ XNull => True | _ => False end.
(** a = b is TRUE / FALSE / unknown in SQL, for numbers, texts and NULL. *)
Inductive sql_equals (a b : value) : truth -> Prop :=
| EqNum x y : number_of a = Some x -> number_of b = Some y -> sql_equals a b (if Z.eqb x y then TTrue else TFalse)
| EqText x y : text_of a = Some x -> text_of b = Some y -> sql_equals a b (if bool_decide (x = y) then TTrue else TFalse)
| EqNull : null a \/ null b -> sql_equals a b TUnknown.

(** Numbers and texts of one and the same type. *)
Inductive same_type : value -> value -> Prop :=
| SameInt ty s s' k z z' : same_type (Val ty s (XInt k z)) (Val ty s' (XInt k z'))
| SameStr ty s s' k t t' : same_type (Val ty s (XStr k t)) (Val ty s' (XStr k t')).

(** What an expression, and the CASE, comes out as. *)
Inductive out := OVal (v : value) | OErr | OPanic.

(** The branch a CASE takes: the first whose test is TRUE. *)
Definition takes (tests : list truth) (i : nat) : Prop :=
  tests !! i = Some TTrue /\ forall j t, j < i -> tests !! j = Some t -> t <> TTrue.
Definition takes_none (tests : list truth) : Prop := Forall (fun t => t <> TTrue) tests.
