(** * Values as keys: equality, order and hash

    A value carries a type tag, its content and, for structs, the values of the fields. Floating-point
    numbers are taken by their position in the order of all floating-point numbers. *)
From Coq Require Import ZArith.
From stdpp Require Import base list numbers.
Local Open Scope nat_scope.

(** A floating-point number: not-a-number with its payload, minus zero, or another number by its rank (0 for
    zero). *)
Inductive flt := NaN (payload : N) | NegZero | Num (rank : Z).

(** Kinds of content, in the order of their declaration (value.rs:11-34). *)
Inductive ikind := KBoolean | KTinyInt | KSmallInt | KInteger | KBigInt | KTimestamp | KDate | KTime | KInterval.
Inductive fkind := KDecimal | KFloat.
Inductive skind := KVarLen | KConstLen | KBinary | KJson | KUuid.
Inductive vkind := KVector | KArray.
Inductive value := Val (type_id : nat) (fields : option (list value)) (x : content)
with content :=
  | XInt (k : ikind) (z : Z)
  | XFlt (k : fkind) (f : flt)
  | XStr (k : skind) (s : list N)
  | XVec (k : vkind) (l : list value)
  | XEnum (z : Z) (s : list N)
  | XPoint (x y : flt)
  | XNull
  | XStruct.

(** The number a float stands for, if any. *)
Definition fl_num (f : flt) : option Z := match f with NaN _ => None | NegZero => Some 0%Z | Num r => Some r end.

(** A value without not-a-number anywhere. *)
Fixpoint nan_free (v : value) : Prop :=
  match v with
  | Val _ fs x =>
      match fs with
      | Some l => (fix all l := match l with [] => True | v :: l => nan_free v /\ all l end) l
      | None => True
      end /\
      match x with
      | XFlt _ f => fl_num f <> None
      | XPoint f g => fl_num f <> None /\ fl_num g <> None
      | XVec _ l => (fix all l := match l with [] => True | v :: l => nan_free v /\ all l end) l
      | _ => True
      end
  end.

Definition flip_ord (o : option comparison) : option comparison := match o with Some c => Some (CompOpp c) | None => None end.
