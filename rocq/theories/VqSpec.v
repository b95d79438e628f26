(** * Specification: VALUES as a query (C123)

    The table a VALUES query writes down, and when a returned row shows it.  The values are
    those of CastSpec.v; [None] is a NULL without a type. *)
From Coq Require Import ZArith NArith.
From stdpp Require Import list.
From Verif Require Import CastSpec.
Local Open Scope Z_scope.

(** What is written in a place: a number without a point ([0 <= z]), one with a point
    ([n / 2^k]), a text, TRUE or FALSE, NULL, or an expression (also [-1]), given by its
    value. *)
Inductive cell := Whole (z : Z) | Point (n : Z) (k : nat) | Text (s : list N) | Truth (b : bool) | Null | Calc (v : option val).

Definition is_null (v : option val) : Prop := match v with None => True | Some (VNull _) => True | _ => False end.
(** The number [n / 2^k] a value is. *)
Definition number_of (v : option val) : option (Z * nat) :=
  match v with
  | Some (VTiny z) | Some (VSmall z) | Some (VInt z) | Some (VBig z) => Some (z, O)
  | Some (VDec n k) | Some (VFloat n k) => Some (n, k)
  | _ => None
  end.
Definition is_number (v : option val) (n : Z) (k : nat) : Prop :=
  exists m j, number_of v = Some (m, j) /\ m * 2 ^ Z.of_nat k = n * 2 ^ Z.of_nat j.

(** The value [v] is what is written in [c]. *)
Definition shows (c : cell) (v : option val) : Prop :=
  match c with
  | Whole z => is_number v z 0
  | Point n k => is_number v n k
  | Text s => v = Some (VVar s)
  | Truth b => v = Some (VBool b)
  | Null => is_null v
  | Calc w => (is_null w /\ is_null v) \/ v = w \/ exists n k, is_number w n k /\ is_number v n k
  end.
Definition table_shows (rows : list (list cell)) (out : list (list (option val))) : Prop :=
  Forall2 (Forall2 shows) rows out.

(** How the query ends: refused, or run, with the rows returned before the end or before
    the failure. *)
Inductive ending := Refused | Ran (out : list (list (option val))) (failed : bool).

(** Two cells of the same kind, numbers being whole ones of the type INTEGER. *)
Definition same_kind (a b : cell) : Prop :=
  match a, b with
  | Whole _, Whole z => 0 <= z < 2 ^ 31
  | Text _, Text _ | Truth _, Truth _ => True
  | (Whole _ | Text _ | Truth _), Null => True
  | _, _ => False
  end.
Definition simple (c : cell) : Prop :=
  match c with Whole z => 0 <= z < 2 ^ 31 | Text _ | Truth _ => True | _ => False end.

(** A cell the query can be planned with: a whole number is one of 64 bits. *)
Definition readable (c : cell) : Prop := match c with Whole z => 0 <= z < 2 ^ 63 | _ => True end.

(** A number of one column, cut to a whole one and to the range of INTEGER. *)
Definition numeric (c : cell) : Prop :=
  match c with Whole z => 0 <= z < 2 ^ 31 | Point _ _ => True | _ => False end.
Definition cut_to_integer (c : cell) : Z :=
  match c with
  | Whole z => z
  | Point n k => Z.max (- 2 ^ 31) (Z.min (2 ^ 31 - 1) (Z.quot n (2 ^ Z.of_nat k)))
  | _ => 0
  end.
