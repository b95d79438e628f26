(** * Specification: arithmetic with fractions (C99) and AVG (C100) *)
From Coq Require Import ZArith QArith Qabs.
From stdpp Require Import list.
From Verif Require Import CastSpec NumSpec.
Local Open Scope Q_scope.

(** The numbers with [p] significant bits: 53 for a DECIMAL (f64), 24 for a FLOAT (f32). *)
Definition binary (p : Z) (x : Q) : Prop :=
  exists n k, short p n /\ x == inject_Z n / inject_Z (2 ^ Z.of_nat k).
Definition precision (t : cty) : Z := match t with TFloat => 24%Z | _ => 53%Z end.

(** [y] is such a number, and no such number is closer to [x]. *)
Definition nearest (p : Z) (x y : Q) : Prop :=
  binary p y /\ forall z, binary p z -> Qabs (y - x) <= Qabs (z - x).

Inductive aop := Plus | Minus | Times | Over.
Definition exact (op : aop) (x y : Q) : option Q :=
  match op with
  | Plus => Some (x + y)
  | Minus => Some (x - y)
  | Times => Some (x * y)
  | Over => if Qeq_bool y 0 then None else Some (x / y)
  end.

(** The result is a DECIMAL if one of the operands is, else a FLOAT. *)
Definition fractional (v : val) : Prop := type_of v = TDec \/ type_of v = TFloat.
Definition result_type (v w : val) : cty :=
  match type_of v, type_of w with
  | TDec, _ | _, TDec => TDec
  | _, _ => TFloat
  end.

(** The value's number can be held by the type [t]. *)
Definition held (t : cty) (v : val) : Prop := exists x, number v = Some x /\ binary (precision t) x.

(** ** AVG *)
Definition null (v : val) : Prop := exists t, v = VNull t.
Definition null_dec (v : val) : {null v} + {~ null v}.
Proof. destruct v; try (right; intros [t' E]; discriminate). left. eexists. reflexivity. Defined.

(** The rows of a group, in their order; [key] gives the values of the GROUP BY expressions. *)
Definition group {R K} `{EqDecision K} (key : R -> option K) (k : K) (rows : list R) : list R :=
  List.filter (fun r => bool_decide (key r = Some k)) rows.
(** The non-NULL values of an expression on some rows. *)
Definition args {R} (e : R -> option val) (rows : list R) : list val :=
  flat_map (fun r => match e r with
                     | Some v => if null_dec v then [] else [v]
                     | None => []
                     end) rows.
Definition num (v : val) : Q := match number v with Some x => x | None => 0 end.
Definition qsum (l : list val) : Q := fold_right (fun v s => num v + s) 0 l.
Definition count {A} (l : list A) : Q := inject_Z (Z.of_nat (length l)).

Definition mean_of (l : list val) (v : val) : Prop :=
  match l with
  | [] => null v
  | _ => exists y, number v = Some y /\ type_of v = TDec /\ nearest 53 (qsum l / count l) y
  end.

(** Numbers whose sums a DECIMAL holds in any order: whole multiples of one power of two. *)
Definition summable (l : list val) : Prop :=
  exists k zs, Forall2 (fun v z => num v == inject_Z z / inject_Z (2 ^ Z.of_nat k)) l zs /\
    (fold_right (fun z s => Z.abs z + s) 0 zs < 2 ^ 53)%Z.
(** The expression has a value in every row, a number of type [t] or NULL. *)
Definition of_type (t : cty) (v : val) : Prop := type_of v = t /\ ~ null v.
Definition column {R} (t : cty) (e : R -> option val) (rows : list R) : Prop :=
  numeric t /\ Forall (fun r => exists v, e r = Some v /\ (null v \/ of_type t v)) rows.
(** INTEGERs whose sum an INTEGER holds, BIGINTs whose sum is below 2^53 in size, or such decimals. *)
Definition averageable (l : list val) : Prop :=
  (Z.of_nat (length l) < 2 ^ 53)%Z /\
  ((Forall (fun v => type_of v = TInt) l /\ (inject_Z (- 2 ^ 31) <= qsum l /\ qsum l <= inject_Z (2 ^ 31 - 1))) \/
   (Forall (fun v => type_of v = TBig) l /\ Qabs (qsum l) < inject_Z (2 ^ 53)) \/
   (Forall (fun v => type_of v = TDec) l /\ summable l)).
