(** * Expressions over the rows of two tables *)
From Coq Require Import ZArith QArith.
From stdpp Require Import list.
From Verif Require Import CastSpec FltSpec.

Local Close Scope Q_scope.
Local Open Scope nat_scope.

(** [XCol t c]: column [c] of the combined row, which is a column of the left table ([t = 0]) or of the right one ([t = 1]).
    [XArith]: plus, minus, times, divided by. [XBin]: % and ||. [XRound]: CEIL, FLOOR, AT TIME ZONE and INTERVAL. [XFun1], [XFun2]:
    everything else that computes a value from the values of one or two operands (comparisons, AND, OR, NOT, IS NULL, LIKE, ...). *)
Inductive jx :=
| XCol (t c : nat)
| XConst (v : val)
| XArith (op : aop) (a b : jx)
| XBin (f : val -> val -> option val) (a b : jx)
| XRound (f : val -> option val) (a : jx)
| XFun1 (f : val -> option val) (a : jx)
| XFun2 (f : val -> val -> option val) (a b : jx).

(** The columns are numbered as in the combined row of a left table of [lw] and a right table of [rw] columns. *)
Fixpoint numbered (lw rw : nat) (e : jx) : Prop :=
  match e with
  | XCol t c => (t = 0 /\ c < lw) \/ (t = 1 /\ lw <= c < lw + rw)
  | XConst _ => True
  | XArith _ a b | XBin _ a b | XFun2 _ a b => numbered lw rw a /\ numbered lw rw b
  | XRound _ a | XFun1 _ a => numbered lw rw a
  end.
(** No column of the right table. *)
Fixpoint left_only (e : jx) : Prop :=
  match e with
  | XCol t _ => t = 0
  | XConst _ => True
  | XArith _ a b | XBin _ a b | XFun2 _ a b => left_only a /\ left_only b
  | XRound _ a | XFun1 _ a => left_only a
  end.

(** INTEGER and BIGINT. *)
Definition big_enough (v : val) : Prop := type_of v = TInt \/ type_of v = TBig.
(** TINYINT, SMALLINT and FLOAT. *)
Definition narrow (v : val) : Prop := type_of v = TTiny \/ type_of v = TSmall \/ type_of v = TFloat.

(** INTEGER and BIGINT with each other, DECIMAL with DECIMAL, a whole number with a DECIMAL on its right, and sums and products with
    the DECIMAL on the left. *)
Definition same_arith (op : aop) (v w : val) : Prop :=
  (big_enough v /\ big_enough w) \/ (type_of v = TDec /\ type_of w = TDec) \/ (big_enough v /\ type_of w = TDec)
  \/ (type_of v = TDec /\ big_enough w /\ (op = Plus \/ op = Times)).

(** Every operation of [e] is one that a join evaluates as it should, [ev] being the values of its operands. *)
Fixpoint agrees (ev : jx -> option val) (e : jx) : Prop :=
  match e with
  | XCol _ _ | XConst _ => True
  | XArith op a b => agrees ev a /\ agrees ev b /\ (forall v w, ev a = Some v -> ev b = Some w -> same_arith op v w)
  | XBin _ _ _ => False
  | XRound _ a => left_only a
  | XFun1 _ a => agrees ev a
  | XFun2 _ a b => agrees ev a /\ agrees ev b
  end.

(** The answer is a value, and that value is the number [q]. *)
Definition is_number (o : option val) (q : Q) : Prop := match o with Some v => (num v == q)%Q | None => False end.
