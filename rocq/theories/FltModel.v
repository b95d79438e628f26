(** * Arithmetic with fractions, and AVG *)
(** Models the fractional half of src/sql/execution/expressions/arithmetic_expression.rs (A), add and divide of
    src/types_db/value.rs (V), and AVG in src/sql/execution/executors/aggregation_executor.rs (G). Decimals (f64) and floats
    (f32) are [n / 2^k] as in CastModel: infinities, NaN, the sign of zero and the limits of the exponent (results above
    2^1023 or below 2^-1022 in size, 2^127 and 2^-126 for a float) are left out. *)
From Coq Require Import ZArith NArith.
From stdpp Require Import list.
From Verif Require Import CastSpec CastModel FltSpec.
Local Open Scope Z_scope.

(** The whole number nearest to [a / b], the even one of two ([0 <= a], [0 < b]). *)
Definition rne (a b : Z) : Z :=
  let q := a / b in
  let r := a mod b in
  if (b <? 2 * r) || ((b =? 2 * r) && Z.odd q) then q + 1 else q.
(** The [e] with [2^e <= a / b < 2^(e+1)], for [0 < a] and [0 < b]. *)
Definition ilog (a b : Z) : Z :=
  let e := Z.log2 a - Z.log2 b in
  if (b * 2 ^ Z.max 0 e <=? a * 2 ^ Z.max 0 (- e)) then e else e - 1.
(** IEEE 754 rounding of [a / b] to [p] significant bits, ties to even: what the machine's operations do to the exact result. *)
Definition fl (p a b : Z) : Z * nat :=
  if a =? 0 then (0, O)
  else let e := ilog (Z.abs a) b - (p - 1) in
       (Z.sgn a * rne (Z.abs a * 2 ^ Z.max 0 (- e)) (b * 2 ^ Z.max 0 e) * 2 ^ Z.max 0 e, Z.to_nat (- e)).

(** src/sql/execution/expressions/arithmetic_expression.rs:18-23. *)
(** The operators are those of the query. *)
Notation arop := FltSpec.aop.
(** The machine's [l + r], [l - r], [l * r] and [l / r]; None is A's DivisionByZero. *)
Definition fop (p : Z) (op : arop) (x y : Z * nat) : option (Z * nat) :=
  let n := x.1 in let m := y.1 in
  let a := 2 ^ Z.of_nat x.2 in let b := 2 ^ Z.of_nat y.2 in
  match op with
  | Plus => Some (fl p (n * b + m * a) (a * b))
  | Minus => Some (fl p (n * b - m * a) (a * b))
  | Times => Some (fl p (n * m) (a * b))
  | Over => if m =? 0 then None else Some (fl p (Z.sgn m * n * b) (Z.abs m * a))
  end.

(** [x as f32] (only integers) and [x as f64]. *)
Definition as_f32 (v : val) : option (Z * nat) :=
  match v with
  | VTiny z | VSmall z | VInt z | VBig z => Some (round_bits 24 z, O)
  | VFloat n k => Some (n, k)
  | _ => None
  end.
Definition as_f64 (v : val) : option (Z * nat) :=
  match v with
  | VTiny z | VSmall z | VInt z | VBig z => Some (round_bits 53 z, O)
  | VFloat n k | VDec n k => Some (n, k)
  | _ => None
  end.
Definition dec (p : Z * nat) : val := VDec p.1 p.2.
Definition flt (p : Z * nat) : val := VFloat p.1 p.2.
Definition at64 (op : arop) (v w : val) : option val :=
  match as_f64 v, as_f64 w with Some x, Some y => dec <$> fop 53 op x y | _, _ => None end.
Definition at32 (op : arop) (v w : val) : option val :=
  match as_f32 v, as_f32 w with Some x, Some y => flt <$> fop 24 op x y | _, _ => None end.
(** A 217-248, 455-748: the pairs of which one is fractional; a pair that is not listed is an error. (The pairs of integers,
    A 145-216 and 251-452, are ExprModel's.) *)
Definition arith (op : arop) (v w : val) : option val :=
  match v, w with
  | VDec _ _, _ | _, VDec _ _ => at64 op v w
  | VFloat _ _, _ | _, VFloat _ _ => at32 op v w
  | _, _ => None
  end.

(** ** AVG *)
Definition is_null (v : val) : bool := match v with VNull _ => true | _ => false end.
(** Value::new(Val::Null). *)
Definition vnull : val := VNull TBool.
Definition wrap (t : cty) (z : Z) : Z :=
  match range t with Some (lo, hi) => (z - lo) mod (hi - lo + 1) + lo | None => z end.
(** V 1632-1722, add; integer addition wraps (Cargo.toml's release profile). *)
Definition value_add (v w : val) : option val :=
  match v, w with
  | VNull _, _ | _, VNull _ => Some vnull
  | VInt a, VInt b => Some (VInt (wrap TInt (a + b)))
  | VBig a, VBig b | VInt a, VBig b | VBig a, VInt b => Some (VBig (wrap TBig (a + b)))
  | VDec n k, VDec m j => dec <$> fop 53 Plus (n, k) (m, j)
  | VSmall a, VSmall b => Some (VSmall (wrap TSmall (a + b)))
  | VTiny a, VTiny b => Some (VTiny (wrap TTiny (a + b)))
  | VTiny a, VInt b | VInt a, VTiny b | VSmall a, VInt b | VInt a, VSmall b => Some (VInt (wrap TInt (a + b)))
  | VFloat n k, VFloat m j => flt <$> fop 24 Plus (n, k) (m, j)
  | VItv a, VItv b => Some (VItv (wrap TItv (a + b)))
  | VVar a, VVar b => Some (VVar (a ++ b))
  | VChar a, VChar b => Some (VChar (a ++ b))
  | _, _ => None
  end.

(** The calls as they are written, [SUM(DISTINCT e) FILTER (WHERE c)]; and the planned aggregates (AVG, SUM and COUNT of
    src/sql/execution/expressions/aggregate_expression.rs:13-23). An expression is the function from rows to values that it
    computes; None is an evaluation error. *)
Inductive afn := FAvg | FSum | FCount.
Section Avg.
Context {R K : Type} `{EqDecision K}.
Notation rexpr := (R -> option val).
Record call := Call { c_fn : afn; c_distinct : bool; c_arg : rexpr; c_filter : option (R -> bool) }.
Inductive agg := Avg (e : rexpr) | Sum (e : rexpr) | Count (e : rexpr).
(** src/sql/execution/expression_parser.rs:3516-3584 and 3727-3779: neither duplicate_treatment nor filter is looked at. *)
Definition plan_call (c : call) : agg :=
  match c_fn c with FAvg => Avg (c_arg c) | FSum => Sum (c_arg c) | FCount => Count (c_arg c) end.

(** An aggregate of a group: its value so far and its entry of avg_counts (G 203), 0 if there is none. *)
Definition slot : Type := val * Z.
Inductive upd := UPanic | UErr (s : slot) | UOk (s : slot).
(** G 295-365. *)
Definition agg_step (a : agg) (r : R) (s : slot) : upd :=
  let '(cur, c) := s in
  match a with
  | Sum e =>
      match e r with
      | None => UPanic
      | Some x => if is_null x then UOk s else if is_null cur then UOk (x, c)
                  else match value_add cur x with Some y => UOk (y, c) | None => UErr s end
      end
  | Count _ =>
      if is_null cur then UOk (VBig 1, c)
      else match value_add cur (VBig 1) with Some y => UOk (y, c) | None => UErr s end
  | Avg e =>
      match e r with
      | None => UPanic
      | Some x => if is_null x then UOk s else if is_null cur then UOk (x, c + 1)
                  else match value_add cur x with Some y => UOk (y, c + 1) | None => UErr (cur, c + 1) end
      end
  end.
(** G 293-381: an error stops the loop; it is only logged (431-440). None is a panic. *)
Fixpoint agg_row (aggs : list agg) (r : R) (ss : list slot) : option (list slot) :=
  match aggs, ss with
  | a :: aggs, s :: ss =>
      match agg_step a r s with
      | UPanic => None
      | UErr s2 => Some (s2 :: ss)
      | UOk s2 => match agg_row aggs r ss with Some l => Some (s2 :: l) | None => None end
      end
  | _, _ => Some ss
  end.
Notation groups := (list (K * list slot)).
(** G 284-288. *)
Fixpoint add_row (aggs : list agg) (k : K) (r : R) (gs : groups) : option groups :=
  match gs with
  | [] => match agg_row aggs r (map (fun _ => (vnull, 0)) aggs) with Some ss => Some [(k, ss)] | None => None end
  | (k', ss) :: gs =>
      if decide (k' = k)
      then match agg_row aggs r ss with Some ss => Some ((k', ss) :: gs) | None => None end
      else match add_row aggs k r gs with Some gs => Some ((k', ss) :: gs) | None => None end
  end.
(** G 405-448 over the rows of a child that does not fail; the key of a row is the tuple of its GROUP BY values, and an
    error in one of them a panic. *)
Fixpoint agg_loop (key : R -> option K) (aggs : list agg) (rows : list R) (gs : groups) : option groups :=
  match rows with
  | [] => Some gs
  | r :: rows =>
      match key r with
      | None => None
      | Some k => match add_row aggs k r gs with None => None | Some gs => agg_loop key aggs rows gs end
      end
  end.
(** G 537-597, and V 1861-1890 for the division. *)
Definition finish (a : agg) (s : slot) : val :=
  match a with
  | Avg _ =>
      if (0 <? s.2) && negb (is_null s.1)
      then let sum := match s.1 with
                      | VInt z | VBig z => Some (round_bits 53 z, O)
                      | VDec n k => Some (n, k)
                      | _ => None
                      end in
           match sum with
           | Some x => match fop 53 Over x (round_bits 53 s.2, O) with Some y => dec y | None => vnull end
           | None => vnull
           end
      else vnull
  | _ => s.1
  end.
(** G 525-615: the groups come out in some order. *)
Definition answer (key : R -> option K) (aggs : list agg) (rows : list R) (out : list (K * list val)) : Prop :=
  exists gs, agg_loop key aggs rows [] = Some gs /\
    out ≡ₚ map (fun g => (g.1, zip_with finish aggs g.2)) gs.
(** G 451-478: no rows and no GROUP BY; AVG's slot is left at NULL, without a count. *)
Definition empty_slot (a : agg) : slot :=
  match a with Count _ => (VBig 0, 0) | Sum _ => (VInt 0, 0) | Avg _ => (vnull, 0) end.
Definition answer_no_rows (aggs : list agg) : list val := zip_with finish aggs (map empty_slot aggs).
End Avg.
Arguments call : clear implicits.
Arguments agg : clear implicits.
