(** * The aggregation executor

    Models src/sql/execution/executors/aggregation_executor.rs and Value::add.

    Simplifications:
    - AVG (FltModel.v), and expressions in the select list that are not aggregates, are not
      modelled.
    - A release build: integer addition wraps (Cargo.toml's release profile).
    - The hash map of groups is an association list; the order in which the groups come out
      (drained from the hash map, sorted with a comparator that is not a total order when keys
      are NULL, 481-496) is any order. *)
From Coq Require Import String ZArith.
From stdpp Require Import list.
From Verif Require Import ExprModel ExecModel.

Global Instance val_eq_dec : EqDecision val.
Proof. assert (EqDecision ity) by solve_decision. assert (EqDecision string) by (intros x y; apply string_dec). solve_decision. Defined.

(** src/types_db/value.rs:1632-1722, Value::add. *)
Definition value_add (a b : val) : res val :=
  match a, b with
  | VNull, _ | _, VNull => Ok VNull
  | VInt t x, VInt u y =>
      match t, u with
      | Integer, Integer | BigInt, BigInt | SmallInt, SmallInt | TinyInt, TinyInt => Ok (VInt t (wrap t (x + y)))
      | Integer, BigInt | BigInt, Integer => Ok (VInt BigInt (wrap BigInt (x + y)))
      | TinyInt, Integer | Integer, TinyInt | SmallInt, Integer | Integer, SmallInt => Ok (VInt Integer (wrap Integer (x + y)))
      | _, _ => Err
      end
  | VVar x, VVar y => Ok (VVar (String.append x y))
  | VChar x, VChar y => Ok (VChar (String.append x y))
  | _, _ => Err
  end.

(** src/sql/execution/expressions/aggregate_expression.rs, AggregationType with its argument. *)
Inductive agg := AgSum (e : expr) | AgCount (e : expr) | AgCountStar | AgMin (e : expr) | AgMax (e : expr).

(** One aggregate, one row (295-365): a panic (the [unwrap] of an evaluation error), an error, or
    the new running value. *)
Inductive upd := UPanic | UErr | UOk (v : val).

Definition is_null (v : val) : bool := match v with VNull => true | _ => false end.

Definition with_arg (e : expr) (r : row) (f : val -> upd) : upd :=
  match eval e r with Ok v => f v | Err => UPanic end.

Definition of_res (r : res val) : upd := match r with Ok v => UOk v | Err => UErr end.

Definition agg_step (a : agg) (r : row) (cur : val) : upd :=
  match a with
  | AgSum e => with_arg e r (fun x =>
      if is_null x then UOk cur else if is_null cur then UOk x else of_res (value_add cur x))
  | AgCount _ | AgCountStar =>
      if is_null cur then UOk (VInt BigInt 1) else of_res (value_add cur (VInt BigInt 1))
  | AgMin e => with_arg e r (fun x =>
      if is_null x then UOk cur else if is_null cur then UOk x
      else match compare_op Lt x cur with CmpTrue => UOk x | _ => UOk cur end)
  | AgMax e => with_arg e r (fun x =>
      if is_null x then UOk cur else if is_null cur then UOk x
      else match compare_op Lt cur x with CmpTrue => UOk x | _ => UOk cur end)
  end.

(** 293-381: all aggregates of a group, in order; an error stops the loop, leaving the later ones
    as they were, and is only logged (431-440).  [None] is a panic. *)
Fixpoint agg_row (aggs : list agg) (r : row) (cur : list val) : option (list val) :=
  match aggs, cur with
  | a :: aggs, v :: cur =>
      match agg_step a r v with
      | UPanic => None
      | UErr => Some (v :: cur)
      | UOk v2 => match agg_row aggs r cur with Some l => Some (v2 :: l) | None => None end
      end
  | _, _ => Some cur
  end.

Notation groups := (list (list val * list val)).

(** 284-288: the entry of the key, or a new one with NULLs. *)
Fixpoint add_row (aggs : list agg) (k : list val) (r : row) (gs : groups) : option groups :=
  match gs with
  | [] => match agg_row aggs r (map (fun _ => VNull) aggs) with Some vs => Some [(k, vs)] | None => None end
  | (k', vs) :: gs =>
      if decide (k' = k)
      then match agg_row aggs r vs with Some vs => Some ((k', vs) :: gs) | None => None end
      else match add_row aggs k r gs with Some gs => Some ((k', vs) :: gs) | None => None end
  end.

(** 424-428: the key of a row; [None] is a panic. *)
Fixpoint key_of (keys : list expr) (r : row) : option (list val) :=
  match keys with
  | [] => Some []
  | e :: keys =>
      match eval e r, key_of keys r with Ok v, Some k => Some (v :: k) | _, _ => None end
  end.

(** 451-478: the value for an aggregate over no rows at all.  Value::from(TypeId::Invalid) is
    NULL. *)
Definition agg_empty (a : agg) : val :=
  match a with
  | AgCount _ | AgCountStar => VInt BigInt 0
  | AgSum _ => VInt Integer 0
  | AgMin _ | AgMax _ => VNull
  end.

(** 405-478, init: the groups; or the child failed (443-446); or a panic. *)
Inductive agg_result := GPanic | GFail | GOk (gs : groups).

Fixpoint agg_loop (keys : list expr) (aggs : list agg) (child : list (item row)) (gs : groups) : agg_result :=
  match child with
  | [] => GOk gs
  | Fail :: _ => GFail
  | Row r :: child =>
      match key_of keys r with
      | None => GPanic
      | Some k => match add_row aggs k r gs with None => GPanic | Some gs => agg_loop keys aggs child gs end
      end
  end.

Definition agg_init (keys : list expr) (aggs : list agg) (child : list (item row)) : agg_result :=
  match agg_loop keys aggs child [] with
  | GOk gs =>
      match child, keys with
      | [], [] => GOk [([], map agg_empty aggs)]
      | _, _ => GOk gs
      end
  | x => x
  end.

(** The answer of the executor until it has no more rows (481-499, 525-615).  A failed child
    leaves no groups to return and no error; a child asked again is taken to fail again.  A panic
    has no answer. *)
Inductive agg_answer (keys : list expr) (aggs : list agg) (child : list (item row)) : list (item row) -> Prop :=
| ans_ok gs out : agg_init keys aggs child = GOk gs -> out ≡ₚ gs ->
    agg_answer keys aggs child (map (fun g => Row (g.1 ++ g.2)) out)
| ans_fail : agg_init keys aggs child = GFail -> agg_answer keys aggs child [].
