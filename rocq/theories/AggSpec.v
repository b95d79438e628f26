(** * What GROUP BY and the aggregates mean (C49) *)
From Coq Require Import String ZArith.
From stdpp Require Import list.
From Verif Require Import ExprModel AggModel.

(** The row's values of the GROUP BY expressions are [k]. *)
Definition has_key (keys : list expr) (r : row) (k : list val) : Prop :=
  Forall2 (fun e v => eval e r = Ok v) keys k.

Definition has_key_dec keys r k : {has_key keys r k} + {~ has_key keys r k}.
Proof.
  unfold has_key. apply Forall2_dec. intros e v. destruct (eval e r) as [w|]; [|by right].
  destruct (decide (w = v)) as [->|Hn]; [by left|right; congruence].
Defined.

(** The rows of a group, in their order. *)
Definition group (keys : list expr) (k : list val) (rows : list row) : list row :=
  List.filter (fun r => if has_key_dec keys r k then true else false) rows.

(** The non-NULL values of an expression on some rows. *)
Definition args (e : expr) (rows : list row) : list val :=
  flat_map (fun r => match eval e r with Ok VNull => [] | Ok v => [v] | Err => [] end) rows.

(** The order of the values of one kind. *)
Definition val_le (a b : val) : Prop :=
  match a, b with
  | VInt _ x, VInt _ y => (x <= y)%Z
  | VBool x, VBool y => x = true -> y = true
  | VVar x, VVar y | VChar x, VChar y => String.compare x y <> Datatypes.Gt
  | _, _ => False
  end.

Definition int_of (v : val) : Z := match v with VInt _ z => z | _ => 0%Z end.
Definition zsum (l : list val) : Z := foldr Z.add 0%Z (map int_of l).

(** [v] is the aggregate over the rows. *)
Definition agg_means (a : agg) (rows : list row) (v : val) : Prop :=
  match a with
  | AgCountStar => v = VInt BigInt (Z.of_nat (length rows))
  | AgCount e => v = VInt BigInt (Z.of_nat (length (args e rows)))
  | AgSum e => match args e rows with
               | [] => v = VNull
               | l => exists t, v = VInt t (zsum l)
               end
  | AgMin e => match args e rows with
               | [] => v = VNull
               | l => v ∈ l /\ forall w, w ∈ l -> val_le v w
               end
  | AgMax e => match args e rows with
               | [] => v = VNull
               | l => v ∈ l /\ forall w, w ∈ l -> val_le w v
               end
  end.

(** The arguments are such that the aggregate exists: sums of integers of one type that the type
    can hold; extremes of values that can be compared; fewer than 2^63 rows. *)
Definition comparable (a b : val) : Prop :=
  match a, b with
  | VInt _ _, VInt _ _ | VBool _, VBool _ | VVar _, VVar _ | VChar _, VChar _ => True
  | _, _ => False
  end.

Definition agg_fine (a : agg) (rows : list row) : Prop :=
  match a with
  | AgCountStar => in_range BigInt (Z.of_nat (length rows)) = true
  | AgCount e => in_range BigInt (Z.of_nat (length rows)) = true
  | AgSum e => Forall (fun r => exists v, eval e r = Ok v) rows /\
      exists t, Forall (fun v => exists z, v = VInt t z) (args e rows) /\ in_range t (zsum (args e rows)) = true
  | AgMin e | AgMax e => Forall (fun r => exists v, eval e r = Ok v) rows /\
      forall v w, v ∈ args e rows -> w ∈ args e rows -> comparable v w
  end.

(** The counted expression is NULL in no row. *)
Definition counts_no_null (a : agg) (rows : list row) : Prop :=
  match a with
  | AgCount e => Forall (fun r => exists v, eval e r = Ok v /\ v <> VNull) rows
  | _ => True
  end.
