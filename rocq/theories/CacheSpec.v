(** Reference behaviour of the FIFO and LRU caches: plain lists of entries. *)
From stdpp Require Import gmap list.

(** Answers a cache call can give. *)
Inductive cout (V : Type) :=
| OUnit
| OBool (b : bool)
| ONat (n : nat)
| OVal (v : option V)
| OPair (e : option (N * V))
| OPairs (es : list (N * V))
| ORank (r : option nat).
Arguments OUnit {V}. Arguments OBool {V}. Arguments ONat {V}. Arguments OVal {V}.
Arguments OPair {V}. Arguments OPairs {V}. Arguments ORank {V}.

Section assoc.
  Context {V : Type}.
  Implicit Types l : list (N * V).

  (** Value stored for a key. *)
  Fixpoint assoc (k : N) l : option V :=
    match l with
    | [] => None
    | (k', v) :: t => if N.eqb k k' then Some v else assoc k t
    end.
  (** Replace the value of a key, keeping its place. *)
  Fixpoint replace (k : N) (v : V) l : list (N * V) :=
    match l with
    | [] => []
    | (k', v') :: t => if N.eqb k k' then (k', v) :: t else (k', v') :: replace k v t
    end.
  (** Drop a key. *)
  Fixpoint drop_key (k : N) l : list (N * V) :=
    match l with
    | [] => []
    | (k', v') :: t => if N.eqb k k' then t else (k', v') :: drop_key k t
    end.
  (** Position of a key. *)
  Fixpoint position (k : N) l : option nat :=
    match l with
    | [] => None
    | (k', _) :: t => if N.eqb k k' then Some 0 else option_map S (position k t)
    end.
End assoc.

(** ** FIFO: entries oldest insertion first. *)
Inductive fifo_op (V : Type) :=
| FInsert (k : N) (v : V) | FGet (k : N) | FContains (k : N) | FLen | FClear
| FPop | FPeek | FPopBatch (n : nat) | FRank (k : N).
Arguments FInsert {V}. Arguments FGet {V}. Arguments FContains {V}. Arguments FLen {V}.
Arguments FClear {V}. Arguments FPop {V}. Arguments FPeek {V}. Arguments FPopBatch {V}. Arguments FRank {V}.

Definition fifo_spec {V} (cap : nat) (l : list (N * V)) (o : fifo_op V) : list (N * V) * cout V :=
  match o with
  | FInsert k v =>
      if Nat.eqb cap 0 then (l, OVal None)
      else match assoc k l with
           | Some old => (replace k v l, OVal (Some old))
           | None => ((if Nat.leb cap (length l) then tl l else l) ++ [(k, v)], OVal None)
           end
  | FGet k => (l, OVal (assoc k l))
  | FContains k => (l, OBool (bool_decide (is_Some (assoc k l))))
  | FLen => (l, ONat (length l))
  | FClear => ([], OUnit)
  | FPop => (tl l, OPair (hd_error l))
  | FPeek => (l, OPair (hd_error l))
  | FPopBatch n => (skipn n l, OPairs (firstn n l))
  | FRank k => (l, ORank (position k l))
  end.

(** ** LRU: entries most recently used first. *)
Inductive lru_op (V : Type) :=
| LInsert (k : N) (v : V) | LGet (k : N) | LPeek (k : N) | LContains (k : N) | LLen | LClear
| LRemove (k : N) | LPop | LPeekLru | LTouch (k : N) | LRank (k : N).
Arguments LInsert {V}. Arguments LGet {V}. Arguments LPeek {V}. Arguments LContains {V}.
Arguments LLen {V}. Arguments LClear {V}. Arguments LRemove {V}. Arguments LPop {V}.
Arguments LPeekLru {V}. Arguments LTouch {V}. Arguments LRank {V}.

Definition lru_spec {V} (cap : nat) (l : list (N * V)) (o : lru_op V) : list (N * V) * cout V :=
  match o with
  | LInsert k v =>
      match assoc k l with
      | Some old => ((k, v) :: drop_key k l, OVal (Some old))
      | None =>
          if Nat.eqb cap 0 then (l, OVal None)
          else ((k, v) :: (if Nat.leb cap (length l) then removelast l else l), OVal None)
      end
  | LGet k =>
      match assoc k l with
      | Some v => ((k, v) :: drop_key k l, OVal (Some v))
      | None => (l, OVal None)
      end
  | LPeek k => (l, OVal (assoc k l))
  | LContains k => (l, OBool (bool_decide (is_Some (assoc k l))))
  | LLen => (l, ONat (length l))
  | LClear => ([], OUnit)
  | LRemove k => (drop_key k l, OVal (assoc k l))
  | LPop => (removelast l, OPair (last l))
  | LPeekLru => (l, OPair (last l))
  | LTouch k =>
      match assoc k l with
      | Some v => ((k, v) :: drop_key k l, OBool true)
      | None => (l, OBool false)
      end
  | LRank k => (l, ORank (position k l))
  end.

(** Run a list of calls, collecting the answers. *)
Fixpoint run_ops {S O R} (step : S -> O -> S * R) (s : S) (ops : list O) : S * list R :=
  match ops with
  | [] => (s, [])
  | o :: rest =>
      let '(s1, r) := step s o in
      let '(s2, rs) := run_ops step s1 rest in
      (s2, r :: rs)
  end.
