(** * The TopN executor

    Models src/sql/execution/executors/topn_executor.rs, including the array that Rust's
    [BinaryHeap] keeps, because the executor returns rows in that array's order.

    Simplifications: schemas are left out and a tuple is its row of values; a sort key
    that fails to evaluate makes the code panic ([unwrap]), here [keys_of] answers [None]. *)
From stdpp Require Import list.
From Verif Require Import ExprModel ExecModel.
Local Open Scope nat_scope.

Section heap.
  Context {T : Type} (le : T -> T -> bool).

  (** Exchanging two slots of the array; Rust moves a hole instead. *)
  Definition swap (i j : nat) (l : list T) : list T :=
    match l !! i, l !! j with
    | Some x, Some y => <[i := y]> (<[j := x]> l)
    | _, _ => l
    end.

  Definition parent (i : nat) : nat := (i - 1) / 2.

  (** alloc::collections::BinaryHeap::sift_up(0, pos); [fuel >= pos] is enough. *)
  Fixpoint sift_up (fuel pos : nat) (l : list T) : list T :=
    match fuel, pos with
    | S fuel, S _ =>
        match l !! pos, l !! parent pos with
        | Some x, Some y =>
            if le x y then l else sift_up fuel (parent pos) (swap pos (parent pos) l)
        | _, _ => l
        end
    | _, _ => l
    end.

  (** BinaryHeap::push. *)
  Definition heap_push (x : T) (l : list T) : list T :=
    sift_up (length l) (length l) (l ++ [x]).

  (** BinaryHeap::sift_down_to_bottom(pos), the descent: always to the larger child, the
      right one if they are equal; the answer is the array and the final position.
      [fuel >= length l - pos] is enough. *)
  Fixpoint sift_down (fuel pos : nat) (l : list T) : nat * list T :=
    match fuel with
    | O => (pos, l)
    | S fuel =>
        match l !! (2 * pos + 1), l !! (2 * pos + 2) with
        | Some a, Some b =>
            let c := if le a b then 2 * pos + 2 else 2 * pos + 1 in
            sift_down fuel c (swap pos c l)
        | Some _, None => (2 * pos + 1, swap pos (2 * pos + 1) l)
        | None, _ => (pos, l)
        end
    end.

  (** BinaryHeap::pop, the array left behind (the popped element is not used by the
      executor): the last element goes to the root, down to a leaf and up again. *)
  Definition heap_pop (l : list T) : list T :=
    match last l with
    | None => []
    | Some x =>
        match take (length l - 1) l with
        | [] => []
        | _ :: r =>
            let '(pos, l2) := sift_down (length l) 0 (x :: r) in
            sift_up pos pos l2
        end
    end.
End heap.

(** src/sql/execution/executors/topn_executor.rs:21-26, TupleWithKeys, without the RID. *)
Definition keyed : Type := list val * row.

(** src/sql/execution/executors/topn_executor.rs:45-63, Ord::cmp. *)
Fixpoint cmp_keys (a b : list val) : comparison :=
  match a, b with
  | x :: a, y :: b =>
      match compare_op ExprModel.Lt x y with
      | CmpTrue => Datatypes.Lt
      | CmpFalse =>
          match compare_op ExprModel.Gt x y with
          | CmpTrue => Datatypes.Gt
          | CmpFalse => cmp_keys a b
          | CmpNull => Datatypes.Eq
          end
      | CmpNull => Datatypes.Eq
      end
  | _, _ => Datatypes.Eq
  end.

(** [<=] on Reverse<TupleWithKeys>. *)
Definition rev_le (a b : keyed) : bool :=
  match cmp_keys (fst b) (fst a) with Datatypes.Gt => false | _ => true end.

(** src/sql/execution/executors/topn_executor.rs:99-109. *)
Fixpoint keys_of (es : list expr) (r : row) : option (list val) :=
  match es with
  | [] => Some []
  | e :: es =>
      match eval e r, keys_of es r with
      | Ok v, Some vs => Some (v :: vs)
      | _, _ => None
      end
  end.

(** src/sql/execution/executors/topn_executor.rs:140-152, one row. *)
Definition topn_step (k : nat) (h : list keyed) (t : keyed) : list keyed :=
  if length h <? k then heap_push rev_le t h
  else match h with
       | [] => h
       | m :: _ =>
           match cmp_keys (fst m) (fst t) with
           | Datatypes.Lt => heap_push rev_le t (heap_pop rev_le h)
           | _ => h
           end
       end.

(** src/sql/execution/executors/topn_executor.rs:125-168: the heap is filled from the child
    (an error of the child ends the loop), and its array is returned back to front.
    [None] is the panic.  The plan's sort directions are not consulted
    (src/sql/planner/logical_plan.rs:3270-3290 passes only the expressions). *)
Fixpoint topn_fill (k : nat) (es : list expr) (child : list (item row)) (h : list keyed)
  : option (list keyed) :=
  match child with
  | Row r :: rest =>
      match keys_of es r with
      | Some ks => topn_fill k es rest (topn_step k h (ks, r))
      | None => None
      end
  | _ => Some h
  end.
Definition topn_init (k : nat) (es : list expr) (child : list (item row)) : option (list row * nat) :=
  match topn_fill k es child [] with
  | Some h => Some (reverse (snd <$> h), 0)
  | None => None
  end.

(** src/sql/execution/executors/topn_executor.rs:177-195. *)
Definition topn_next (st : list row * nat) : outcome row * (list row * nat) :=
  let '(l, i) := st in
  match l !! i with
  | Some t => (ORow t, (l, i + 1))
  | None => (ODone, st)
  end.
