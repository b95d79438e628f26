(** * The executors for the first n rows of every group and for window functions

    Models src/sql/execution/executors/topn_per_group_executor.rs (T) and window_executor.rs (W), and how
    src/sql/planner/logical_plan.rs (L) makes their plans.

    Simplifications: schemas are left out and a tuple is its row of values. The hash map of groups is an
    association list; the order in which the code walks over its keys is an argument, any permutation of
    them. Rust's [sort_by] may panic on a comparison that is not an order (NULL keys); here it sorts by
    insertion. *)
From stdpp Require Import list.
From Coq Require Import ZArith.
From Verif Require Import ExprModel ExecModel TopnModel.
Local Open Scope nat_scope.

(** Equality of Vec<Value>, which finds the entry of the hash map (src/types_db/value.rs:2310-2333; values
    that are equal have the same hash, 2371-2425). *)
Fixpoint keys_eqb (a b : list val) : bool :=
  match a, b with
  | [], [] => true
  | x :: a, y :: b => val_eqb x y && keys_eqb a b
  | _, _ => false
  end.

(** HashMap::entry(k).or_default(), then [f] on the entry. *)
Fixpoint upd_entry {H} (f : list H -> list H) (k : list val) (gs : list (list val * list H))
  : list (list val * list H) :=
  match gs with
  | [] => [(k, f [])]
  | (k2, h) :: gs => if keys_eqb k2 k then (k2, f h) :: gs else (k2, h) :: upd_entry f k gs
  end.
(** HashMap::get. *)
Fixpoint get_entry {H} (k : list val) (gs : list (list val * list H)) : option (list H) :=
  match gs with
  | [] => None
  | (k2, h) :: gs => if keys_eqb k2 k then Some h else get_entry k gs
  end.

(** T 131-147, compare_group_keys, and W 161-174. *)
Fixpoint cmp_group_keys (a b : list val) : comparison :=
  match a, b with
  | x :: a, y :: b =>
      match compare_op ExprModel.Lt x y with
      | CmpTrue => Datatypes.Lt
      | CmpFalse =>
          match compare_op ExprModel.Gt x y with
          | CmpTrue => Datatypes.Gt
          | CmpFalse => cmp_group_keys a b
          | CmpNull => Datatypes.Eq
          end
      | CmpNull => Datatypes.Eq
      end
  | [], [] => Datatypes.Eq
  | [], _ :: _ => Datatypes.Lt
  | _ :: _, [] => Datatypes.Gt
  end.

(** The executor of T: the groups, the keys of the groups still to be returned (group_keys from group_index
    on), what is left of the current group, and [initialized]. *)
Record tstate := TS {
  ts_groups : list (list val * list keyed);
  ts_keys : list (list val);
  ts_cur : list row;
  ts_init : bool;
}.

(** T 163-207, the loop of init; the answer is [None] for a panic, otherwise the groups and whether the
    child came to its end. *)
Fixpoint topg_fill (n : nat) (ses ges : list expr) (child : list (item row)) (gs : list (list val * list keyed))
  : option (list (list val * list keyed) * bool) :=
  match child with
  | [] => Some (gs, true)
  | Fail :: _ => Some (gs, false)
  | Row r :: rest =>
      match keys_of ses r, keys_of ges r with
      | Some ks, Some gk => topg_fill n ses ges rest (upd_entry (fun h => topn_step n h (ks, r)) gk gs)
      | _, _ => None
      end
  end.

(** T 151-219, init. [child] is what the child answers from here on, [order] the order of the hash map. *)
Definition topg_init (n : nat) (ses ges : list expr) (order : list (list val) -> list (list val))
    (child : list (item row)) (st : tstate) : option tstate :=
  if ts_init st then Some st
  else match topg_fill n ses ges child (ts_groups st) with
       | Some (gs, true) => Some (TS gs (sort_by cmp_group_keys (order (fst <$> gs))) (ts_cur st) true)
       | Some (gs, false) => Some (TS gs (ts_keys st) (ts_cur st) false)
       | None => None
       end.

(** T 226-261, the loop of next, by the keys that are left. *)
Fixpoint topg_groups (gs : list (list val * list keyed)) (keys : list (list val)) (cur : list row)
  : outcome row * (list (list val) * list row) :=
  match cur with
  | t :: cur => (ORow t, (keys, cur))
  | [] =>
      match keys with
      | [] => (ODone, ([], []))
      | k :: keys =>
          match get_entry k gs with
          | Some h => topg_groups gs keys (snd <$> sort_by (fun a b => cmp_keys (fst b) (fst a)) h)
          | None => topg_groups gs keys []
          end
      end
  end.
Definition topg_next (st : tstate) : outcome row * tstate :=
  let '(o, (keys, cur)) := topg_groups (ts_groups st) (ts_keys st) (ts_cur st) in
  (o, TS (ts_groups st) keys cur (ts_init st)).

(** T 82-102 and src/sql/execution/execution_engine.rs:655-681: the engine calls init and then next until
    there is nothing more. A first init that the child's error has ended is repeated by the first next
    (T 222-224); [again] is what the child answers then, whatever that is. Only the state in which next
    goes on to its loop is of interest; if that init fails too there are no keys, next answers Ok(None)
    and the engine stops. *)
Definition topg_start (n : nat) (ses ges : list expr) (order : list (list val) -> list (list val))
    (child again : list (item row)) : option tstate :=
  match topg_init n ses ges order child (TS [] [] [] false) with
  | Some st => topg_init n ses ges order again st
  | None => None
  end.

(** L 3289-3308: the plan keeps the expressions of the sort specifications and not their directions. *)
Definition topg_plan (specs : list (expr * bool)) : list expr := fst <$> specs.

(** src/sql/execution/plans/window_plan.rs:10-33. *)
Inductive wfun := WRowNumber | WRank | WDenseRank | WFirstValue | WLastValue | WLead | WLag | WSum | WMin | WMax
  | WCount | WAverage.
Record window := Win { w_fun : wfun; w_partition : list expr; w_order : list expr }.

(** L 3310-3359: the i-th function gets the i-th of the partition expressions and the i-th of the order
    expressions. *)
Definition window_plan (group_by : list expr) (funs : list wfun) (partitions : list expr) : list window :=
  imap (fun i f => Win f (match partitions !! i with Some e => [e] | None => [] end)
                         (match group_by !! i with Some e => [e] | None => [] end)) funs.

(** W 134-157: the rows of the child by partition, with their sort keys. A plan without functions has no
    partition expressions (W 114-116), but W 103 indexes its functions: a panic, as when an expression
    fails. *)
Fixpoint win_fill (ws : list window) (child : list (item row)) (gs : list (list val * list keyed))
  : option (list (list val * list keyed) * bool) :=
  match child with
  | [] => Some (gs, true)
  | Fail :: _ => Some (gs, false)
  | Row r :: rest =>
      match ws with
      | [] => None
      | w :: _ =>
          match keys_of (w_partition w) r, keys_of (w_order w) r with
          | Some pk, Some ks => win_fill ws rest (upd_entry (fun h => h ++ [(ks, r)]) pk gs)
          | _, _ => None
          end
      end
  end.

(** W 178-193: pushing all of them on a heap and popping them; [fuel] is their number. *)
Fixpoint pop_all (fuel : nat) (h : list keyed) : list keyed :=
  match fuel, h with
  | S fuel, x :: _ => x :: pop_all fuel (heap_pop rev_le h)
  | _, _ => []
  end.
Definition heap_sorted (l : list keyed) : list keyed :=
  pop_all (length l) (foldl (fun h x => heap_push rev_le x h) [] l).

(** The executor of W: the partitions, the keys from partition_index on, tuple_index, and [initialized]. *)
Record wstate := WS {
  ws_parts : list (list val * list row);
  ws_keys : list (list val);
  ws_index : nat;
  ws_init : bool;
}.

(** W 129-200, init. Rows collected before an error of the child are dropped with [all_tuples]. *)
Definition win_init (ws : list window) (order : list (list val) -> list (list val)) (child : list (item row))
    (st : wstate) : option wstate :=
  if ws_init st then Some st
  else match win_fill ws child [] with
       | Some (gs, true) =>
           Some (WS ((fun '(k, l) => (k, snd <$> heap_sorted l)) <$> gs)
                    (sort_by cmp_group_keys (order (fst <$> gs))) (ws_index st) true)
       | Some (gs, false) => Some st
       | None => None
       end.

(** W 231-245: the values of the window functions; all of them are the number of the row in its partition,
    or the call fails. *)
Fixpoint win_values (ws : list window) (i : nat) : option (list val) :=
  match ws with
  | [] => Some []
  | w :: ws =>
      match w_fun w, win_values ws i with
      | WRowNumber, Some vs => Some (VInt Integer (Z.of_nat (i + 1)) :: vs)
      | _, _ => None
      end
  end.

(** W 202-260, next; the recursion of 221 is by the keys that are left. A number above 2^31 wraps around
    (W 235), left out. *)
Fixpoint win_step (ws : list window) (parts : list (list val * list row)) (keys : list (list val)) (i : nat)
  : outcome row * (list (list val) * nat) :=
  match keys with
  | [] => (ODone, ([], i))
  | k :: rest =>
      match get_entry k parts with
      | Some l =>
          match (l !! i : option row) with
          | Some r =>
              match win_values ws i with
              | Some vs => (ORow (r ++ vs), (keys, i + 1))
              | None => (OFail, (keys, i))
              end
          | None => win_step ws parts rest 0
          end
      | None => (OFail, (keys, i))
      end
  end.
Definition win_next (ws : list window) (st : wstate) : outcome row * wstate :=
  let '(o, (keys, i)) := win_step ws (ws_parts st) (ws_keys st) (ws_index st) in
  (o, WS (ws_parts st) keys i (ws_init st)).

(** W 83-99 and the engine, as [topg_start]. *)
Definition win_start (ws : list window) (order : list (list val) -> list (list val)) (child again : list (item row))
  : option wstate :=
  match win_init ws order child (WS [] [] 0 false) with
  | Some st => win_init ws order again st
  | None => None
  end.
