(** * Specification: the paged index as a map (C78, C79, C80) *)
From Coq Require Import ZArith Lia.
From stdpp Require Import list gmap sorting.

(** The calls, and what they return: a value found or not, whether a key was removed, the pairs of a range, the number of
    keys, an error, or nothing at all (a panic, or a call that never returns). *)
Inductive op :=
| Insert (k v : Z)
| Search (k : Z)
| Range (a b : Z)
| Remove (k : Z)
| Size.
Inductive answer :=
| Done
| Found (v : option Z)
| Pairs (l : list (Z * Z))
| Removed (b : bool)
| Count (n : nat)
| Error
| NoReturn.

(** The pairs of a map with keys from [a] to [b], in key order. *)
Definition pairs_of (m : gmap Z Z) (a b : Z) (l : list (Z * Z)) : Prop :=
  StronglySorted (fun x y : Z * Z => (x.1 < y.1)%Z) l /\
  forall k v, (k, v) ∈ l <-> m !! k = Some v /\ (a <= k <= b)%Z.

(** What a map answers, and the map afterwards. *)
Inductive map_step (m : gmap Z Z) : op -> answer -> gmap Z Z -> Prop :=
| ms_insert k v : map_step m (Insert k v) Done (<[k := v]> m)
| ms_search k : map_step m (Search k) (Found (m !! k)) m
| ms_range a b l : pairs_of m a b l -> map_step m (Range a b) (Pairs l) m
| ms_remove k : map_step m (Remove k) (Removed (bool_decide (is_Some (m !! k)))) (delete k m)
| ms_size : map_step m Size (Count (size m)) m.

Inductive map_run : gmap Z Z -> list (op * answer) -> gmap Z Z -> Prop :=
| mr_nil m : map_run m [] m
| mr_cons m o a m1 l m2 : map_step m o a m1 -> map_run m1 l m2 -> map_run m ((o, a) :: l) m2.

(** The map never has more than [n] keys while the calls are made. *)
Fixpoint fits (n : nat) (m : gmap Z Z) (l : list op) : Prop :=
  match l with
  | [] => True
  | Insert k v :: l => size (<[k := v]> m) <= n /\ fits n (<[k := v]> m) l
  | Remove k :: l => fits n (delete k m) l
  | _ :: l => fits n m l
  end.
