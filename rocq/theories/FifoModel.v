(** FIFO cache.  Models src/storage/disk/async_disk/cache/fifo.rs.
    Keys are [N], standing for any [Eq + Hash] key; reference counting of keys and
    values ([Arc]) is not modelled. *)
From stdpp Require Import gmap list.
From Verif Require Import CacheSpec.

(** fifo.rs 285-292. *)
Record fifo (V : Type) := mkFifo { f_cap : nat; f_map : gmap N V; f_order : list N }.
Arguments mkFifo {V}. Arguments f_cap {V}. Arguments f_map {V}. Arguments f_order {V}.

Section fifo.
  Context {V : Type}.
  Implicit Types c : fifo V.

  (** fifo.rs 299-305. *)
  Definition fifo_new (cap : nat) : fifo V := mkFifo cap ∅ [].

  (** fifo.rs 360-370: pop the queue until a key that is still in the map is found. *)
  Fixpoint evict_oldest (m : gmap N V) (order : list N) : gmap N V * list N :=
    match order with
    | [] => (m, [])
    | k :: rest => match m !! k with
                   | Some _ => (delete k m, rest)
                   | None => evict_oldest m rest
                   end
    end.

  (** fifo.rs 377-414. *)
  Definition fifo_insert c (k : N) (v : V) : fifo V * option V :=
    if Nat.eqb (f_cap c) 0 then (c, None)
    else match f_map c !! k with
         | Some old => (mkFifo (f_cap c) (<[k := v]> (f_map c)) (f_order c), Some old)
         | None =>
             let '(m1, o1) := if Nat.leb (f_cap c) (size (f_map c))
                              then evict_oldest (f_map c) (f_order c)
                              else (f_map c, f_order c) in
             (mkFifo (f_cap c) (<[k := v]> m1) (o1 ++ [k]), None)
         end.

  (** fifo.rs 416-421, 423-427, 429-431, 437-440. *)
  Definition fifo_get c (k : N) : option V := f_map c !! k.
  Definition fifo_contains c (k : N) : bool := bool_decide (is_Some (f_map c !! k)).
  Definition fifo_len c : nat := size (f_map c).
  Definition fifo_clear c : fifo V := mkFifo (f_cap c) ∅ [].

  (** fifo.rs 447-480. *)
  Fixpoint pop_oldest_loop (m : gmap N V) (order : list N) : gmap N V * list N * option (N * V) :=
    match order with
    | [] => (m, [], None)
    | k :: rest => match m !! k with
                   | Some v => (delete k m, rest, Some (k, v))
                   | None => pop_oldest_loop m rest
                   end
    end.
  Definition fifo_pop c : fifo V * option (N * V) :=
    let '(m, o, r) := pop_oldest_loop (f_map c) (f_order c) in (mkFifo (f_cap c) m o, r).

  (** fifo.rs 482-490. *)
  Fixpoint peek_oldest_loop (m : gmap N V) (order : list N) : option (N * V) :=
    match order with
    | [] => None
    | k :: rest => match m !! k with
                   | Some v => Some (k, v)
                   | None => peek_oldest_loop m rest
                   end
    end.
  Definition fifo_peek c : option (N * V) := peek_oldest_loop (f_map c) (f_order c).

  (** fifo.rs 492-502. *)
  Fixpoint fifo_pop_batch c (count : nat) : fifo V * list (N * V) :=
    match count with
    | 0 => (c, [])
    | S n => match fifo_pop c with
             | (c1, Some e) => let '(c2, es) := fifo_pop_batch c1 n in (c2, e :: es)
             | (c1, None) => (c1, [])
             end
    end.

  (** fifo.rs 504-516. *)
  Fixpoint age_rank_loop (m : gmap N V) (order : list N) (k : N) (rank : nat) : option nat :=
    match order with
    | [] => None
    | k' :: rest => match m !! k' with
                    | Some _ => if N.eqb k' k then Some rank else age_rank_loop m rest k (S rank)
                    | None => age_rank_loop m rest k rank
                    end
    end.
  Definition fifo_rank c (k : N) : option nat := age_rank_loop (f_map c) (f_order c) k 0.

  Definition fifo_step c (o : fifo_op V) : fifo V * cout V :=
    match o with
    | FInsert k v => let '(c1, r) := fifo_insert c k v in (c1, OVal r)
    | FGet k => (c, OVal (fifo_get c k))
    | FContains k => (c, OBool (fifo_contains c k))
    | FLen => (c, ONat (fifo_len c))
    | FClear => (fifo_clear c, OUnit)
    | FPop => let '(c1, r) := fifo_pop c in (c1, OPair r)
    | FPeek => (c, OPair (fifo_peek c))
    | FPopBatch n => let '(c1, r) := fifo_pop_batch c n in (c1, OPairs r)
    | FRank k => (c, ORank (fifo_rank c k))
    end.
End fifo.
