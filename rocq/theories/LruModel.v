(** LRU cache with a doubly linked list of heap nodes.
    Models src/storage/disk/async_disk/cache/lru.rs ([LRUCore]).

    Heap memory is a finite map from addresses to nodes. Every raw-pointer access
    ([*node.as_ptr()], [Box::from_raw]) goes through the map; reaching an address
    that is not allocated is undefined behaviour and makes the whole call return
    [None]. Keys are [N]; [Arc] reference counts are not modelled. The debug-only
    [validate_invariants] (580-612) is not part of the model: what it asserts is
    proved instead. *)
From stdpp Require Import gmap list.
From Verif Require Import CacheSpec.

(** lru.rs, [struct Node]. *)
Record node (V : Type) := mkNode { n_key : N; n_val : V; n_prev : option N; n_next : option N }.
Arguments mkNode {V}. Arguments n_key {V}. Arguments n_val {V}. Arguments n_prev {V}. Arguments n_next {V}.

(** lru.rs, [struct LRUCore] plus the allocator: [l_heap] is the set of live
    boxes, [l_fresh] the next address the allocator returns. *)
Record lru (V : Type) := mkLru {
  l_cap : nat; l_map : gmap N N; l_head : option N; l_tail : option N;
  l_heap : gmap N (node V); l_fresh : N }.
Arguments mkLru {V}. Arguments l_cap {V}. Arguments l_map {V}. Arguments l_head {V}.
Arguments l_tail {V}. Arguments l_heap {V}. Arguments l_fresh {V}.

Section lru.
  Context {V : Type}.
  Implicit Types c : lru V.

  (** lru.rs 424-432. *)
  Definition lru_new (cap : nat) : lru V := mkLru cap ∅ None None ∅ 0.

  Definition set_heap c h : lru V := mkLru (l_cap c) (l_map c) (l_head c) (l_tail c) h (l_fresh c).
  Definition set_map c m : lru V := mkLru (l_cap c) m (l_head c) (l_tail c) (l_heap c) (l_fresh c).
  Definition set_head c x : lru V := mkLru (l_cap c) (l_map c) x (l_tail c) (l_heap c) (l_fresh c).
  Definition set_tail c x : lru V := mkLru (l_cap c) (l_map c) (l_head c) x (l_heap c) (l_fresh c).

  (** Field writes through a raw pointer. *)
  Definition write_prev (a : N) (p : option N) c : option (lru V) :=
    n ← l_heap c !! a;
    Some (set_heap c (<[a := mkNode (n_key n) (n_val n) p (n_next n)]> (l_heap c))).
  Definition write_next (a : N) (x : option N) c : option (lru V) :=
    n ← l_heap c !! a;
    Some (set_heap c (<[a := mkNode (n_key n) (n_val n) (n_prev n) x]> (l_heap c))).
  Definition write_val (a : N) (v : V) c : option (lru V) :=
    n ← l_heap c !! a;
    Some (set_heap c (<[a := mkNode (n_key n) v (n_prev n) (n_next n)]> (l_heap c))).

  (** lru.rs 441-444, [allocate_node] ([Node::new] has null links). *)
  Definition allocate_node c (k : N) (v : V) : lru V * N :=
    let a := l_fresh c in
    (mkLru (l_cap c) (l_map c) (l_head c) (l_tail c)
       (<[a := mkNode k v None None]> (l_heap c)) (a + 1)%N, a).

  (** [Box::from_raw]: frees the node and returns its contents. *)
  Definition take_box (a : N) c : option (lru V * node V) :=
    n ← l_heap c !! a; Some (set_heap c (delete a (l_heap c)), n).

  (** lru.rs 486-506. *)
  Definition add_to_head (a : N) c : option (lru V) :=
    match l_head c with
    | Some old =>
        c ← write_next a (Some old) c;
        c ← write_prev a None c;
        c ← write_prev old (Some a) c;
        Some (set_head c (Some a))
    | None =>
        c ← write_next a None c;
        c ← write_prev a None c;
        Some (set_tail (set_head c (Some a)) (Some a))
    end.

  (** lru.rs 520-551. *)
  Definition remove_from_list (a : N) c : option (lru V) :=
    n ← l_heap c !! a;
    match n_prev n, n_next n with
    | Some p, Some x => c ← write_next p (Some x) c; write_prev x (Some p) c
    | Some p, None => c ← write_next p None c; Some (set_tail c (Some p))
    | None, Some x => c ← write_prev x None c; Some (set_head c (Some x))
    | None, None => Some (set_tail (set_head c None) None)
    end.

  (** lru.rs 471-477. *)
  Definition move_to_head (a : N) c : option (lru V) :=
    c ← remove_from_list a c; add_to_head a c.

  (** lru.rs 564-571, then 649-660: evict the tail node. *)
  Definition evict_tail c : option (lru V) :=
    match l_tail c with
    | None => Some c
    | Some t =>
        c ← remove_from_list t c;
        '(c, n) ← take_box t c;
        Some (set_map c (delete (n_key n) (l_map c)))
    end.

  (** lru.rs 621-679. *)
  Definition lru_insert c (k : N) (v : V) : option (lru V * option V) :=
    match l_map c !! k with
    | Some a =>
        n ← l_heap c !! a;
        c ← write_val a v c;
        c ← move_to_head a c;
        Some (c, Some (n_val n))
    | None =>
        if Nat.eqb (l_cap c) 0 then Some (c, None)
        else
          c ← (if Nat.leb (l_cap c) (size (l_map c)) then evict_tail c else Some c);
          let '(c, a) := allocate_node c k v in
          let c := set_map c (<[k := a]> (l_map c)) in
          c ← add_to_head a c;
          Some (c, None)
    end.

  (** lru.rs 682-694. *)
  Definition lru_get c (k : N) : option (lru V * option V) :=
    match l_map c !! k with
    | Some a => c ← move_to_head a c; n ← l_heap c !! a; Some (c, Some (n_val n))
    | None => Some (c, None)
    end.

  (** lru.rs 733-743. *)
  Definition lru_peek c (k : N) : option (option V) :=
    match l_map c !! k with
    | Some a => n ← l_heap c !! a; Some (Some (n_val n))
    | None => Some None
    end.

  (** lru.rs 708-724: drains the map and frees every node it points to. *)
  Definition lru_clear c : option (lru V) :=
    h ← foldr (fun a (acc : option (gmap N (node V))) =>
                 h ← acc; n ← h !! a; Some (delete a h))
          (Some (l_heap c)) (map_to_list (l_map c)).*2;
    Some (mkLru (l_cap c) ∅ None None h (l_fresh c)).

  (** lru.rs 751-771. *)
  Definition lru_remove c (k : N) : option (lru V * option V) :=
    match l_map c !! k with
    | Some a =>
        let c := set_map c (delete k (l_map c)) in
        c ← remove_from_list a c;
        '(c, n) ← take_box a c;
        Some (c, Some (n_val n))
    | None => Some (c, None)
    end.

  (** lru.rs 779-801. *)
  Definition lru_pop c : option (lru V * option (N * V)) :=
    match l_tail c with
    | Some t =>
        n ← l_heap c !! t;
        let c := set_map c (delete (n_key n) (l_map c)) in
        c ← remove_from_list t c;
        '(c, n') ← take_box t c;
        Some (c, Some (n_key n, n_val n'))
    | None => Some (c, None)
    end.

  (** lru.rs 804-810. *)
  Definition lru_peek_lru c : option (option (N * V)) :=
    match l_tail c with
    | Some t => n ← l_heap c !! t; Some (Some (n_key n, n_val n))
    | None => Some None
    end.

  (** lru.rs 812-826. *)
  Definition lru_touch c (k : N) : option (lru V * bool) :=
    match l_map c !! k with
    | Some a => c ← move_to_head a c; Some (c, true)
    | None => Some (c, false)
    end.

  (** lru.rs 828-846. The walk along [next] is bounded by fuel; running out of
      fuel (a cyclic list) is an error. *)
  Fixpoint rank_walk (fuel : nat) (h : gmap N (node V)) (cur : option N) (target : N) (rank : nat)
    : option (option nat) :=
    match cur with
    | None => Some None
    | Some a =>
        match fuel with
        | 0 => None
        | S fuel' =>
            if N.eqb a target then Some (Some rank)
            else n ← h !! a; rank_walk fuel' h (n_next n) target (S rank)
        end
    end.
  Definition lru_rank c (k : N) : option (option nat) :=
    match l_map c !! k with
    | Some a => rank_walk (S (size (l_heap c))) (l_heap c) (l_head c) a 0
    | None => Some None
    end.

  Definition lru_step c (o : lru_op V) : option (lru V * cout V) :=
    match o with
    | LInsert k v => '(c, r) ← lru_insert c k v; Some (c, OVal r)
    | LGet k => '(c, r) ← lru_get c k; Some (c, OVal r)
    | LPeek k => r ← lru_peek c k; Some (c, OVal r)
    | LContains k => Some (c, OBool (bool_decide (is_Some (l_map c !! k))))
    | LLen => Some (c, ONat (size (l_map c)))
    | LClear => c ← lru_clear c; Some (c, OUnit)
    | LRemove k => '(c, r) ← lru_remove c k; Some (c, OVal r)
    | LPop => '(c, r) ← lru_pop c; Some (c, OPair r)
    | LPeekLru => r ← lru_peek_lru c; Some (c, OPair r)
    | LTouch k => '(c, r) ← lru_touch c k; Some (c, OBool r)
    | LRank k => r ← lru_rank c k; Some (c, ORank r)
    end.

  (** A history of calls; [None] if any call hits undefined behaviour. *)
  Fixpoint lru_run c (ops : list (lru_op V)) : option (lru V * list (cout V)) :=
    match ops with
    | [] => Some (c, [])
    | o :: rest =>
        '(c1, r) ← lru_step c o;
        '(c2, rs) ← lru_run c1 rest;
        Some (c2, r :: rs)
    end.
End lru.
