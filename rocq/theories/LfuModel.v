(** LFU caches.  Models src/storage/disk/async_disk/cache/lfu.rs and heap_lfu.rs.

    Where the code iterates over a [HashMap] the order is arbitrary: the model takes
    the enumeration [it] as an argument and is meaningful when [it] is a permutation
    of the map's entries. Counters are unbounded [N]. *)
From stdpp Require Import gmap list.
From Verif Require Import CacheSpec LfuSpec.

Section lfu.
  Context {V : Type}.

  (** lfu.rs 271-277. *)
  Record lfu := mkLfu { u_cap : nat; u_map : gmap N (V * N) }.
  Implicit Types c : lfu.
  (** lfu.rs 283-288. *)
  Definition lfu_new (cap : nat) : lfu := mkLfu cap ∅.

  Definition enum : Type := list (N * (V * N)).
  Implicit Types it : enum.

  (** [iter().map(freq).min()]. *)
  Fixpoint min_freq it : option N :=
    match it with
    | [] => None
    | (_, (_, f)) :: t => match min_freq t with None => Some f | Some m => Some (N.min f m) end
    end.

  (** [retain] / [drain] loops that take out the first entry with frequency [m]. *)
  Fixpoint first_with (m : N) it : option (N * V) :=
    match it with
    | [] => None
    | (k, (v, f)) :: t => if N.eqb f m then Some (k, v) else first_with m t
    end.

  (** lfu.rs 296-333. *)
  Definition lfu_insert c it (k : N) (v : V) : lfu * option V :=
    match u_map c !! k with
    | Some (old, f) => (mkLfu (u_cap c) (<[k := (v, f)]> (u_map c)), Some old)
    | None =>
        if Nat.eqb (u_cap c) 0 then (c, None)
        else
          let m1 :=
            if Nat.leb (u_cap c) (size (u_map c)) then
              let m := default 0%N (min_freq it) in
              match first_with m it with
              | Some (x, _) => delete x (u_map c)
              | None => u_map c
              end
            else u_map c in
          (mkLfu (u_cap c) (<[k := (v, 1%N)]> m1), fst <$> m1 !! k)
    end.

  (** lfu.rs 335-343. *)
  Definition lfu_get c (k : N) : lfu * option V :=
    match u_map c !! k with
    | Some (v, f) => (mkLfu (u_cap c) (<[k := (v, (f + 1)%N)]> (u_map c)), Some v)
    | None => (c, None)
    end.

  (** lfu.rs 366-368. *)
  Definition lfu_remove c (k : N) : lfu * option V :=
    (mkLfu (u_cap c) (delete k (u_map c)), fst <$> u_map c !! k).

  (** lfu.rs 375-400: drain into a fresh map, keeping everything but the first
      entry whose frequency is minimal. *)
  Fixpoint drain_loop (m : N) it (res : option (N * V)) (acc : gmap N (V * N)) : gmap N (V * N) * option (N * V) :=
    match it with
    | [] => (acc, res)
    | (k, (v, f)) :: t =>
        match res with
        | None => if N.eqb f m then drain_loop m t (Some (k, v)) acc
                  else drain_loop m t None (<[k := (v, f)]> acc)
        | Some r => drain_loop m t (Some r) (<[k := (v, f)]> acc)
        end
    end.
  Definition lfu_pop c it : lfu * option (N * V) :=
    match min_freq it with
    | None => (c, None)
    | Some m => let '(m1, r) := drain_loop m it None ∅ in (mkLfu (u_cap c) m1, r)
    end.

  (** lfu.rs 402-415. [usize::MAX] as initial minimum is modelled as infinity. *)
  Fixpoint peek_loop it (best : option (N * V * N)) : option (N * V * N) :=
    match it with
    | [] => best
    | (k, (v, f)) :: t =>
        match best with
        | None => peek_loop t (Some (k, v, f))
        | Some (_, _, m) => if N.ltb f m then peek_loop t (Some (k, v, f)) else peek_loop t best
        end
    end.
  Definition lfu_peek it : option (N * V) := fst <$> peek_loop it None.

  (** lfu.rs 421-429, 431-438. *)
  Definition lfu_reset c (k : N) : lfu * option N :=
    match u_map c !! k with
    | Some (v, f) => (mkLfu (u_cap c) (<[k := (v, 1%N)]> (u_map c)), Some f)
    | None => (c, None)
    end.
  Definition lfu_incr c (k : N) : lfu * option N :=
    match u_map c !! k with
    | Some (v, f) => (mkLfu (u_cap c) (<[k := (v, (f + 1)%N)]> (u_map c)), Some (f + 1)%N)
    | None => (c, None)
    end.

  Definition lfu_step c (o : lfu_op V) it : lfu * cout V :=
    match o with
    | UInsert k v => let '(c1, r) := lfu_insert c it k v in (c1, OVal r)
    | UGet k => let '(c1, r) := lfu_get c k in (c1, OVal r)
    | UContains k => (c, OBool (bool_decide (is_Some (u_map c !! k))))
    | ULen => (c, ONat (size (u_map c)))
    | UClear => (mkLfu (u_cap c) ∅, OUnit)
    | URemove k => let '(c1, r) := lfu_remove c k in (c1, OVal r)
    | UPop => let '(c1, r) := lfu_pop c it in (c1, OPair r)
    | UPeek => (c, OPair (lfu_peek it))
    | UFreq k => (c, ORank (N.to_nat <$> (snd <$> u_map c !! k)))
    | UReset k => let '(c1, r) := lfu_reset c k in (c1, ORank (N.to_nat <$> r))
    | UIncr k => let '(c1, r) := lfu_incr c k in (c1, ORank (N.to_nat <$> r))
    end.

  (** A run: each call sees some enumeration of the current map. *)
  Inductive lfu_run : lfu -> list (lfu_op V * cout V) -> lfu -> Prop :=
  | lrun_nil c : lfu_run c [] c
  | lrun_cons c o it c1 r tr c2 :
      it ≡ₚ map_to_list (u_map c) -> lfu_step c o it = (c1, r) -> lfu_run c1 tr c2 ->
      lfu_run c ((o, r) :: tr) c2.

  (** ** Heap variant, heap_lfu.rs. *)

  (** heap_lfu.rs, [struct HeapLFUCache]. The [BinaryHeap<Reverse<(freq, key)>>] is
      modelled as a list kept sorted by (freq, key): [peek]/[pop] see the minimum,
      which is all the code observes of it. *)
  Record hlfu := mkHlfu { h_cap : nat; h_data : gmap N V; h_freq : gmap N N; h_heap : list (N * N) }.
  Implicit Types q : hlfu.
  Definition hlfu_new (cap : nat) : hlfu := mkHlfu cap ∅ ∅ [].

  (** Order on heap records: [(freq, key)] lexicographic. *)
  Definition rec_leb (a b : N * N) : bool :=
    if N.eqb a.1 b.1 then N.leb a.2 b.2 else N.ltb a.1 b.1.
  (** heap_lfu.rs 333-335, [BinaryHeap::push]. *)
  Fixpoint heap_push (x : N * N) (h : list (N * N)) : list (N * N) :=
    match h with
    | [] => [x]
    | y :: t => if rec_leb x y then x :: y :: t else y :: heap_push x t
    end.

  (** heap_lfu.rs 339-354: discard stale records until a current one is on top. *)
  Fixpoint pop_internal (freq : gmap N N) (h : list (N * N)) : list (N * N) * option (N * N) :=
    match h with
    | [] => ([], None)
    | (f, k) :: t =>
        match freq !! k with
        | Some cur => if N.eqb f cur then (t, Some (k, f)) else pop_internal freq t
        | None => pop_internal freq t
        end
    end.

  (** heap_lfu.rs 447-456. The [?] on [data.remove] leaves the heap popped when the
      key has a frequency but no data. *)
  Definition hlfu_pop q : hlfu * option (N * V) :=
    match pop_internal (h_freq q) (h_heap q) with
    | (h1, None) => (mkHlfu (h_cap q) (h_data q) (h_freq q) h1, None)
    | (h1, Some (k, _)) =>
        match h_data q !! k with
        | None => (mkHlfu (h_cap q) (h_data q) (h_freq q) h1, None)
        | Some v => (mkHlfu (h_cap q) (delete k (h_data q)) (delete k (h_freq q)) h1, Some (k, v))
        end
    end.

  (** heap_lfu.rs 358-364, 372-387. *)
  Definition hlfu_insert q (k : N) (v : V) : hlfu * option V :=
    match h_data q !! k with
    | Some old => (mkHlfu (h_cap q) (<[k := v]> (h_data q)) (h_freq q) (h_heap q), Some old)
    | None =>
        let q1 := if Nat.leb (h_cap q) (size (h_data q)) then fst (hlfu_pop q) else q in
        (mkHlfu (h_cap q1) (<[k := v]> (h_data q1)) (<[k := 1%N]> (h_freq q1))
           (heap_push (1%N, k) (h_heap q1)), None)
    end.

  (** heap_lfu.rs 389-404. *)
  Definition hlfu_get q (k : N) : hlfu * option V :=
    match h_data q !! k with
    | Some v =>
        match h_freq q !! k with
        | Some f => (mkHlfu (h_cap q) (h_data q) (<[k := (f + 1)%N]> (h_freq q))
                       (heap_push ((f + 1)%N, k) (h_heap q)), Some v)
        | None => (q, None)
        end
    | None => (q, None)
    end.

  (** heap_lfu.rs 430-439. *)
  Definition hlfu_remove q (k : N) : hlfu * option V :=
    match h_data q !! k with
    | Some v => (mkHlfu (h_cap q) (delete k (h_data q)) (delete k (h_freq q)) (h_heap q), Some v)
    | None => (q, None)
    end.

  (** heap_lfu.rs 458-479; [it] enumerates the frequency map. *)
  Fixpoint first_freq (m : N) (it : list (N * N)) : option N :=
    match it with
    | [] => None
    | (k, f) :: t => if N.eqb f m then Some k else first_freq m t
    end.
  Definition list_min_opt (l : list N) : option N :=
    match l with [] => None | x :: t => Some (fold_left N.min t x) end.
  Definition hlfu_peek q (it : list (N * N)) : option (N * V) :=
    m ← list_min_opt it.*2;
    k ← first_freq m it;
    v ← h_data q !! k;
    Some (k, v).

  (** heap_lfu.rs 485-494, 496-505. *)
  Definition hlfu_incr q (k : N) : hlfu * option N :=
    match h_freq q !! k with
    | Some f => (mkHlfu (h_cap q) (h_data q) (<[k := (f + 1)%N]> (h_freq q))
                   (heap_push ((f + 1)%N, k) (h_heap q)), Some (f + 1)%N)
    | None => (q, None)
    end.
  Definition hlfu_reset q (k : N) : hlfu * option N :=
    match h_freq q !! k with
    | Some f => (mkHlfu (h_cap q) (h_data q) (<[k := 1%N]> (h_freq q))
                   (heap_push (1%N, k) (h_heap q)), Some f)
    | None => (q, None)
    end.

  Definition hlfu_step q (o : lfu_op V) (it : list (N * N)) : hlfu * cout V :=
    match o with
    | UInsert k v => let '(q1, r) := hlfu_insert q k v in (q1, OVal r)
    | UGet k => let '(q1, r) := hlfu_get q k in (q1, OVal r)
    | UContains k => (q, OBool (bool_decide (is_Some (h_data q !! k))))
    | ULen => (q, ONat (size (h_data q)))
    | UClear => (mkHlfu (h_cap q) ∅ ∅ [], OUnit)
    | URemove k => let '(q1, r) := hlfu_remove q k in (q1, OVal r)
    | UPop => let '(q1, r) := hlfu_pop q in (q1, OPair r)
    | UPeek => (q, OPair (hlfu_peek q it))
    | UFreq k => (q, ORank (N.to_nat <$> h_freq q !! k))
    | UReset k => let '(q1, r) := hlfu_reset q k in (q1, ORank (N.to_nat <$> r))
    | UIncr k => let '(q1, r) := hlfu_incr q k in (q1, ORank (N.to_nat <$> r))
    end.

  Inductive hlfu_run : hlfu -> list (lfu_op V * cout V) -> hlfu -> Prop :=
  | hrun_nil q : hlfu_run q [] q
  | hrun_cons q o (it : list (N * N)) q1 r tr q2 :
      it ≡ₚ map_to_list (h_freq q) -> hlfu_step q o it = (q1, r) -> hlfu_run q1 tr q2 ->
      hlfu_run q ((o, r) :: tr) q2.

  (** What the heap cache stores, as a map from key to value and use count. *)
  Definition hlfu_contents q : gmap N (V * N) :=
    map_zip_with (fun v f => (v, f)) (h_data q) (h_freq q).
End lfu.
Arguments lfu : clear implicits.
Arguments hlfu : clear implicits.
