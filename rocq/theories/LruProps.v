(** C05: the LRU cache. *)
From stdpp Require Import gmap list.
From Verif Require Import CacheSpec LruModel LruProofs.

(** C05. For every capacity and every sequence of calls: no call dereferences a
    dangling pointer ([lru_run] is never [None]); the answers are exactly those of
    the reference list [lru_spec] (CacheSpec.v), ordered by last use and truncated
    to the capacity; the live nodes are exactly the nodes the map points to (no
    leak), and each map entry points to the node of its own key. *)
Theorem c05_lru_behaves_like_recency_list : forall (V : Type) (cap : nat) (ops : list (lru_op V)),
  exists c, lru_run (lru_new cap) ops = Some (c, snd (run_ops (lru_spec cap) [] ops)) /\
    (forall a, is_Some (l_heap c !! a) <-> exists k, l_map c !! k = Some a) /\
    (forall k a, l_map c !! k = Some a -> exists n, l_heap c !! a = Some n /\ n_key n = k).
Proof. intros V. exact lru_refines. Qed.
Print Assumptions c05_lru_behaves_like_recency_list.
Example c05_lru_behaves_like_recency_list_ex :
  snd <$> lru_run (lru_new 2)
    [LInsert 1 10; LInsert 2 20; LGet 1; LInsert 3 30; LPeek 2; LRank 1; LTouch 1; LPop; LRemove 1; LLen] =
  Some [OVal None; OVal None; OVal (Some 10); OVal None; OVal None; ORank (Some 1); OBool true;
        OPair (Some (3%N, 30)); OVal (Some 10); ONat 0].
Proof. vm_compute. reflexivity. Qed.

(** C05. The cache never exceeds its capacity. *)
Theorem c05_lru_never_over_capacity : forall (V : Type) (cap : nat) (ops : list (lru_op V)) c rs,
  lru_run (lru_new cap) ops = Some (c, rs) -> size (l_map c) <= cap.
Proof. intros V. exact lru_bounded. Qed.
Print Assumptions c05_lru_never_over_capacity.
Example c05_lru_never_over_capacity_ex :
  exists c rs, lru_run (lru_new 1) [LInsert 1 10; LInsert 2 20] = Some (c, rs) /\ size (l_map c) = 1.
Proof. eexists _, _. split; vm_compute; reflexivity. Qed.
