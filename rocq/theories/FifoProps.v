(** C04: the FIFO cache. *)
From stdpp Require Import gmap list.
From Verif Require Import CacheSpec FifoModel FifoProofs.

(** C04. For every capacity and every sequence of calls, the FIFO cache gives
    exactly the answers of the reference list [fifo_spec] (CacheSpec.v): bounded,
    oldest insertion dropped first, re-insertion keeps the age. *)
Theorem c04_fifo_behaves_like_bounded_list : forall (V : Type) (cap : nat) (ops : list (fifo_op V)),
  snd (run_ops fifo_step (fifo_new cap) ops) = snd (run_ops (fifo_spec cap) [] ops).
Proof. intros V. exact fifo_refines. Qed.
Print Assumptions c04_fifo_behaves_like_bounded_list.
Example c04_fifo_behaves_like_bounded_list_ex :
  snd (run_ops fifo_step (fifo_new 2)
    [FInsert 1 10; FInsert 2 20; FInsert 1 11; FInsert 3 30; FGet 1; FRank 3; FPop; FLen]) =
  [OVal None; OVal None; OVal (Some 10); OVal None; OVal None; ORank (Some 1); OPair (Some (2%N, 20)); ONat 1].
Proof. vm_compute. reflexivity. Qed.

(** C04. The number of entries never exceeds the capacity. *)
Theorem c04_fifo_never_over_capacity : forall (V : Type) (cap : nat) (ops : list (fifo_op V)),
  fifo_len (fst (run_ops fifo_step (fifo_new cap) ops)) <= cap.
Proof. intros V. exact fifo_bounded. Qed.
Print Assumptions c04_fifo_never_over_capacity.
Example c04_fifo_never_over_capacity_ex :
  fifo_len (fst (run_ops fifo_step (fifo_new 2) [FInsert 1 1; FInsert 2 2; FInsert 3 3])) = 2.
Proof. vm_compute. reflexivity. Qed.
