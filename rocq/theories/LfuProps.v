(** C06, C07: the LFU caches. *)
From stdpp Require Import gmap list.
From Verif Require Import CacheSpec LfuSpec LfuModel LfuProofs HeapLfuProofs.

(** C06. Whatever order the hash map is iterated in, every run of the LFU cache is a
    history of the reference [lfu_spec] (LfuSpec.v): the key dropped by an insert into
    a full cache is a least used one and everything else is kept. *)
Theorem c06_lfu_histories : forall (V : Type) (cap : nat) tr (c : lfu V),
  lfu_run (lfu_new cap) tr c -> lfu_hist cap ∅ tr (u_map c).
Proof. intros V cap tr c H. exact (proj2 (lfu_run_hist _ _ _ H)). Qed.
Print Assumptions c06_lfu_histories.

(** C06. Never more entries than the capacity. *)
Theorem c06_lfu_never_over_capacity : forall (V : Type) (cap : nat) tr (c : lfu V),
  lfu_run (lfu_new cap) tr c -> size (u_map c) <= cap.
Proof.
  intros V cap tr c H. apply (lfu_hist_bound cap ∅ _ tr (proj2 (lfu_run_hist _ _ _ H))).
  apply Nat.le_0_l.
Qed.
Print Assumptions c06_lfu_never_over_capacity.

(** C06. The stored count is what the calls and answers say: one for the insertion
    plus one per successful use since then. *)
Theorem c06_lfu_counts_uses : forall (V : Type) (cap : nat) tr (c : lfu V) k v f,
  lfu_run (lfu_new cap) tr c -> u_map c !! k = Some (v, f) -> f = uses k tr.
Proof.
  intros V cap tr c k v f H. apply (lfu_hist_uses cap ∅ _ tr (proj2 (lfu_run_hist _ _ _ H)) k 0%N).
  intros v' f' E0. cbn in E0. rewrite lookup_empty in E0. discriminate.
Qed.
Print Assumptions c06_lfu_counts_uses.

Example c06_lfu_ex : exists c : lfu nat,
  lfu_run (lfu_new 2)
    [(UInsert 1 10, OVal None); (UInsert 2 20, OVal None); (UGet 1, OVal (Some 10));
     (UInsert 3 30, OVal None); (UContains 2, OBool false); (UFreq 1, ORank (Some 2));
     (UPop, OPair (Some (3%N, 30)))] c /\ map_to_list (u_map c) = [(1%N, (10, 2%N))].
Proof.
  eexists. split.
  - apply (lfu_exec_run _ [UInsert 1 10; UInsert 2 20; UGet 1; UInsert 3 30; UContains 2; UFreq 1; UPop]).
    vm_compute. reflexivity.
  - vm_compute. reflexivity.
Qed.

(** C07. For every non-zero capacity the heap cache, despite stale heap records, only
    produces histories of the same reference. *)
Theorem c07_heap_lfu_histories_partial : forall (V : Type) (cap : nat) tr (q : hlfu V), 0 < cap ->
  hlfu_run (hlfu_new cap) tr q -> lfu_hist cap ∅ tr (hlfu_contents q).
Proof.
  intros V cap tr q Hc H. destruct (hlfu_run_hist _ _ _ H Hc (hinv_new cap)) as (_ & _ & Hh).
  rewrite contents_new in Hh. exact Hh.
Qed.
Print Assumptions c07_heap_lfu_histories_partial.

(** C07. Never more entries than a non-zero capacity. Missing: capacity zero, refuted below. *)
Theorem c07_heap_lfu_never_over_capacity_partial : forall (V : Type) (cap : nat) tr (q : hlfu V), 0 < cap ->
  hlfu_run (hlfu_new cap) tr q -> size (h_data q) <= cap.
Proof.
  intros V cap tr q Hc H. destruct (hlfu_run_hist _ _ _ H Hc (hinv_new cap)) as (Hi & _ & Hh).
  rewrite contents_new in Hh. rewrite <- (contents_size q Hi). apply (lfu_hist_bound cap ∅ _ tr Hh).
  apply Nat.le_0_l.
Qed.
Print Assumptions c07_heap_lfu_never_over_capacity_partial.

(** C07. Counts are the numbers of uses, and no entry without an insertion. *)
Theorem c07_heap_lfu_counts_uses : forall (V : Type) (cap : nat) tr (q : hlfu V) k f, 0 < cap ->
  hlfu_run (hlfu_new cap) tr q -> h_freq q !! k = Some f -> f = uses k tr.
Proof.
  intros V cap tr q k f Hc H Hf. destruct (hlfu_run_hist _ _ _ H Hc (hinv_new cap)) as (Hi & _ & Hh).
  rewrite contents_new in Hh. rewrite <- (contents_snd q k Hi) in Hf.
  destruct (hlfu_contents q !! k) as [[v g]|] eqn:E; [|discriminate]. injection Hf as ->.
  apply (lfu_hist_uses cap ∅ _ tr Hh k 0%N) with (v := v); [|exact E].
  intros v' f' E0. cbn in E0. rewrite lookup_empty in E0. discriminate.
Qed.
Print Assumptions c07_heap_lfu_counts_uses.

Example c07_heap_lfu_ex : exists q : hlfu nat,
  hlfu_run (hlfu_new 2)
    [(UInsert 2 20, OVal None); (UGet 2, OVal (Some 20)); (URemove 2, OVal (Some 20));
     (UInsert 2 21, OVal None); (UInsert 1 10, OVal None); (UReset 1, ORank (Some 1)); (UGet 1, OVal (Some 10));
     (UInsert 3 30, OVal None); (UContains 2, OBool false)] q /\ map_to_list (h_data q) = [(1%N, 10); (3%N, 30)] /\ length (h_heap q) = 4.
Proof.
  eexists. split; [|split].
  - apply (hlfu_exec_run _ [UInsert 2 20; UGet 2; URemove 2; UInsert 2 21; UInsert 1 10; UReset 1; UGet 1; UInsert 3 30; UContains 2]).
    vm_compute. reflexivity.
  - vm_compute. reflexivity.
  - vm_compute. reflexivity.
Qed.

(** C07 fails at capacity zero: an insert is stored although the capacity is 0. *)
Theorem c07_heap_lfu_zero_capacity_refuted : exists tr (q : hlfu nat),
  hlfu_run (hlfu_new 0) tr q /\ size (h_data q) > 0.
Proof.
  eexists _, _. split.
  - apply (hlfu_exec_run _ [UInsert 1 1]). vm_compute. reflexivity.
  - vm_compute. apply le_n.
Qed.
Print Assumptions c07_heap_lfu_zero_capacity_refuted.
