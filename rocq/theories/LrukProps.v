(** C08, C09, C10: the LRU-K cache and the frame replacer. *)
From stdpp Require Import gmap list.
From Coq Require Import Lia.
From Verif Require Import CacheSpec LrukSpec LrukModel LrukProofs ReplacerProofs.

(** C08. For every capacity, every K >= 1, every iteration order and every clock
    reading, each run of the cache is a history of the reference [lruk_spec]
    (LrukSpec.v), in which the dropped key is one no other goes before. *)
Theorem c08_lruk_histories : forall (V : Type) (cap K : nat) tr (c : lruk V), 0 < K ->
  lruk_run (lruk_new cap K) tr c ->
  exists s, lruk_hist cap K ∅ tr s /\ k_map c = (fun e => (e.1, lastn K e.2)) <$> s.
Proof.
  intros V cap K tr c HK H.
  destruct (lruk_run_hist _ _ _ H HK ∅) as (s & Ha & Ek & Hh); [exact (eq_sym (fmap_empty _))|].
  exists s. split; [exact Hh|]. unfold kabs, trunc in Ha. rewrite Ek in Ha. exact Ha.
Qed.
Print Assumptions c08_lruk_histories.

(** C08. Never more entries than the capacity. *)
Theorem c08_lruk_never_over_capacity : forall (V : Type) (cap K : nat) tr (c : lruk V), 0 < K ->
  lruk_run (lruk_new cap K) tr c -> size (k_map c) <= cap.
Proof.
  intros V cap K tr c HK H. destruct (c08_lruk_histories V cap K tr c HK H) as (s & Hh & ->).
  rewrite map_size_fmap. apply (lruk_hist_bound cap K ∅ s tr Hh). apply Nat.le_0_l.
Qed.
Print Assumptions c08_lruk_never_over_capacity.

Example c08_lruk_ex : exists c : lruk nat,
  lruk_run (lruk_new 2 2)
    [(KInsert 1 10 1, KO (OVal None)); (KInsert 2 20 2, KO (OVal None)); (KGet 1 3, KO (OVal (Some 10)));
     (KInsert 3 30 4, KO (OVal None)); (KContains 2, KO (OBool false)); (KGet 3 5, KO (OVal (Some 30)));
     (KGet 1 6, KO (OVal (Some 10))); (KDistance 1, KTime (Some 3%N)); (KPop, KO (OPair (Some (1%N, 10))))] c.
Proof.
  eexists.
  apply (lruk_exec_run _ [KInsert 1 10 1; KInsert 2 20 2; KGet 1 3; KInsert 3 30 4; KContains 2; KGet 3 5; KGet 1 6; KDistance 1; KPop]).
  vm_compute. reflexivity.
Qed.

(** C08. For K <= 2 (the code base uses 2) the rank is the position in the eviction order. *)
Theorem c08_lruk_rank_partial : forall (V : Type) (cap K : nat) tr (c : lruk V) it x n, 0 < K <= 2 ->
  lruk_run (lruk_new cap K) tr c -> it ≡ₚ map_to_list (k_map c) -> lruk_rank c it x = Some n ->
  exists s, lruk_hist cap K ∅ tr s /\ eviction_rank K s x n.
Proof.
  intros V cap K tr c it x n HK H Hp Hr.
  destruct (lruk_run_hist _ _ _ H (proj1 HK) ∅) as (s & Ha & Ek & Hh); [exact (eq_sym (fmap_empty _))|].
  exists s. split; [exact Hh|]. cbn in Ek. exact (rank_partial c s it x n cap K tr Hh Ha Ek HK Hp Hr).
Qed.
Print Assumptions c08_lruk_rank_partial.

Example c08_lruk_rank_partial_ex :
  let '(_, c) := lruk_exec (lruk_new 3 2) [KInsert 1 10 1; KInsert 2 20 2; KGet 1 3; KInsert 3 30 4] in
  lruk_rank c (map_to_list (k_map c)) 1%N = Some 2 /\ lruk_rank c (map_to_list (k_map c)) 3%N = Some 1.
Proof. vm_compute. split; reflexivity. Qed.

(** C08 fails for the rank in general: with K = 3 a key ranked first (rank 0) is not
    the one evicted, and the evicted one is ranked second. *)
Theorem c08_lruk_rank_refuted : exists tr (c : lruk nat) it,
  lruk_run (lruk_new 2 3) tr c /\ it ≡ₚ map_to_list (k_map c) /\
  lruk_rank c it 1%N = Some 0 /\ lruk_rank c it 2%N = Some 1 /\ lruk_peek c it = Some (2%N, 20).
Proof.
  eexists _, _, _. split; [|split; [reflexivity|]].
  - apply (lruk_exec_run _ [KInsert 1 10 1; KGet 1 2; KInsert 2 20 3]). vm_compute. reflexivity.
  - vm_compute. split; [reflexivity|]. split; reflexivity.
Qed.
Print Assumptions c08_lruk_rank_refuted.

(** C09. In every history, [evict] only returns a frame whose last event is a
    successful "mark evictable"; in particular never twice without a new marking. *)
Theorem c09_evict_only_evictable : forall K ops r tr r' f,
  rep_run (rep_new K) ops = (r, tr) -> rep_evict r = (r', Some f) -> marked_evictable tr f = true.
Proof. intros; eapply evict_only_marked; eassumption. Qed.
Print Assumptions c09_evict_only_evictable.

(** C09. If some frame is marked, [evict] finds one. *)
Theorem c09_evict_finds_one : forall K ops r tr f,
  rep_run (rep_new K) ops = (r, tr) -> marked_evictable tr f = true ->
  exists r' g, rep_evict r = (r', Some g).
Proof. intros; eapply evict_finds; eassumption. Qed.
Print Assumptions c09_evict_finds_one.

(** C09. The reported size is the number of marked frames. *)
Theorem c09_size_counts_evictable : forall K ops r tr,
  rep_run (rep_new K) ops = (r, tr) ->
  exists fs : gset N, (forall f, f ∈ fs <-> marked_evictable tr f = true) /\ rep_size r = size fs.
Proof. exact size_marked. Qed.
Print Assumptions c09_size_counts_evictable.

(** C09. Calling [evict] until it gives up returns exactly [size] frames. *)
Theorem c09_size_is_number_of_evictions : forall K ops r tr r' g,
  rep_run (rep_new K) ops = (r, tr) -> rep_evict r = (r', g) ->
  match g with Some _ => rep_size r = S (rep_size r') | None => rep_size r = 0 /\ r' = r end.
Proof. intros; eapply size_evictions; eassumption. Qed.
Print Assumptions c09_size_is_number_of_evictions.

(** C09. The internal counter never underflows, so no call can panic. *)
Theorem c09_counter_never_negative : forall K ops r tr,
  rep_run (rep_new K) ops = (r, tr) -> (0 <= r_curr r)%Z.
Proof. exact curr_nonneg. Qed.
Print Assumptions c09_counter_never_negative.

(** C10. The evicted frame is one before which no evictable frame goes in the LRU-K
    order [goes_before] over all recorded accesses. *)
Theorem c10_evicts_lruk_victim : forall K ops r tr r' f,
  rep_run (rep_new K) ops = (r, tr) -> rep_evict r = (r', Some f) ->
  forall g, marked_evictable tr g = true -> ~ goes_before K (accesses tr g) (accesses tr f).
Proof. intros; eapply evict_victim; eassumption. Qed.
Print Assumptions c10_evicts_lruk_victim.

Example c09_c10_ex :
  let '(r, tr) := rep_run (rep_new 2)
    [RAccess 1 1; RAccess 2 2; RAccess 1 3; RAccess 2 4; RAccess 3 5; RSet 1 true; RSet 2 true; RSet 3 true;
     RSet 3 false; RSize] in
  snd (rep_evict r) = Some 1%N /\ rep_size r = 2 /\ marked_evictable tr 2 = true /\ marked_evictable tr 3 = false /\
  accesses tr 1 = [1; 3]%N.
Proof. vm_compute. repeat split; reflexivity. Qed.
(** Stale queue entries: removed, accessed again and not yet marked. *)
Example c09_stale_ex :
  let '(r, tr) := rep_run (rep_new 2)
    [RAccess 1 1; RSet 1 true; RRemove 1; RAccess 1 2; RSet 1 true; REvict; REvict] in
  tr.*2 = [RUnit; RBool true; RUnit; RUnit; RBool true; RFrame (Some 1%N); RFrame None] /\ r_queue r = [1%N].
Proof. vm_compute. repeat split; reflexivity. Qed.
