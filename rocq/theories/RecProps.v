(** * Recovery after a crash (C37) *)
From Coq Require Import NArith Lia Sorted.
From stdpp Require Import gmap list.
From Verif Require Import RecSpec RecModel RecProofs.
Local Open Scope N_scope.

(** ** C37: recovery keeps the committed work and undoes the rest *)
(** For every log one process can leave that keeps to the rules of [wf], whatever the order in which the unfinished transactions are
    undone, and unless a page has no room for a row: after recovery the rows are those of the committed transactions. *)
Theorem recovery_partial (room : list row -> option nat -> list N -> bool) (pages : gset N) (log : list lrec) (order : list N) :
  wf pages log -> order ≡ₚ (map_to_list (a_txns (analyze log))).*1 ->
  p_refused (recover room log order (opened pages)) = false ->
  forall d, live (recover room log order (opened pages)) d = committed_table log !! d.
Proof. intros W Ho Hr d. by apply recover_correct. Qed.
Print Assumptions recovery_partial.

(** The transactions undone are those with a record but no commit or abort record at the end. *)
Theorem recovery_undoes (log : list lrec) (t : N) :
  is_Some (a_txns (analyze log) !! t) <->
  exists r, last (filter (fun q => r_txn q = t) log) = Some r /\ r_act r <> ACommit /\ r_act r <> AAbort.
Proof.
  rewrite a_txns_spec. destruct (last _) as [r|]; [|split; [by intros []|by intros (? & ? & _)]].
  split.
  - intros [l H]. exists r. split; [done|]. by destruct (r_act r).
  - intros (r' & E & H1 & H2). assert (r' = r) as -> by congruence. destruct (r_act r); cbn; try done; eauto.
Qed.
Print Assumptions recovery_undoes.

(** A log: transaction 1 inserts a row and commits; transaction 2 changes it, inserts a row and deletes that one again, and never ends;
    transaction 3 inserts a row and commits. *)
Definition log_a : list lrec :=
  [mkR 0 1 no_lsn ABegin; mkR 1 1 0 (AInsert (7, 0%nat) [10]); mkR 2 2 no_lsn ABegin; mkR 3 2 2 (AInsert (7, 1%nat) [20]);
   mkR 4 1 1 ACommit; mkR 5 2 3 (AUpdate (7, 0%nat) [10] [11]); mkR 6 3 no_lsn ABegin; mkR 7 3 6 (AInsert (7, 2%nat) [30]);
   mkR 8 2 5 (ADelete (7, 1%nat) [20]); mkR 9 3 7 ACommit].
Ltac each i H := repeat (destruct i as [|i]; [cbn in H; injection H as <-|]); try (cbn in H; discriminate H).
Ltac members H := apply elem_of_list_In in H; cbn in H; repeat (destruct H as [<-|H]); try contradiction.
Example log_a_wf : wf {[7]} log_a.
Proof.
  constructor.
  - cbn. repeat constructor.
  - intros r H. members H; vm_compute; reflexivity.
  - intros i r H. each i H; vm_compute; reflexivity.
  - intros i r q H Ha Hq. each i H; try discriminate Ha; members Hq; cbn; lia.
  - intros i r q H Ha Hq. each i H; destruct Ha as [Ha|Ha]; try discriminate Ha; members Hq; cbn; lia.
  - intros r q H Ha. members H; discriminate Ha.
  - intros r H. members H; cbn; try done; by apply elem_of_singleton.
  - intros i r H. each i H; try exact I; vm_compute; reflexivity.
  - intros i r q d H Hq Hd Hr Hn. each i H; cbn in Hr; try discriminate Hr; members Hq; cbn in Hd; try discriminate Hd;
      try (cbn in Hn; congruence); try (injection Hd as <-; discriminate Hr).
    all: eexists (mkR 4 1 1 ACommit); split; [apply elem_of_list_In; cbn; tauto|done].
Qed.
Example recovery_partial_ex :
  let s := recover (fun _ _ _ => true) log_a [2] (opened {[7]}) in
  (map_to_list (a_txns (analyze log_a))).*1 = [2] /\ p_refused s = false /\
  live s (7, 0%nat) = Some [10] /\ live s (7, 1%nat) = None /\ live s (7, 2%nat) = Some [30] /\
  committed_table log_a !! (7, 0%nat) = Some [10] /\ committed_table log_a !! (7, 1%nat) = None /\
  committed_table log_a !! (7, 2%nat) = Some [30].
Proof. vm_compute. done. Qed.

(** *** What recovery brings back cannot be read *)
(** The rows it rebuilds carry no commit timestamp: none of them is visible to a transaction other than one that has the number of the
    transaction that wrote the row before the crash. So of the committed work a user sees nothing after a crash. *)
Theorem recovered_rows_unseen_refuted (room : list row -> option nat -> list N -> bool) (pages : gset N) (log : list lrec) (order : list N)
  (d : rid) (r : row) (txn read_ts : N) :
  get d (recover room log order (opened pages)) = Some r -> w_txn r <> txn -> visible r txn read_ts = false.
Proof.
  intros Hg Hn. unfold visible. rewrite (proj2 (N.eqb_neq _ _)) by done.
  assert (w_ts r = None) as ->; [|done]. revert d r Hg Hn.
  assert (forall s, (forall d r, get d s = Some r -> w_ts r = None) -> forall d r, get d (recover room log order s) = Some r -> w_ts r = None) as H.
  2: { intros d r Hg _. eapply H; [|exact Hg]. intros d0 r0. unfold get, opened. cbn. rewrite lookup_gset_to_gmap.
       destruct (decide (d0.1 ∈ pages)); [rewrite option_guard_True by done|rewrite option_guard_False by done]; done. }
  assert (forall s p rows (r0 : row), p_pages s !! p = Some rows -> (forall d r, get d s = Some r -> w_ts r = None) -> r0 ∈ rows -> w_ts r0 = None) as Hin.
  { intros s p rows r0 E Hs Hr. apply elem_of_list_lookup in Hr as [k Hk]. apply (Hs (p, k)). unfold get. cbn. by rewrite E. }
  assert (forall s p (rows : list row) b, (forall d r, get d s = Some r -> w_ts r = None) -> (forall r : row, r ∈ rows -> w_ts r = None) ->
            forall d r, get d (mkP (<[p := rows]> (p_pages s)) b) = Some r -> w_ts r = None) as Hset.
  { intros s p rows b Hs Hr d r. unfold get. cbn. destruct (decide (d.1 = p)) as [->|Hne].
    - rewrite lookup_insert. intros Hk. apply Hr. apply elem_of_list_lookup. eauto.
    - rewrite lookup_insert_ne by done. apply Hs. }
  assert (forall s d (r0 : row), (forall d r, get d s = Some r -> w_ts r = None) -> w_ts r0 = None ->
            forall d' r, get d' (put room d r0 s) = Some r -> w_ts r = None) as Hput.
  { intros s d r0 Hs H0. unfold put. destruct (_ !! d.1) as [rows|] eqn:E; [|done]. destruct (rows !! d.2) as [r9|] eqn:E2; [|done].
    destruct (room _ _ _); [|done]. apply Hset; [done|]. intros r Hr. apply elem_of_list_lookup in Hr as [k Hk].
    apply list_lookup_insert_Some in Hk as [(_ & <- & _)|[_ Hk]]; [done|]. eapply Hin; [exact E|done|]. apply elem_of_list_lookup. eauto. }
  assert (forall s d, (forall d r, get d s = Some r -> w_ts r = None) -> forall d' r, get d' (mark room d s) = Some r -> w_ts r = None) as Hmark.
  { intros s d Hs. unfold mark. destruct (get d s) as [r0|] eqn:E; [|done]. apply Hput; [done|]. cbn. by eapply Hs. }
  assert (forall r s, (forall d r, get d s = Some r -> w_ts r = None) -> forall d' r', get d' (redo_record room r s) = Some r' -> w_ts r' = None) as Hredo.
  { intros r s Hs. unfold redo_record. destruct (r_act r); try done; try (by apply Hmark).
    - unfold put_new. destruct (_ !! _) as [rows|] eqn:E; [|done]. destruct (room _ _ _); [|done]. apply Hset; [done|].
      intros r1 Hr. apply elem_of_app in Hr as [Hr|Hr]; [by eapply Hin|]. by apply elem_of_list_singleton in Hr as ->.
    - by apply Hput.
    - destruct (_ !! _); [done|]. apply Hset; [done|]. intros r1 Hr. by apply elem_of_nil in Hr. }
  assert (forall r s, (forall d r, get d s = Some r -> w_ts r = None) -> forall d' r', get d' (undo_record room r s) = Some r' -> w_ts r' = None) as Hundo.
  { intros r s Hs. unfold undo_record. destruct (r_act r); try done; try (by apply Hmark); by apply Hput. }
  assert (forall f t lsn s, (forall d r, get d s = Some r -> w_ts r = None) -> forall d' r', get d' (undo_txn room f log t lsn s) = Some r' -> w_ts r' = None) as Htxn.
  { induction f as [|f IH]; intros t lsn s Hs; cbn [undo_txn]; [done|]. destruct (lsn =? no_lsn); [done|]. destruct (find_lsn log lsn); [|done].
    destruct (r_txn l =? t); [|done]. destruct (r_act l); try done; apply IH, Hundo, Hs. }
  intros s Hs. unfold recover, undo, redo. generalize (analyze log). intros x.
  assert (forall l s, (forall d r, get d s = Some r -> w_ts r = None) ->
    forall d r, get d (fold_left (fun s r => if should_redo x r then redo_record room r s else s) l s) = Some r -> w_ts r = None) as Hfold.
  { induction l as [|q l IH]; intros s0 Hs0; [done|]. cbn [fold_left]. apply IH. destruct (should_redo x q); [by apply Hredo|done]. }
  pose proof (Hfold log s Hs) as H1. revert H1. generalize (fold_left (fun s r => if should_redo x r then redo_record room r s else s) log s).
  generalize (S (length log)). intros f. clear -Htxn. induction order as [|t o IH]; intros s Hs; [done|]. cbn [fold_left]. apply IH, Htxn, Hs.
Qed.
Print Assumptions recovered_rows_unseen_refuted.

(** In the log above the first row is committed, comes back, and the transactions of the new process do not see it. *)
Example recovered_rows_unseen_ex :
  let s := recover (fun _ _ _ => true) log_a [2] (opened {[7]}) in
  exists r, get (7, 2%nat) s = Some r /\ w_data r = [30] /\ w_del r = false /\ w_txn r = 3 /\ visible r 4 100 = false /\ visible r 3 0 = true.
Proof. eexists. split; [vm_compute; reflexivity|]. vm_compute. done. Qed.

(** *** Aborted transactions come back *)
(** Aborting writes no records of its own and recovery redoes an aborted transaction's changes without undoing them. *)
Theorem recovery_aborted_refuted :
  exists (log : list lrec) (d : rid) (t : list N),
    (forall r, r ∈ log -> r_txn r = 1) /\ (exists r, last log = Some r /\ r_act r = AAbort) /\
    committed_table log = ∅ /\
    forall room order, order ≡ₚ (map_to_list (a_txns (analyze log))).*1 ->
      p_refused (recover room log order (opened {[d.1]})) = false ->
      live (recover room log order (opened {[d.1]})) d = Some t.
Proof.
  exists [mkR 0 1 no_lsn ABegin; mkR 1 1 0 (AInsert (7, 0%nat) [10]); mkR 2 1 1 AAbort], (7, 0%nat), [10].
  split; [intros r H; members H; done|]. split; [eexists; done|]. split; [done|].
  intros room order Ho. change ((map_to_list (a_txns (analyze [mkR 0 1 no_lsn ABegin; mkR 1 1 0 (AInsert (7, 0%nat) [10]); mkR 2 1 1 AAbort]))).*1) with ([] : list N) in Ho.
  apply Permutation_nil_r in Ho as ->. unfold recover, undo, redo. cbn [fold_left].
  set (x := analyze _).
  assert (should_redo x (mkR 0 1 no_lsn ABegin) = false) as -> by done.
  assert (should_redo x (mkR 1 1 0 (AInsert (7, 0%nat) [10])) = true) as -> by done.
  assert (should_redo x (mkR 2 1 1 AAbort) = false) as -> by done.
  cbn [fst]. unfold redo_record. cbn [r_act r_txn]. unfold put_new, opened. cbn [p_pages fst].
  change (gset_to_gmap ([] : list row) {[7]} !! 7) with (Some ([] : list row)). cbn match.
  destruct (room [] None (w_data (fresh_row 1 [10]))); [|done]. intros _. unfold live, get. cbn [p_pages fst snd].
  by rewrite lookup_insert.
Qed.
Print Assumptions recovery_aborted_refuted.

(** *** Work committed by a second process is not redone *)
(** The numbers start again at 0 in every process (C35). The log below holds a first process's insert with number 5, then a second
    process's with number 1 into the same page: redo starts at the first record's number, and the second process's commit is lost. *)
Theorem recovery_second_process_refuted :
  exists (log1 log2 : list lrec) (d : rid) (t : list N),
    StronglySorted N.lt (map r_lsn log1) /\ StronglySorted N.lt (map r_lsn log2) /\ committed log2 2 /\
    committed_table (log1 ++ log2) !! d = Some t /\
    forall room order, order ≡ₚ (map_to_list (a_txns (analyze (log1 ++ log2)))).*1 ->
      live (recover room (log1 ++ log2) order (opened {[d.1]})) d = None.
Proof.
  exists [mkR 4 1 no_lsn ABegin; mkR 5 1 4 (AInsert (7, 0%nat) [10]); mkR 6 1 5 ACommit],
         [mkR 0 2 no_lsn ABegin; mkR 1 2 0 (AInsert (7, 1%nat) [20]); mkR 2 2 1 ACommit], (7, 1%nat), [20].
  split; [cbn; repeat constructor|].
  split; [cbn; repeat constructor|].
  split; [exists (mkR 2 2 1 ACommit); split; [apply elem_of_list_In; cbn; tauto|done]|]. split; [done|].
  cbn [app]. set (log := _ :: _). intros room order Ho.
  change ((map_to_list (a_txns (analyze log))).*1) with ([] : list N) in Ho.
  apply Permutation_nil_r in Ho as ->. unfold recover, undo, redo. cbn [fold_left].
  set (x := analyze log). unfold log. cbn [fold_left].
  assert (should_redo x (mkR 4 1 no_lsn ABegin) = false) as -> by done.
  assert (should_redo x (mkR 5 1 4 (AInsert (7, 0%nat) [10])) = true) as -> by done.
  assert (should_redo x (mkR 6 1 5 ACommit) = false) as -> by done.
  assert (should_redo x (mkR 0 2 no_lsn ABegin) = false) as -> by done.
  assert (should_redo x (mkR 1 2 0 (AInsert (7, 1%nat) [20])) = false) as -> by done.
  assert (should_redo x (mkR 2 2 1 ACommit) = false) as -> by done.
  unfold redo_record. cbn [r_act r_txn]. unfold put_new, opened. cbn [p_pages fst].
  change (gset_to_gmap ([] : list row) {[7]} !! 7) with (Some ([] : list row)). cbn match.
  destruct (room [] None (w_data (fresh_row 1 [10]))); unfold live, get; cbn [p_pages fst snd].
  - by rewrite lookup_insert.
  - done.
Qed.
Print Assumptions recovery_second_process_refuted.
