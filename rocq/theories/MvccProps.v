(** * Properties of multi-version rows (C25-C30, C61)

    Time is bounded as in C02: the clock is a 64-bit counter, so histories are shorter than
    2^64 calls. *)
From stdpp Require Import gmap list.
From Coq Require Import NArith Lia ZifyBool ZifyNat ZifyN.
From Verif Require Import WatermarkModel WatermarkProofs MvccModel MvccSpec MvccRowProofs MvccProofs
  MvccDirtyProofs MvccReadProofs MvccDecide.
Local Open Scope N_scope.

Definition r0 : rid := (0, 0).
Definition r1 : rid := (0, 1).
Notation results ops := (mrun mv_init ops).1.
Notation final ops := (mrun mv_init ops).2.

(** ** C25 *)

(** In every calm history a transaction with snapshot reads sees its own last write, or else
    the newest version in its snapshot.

    Not covered (hence _partial; see the refutations below): histories with an abort that is not
    clean, garbage_collection, reads in the middle of a commit, and updates made in another
    transaction's name; READ COMMITTED, which has no snapshot. *)
Theorem c25_snapshot_reads_partial ops rs st t a rd :
  mrun mv_init ops = (rs, st) -> calm_history world0 (zip ops rs) -> N.of_nat (length ops) + 3 < 2 ^ 64 ->
  now (world_after ops rs) !! t = Some a -> snapshot_level (a_level a) ->
  read st t rd = seen (world_after ops rs) a rd.
Proof. intros R C L Ha Hl. apply inv_read; [|done|done]. by apply (history_inv ops rs st). Qed.
Print Assumptions c25_snapshot_reads_partial.

(** Transaction 3 (snapshot taken between two updates of a row by others, one of them undone)
    reads the older version; transaction 4 reads its own write. *)
Definition story : list mop :=
  [OBegin LSnap; OInsert 0 r0 10; OInsert 0 r1 11; OCommit 0;
   OBegin LRR; OUpdate 1 1 r0 20; OCommit 1;
   OBegin LSer; OUpdate 2 2 r0 30;
   OBegin LSnap; OAbort 2;
   OBegin LSnap; OUpdate 4 4 r0 40; ODelete 4 r1;
   OBegin LRC; OUpdate 5 5 r1 50; OPrune].

Example c25_snapshot_reads_ex :
  calm_history world0 (zip story (results story)) /\
  read (final story) 3 r0 = Some 20 /\ read (final story) 3 r1 = Some 11 /\
  read (final story) 4 r0 = Some 40 /\ read (final story) 4 r1 = None /\
  (exists a, now (world_after story (results story)) !! 3 = Some a /\ snapshot_level (a_level a)) /\
  (exists a, now (world_after story (results story)) !! 4 = Some a /\ snapshot_level (a_level a)).
Proof.
  split; [apply calm_historyb_ok; vm_compute; reflexivity|].
  repeat (split; [vm_compute; reflexivity|]).
  split; (eexists; split; [vm_compute; reflexivity|cbn; unfold snapshot_level; tauto]).
Qed.

(** A read is not one step: the page is read first and the undo chain followed later.  If the
    writer whose uncommitted version was on the page aborts in between, the reader finds
    nothing, although a version in its snapshot was there at both moments. *)
Theorem c25_torn_read_refuted :
  ~ (forall ops1 rs1 st1 ops2 rs2 st2 t a rd p,
       mrun mv_init ops1 = (rs1, st1) -> mrun st1 ops2 = (rs2, st2) ->
       calm_history world0 (zip (ops1 ++ ops2) (rs1 ++ rs2)) ->
       now (world_after (ops1 ++ ops2) (rs1 ++ rs2)) !! t = Some a -> snapshot_level (a_level a) ->
       pg st1 !! rd = Some p ->
       resolve st2 t rd p = seen (world_after ops1 rs1) a rd \/
       resolve st2 t rd p = seen (world_after (ops1 ++ ops2) (rs1 ++ rs2)) a rd).
Proof.
  intros H.
  pose (ops1 := [OBegin LSnap; OInsert 0 r0 10; OCommit 0; OBegin LSnap; OBegin LSnap; OUpdate 2 2 r0 20]).
  specialize (H ops1 (results ops1) (final ops1) [OAbort 2] (mrun (final ops1) [OAbort 2]).1
    (mrun (final ops1) [OAbort 2]).2 1 (Act LSnap 3 ∅) r0 (Meta 2 None false (Some 0%nat), 20)).
  specialize (H ltac:(apply surjective_pairing)). specialize (H ltac:(apply surjective_pairing)). specialize (H ltac:(apply calm_historyb_ok; vm_compute; reflexivity)). specialize (H ltac:(vm_compute; reflexivity)). specialize (H ltac:(unfold snapshot_level; tauto)). specialize (H ltac:(vm_compute; reflexivity)).
  vm_compute in H. destruct H; discriminate.
Qed.
Print Assumptions c25_torn_read_refuted.

(** At READ COMMITTED a row under an uncommitted update by another transaction is read as of
    the reader's start: a version that was already replaced, by a commit, before the read. *)
Theorem c25_read_committed_goes_back_refuted :
  ~ (forall ops rs st t a rd,
       mrun mv_init ops = (rs, st) -> calm_history world0 (zip ops rs) ->
       now (world_after ops rs) !! t = Some a -> a_level a = LRC -> writes a rd = [] ->
       read st t rd = match versions (world_after ops rs) rd with (_, v) :: _ => v | [] => None end).
Proof.
  intros H.
  pose (ops := [OBegin LRC; OInsert 0 r0 10; OCommit 0; OBegin LRC; OBegin LRC; OUpdate 2 2 r0 20; OCommit 2;
                OBegin LRC; OUpdate 3 3 r0 30]).
  specialize (H ops (results ops) (final ops) 1 (Act LRC 3 ∅) r0).
  specialize (H ltac:(apply surjective_pairing)). specialize (H ltac:(apply calm_historyb_ok; vm_compute; reflexivity)). specialize (H ltac:(vm_compute; reflexivity)). specialize (H eq_refl). specialize (H ltac:(vm_compute; reflexivity)).
  vm_compute in H. discriminate.
Qed.
Print Assumptions c25_read_committed_goes_back_refuted.

(** ** C26 *)

(** Above READ UNCOMMITTED whatever is read is the reader's own write or a committed version;
    at the snapshot levels one in the snapshot.  The page may have been read at an earlier
    moment (after [ops1]) than the undo chain (after [ops2]); commits may be in progress, any
    transaction may abort, garbage collection may run.  Callers of update name themselves. *)
Theorem c26_no_dirty_reads_partial ops1 rs1 st1 ops2 rs2 st2 t a1 a rd p v :
  mrun mv_init ops1 = (rs1, st1) -> mrun st1 ops2 = (rs2, st2) -> Forall honest (ops1 ++ ops2) ->
  now (world_after ops1 rs1) !! t = Some a1 ->
  now (world_after (ops1 ++ ops2) (rs1 ++ rs2)) !! t = Some a -> a_level a <> LRU ->
  pg st1 !! rd = Some p -> resolve st2 t rd p = Some v ->
  Some v ∈ writes a rd \/
  exists c, (c, Some v) ∈ versions (world_after (ops1 ++ ops2) (rs1 ++ rs2)) rd /\
            (snapshot_level (a_level a) -> c <= a_snap a).
Proof.
  intros R1 R2 Hh Ha1 Ha Hl Hp Hr. apply Forall_app in Hh as [H1 H2].
  destruct (history_dinv ops1 rs1 st1 R1 H1) as [own1 D1].
  destruct (mrun_dinv ops2 st1 _ own1 rs2 st2 D1 R2 H2) as [own2 D2].
  pose proof (page_legit_now _ _ _ _ _ _ _ D1 Ha1 Hp) as P1.
  destruct (mrun_split ops1 ops2 rs1 rs2 st1 st2 mv_init R1 R2) as [_ Z].
  assert (W : world_after (ops1 ++ ops2) (rs1 ++ rs2) = fold_left wstep (zip ops2 rs2) (world_after ops1 rs1)).
  { unfold world_after. by rewrite Z, fold_left_app. }
  rewrite W in *.
  destruct (mrun_keeps ops2 st1 _ own1 rs2 st2 t rd a1 p D1 R2 H2 Ha1 P1 a Ha) as (P2 & _).
  destruct (resolve_legit _ _ _ _ _ _ _ _ D2 Ha Hl P2 Hr) as (r & [Hw|(c & Hc & Hs)] & Hr2); [by left|right].
  exists c. split; [done|]. intros Hsl. apply Hs. by apply Hr2.
Qed.
Print Assumptions c26_no_dirty_reads_partial.

(** The same for a read in one step. *)
Corollary c26_no_dirty_reads_atomic_partial ops rs st t a rd v :
  mrun mv_init ops = (rs, st) -> Forall honest ops -> now (world_after ops rs) !! t = Some a -> a_level a <> LRU ->
  read st t rd = Some v ->
  Some v ∈ writes a rd \/
  exists c, (c, Some v) ∈ versions (world_after ops rs) rd /\ (snapshot_level (a_level a) -> c <= a_snap a).
Proof.
  intros R H Ha Hl Hr. unfold read in Hr. destruct (pg st !! rd) as [p|] eqn:Hp; [|done].
  pose proof (c26_no_dirty_reads_partial ops rs st [] [] st t a a rd p v R eq_refl) as G. rewrite !app_nil_r in G. auto.
Qed.

(** A commit in progress, an unclean abort, garbage collection; the reader gets something. *)
Definition rough : list mop :=
  [OBegin LSnap; OInsert 0 r0 10; OCommitStart 0; OStamp 0 r0; OPrune;
   OBegin LRC; OBegin LSnap; OUpdate 2 2 r0 20; OUpdate 2 2 r0 21; OCommitStart 2; OGc].
Example c26_no_dirty_reads_ex :
  forallb honestb (rough ++ [OStamp 2 r0]) = true /\
  read (final (rough ++ [OStamp 2 r0])) 1 r0 = Some 21 /\
  now (world_after (rough ++ [OStamp 2 r0]) (results (rough ++ [OStamp 2 r0]))) !! 1 = Some (Act LRC 3 ∅).
Proof. repeat split; vm_compute; reflexivity. Qed.

(** The plain table heap's get_tuple_with_txn, asked by a snapshot transaction, returns whatever
    is on the page; asked by a READ COMMITTED one, it returns the newest undo log, which can be
    an uncommitted version too. *)
Theorem c26_plain_heap_refuted :
  ~ (forall ops rs st t a rd v,
       mrun mv_init ops = (rs, st) -> Forall honest ops -> now (world_after ops rs) !! t = Some a -> a_level a <> LRU ->
       heap_read st t rd = Some v ->
       Some v ∈ writes a rd \/ exists c, (c, Some v) ∈ versions (world_after ops rs) rd).
Proof.
  intros H. pose (ops := [OBegin LSnap; OInsert 0 r0 10; OBegin LSnap]).
  specialize (H ops (results ops) (final ops) 1 (Act LSnap 2 ∅) r0 10).
  specialize (H ltac:(apply surjective_pairing)). specialize (H ltac:(apply honestb_ok; vm_compute; reflexivity)). specialize (H ltac:(vm_compute; reflexivity)). specialize (H ltac:(discriminate)). specialize (H ltac:(vm_compute; reflexivity)).
  destruct H as [H|(c & H)]; vm_compute in H; inversion H.
Qed.
Print Assumptions c26_plain_heap_refuted.

Theorem c26_plain_heap_read_committed_refuted :
  ~ (forall ops rs st t a rd v,
       mrun mv_init ops = (rs, st) -> Forall honest ops -> now (world_after ops rs) !! t = Some a -> a_level a = LRC ->
       heap_read st t rd = Some v ->
       Some v ∈ writes a rd \/ exists c, (c, Some v) ∈ versions (world_after ops rs) rd).
Proof.
  intros H. pose (ops := [OBegin LSnap; OInsert 0 r0 10; OUpdate 0 0 r0 11; OBegin LRC]).
  specialize (H ops (results ops) (final ops) 1 (Act LRC 2 ∅) r0 10).
  specialize (H ltac:(apply surjective_pairing)). specialize (H ltac:(apply honestb_ok; vm_compute; reflexivity)). specialize (H ltac:(vm_compute; reflexivity)). specialize (H eq_refl). specialize (H ltac:(vm_compute; reflexivity)).
  destruct H as [H|(c & H)]; vm_compute in H; inversion H.
Qed.
Print Assumptions c26_plain_heap_read_committed_refuted.

(** The SQL UPDATE passes 0 as the caller (update_executor.rs:159-160).  Transaction 5 then
    overwrites transaction 0's uncommitted row; when transaction 0 aborts, its value comes back
    as transaction 5's, which reads and commits it: a later transaction reads a value that only
    an aborted transaction wrote. *)
Theorem c26_sql_update_refuted :
  ~ (forall ops rs st t a rd v,
       mrun mv_init ops = (rs, st) -> (forall u c r y, OUpdate u c r y ∈ ops -> c = 0) ->
       now (world_after ops rs) !! t = Some a -> a_level a = LSnap -> read st t rd = Some v ->
       Some v ∈ writes a rd \/ exists c, (c, Some v) ∈ versions (world_after ops rs) rd).
Proof.
  intros H.
  pose (ops := [OBegin LSnap; OBegin LSnap; OInsert 0 r0 66; OUpdate 1 0 r0 7; OAbort 0; OCommit 1; OBegin LSnap]).
  specialize (H ops (results ops) (final ops) 2 (Act LSnap 4 ∅) r0 66).
  specialize (H ltac:(apply surjective_pairing)).
  assert (Hc : forall u c r y, OUpdate u c r y ∈ ops -> c = 0).
  { intros u c r y Hin. unfold ops in Hin. repeat (apply elem_of_cons in Hin as [Hin|Hin]; [try discriminate; congruence|]).
    by apply elem_of_nil in Hin. }
  specialize (H Hc). specialize (H ltac:(vm_compute; reflexivity)). specialize (H eq_refl). specialize (H ltac:(vm_compute; reflexivity)).
  destruct H as [H|(c & H)]; vm_compute in H; [inversion H|].
  inversion H as [|? ? ? H2]; inversion H2.
Qed.
Print Assumptions c26_sql_update_refuted.

(** ** C27 *)

(** Two reads of a row by a transaction that has not written it agree, whatever happens in
    between, in every calm history. *)
Theorem c27_repeatable_partial ops1 rs1 st1 ops2 rs2 st2 t a1 a2 rd :
  mrun mv_init ops1 = (rs1, st1) -> mrun st1 ops2 = (rs2, st2) ->
  calm_history world0 (zip (ops1 ++ ops2) (rs1 ++ rs2)) -> N.of_nat (length (ops1 ++ ops2)) + 3 < 2 ^ 64 ->
  now (world_after ops1 rs1) !! t = Some a1 -> snapshot_level (a_level a1) ->
  now (world_after (ops1 ++ ops2) (rs1 ++ rs2)) !! t = Some a2 -> writes a2 rd = [] ->
  read st2 t rd = read st1 t rd.
Proof.
  intros R1 R2 C L Ha1 Hl Ha2 Hw. destruct (mrun_split ops1 ops2 rs1 rs2 st1 st2 mv_init R1 R2) as [R Z].
  assert (W : world_after (ops1 ++ ops2) (rs1 ++ rs2) = fold_left wstep (zip ops2 rs2) (world_after ops1 rs1)).
  { unfold world_after. by rewrite Z, fold_left_app. }
  pose proof C as C0. rewrite Z in C0. apply calm_app in C0 as [C1 C2]. rewrite app_length in L.
  destruct (history_inv ops1 rs1 st1 R1 C1 ltac:(lia)) as [I1 N1].
  destruct (history_inv _ _ _ R C ltac:(rewrite app_length; lia)) as [I2 _].
  pose proof Ha2 as Ha2'. rewrite W in Ha2'.
  destruct (mrun_calm_keeps ops2 st1 _ rs2 st2 t a1 I1 R2 C2 ltac:(lia) Ha1 a2 Ha2') as (K1 & K2 & K3 & K4).
  rewrite (inv_read st1 _ t a1 rd I1 Ha1 Hl). rewrite (inv_read st2 _ t a2 rd I2 Ha2) by (by rewrite K2).
  unfold seen. rewrite Hw, (K3 rd Hw), K1, W. apply K4.
Qed.
Print Assumptions c27_repeatable_partial.

Example c27_repeatable_ex :
  let ops1 := [OBegin LSnap; OInsert 0 r0 10; OCommit 0; OBegin LRR] in
  let ops2 := [OBegin LSnap; OUpdate 2 2 r0 20; OCommit 2; OBegin LSnap; ODelete 3 r0; OCommit 3] in
  calm_history world0 (zip (ops1 ++ ops2) (results (ops1 ++ ops2))) /\
  now (world_after ops1 (results ops1)) !! 1 = Some (Act LRR 3 ∅) /\
  now (world_after (ops1 ++ ops2) (results (ops1 ++ ops2))) !! 1 = Some (Act LRR 3 ∅) /\
  read (final ops1) 1 r0 = Some 10 /\ read (final (ops1 ++ ops2)) 1 r0 = Some 10.
Proof. split; [apply calm_historyb_ok; vm_compute; reflexivity|]. repeat split; vm_compute; reflexivity. Qed.

(** A transaction that begins while another one's commit is in progress gets a later snapshot
    than that commit, but the rows are stamped afterwards: its reads change under it. *)
Theorem c27_commit_in_progress_refuted :
  ~ (forall ops1 rs1 st1 ops2 rs2 st2 t a1 a2 rd,
       mrun mv_init ops1 = (rs1, st1) -> mrun st1 ops2 = (rs2, st2) -> Forall honest (ops1 ++ ops2) ->
       (forall u, OAbort u ∉ ops1 ++ ops2) -> OGc ∉ ops1 ++ ops2 ->
       now (world_after ops1 rs1) !! t = Some a1 -> snapshot_level (a_level a1) ->
       now (world_after (ops1 ++ ops2) (rs1 ++ rs2)) !! t = Some a2 -> writes a2 rd = [] ->
       read st2 t rd = read st1 t rd).
Proof.
  intros H.
  pose (ops1 := [OBegin LSnap; OInsert 0 r0 10; OCommit 0; OBegin LSnap; OUpdate 1 1 r0 20; OCommitStart 1; OBegin LSnap]).
  specialize (H ops1 (results ops1) (final ops1) [OStamp 1 r0] (mrun (final ops1) [OStamp 1 r0]).1
    (mrun (final ops1) [OStamp 1 r0]).2 2 (Act LSnap 5 ∅) (Act LSnap 5 ∅) r0).
  specialize (H ltac:(apply surjective_pairing)). specialize (H ltac:(apply surjective_pairing)). specialize (H ltac:(apply honestb_ok; vm_compute; reflexivity)).
  assert (A : forall u, OAbort u ∉ ops1 ++ [OStamp 1 r0]).
  { intros u Hin. unfold ops1 in Hin. cbn in Hin. repeat (apply elem_of_cons in Hin as [Hin|Hin]; [discriminate|]). by apply elem_of_nil in Hin. }
  assert (G : OGc ∉ ops1 ++ [OStamp 1 r0]).
  { intros Hin. unfold ops1 in Hin. cbn in Hin. repeat (apply elem_of_cons in Hin as [Hin|Hin]; [discriminate|]). by apply elem_of_nil in Hin. }
  specialize (H A). specialize (H G). specialize (H ltac:(vm_compute; reflexivity)). specialize (H ltac:(unfold snapshot_level; tauto)). specialize (H ltac:(vm_compute; reflexivity)). specialize (H ltac:(vm_compute; reflexivity)).
  vm_compute in H. discriminate.
Qed.
Print Assumptions c27_commit_in_progress_refuted.

(** ** C28 *)

(** A clean abort changes nothing that any other running transaction with snapshot reads sees. *)
Theorem c28_abort_unseen_partial ops rs st t u a rd st2 :
  mrun mv_init ops = (rs, st) -> calm_history world0 (zip ops rs) -> N.of_nat (length ops) + 4 < 2 ^ 64 ->
  calm (world_after ops rs) (OAbort t) -> mstep (OAbort t) st = (ROk, st2) ->
  now (world_after ops rs) !! u = Some a -> u <> t -> snapshot_level (a_level a) ->
  read st2 u rd = read st u rd.
Proof.
  intros R C L Hc Hm Ha Hne Hl. destruct (history_inv ops rs st R C ltac:(lia)) as [I1 N1].
  pose proof (mstep_inv st _ (OAbort t) I1 Hc ltac:(lia)) as S. rewrite Hm in S. destruct S as (I2 & _). cbn [wstep] in I2.
  rewrite (inv_read st _ u a rd I1 Ha Hl). rewrite (inv_read st2 _ u a rd I2); [done| |done].
  cbn. by rewrite lookup_delete_ne.
Qed.
Print Assumptions c28_abort_unseen_partial.

(** After a clean abort a new transaction sees, of every row, the newest committed version:
    nothing of the aborted transaction, and no row it inserted. *)
Theorem c28_abort_undone_partial ops rs st t i n ts st2 rd :
  mrun mv_init ops = (rs, st) -> calm_history world0 (zip ops rs) -> N.of_nat (length ops) + 5 < 2 ^ 64 ->
  calm (world_after ops rs) (OAbort t) -> snapshot_level i ->
  mrun st [OAbort t; OBegin i] = ([ROk; RBegan n ts], st2) ->
  read st2 n rd = match versions (world_after ops rs) rd with (_, v) :: _ => v | [] => None end.
Proof.
  intros R C L Hc Hl Hm. destruct (history_inv ops rs st R C ltac:(lia)) as [I1 N1].
  assert (T1 : in_time st (world_after ops rs)).
  { apply (mrun_in_time ops mv_init world0); [apply inv_init|done|done|cbn; lia|]. intros r c v Hin. by apply elem_of_nil in Hin. }
  cbn [mrun] in Hm. destruct (mstep (OAbort t) st) as [r1 s1] eqn:E1. destruct (mstep (OBegin i) s1) as [r2 s2] eqn:E2.
  injection Hm as -> -> <-.
  pose proof (mstep_inv st _ (OAbort t) I1 Hc ltac:(lia)) as S. rewrite E1 in S. destruct S as (I2 & N2 & _). cbn [wstep] in I2.
  pose proof (mstep_inv s1 _ (OBegin i) I2 I ltac:(lia)) as S. rewrite E2 in S. destruct S as (I3 & _). cbn [wstep] in I3.
  rewrite (inv_read s2 _ n (Act i ts ∅) rd I3); [|cbn; by rewrite lookup_insert|done].
  unfold seen, writes. cbn. rewrite lookup_empty. cbn. apply as_of_all. intros c v Hin. specialize (T1 rd c v Hin).
  cbn [mstep] in E2. unfold begin in E2. destruct (get_next_ts_and_register (wk s1)) as [w1 ts1] eqn:Eg.
  injection E2 as <- <- <-. unfold get_next_ts_and_register in Eg. cbn [get_next_ts] in Eg. injection Eg as _ <-. lia.
Qed.
Print Assumptions c28_abort_undone_partial.

(** An update, a delete and an insert, undone. *)
Example c28_abort_ex :
  let ops := [OBegin LSnap; OInsert 0 r0 10; OInsert 0 r1 11; OCommit 0; OBegin LSnap;
              OBegin LSnap; OUpdate 2 2 r0 20; ODelete 2 r1; OInsert 2 (1, 0) 22] in
  calm_history world0 (zip ops (results ops)) /\ calm (world_after ops (results ops)) (OAbort 2) /\
  (mrun (final ops) [OAbort 2; OBegin LSnap]).1 = [ROk; RBegan 3 5] /\
  let st2 := (mrun (final ops) [OAbort 2; OBegin LSnap]).2 in
  read st2 1 r0 = Some 10 /\ read st2 3 r0 = Some 10 /\ read st2 3 r1 = Some 11 /\ read st2 3 (1, 0) = None.
Proof.
  split; [apply calm_historyb_ok; vm_compute; reflexivity|]. split; [apply calmb_ok; vm_compute; reflexivity|].
  repeat split; vm_compute; reflexivity.
Qed.

(** A transaction that updates a row twice and aborts takes the committed row with it: only the
    last update is undone, the row stays uncommitted, and its history is forgotten together with
    the aborted transaction. *)
Theorem c28_double_update_refuted :
  ~ (forall ops rs st t i n ts st2 rd,
       mrun mv_init ops = (rs, st) -> calm_history world0 (zip ops rs) -> snapshot_level i ->
       mrun st [OAbort t; OBegin i] = ([ROk; RBegan n ts], st2) ->
       read st2 n rd = match versions (world_after ops rs) rd with (_, v) :: _ => v | [] => None end).
Proof.
  intros H. pose (ops := [OBegin LSnap; OInsert 0 r0 10; OCommit 0; OBegin LSnap; OUpdate 1 1 r0 20; OUpdate 1 1 r0 30]).
  specialize (H ops (results ops) (final ops) 1 LSnap 2 4 (mrun (final ops) [OAbort 1; OBegin LSnap]).2 r0).
  specialize (H ltac:(apply surjective_pairing)). specialize (H ltac:(apply calm_historyb_ok; vm_compute; reflexivity)). specialize (H ltac:(unfold snapshot_level; tauto)).
  specialize (H ltac:(rewrite surjective_pairing at 1; f_equal; vm_compute; reflexivity)).
  vm_compute in H. discriminate.
Qed.
Print Assumptions c28_double_update_refuted.

(** And the row can never be written again: nobody's update of it is accepted any more. *)
Theorem c28_row_blocked_refuted :
  ~ (forall ops rs st t i n ts st2 rd v vs c y,
       mrun mv_init ops = (rs, st) -> calm_history world0 (zip ops rs) ->
       mrun st [OAbort t; OBegin i] = ([ROk; RBegan n ts], st2) -> (forall u a, now (world_after ops rs) !! u = Some a -> u = t) ->
       versions (world_after ops rs) rd = (c, Some v) :: vs ->
       (mstep (OUpdate n n rd y) st2).1 = ROk).
Proof.
  intros H. pose (ops := [OBegin LSnap; OInsert 0 r0 10; OCommit 0; OBegin LSnap; OUpdate 1 1 r0 20; OUpdate 1 1 r0 30]).
  specialize (H ops (results ops) (final ops) 1 LSnap 2 4
    (mrun (final ops) [OAbort 1; OBegin LSnap]).2 r0 10 [] 2 40).
  specialize (H ltac:(apply surjective_pairing)). specialize (H ltac:(apply calm_historyb_ok; vm_compute; reflexivity)).
  specialize (H ltac:(rewrite surjective_pairing at 1; f_equal; vm_compute; reflexivity)). specialize (H ltac:(apply only_active_ok; vm_compute; reflexivity)). specialize (H ltac:(vm_compute; reflexivity)).
  vm_compute in H. discriminate.
Qed.
Print Assumptions c28_row_blocked_refuted.

(** A row inserted and updated by an aborted transaction is still there for a READ UNCOMMITTED
    reader, after the transaction is gone. *)
Theorem c28_insert_stays_refuted :
  ~ (forall ops rs st t i n ts st2 rd,
       mrun mv_init ops = (rs, st) -> calm_history world0 (zip ops rs) ->
       mrun st [OAbort t; OBegin i] = ([ROk; RBegan n ts], st2) ->
       (forall u a, now (world_after ops rs) !! u = Some a -> u = t) -> versions (world_after ops rs) rd = [] ->
       read st2 n rd = None).
Proof.
  intros H. pose (ops := [OBegin LSnap; OInsert 0 r0 10; OUpdate 0 0 r0 20]).
  specialize (H ops (results ops) (final ops) 0 LRU 1 2 (mrun (final ops) [OAbort 0; OBegin LRU]).2 r0).
  specialize (H ltac:(apply surjective_pairing)). specialize (H ltac:(apply calm_historyb_ok; vm_compute; reflexivity)).
  specialize (H ltac:(rewrite surjective_pairing at 1; f_equal; vm_compute; reflexivity)).
  assert (A : forall u a, now (world_after ops (results ops)) !! u = Some a -> u = 0).
  { apply only_active_ok. vm_compute. reflexivity. }
  specialize (H A). specialize (H ltac:(vm_compute; reflexivity)). vm_compute in H. discriminate.
Qed.
Print Assumptions c28_insert_stays_refuted.

(** ** C29 *)

(** Two snapshot transactions that ran at the same time updated the same row and both
    committed: the first one's update is lost. *)
Theorem c29_lost_update_refuted :
  ~ (forall ops rs st t u y z w0 a b c d,
       mrun mv_init ops = (rs, st) -> calm_history world0 (zip ops rs) ->
       now (world_after ops rs) !! t = Some a -> now (world_after ops rs) !! u = Some b ->
       snapshot_level (a_level a) -> snapshot_level (a_level b) -> t <> u ->
       (mrun st [OUpdate t t w0 y; OCommit t; OUpdate u u w0 z; OCommit u]).1 <> [ROk; RCommitted c; ROk; RCommitted d]).
Proof.
  intros H. pose (ops := [OBegin LSnap; OInsert 0 r0 10; OCommit 0; OBegin LSer; OBegin LSer]).
  apply (H ops (results ops) (final ops) 1 2 20 30 r0 (Act LSer 3 ∅) (Act LSer 4 ∅) 5 6).
  - apply surjective_pairing.
  - apply calm_historyb_ok; vm_compute; reflexivity.
  - vm_compute; reflexivity.
  - vm_compute; reflexivity.
  - unfold snapshot_level; tauto.
  - unfold snapshot_level; tauto.
  - discriminate.
  - vm_compute; reflexivity.
Qed.
Print Assumptions c29_lost_update_refuted.

(** What holds: while a transaction that wrote a row is running, everybody else's writes to the
    row are refused. *)
Theorem c29_no_overwrite_partial ops rs st t u a rd o :
  mrun mv_init ops = (rs, st) -> Forall honest ops ->
  now (world_after ops rs) !! u = Some a -> writes a rd <> [] -> t <> u ->
  (exists y, o = OInsert t rd y) \/ (exists y, o = OUpdate t t rd y) \/ o = ODelete t rd ->
  mstep o st = (RRefused, st).
Proof.
  intros R H Ha Hw Hne Ho. destruct (history_dinv ops rs st R H) as [own D].
  destruct (d_hold _ _ _ D u a rd Ha Hw) as (m & y0 & Hp & Hc & Ht & _).
  assert (Hx : negb (m_creator m =? t) && negb (committed m) = true).
  { unfold committed. rewrite Ht. cbn. rewrite andb_true_r. lia. }
  destruct Ho as [[y ->]|[[y ->]| ->]]; cbn [mstep].
  - unfold insert. destruct (running st t); [|done]. by rewrite Hp.
  - unfold update. destruct (running st t); [|done]. rewrite Hp. destruct (m_del m); [done|]. by rewrite Hx.
  - unfold delete_row. destruct (running st t); [|done]. rewrite Hp. destruct (m_del m); [done|]. by rewrite Hx.
Qed.
Print Assumptions c29_no_overwrite_partial.

Example c29_no_overwrite_ex :
  let ops := [OBegin LSnap; OInsert 0 r0 10; OCommit 0; OBegin LSnap; OBegin LSnap; OUpdate 1 1 r0 20] in
  forallb honestb ops = true /\ now (world_after ops (results ops)) !! 1 = Some (Act LSnap 3 {[r0 := [Some 20]]}) /\
  (mstep (OUpdate 2 2 r0 30) (final ops)).1 = RRefused /\ (mstep (OUpdate 1 1 r0 30) (final ops)).1 = ROk.
Proof. repeat split; vm_compute; reflexivity. Qed.

(** ** C30 *)

(** Forgetting finished transactions does not change what a running transaction with snapshot
    reads sees, in every calm history. *)
Theorem c30_prune_harmless_partial ops rs st t a rd :
  mrun mv_init ops = (rs, st) -> calm_history world0 (zip ops rs) -> N.of_nat (length ops) + 3 < 2 ^ 64 ->
  now (world_after ops rs) !! t = Some a -> snapshot_level (a_level a) ->
  read (prune st) t rd = read st t rd.
Proof.
  intros R C L Ha Hl. destruct (history_inv ops rs st R C ltac:(lia)) as [I1 _].
  rewrite (inv_read st _ t a rd I1 Ha Hl). by apply inv_read; [apply inv_prune|..].
Qed.
Print Assumptions c30_prune_harmless_partial.

(** Pruning does forget something here, and the old reader still finds its version. *)
Example c30_prune_harmless_ex :
  let ops := [OBegin LSnap; OInsert 0 r0 10; OBegin LSnap; OCommit 0; OBegin LSnap; OCommit 1;
              OUpdate 2 2 r0 20; OCommitStart 2] in
  let ops := [OBegin LSnap; OInsert 0 r0 10; OCommit 0; OBegin LSnap; OBegin LSnap; OUpdate 2 2 r0 20; OCommit 2; OPrune] in
  calm_history world0 (zip ops (results ops)) /\ tx (final ops) !! 0 = None /\ read (prune (final ops)) 1 r0 = Some 10.
Proof. split; [apply calm_historyb_ok; vm_compute; reflexivity|]. split; vm_compute; reflexivity. Qed.

(** garbage_collection drops the undo link of a row although a running transaction still needs
    the version behind it. *)
Theorem c30_gc_refuted :
  ~ (forall ops rs st t a rd,
       mrun mv_init ops = (rs, st) -> calm_history world0 (zip ops rs) ->
       now (world_after ops rs) !! t = Some a -> snapshot_level (a_level a) ->
       read (gc st) t rd = read st t rd).
Proof.
  intros H. pose (ops := [OBegin LSnap; OInsert 0 r0 10; OCommit 0; OBegin LSnap; OBegin LSnap; OCommit 1; OBegin LSnap; OUpdate 2 2 r0 20]).
  specialize (H ops (results ops) (final ops) 3 (Act LSnap 6 ∅) r0).
  specialize (H ltac:(apply surjective_pairing)). specialize (H ltac:(apply calm_historyb_ok; vm_compute; reflexivity)). specialize (H ltac:(vm_compute; reflexivity)). specialize (H ltac:(unfold snapshot_level; tauto)).
  vm_compute in H. discriminate.
Qed.
Print Assumptions c30_gc_refuted.

(** An aborted transaction is forgotten although the chain of a running reader's version runs
    through one of its undo logs. *)
Theorem c30_prune_aborted_refuted :
  ~ (forall ops rs st t a rd,
       mrun mv_init ops = (rs, st) -> Forall honest ops -> (forall rd, OGc ∉ ops /\ forall u, OStamp u rd ∉ ops) ->
       now (world_after ops rs) !! t = Some a -> snapshot_level (a_level a) ->
       read st t rd = seen (world_after ops rs) a rd).
Proof.
  intros H.
  pose (ops := [OBegin LSnap; OInsert 0 r0 10; OCommit 0; OBegin LSnap; OBegin LSnap;
                OBegin LSnap; OUpdate 3 3 r0 20; OCommit 3; OUpdate 1 1 r0 30; OAbort 1; OBegin LSnap; OUpdate 4 4 r0 40]).
  specialize (H ops (results ops) (final ops) 2 (Act LSnap 4 ∅) r0).
  specialize (H ltac:(apply surjective_pairing)). specialize (H ltac:(apply honestb_ok; vm_compute; reflexivity)).
  assert (A : forall rd, OGc ∉ ops /\ forall u, OStamp u rd ∉ ops).
  { intros rd. split; [|intros u]; intros Hin; unfold ops in Hin;
      repeat (apply elem_of_cons in Hin as [Hin|Hin]; [discriminate|]); by apply elem_of_nil in Hin. }
  specialize (H A). specialize (H ltac:(vm_compute; reflexivity)). specialize (H ltac:(unfold snapshot_level; tauto)).
  vm_compute in H. discriminate.
Qed.
Print Assumptions c30_prune_aborted_refuted.

(** ** C61 *)

(** A transaction can update and delete a row it has written itself, as long as it names itself
    (as the storage layer's callers do, but not the SQL UPDATE). *)
Theorem c61_own_rows_partial ops rs st t a rd v vs y :
  mrun mv_init ops = (rs, st) -> Forall honest ops ->
  now (world_after ops rs) !! t = Some a -> writes a rd = Some v :: vs ->
  (mstep (OUpdate t t rd y) st).1 = ROk /\ (mstep (ODelete t rd) st).1 = ROk.
Proof.
  intros R H Ha Hw. destruct (history_dinv ops rs st R H) as [own D].
  destruct (d_hold _ _ _ D t a rd Ha ltac:(by rewrite Hw)) as (m & y0 & Hp & Hc & Ht & Hh & _).
  destruct (d_run _ _ _ D t a Ha) as (x & Hx & Hs & _).
  assert (Er : running st t = Some x) by (by apply running_spec).
  rewrite Hw in Hh. cbn in Hh. unfold shown in Hh. destruct (m_del m) eqn:Ed; [done|].
  cbn [mstep]. unfold update, delete_row. rewrite Er, Hp, Ed, Hc, N.eqb_refl. done.
Qed.
Print Assumptions c61_own_rows_partial.

Example c61_own_rows_ex :
  let ops := [OBegin LSnap; OBegin LSnap; OInsert 1 r0 10] in
  forallb honestb ops = true /\ now (world_after ops (results ops)) !! 1 = Some (Act LSnap 2 {[r0 := [Some 10]]}) /\
  (mstep (OUpdate 1 1 r0 20) (final ops)).1 = ROk.
Proof. repeat split; vm_compute; reflexivity. Qed.

(** The SQL UPDATE names transaction 0: a transaction cannot update a row it has just
    inserted, ... *)
Theorem c61_sql_update_own_row_refuted :
  ~ (forall ops rs st t a rd v vs y,
       mrun mv_init ops = (rs, st) -> now (world_after ops rs) !! t = Some a -> writes a rd = Some v :: vs ->
       (mstep (OUpdate t 0 rd y) st).1 = ROk).
Proof.
  intros H. pose (ops := [OBegin LSnap; OBegin LSnap; OInsert 1 r0 10]).
  specialize (H ops (results ops) (final ops) 1 (Act LSnap 2 {[r0 := [Some 10]]}) r0 10 [] 20).
  specialize (H ltac:(apply surjective_pairing)). specialize (H ltac:(vm_compute; reflexivity)). specialize (H ltac:(vm_compute; reflexivity)).
  vm_compute in H. discriminate.
Qed.
Print Assumptions c61_sql_update_own_row_refuted.

(** ... and any transaction can overwrite the uncommitted rows of transaction 0. *)
Theorem c61_sql_update_others_row_refuted :
  ~ (forall ops rs st t u a rd y,
       mrun mv_init ops = (rs, st) -> now (world_after ops rs) !! u = Some a -> writes a rd <> [] -> t <> u ->
       (mstep (OUpdate t 0 rd y) st).1 = RRefused).
Proof.
  intros H. pose (ops := [OBegin LSnap; OBegin LSnap; OInsert 0 r0 10]).
  specialize (H ops (results ops) (final ops) 1 0 (Act LSnap 1 {[r0 := [Some 10]]}) r0 20).
  specialize (H ltac:(apply surjective_pairing)). specialize (H ltac:(vm_compute; reflexivity)). specialize (H ltac:(discriminate)). specialize (H ltac:(discriminate)).
  vm_compute in H. discriminate.
Qed.
Print Assumptions c61_sql_update_others_row_refuted.
