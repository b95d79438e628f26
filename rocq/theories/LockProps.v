(** * Locking: the properties

    C20 granted locks never conflict, C21 what the modes mean, C22 releasing, C23 the deadlock
    detector, C24 two-phase locking, C58 deadlock reports and real deadlocks, C59 releasing a
    lock others wait for, C60 a granted lock stays. *)
From stdpp Require Import gmap list sets fin_sets.
From Coq Require Import NArith Lia.
From Verif Require Import LockModel LockSpec LockGraphProofs LockProofs LockStateProofs LockDecide.
Local Open Scope N_scope.

(** Running a concrete history inside a proof: [R] is its results and [P] what is checked of
    the final state, called [st]. *)
Ltac checked K :=
  lazymatch type of K with
  | _ && _ = true => let K1 := fresh K in let K2 := fresh K in
      apply andb_true_iff in K; destruct K as [K1 K2]; checked K1; checked K2
  | holdsb _ _ _ _ = true => apply holdsb_ok in K
  | waitsb _ _ _ _ = true => apply waitsb_ok in K
  | absentb _ _ _ = true => apply absentb_ok in K
  | negb _ = true => apply negb_true_iff, not_true_iff_false in K; rewrite holdsb_ok in K
  | bool_decide _ = true => apply bool_decide_eq_true in K
  | _ => idtac
  end.
Ltac run_to ops rs P st :=
  let H := fresh "H" in
  assert (H : ends ops rs P = true) by (vm_compute; reflexivity);
  apply ends_ok in H; destruct H as (st & R & H); checked H.
Ltac given :=
  repeat apply conj;
  match goal with
  | R : lrun _ _ = Some _ |- lrun _ _ = Some _ => exact R
  | H : ?P |- ?P => exact H
  | |- _ <> _ => discriminate
  | |- _ => reflexivity
  end.
Ltac is_polite := apply polite_all; vm_compute; reflexivity.
Ltac is_plain := apply plainb_ok; vm_compute; reflexivity.

(** ** C20 *)

(** Two transactions never hold conflicting locks on the same table or row at the same time,
    in any history of polite requests. *)
Theorem c20_granted_locks_compatible_partial ops rs st x t1 t2 m1 m2 :
  polite (fun _ => True) lm_init ops ->
  lrun lm_init ops = Some (rs, st) ->
  t1 <> t2 -> holds st t1 x m1 -> holds st t2 x m2 -> ~ conflict m1 m2.
Proof.
  intros P R Hne H1 H2. destruct (run_tidy _ _ _ _ P init_tidy R x) as [_ A].
  apply compatible_spec. unfold holds in *. rewrite queue_of_the in *.
  by apply (A (Req t1 m1 true) (Req t2 m2 true)).
Qed.
Print Assumptions c20_granted_locks_compatible_partial.

Definition c20_history : list lop :=
  [OBegin 1 RC; OBegin 2 RC; OLockTable 1 MIX 7; OLockTable 2 MIX 7; OLockTable 1 MS 8;
   OLockTable 2 MX 8; OLockRow 1 MX 7 (3, 4); OLockTable 1 MX 8].

Example c20_ex : exists rs st, lrun lm_init c20_history = Some (rs, st) /\
  polite (fun _ => True) lm_init c20_history /\
  rs = [LNone; LNone; LOk true; LOk true; LOk true; LOk false; LOk true; LOk true] /\
  holds st 1 (Table 7) MIX /\ holds st 2 (Table 7) MIX /\ holds st 1 (Table 8) MX.
Proof.
  run_to c20_history [LNone; LNone; LOk true; LOk true; LOk true; LOk false; LOk true; LOk true]
    (fun st => holdsb st 1 (Table 7) MIX && holdsb st 2 (Table 7) MIX && holdsb st 1 (Table 8) MX) st.
  eexists _, st. split; [given|]. split; [is_polite|]. given.
Qed.

(** Without politeness it fails: a conversion from IX to X (and from IS to S) is granted
    whatever the others hold. *)
Theorem c20_refuted : exists ops rs st t1 t2 x m1 m2,
  lrun lm_init ops = Some (rs, st) /\ t1 <> t2 /\ holds st t1 x m1 /\ holds st t2 x m2 /\ conflict m1 m2.
Proof.
  run_to [OBegin 1 RR; OBegin 2 RR; OLockTable 1 MIX 7; OLockTable 2 MIX 7; OLockTable 1 MX 7]
    [LNone; LNone; LOk true; LOk true; LOk true] (fun st => holdsb st 1 (Table 7) MX && holdsb st 2 (Table 7) MIX) st.
  eexists _, _, st, 1, 2, (Table 7), MX, MIX. split; [given|].
  split; [given|]. split; [given|]. split; [given|]. exists Writing, Writing. cbn. unfold clash. tauto.
Qed.
Print Assumptions c20_refuted.

(** ** C21 *)

(** The compatibility matrix is the one that the meaning of the modes dictates. *)
Theorem c21_matrix a b : are_compatible a b = true <-> ~ conflict a b.
Proof. apply compatible_spec. Qed.
Print Assumptions c21_matrix.

Example c21_matrix_ex : are_compatible MSIX MIS = true /\ are_compatible MIX MS = false.
Proof. done. Qed.

(** A row lock is granted (or queued) only to a transaction whose lock on that table gives it
    the corresponding right on rows of the table. *)
Theorem c21_row_needs_table st t m oid r b st2 :
  lstep st (OLockRow t m oid r) = Some (LOk b, st2) ->
  exists tm k, holds st t (Table oid) tm /\
    ((m = MX /\ k = Writing) \/ (m = MS /\ k = Reading)) /\
    (on_all_rows tm k \/ on_some_rows tm k).
Proof.
  cbn [lstep]. intros [= H]. unfold lock_row in H. destruct (txns st !! t) as [[i s]|]; [|done].
  destruct (validate i s m) as [e|s2]; [done|].
  assert (X : (m = MX \/ m = MS) /\ existsb (fun q => own t q && table_permits (rq_mode q) m)
      (q_reqs (default empty_queue (tables st !! oid))) = true).
  { cbn [set_state tables] in H. destruct m; try done; (split; [auto|]); destruct (existsb _ _); done. }
  destruct X as [Hm X]. apply existsb_exists in X as (q & I & P). apply andb_true_iff in P as [O P].
  apply own_true in O as [G T]. exists (rq_mode q), (match m with MX => Writing | _ => Reading end).
  split; [|split].
  - unfold holds. simpl. apply elem_of_list_In. destruct q; simpl in *. by subst.
  - destruct Hm as [-> | ->]; auto.
  - destruct Hm as [-> | ->], (rq_mode q); try discriminate P; simpl; auto.
Qed.
Print Assumptions c21_row_needs_table.

Example c21_row_ex : exists st, lrun lm_init [OBegin 1 RC; OLockTable 1 MIX 7; OLockRow 1 MX 7 (3, 4); OLockRow 1 MS 7 (3, 5)]
  = Some ([LNone; LOk true; LOk true; LErr ETableLockMissing], st).
Proof.
  run_to [OBegin 1 RC; OLockTable 1 MIX 7; OLockRow 1 MX 7 (3, 4); OLockRow 1 MS 7 (3, 5)]
    [LNone; LOk true; LOk true; LErr ETableLockMissing] (fun st : lm => true) st. exists st. given.
Qed.

(** ** C22 *)

(** When a transaction whose requests were polite and were all answered at once commits or
    aborts, nothing of it is left in any queue, whatever the others did. *)
Theorem c22_finish_releases_all_partial t ops rs st o res st2 :
  polite (fun u => u = t) lm_init ops -> never_waits t lm_init ops ->
  lrun lm_init ops = Some (rs, st) ->
  o = OCommit t \/ o = OAbort t -> lstep st o = Some (res, st2) ->
  (forall x, absent st2 t x) /\ waits st2 !! t = None.
Proof.
  intros P W R O H. assert (F : finish_request o = Some t) by (destruct O as [-> | ->]; done). split.
  - eapply finish_mine; [|exact F|exact H]. by eapply run_mine; [| |apply init_mine|].
  - destruct (finish_queues _ _ _ _ _ F H) as (_ & _ & ->). apply lookup_delete.
Qed.
Print Assumptions c22_finish_releases_all_partial.

Definition c22_history : list lop :=
  [OBegin 1 RR; OBegin 2 RC; OLockTable 1 MIX 7; OLockRow 1 MX 7 (3, 4); OLockTable 2 MIS 7].

Example c22_finish_ex : exists rs st, lrun lm_init c22_history = Some (rs, st) /\
  polite (fun u => u = 1) lm_init c22_history /\ never_waits 1 lm_init c22_history /\
  holds st 1 (Row (3, 4)) MX /\ is_Some (lstep st (OCommit 1)).
Proof.
  run_to c22_history [LNone; LNone; LOk true; LOk true; LOk true]
    (fun st => holdsb st 1 (Row (3, 4)) MX && match lstep st (OCommit 1) with Some _ => true | None => false end) st.
  eexists _, st. split; [given|]. split; [apply polite_one; vm_compute; reflexivity|].
  split; [apply never_waitsb_ok; vm_compute; reflexivity|]. split; [given|].
  destruct (lstep st (OCommit 1)); [eauto|done].
Qed.

(** Such a transaction can also give back a table lock by itself, provided it has no row lock
    on the page numbered like the table and nobody waits for the table. *)
Theorem c22_unlock_releases_partial t m oid m0 ops rs st i s :
  polite (fun u => u = t) lm_init ops -> never_waits t lm_init ops ->
  lrun lm_init ops = Some (rs, st) -> txns st !! t = Some (i, s) ->
  holds st t (Table oid) m0 -> (forall r m1, r.1 = oid -> ~ holds st t (Row r) m1) ->
  (forall u m1, ~ waits_on st u (Table oid) m1) ->
  exists st2, lstep st (OUnlockTable t m oid) = Some (LOk true, st2) /\ absent st2 t (Table oid).
Proof.
  intros P W R T Hh Hr Hw.
  destruct (run_mine_rec t ops lm_init rs st P W (conj (init_mine t) (init_mine_rec t)) R) as [M MR].
  cbn [lstep]. by eapply unlock_returns.
Qed.
Print Assumptions c22_unlock_releases_partial.

Example c22_unlock_ex : exists st, lrun lm_init [OBegin 1 RR; OLockTable 1 MX 7; OUnlockTable 1 MX 7; OLockTable 1 MX 7]
  = Some ([LNone; LOk true; LOk true; LErr EShrinking], st) /\ absent st 1 (Table 7).
Proof.
  run_to [OBegin 1 RR; OLockTable 1 MX 7; OUnlockTable 1 MX 7; OLockTable 1 MX 7]
    [LNone; LOk true; LOk true; LErr EShrinking] (fun st => absentb st 1 (Table 7)) st. exists st. given.
Qed.

(** Otherwise a lock can outlive its transaction: after IS, S and one unlock the S lock stays,
    can no longer be unlocked and survives the commit. *)
Theorem c22_kept_after_commit_refuted : exists ops rs st,
  lrun lm_init (ops ++ [OUnlockTable 1 MS 7; OUnlockTable 1 MS 7; OCommit 1]) = Some (rs ++ [LOk true; LErr ENoLockHeld; LNone], st) /\
  holds st 1 (Table 7) MS.
Proof.
  exists [OBegin 1 RC; OLockTable 1 MIS 7; OLockTable 1 MS 7], [LNone; LOk true; LOk true].
  run_to [OBegin 1 RC; OLockTable 1 MIS 7; OLockTable 1 MS 7; OUnlockTable 1 MS 7; OUnlockTable 1 MS 7; OCommit 1]
    [LNone; LOk true; LOk true; LOk true; LErr ENoLockHeld; LNone] (fun st => holdsb st 1 (Table 7) MS) st. exists st. given.
Qed.
Print Assumptions c22_kept_after_commit_refuted.

(** A request still waiting when its transaction ends stays in the queue, too. *)
Theorem c22_waiter_stays_refuted : exists ops rs st, polite (fun _ => True) lm_init ops /\
  lrun lm_init (ops ++ [OAbort 2]) = Some (rs, st) /\ waits_on st 2 (Table 7) MX.
Proof.
  exists [OBegin 1 RC; OBegin 2 RC; OLockTable 1 MX 7; OLockTable 2 MX 7].
  run_to [OBegin 1 RC; OBegin 2 RC; OLockTable 1 MX 7; OLockTable 2 MX 7; OAbort 2]
    [LNone; LNone; LOk true; LOk false; LNone] (fun st => waitsb st 2 (Table 7) MX) st.
  eexists _, st. split; [is_polite|]. given.
Qed.
Print Assumptions c22_waiter_stays_refuted.

(** The check that rows are unlocked before their table compares the table with the row's
    page: it misses the transaction's row locks and refuses over rows of other tables. *)
Theorem c22_rows_before_table_refuted :
  (exists st, lrun lm_init [OBegin 1 RC; OLockTable 1 MIX 7; OLockRow 1 MX 7 (3, 4); OUnlockTable 1 MIX 7]
     = Some ([LNone; LOk true; LOk true; LOk true], st) /\ holds st 1 (Row (3, 4)) MX) /\
  (exists st, lrun lm_init [OBegin 1 RC; OLockTable 1 MIX 7; OLockTable 1 MIX 3; OLockRow 1 MX 7 (3, 4); OUnlockTable 1 MIX 3]
     = Some ([LNone; LOk true; LOk true; LOk true; LErr ETableBeforeRows], st)).
Proof.
  split.
  - run_to [OBegin 1 RC; OLockTable 1 MIX 7; OLockRow 1 MX 7 (3, 4); OUnlockTable 1 MIX 7]
      [LNone; LOk true; LOk true; LOk true] (fun st => holdsb st 1 (Row (3, 4)) MX) st. exists st. given.
  - run_to [OBegin 1 RC; OLockTable 1 MIX 7; OLockTable 1 MIX 3; OLockRow 1 MX 7 (3, 4); OUnlockTable 1 MIX 3]
      [LNone; LOk true; LOk true; LOk true; LErr ETableBeforeRows] (fun _ : lm => true) st. exists st. given.
Qed.
Print Assumptions c22_rows_before_table_refuted.

(** ** C23 *)

(** For every waits-for graph, whatever the order in which it is walked: if the detector names
    a victim, the victim is the youngest transaction of a cycle; if it names none there is no
    cycle; and it always comes to an end. *)
Theorem c23_detector_sound_and_complete g it : it ≡ₚ elements (dom g) ->
  (forall v, find_cycle g it = Some (Some v) -> exists c, cycle g c /\ youngest v c) /\
  (find_cycle g it = Some None <-> forall c, ~ cycle g c) /\
  find_cycle g it <> None.
Proof.
  intros Hit. pose proof (find_cycle_ok g it Hit) as G.
  destruct (find_cycle g it) as [[v|]|] eqn:E; [| |done].
  - destruct G as (c & C & Y). split; [intros w [= <-]; eauto|]. split; [|done].
    split; [done|]. intros N. by apply N in C.
  - split; [done|]. split; [done|done].
Qed.
Print Assumptions c23_detector_sound_and_complete.

Definition c23_graph : gmap N (list N) := {[1 := [2; 5]; 2 := [3]; 3 := [2; 4]; 4 := []]}.
Example c23_ex : find_cycle c23_graph [4; 1; 3; 2] = Some (Some 3) /\ [4; 1; 3; 2] ≡ₚ elements (dom c23_graph).
Proof.
  split; [vm_compute; reflexivity|].
  assert (E : elements (dom c23_graph) ≡ₚ [1; 2; 3; 4]).
  { apply NoDup_Permutation; [apply NoDup_elements|apply (bool_decide_unpack _); vm_compute; exact I|].
    intros x. rewrite elem_of_elements. unfold c23_graph. set_solver. }
  rewrite E. apply (bool_decide_unpack _). vm_compute. exact I.
Qed.

(** ** C24 *)

(** REPEATABLE READ: once a transaction has unlocked something it held in mode S or X, and
    told so, it is never given another lock. *)
Theorem c24_repeatable_read st t s o m st2 ops rs st3 o3 m3 x :
  txns st !! t = Some (RR, s) -> unlock_request o = Some (t, m) -> m = MS \/ m = MX ->
  lstep st o = Some (LOk true, st2) -> lrun st2 ops = Some (rs, st3) ->
  lock_request o3 = Some (t, m3, x) -> exists e, lstep st3 o3 = Some (LErr e, st3).
Proof.
  intros T U Hm H R L. pose proof (unlock_state _ _ _ _ _ _ _ U T H) as T2.
  assert (S : state_after_unlock RR m s = Shrinking) by (destruct Hm as [-> | ->]; done). rewrite S in T2.
  destruct (run_over _ _ _ _ _ _ _ R T2 (or_introl eq_refl)) as (s3 & T3 & Ho).
  destruct Ho as [-> |[-> | ->]]; eexists; eapply lock_refused; eauto; done.
Qed.
Print Assumptions c24_repeatable_read.

(** READ COMMITTED: once it has unlocked an X lock, it is given at most S and IS locks. *)
Theorem c24_read_committed st t s o st2 ops rs st3 o3 m3 x :
  txns st !! t = Some (RC, s) -> unlock_request o = Some (t, MX) ->
  lstep st o = Some (LOk true, st2) -> lrun st2 ops = Some (rs, st3) ->
  lock_request o3 = Some (t, m3, x) -> m3 <> MS -> m3 <> MIS -> exists e, lstep st3 o3 = Some (LErr e, st3).
Proof.
  intros T U H R L N1 N2. pose proof (unlock_state _ _ _ _ _ _ _ U T H) as T2. simpl in T2.
  destruct (run_over _ _ _ _ _ _ _ R T2 (or_introl eq_refl)) as (s3 & T3 & Ho).
  destruct Ho as [-> |[-> | ->]]; eexists; eapply lock_refused; eauto; destruct m3; done.
Qed.
Print Assumptions c24_read_committed.

(** READ UNCOMMITTED: the transaction never holds a shared lock of any kind. *)
Theorem c24_read_uncommitted ops rs st t s x m :
  lrun lm_init ops = Some (rs, st) -> txns st !! t = Some (RU, s) -> holds st t x m -> m = MX \/ m = MIX.
Proof.
  intros R T H. unfold holds in H. rewrite queue_of_the in H.
  destruct (run_ru _ _ _ _ init_ru R x _ H) as (i & s2 & T2 & M). simpl in *.
  rewrite T in T2. injection T2 as <- <-. auto.
Qed.
Print Assumptions c24_read_uncommitted.

(** A committed or aborted transaction with level REPEATABLE READ or READ COMMITTED is never
    given a lock again. *)
Theorem c24_finished st t i s o res st2 ops rs st3 o3 m3 x :
  i = RR \/ i = RC -> txns st !! t = Some (i, s) -> o = OCommit t \/ o = OAbort t ->
  lstep st o = Some (res, st2) -> lrun st2 ops = Some (rs, st3) ->
  lock_request o3 = Some (t, m3, x) -> exists e, lstep st3 o3 = Some (LErr e, st3).
Proof.
  intros Hi T O H R L. assert (F : finish_request o = Some t) by (destruct O as [-> | ->]; done).
  destruct (finish_state _ _ _ _ _ _ _ F T H) as (s2 & T2 & D).
  assert (Fi : finished t i st2).
  { exists s2. split; [done|]. split; [done|]. destruct (finish_queues _ _ _ _ _ F H) as (_ & -> & _). apply lookup_delete. }
  destruct (run_finished _ _ _ _ _ _ Hi Fi R) as (s3 & T3 & D3 & _).
  destruct Hi as [-> | ->], D3 as [-> | ->]; eexists; eapply lock_refused; eauto; done.
Qed.
Print Assumptions c24_finished.

Definition c24_history : list lop :=
  [OBegin 1 RR; OBegin 2 RC; OBegin 3 RU; OLockTable 1 MX 7; OUnlockTable 1 MX 7; OLockTable 2 MX 7;
   OUnlockTable 2 MX 7; OLockTable 2 MS 7; OLockTable 3 MIS 7; OLockTable 3 MIX 8; OLockTable 1 MIS 7;
   OCommit 2; OLockTable 2 MS 7].

Example c24_ex : exists st, lrun lm_init c24_history =
  Some ([LNone; LNone; LNone; LOk true; LOk true; LOk true; LOk true; LOk true; LErr ESharedOnRU; LOk true;
         LErr EShrinking; LNone; LErr ETxnCommitted], st).
Proof.
  run_to c24_history [LNone; LNone; LNone; LOk true; LOk true; LOk true; LOk true; LOk true; LErr ESharedOnRU; LOk true;
         LErr EShrinking; LNone; LErr ETxnCommitted] (fun _ : lm => true) st. exists st. given.
Qed.

(** What is not refused: more locks after unlocking, if the caller names an intention mode
    when it unlocks (REPEATABLE READ); if the level is SERIALIZABLE; and locks for committed
    transactions with READ UNCOMMITTED, SERIALIZABLE or SNAPSHOT; and for aborted ones with
    READ COMMITTED that unlocked afterwards. *)
Theorem c24_refuted :
  (exists st, lrun lm_init [OBegin 1 RR; OLockTable 1 MX 7; OUnlockTable 1 MIX 7; OLockTable 1 MX 7]
     = Some ([LNone; LOk true; LOk true; LOk true], st)) /\
  (exists st, lrun lm_init [OBegin 1 Ser; OLockTable 1 MX 7; OUnlockTable 1 MX 7; OLockTable 1 MX 7]
     = Some ([LNone; LOk true; LOk true; LOk true], st)) /\
  (forall i, i = RU \/ i = Ser \/ i = Snap ->
     exists st, lrun lm_init [OBegin 1 i; OCommit 1; OLockTable 1 MX 7] = Some ([LNone; LNone; LOk true], st)) /\
  (exists st, lrun lm_init [OBegin 1 RC; OLockTable 1 MX 7; OLockRow 1 MIX 7 (3, 4); OUnlockTable 1 MX 7; OLockTable 1 MS 7]
     = Some ([LNone; LOk true; LErr EIntentionOnRow; LOk true; LOk true], st)).
Proof.
  split; [|split; [|split]].
  - run_to [OBegin 1 RR; OLockTable 1 MX 7; OUnlockTable 1 MIX 7; OLockTable 1 MX 7]
      [LNone; LOk true; LOk true; LOk true] (fun _ : lm => true) st. exists st. given.
  - run_to [OBegin 1 Ser; OLockTable 1 MX 7; OUnlockTable 1 MX 7; OLockTable 1 MX 7]
      [LNone; LOk true; LOk true; LOk true] (fun _ : lm => true) st. exists st. given.
  - intros i [-> | [-> | ->]].
    + run_to [OBegin 1 RU; OCommit 1; OLockTable 1 MX 7] [LNone; LNone; LOk true] (fun _ : lm => true) st. exists st. given.
    + run_to [OBegin 1 Ser; OCommit 1; OLockTable 1 MX 7] [LNone; LNone; LOk true] (fun _ : lm => true) st. exists st. given.
    + run_to [OBegin 1 Snap; OCommit 1; OLockTable 1 MX 7] [LNone; LNone; LOk true] (fun _ : lm => true) st. exists st. given.
  - run_to [OBegin 1 RC; OLockTable 1 MX 7; OLockRow 1 MIX 7 (3, 4); OUnlockTable 1 MX 7; OLockTable 1 MS 7]
      [LNone; LOk true; LErr EIntentionOnRow; LOk true; LOk true] (fun _ : lm => true) st. exists st. given.
Qed.
Print Assumptions c24_refuted.

(** ** C58 *)

(** In plain histories (S and X requests only, each for something its transaction has nothing
    to do with yet) a reported victim really is deadlocked. *)
Theorem c58_reports_are_deadlocks_partial ops rs st it v :
  plain lm_init ops -> lrun lm_init ops = Some (rs, st) -> it ≡ₚ elements (dom (waits st)) ->
  find_cycle (waits st) it = Some (Some v) -> deadlocked st v.
Proof.
  intros P R Hit F. destruct (run_plain _ _ _ _ P init_plain R) as (T & Up & Md & Ed).
  pose proof (find_cycle_ok _ _ Hit) as G. rewrite F in G. destruct G as (c & C & [Hv _]).
  assert (B : forall a b, edge (waits st) a b -> blocked_by st a b).
  { intros a b E. destruct (Ed _ _ E) as (x & m & m' & W & H & Cf). split; [|by exists x, m, m'].
    intros ->. unfold waits_on, holds in *. rewrite queue_of_the in *.
    destruct (T x) as [Sg _]. unfold single in Sg. apply elem_of_list_lookup in W as [i Hi]. apply elem_of_list_lookup in H as [j Hj].
    assert (i = j); [|subst; congruence].
    eapply (NoDup_lookup _ i j b); [exact Sg| |]; rewrite list_lookup_fmap; [by rewrite Hi|by rewrite Hj]. }
  assert (TC : forall a b, reach (waits st) a b -> tc (blocked_by st) a b).
  { intros a b Hr. induction Hr as [a b E|a b d E Hr IH]; [by apply tc_once, B|]. eapply tc_l; [by apply B|done]. }
  apply TC. clear - C Hv. destruct c as [|a l]; [done|]. destruct C as [C E].
  assert (RL : forall y, y ∈ a :: l -> y = List.last (a :: l) a \/ reach (waits st) y (List.last (a :: l) a)).
  { clear E Hv v. revert a C. intros a C.
    assert (G : forall d l a, chain (waits st) a l -> forall y, y ∈ a :: l -> y = List.last (a :: l) d \/ reach (waits st) y (List.last (a :: l) d)).
    { clear. intros d l. induction l as [|b l IH]; intros a C y Hy.
      - left. apply elem_of_list_singleton in Hy. done.
      - destruct C as [E C]. change (List.last (a :: b :: l) d) with (List.last (b :: l) d).
        apply elem_of_cons in Hy as [->|Hy]; [|by apply IH]. right.
        destruct (IH b C b) as [Eq|Hr]; [left| |].
        + rewrite <- Eq. by apply tc_once.
        + by eapply tc_l. }
    by apply G. }
  assert (RV : v = a \/ reach (waits st) a v).
  { apply elem_of_cons in Hv as [->|Hv]; [by left|right]. eapply chain_reach; eauto. }
  assert (LV : reach (waits st) (List.last (a :: l) a) v).
  { destruct RV as [->|RV]; [by apply tc_once|]. by eapply tc_l. }
  destruct (RL v Hv) as [Eq|Hr]; [by rewrite <- Eq in LV|]. eapply tc_transitive; [exact Hr|exact LV].
Qed.
Print Assumptions c58_reports_are_deadlocks_partial.

Definition c58_history : list lop :=
  [OBegin 1 RC; OBegin 2 RC; OLockTable 1 MX 7; OLockTable 2 MS 8; OLockTable 1 MX 8; OLockTable 2 MS 7].

Example c58_ex : exists rs st, lrun lm_init c58_history = Some (rs, st) /\ plain lm_init c58_history /\
  find_cycle (waits st) [1; 2] = Some (Some 2) /\ [1; 2] ≡ₚ elements (dom (waits st)).
Proof.
  run_to c58_history [LNone; LNone; LOk true; LOk true; LOk false; LOk false]
    (fun st => bool_decide (find_cycle (waits st) [1; 2] = Some (Some 2)) && bool_decide ([1; 2] ≡ₚ elements (dom (waits st)))) st.
  eexists _, st. split; [given|]. split; [is_plain|]. given.
Qed.

(** In general a reported victim need not be deadlocked: an edge is recorded to every holder,
    also to those whose locks do not stand in the way.  Here 3 waits for 1 only, and 2 for 3. *)
Theorem c58_false_report_refuted : exists ops rs st it v,
  polite (fun _ => True) lm_init ops /\ lrun lm_init ops = Some (rs, st) /\ it ≡ₚ elements (dom (waits st)) /\
  find_cycle (waits st) it = Some (Some v) /\
  (forall t, ~ deadlocked st t).
Proof.
  set (ops := [OBegin 1 RC; OBegin 2 RC; OBegin 3 RC; OLockTable 1 MS 7; OLockTable 2 MIS 7; OLockTable 3 MX 8;
     OLockTable 3 MIX 7; OLockTable 2 MX 8]). exists ops.
  run_to ops [LNone; LNone; LNone; LOk true; LOk true; LOk true; LOk false; LOk false]
    (fun st => bool_decide (find_cycle (waits st) [2; 3] = Some (Some 3)) && bool_decide ([2; 3] ≡ₚ elements (dom (waits st)))
       && bool_decide (dom (tables st) = {[7; 8]} :> gset N) && bool_decide (dom (rows st) = ∅ :> gset rid)
       && bool_decide (queue_of st (Table 7) = [Req 1 MS true; Req 2 MIS true; Req 3 MIX false])
       && bool_decide (queue_of st (Table 8) = [Req 3 MX true; Req 2 MX false])) st.
  eexists _, st, [2; 3], 3. split; [is_polite|]. split; [given|]. split; [given|]. split; [given|].
  clear R. clear ops.
  assert (B : forall a b, blocked_by st a b -> (a = 3 /\ b = 1) \/ (a = 2 /\ b = 3)).
  { intros a b (Hne & x & m & m' & W & Hh & C). unfold waits_on, holds in W, Hh. destruct x as [oid|r].
    - destruct (decide (oid = 7)) as [->|H7]; [|destruct (decide (oid = 8)) as [->|H8]].
      + match goal with E : queue_of st (Table 7) = _ |- _ => rewrite E in W, Hh end.
        repeat (apply elem_of_cons in W as [W|W]; [try discriminate W|]); try (by apply elem_of_nil in W).
        injection W as -> ->.
        repeat (apply elem_of_cons in Hh as [Hh|Hh]; [try discriminate Hh|]); try (by apply elem_of_nil in Hh).
        * injection Hh as -> ->. auto.
        * injection Hh as -> ->. exfalso. by apply (proj1 (compatible_spec MIX MIS) eq_refl).
      + match goal with E : queue_of st (Table 8) = _ |- _ => rewrite E in W, Hh end.
        repeat (apply elem_of_cons in W as [W|W]; [try discriminate W|]); try (by apply elem_of_nil in W).
        injection W as -> ->.
        repeat (apply elem_of_cons in Hh as [Hh|Hh]; [try discriminate Hh|]); try (by apply elem_of_nil in Hh).
        injection Hh as -> ->. auto.
      + exfalso. cbn [queue_of] in W.
        assert (E : tables st !! oid = None); [|rewrite E in W; by apply elem_of_nil in W].
        apply (not_elem_of_dom (D := gset N)). match goal with E : dom (tables st) = _ |- _ => rewrite E end. set_solver.
    - exfalso. cbn [queue_of] in W.
      assert (E : rows st !! r = None); [|rewrite E in W; by apply elem_of_nil in W].
      apply (not_elem_of_dom (D := gset rid)). match goal with E : dom (rows st) = _ |- _ => rewrite E end. set_solver. }
  assert (TB : forall a b, tc (blocked_by st) a b -> (a = 3 /\ b = 1) \/ (a = 2 /\ (b = 3 \/ b = 1))).
  { intros a b Ht. induction Ht as [a b E|a b c E Ht IH]; [apply B in E; naive_solver|].
    apply B in E. naive_solver. }
  intros t D. apply TB in D. naive_solver.
Qed.
Print Assumptions c58_false_report_refuted.

(** And a real deadlock need not be reported: who is granted a lock after a waiter queued up is
    not entered in the graph.  Here 2 waits for 1 and 3, and 3 for 2. *)
Theorem c58_missed_deadlock_refuted : exists ops rs st it,
  plain lm_init ops /\ lrun lm_init ops = Some (rs, st) /\ it ≡ₚ elements (dom (waits st)) /\
  deadlocked st 2 /\ find_cycle (waits st) it = Some None.
Proof.
  set (ops := [OBegin 1 RC; OBegin 2 RC; OBegin 3 RC; OLockTable 1 MS 7; OLockTable 2 MX 8; OLockTable 2 MX 7;
     OLockTable 3 MS 7; OLockTable 3 MX 8]). exists ops.
  run_to ops [LNone; LNone; LNone; LOk true; LOk true; LOk false; LOk true; LOk false]
    (fun st => bool_decide (find_cycle (waits st) [2; 3] = Some None) && bool_decide ([2; 3] ≡ₚ elements (dom (waits st)))
       && waitsb st 2 (Table 7) MX && holdsb st 3 (Table 7) MS && waitsb st 3 (Table 8) MX && holdsb st 2 (Table 8) MX) st.
  eexists _, st, [2; 3]. split; [is_plain|]. split; [given|]. split; [given|]. split; [|given].
  apply (tc_l _ 2 3 2); [|apply tc_once].
  - split; [given|]. exists (Table 7), MX, MS. split; [given|]. split; [given|].
    exists Writing, Reading. cbn. unfold clash. tauto.
  - split; [given|]. exists (Table 8), MX, MX. split; [given|]. split; [given|].
    exists Writing, Writing. cbn. unfold clash. tauto.
Qed.
Print Assumptions c58_missed_deadlock_refuted.

(** ** C59 *)

(** Unlocking a table that another transaction waits for never returns. *)
Theorem c59_unlock_with_waiters_refuted : exists ops rs st,
  plain lm_init ops /\ lrun lm_init ops = Some (rs, st) /\
  holds st 1 (Table 7) MX /\ waits_on st 2 (Table 7) MS /\
  lstep st (OUnlockTable 1 MX 7) = None /\ lstep st (OCommit 1) = None.
Proof.
  exists [OBegin 1 RC; OBegin 2 RC; OLockTable 1 MX 7; OLockTable 2 MS 7].
  run_to [OBegin 1 RC; OBegin 2 RC; OLockTable 1 MX 7; OLockTable 2 MS 7] [LNone; LNone; LOk true; LOk false]
    (fun st => holdsb st 1 (Table 7) MX && waitsb st 2 (Table 7) MS &&
       match lstep st (OUnlockTable 1 MX 7) with None => true | Some _ => false end &&
       match lstep st (OCommit 1) with None => true | Some _ => false end) st.
  eexists _, st. split; [is_plain|]. split; [given|]. split; [given|]. split; [given|].
  split; [by destruct (lstep st (OUnlockTable 1 MX 7))|by destruct (lstep st (OCommit 1))].
Qed.
Print Assumptions c59_unlock_with_waiters_refuted.

(** In general: in polite histories, if somebody waits for the table and nobody is upgrading
    a lock on it, the unlock call either is refused or never returns. *)
Theorem c59_unlock_hangs ops rs st t m oid u m1 m0 : polite (fun _ => True) lm_init ops ->
  lrun lm_init ops = Some (rs, st) -> holds st t (Table oid) m0 -> waits_on st u (Table oid) m1 ->
  q_up (default empty_queue (tables st !! oid)) = None ->
  forall res st2, lstep st (OUnlockTable t m oid) = Some (res, st2) -> res <> LOk true.
Proof.
  intros P R Hh Hw Up res st2 H ->. pose proof (run_tidy _ _ _ _ P init_tidy R) as T.
  pose proof (release_hangs _ _ _ _ _ _ T Hh Hw Up) as RH.
  destruct (unlock_queues _ _ _ _ (Table oid) _ _ (eq_refl : unlock_target (OUnlockTable t m oid) = Some (t, m, Table oid)) H) as [(N & _)|(_ & q2 & Q & _)]; [done|]. congruence.
Qed.
Print Assumptions c59_unlock_hangs.

(** A transaction that ends while it waits to upgrade keeps everybody else out for ever: after
    1 is gone, 2 holds S, and 3 is not given S. *)
Theorem c59_dead_upgrade_refuted : exists st,
  lrun lm_init [OBegin 1 RC; OBegin 2 RC; OBegin 3 RC; OLockTable 1 MS 7; OLockTable 2 MS 7; OLockTable 1 MX 7;
    OAbort 1; OLockTable 3 MS 7]
  = Some ([LNone; LNone; LNone; LOk true; LOk true; LOk false; LNone; LOk false], st) /\
  absent st 1 (Table 7) /\ holds st 2 (Table 7) MS /\ waits_on st 3 (Table 7) MS.
Proof.
  run_to [OBegin 1 RC; OBegin 2 RC; OBegin 3 RC; OLockTable 1 MS 7; OLockTable 2 MS 7; OLockTable 1 MX 7;
    OAbort 1; OLockTable 3 MS 7] [LNone; LNone; LNone; LOk true; LOk true; LOk false; LNone; LOk false]
    (fun st => absentb st 1 (Table 7) && holdsb st 2 (Table 7) MS && waitsb st 3 (Table 7) MS) st. exists st. given.
Qed.
Print Assumptions c59_dead_upgrade_refuted.

(** ** C60 *)

(** A granted lock is never taken away by what other transactions do. *)
Theorem c60_lock_stays t x m ops : forall st rs st2,
  (forall o, o ∈ ops -> op_txn o <> Some t /\ o <> OUnlockAll) ->
  lrun st ops = Some (rs, st2) -> holds st t x m -> holds st2 t x m.
Proof.
  intros st rs st2 H R Hh. revert R.
  apply (lrun_ind (fun st => holds st t x m) (fun _ ops => forall o, o ∈ ops -> op_txn o <> Some t /\ o <> OUnlockAll)); [|done|done].
  intros st0 o ops0 res st3 HQ HP E. split.
  - destruct (HQ o (elem_of_list_here _ _)) as [A B]. by eapply step_keeps.
  - intros o0 I. apply HQ. by right.
Qed.
Print Assumptions c60_lock_stays.

Example c60_ex : exists rs st, lrun lm_init [OBegin 1 RC; OBegin 2 RC; OLockTable 1 MS 7; OLockTable 2 MS 7; OLockTable 2 MX 7; OAbort 2] = Some (rs, st) /\
  holds st 1 (Table 7) MS.
Proof.
  run_to [OBegin 1 RC; OBegin 2 RC; OLockTable 1 MS 7; OLockTable 2 MS 7; OLockTable 2 MX 7; OAbort 2]
    [LNone; LNone; LOk true; LOk true; LOk false; LNone] (fun st => holdsb st 1 (Table 7) MS) st. eexists _, st. given.
Qed.

(** But the holder's own further request can silently cost it the lock: S, then IX, leaves IX
    only, and another transaction is allowed to write. *)
Theorem c60_own_request_refuted : exists st,
  lrun lm_init [OBegin 1 RR; OBegin 2 RR; OLockTable 1 MS 7; OLockTable 1 MIX 7; OLockTable 2 MIX 7]
  = Some ([LNone; LNone; LOk true; LOk true; LOk true], st) /\
  ~ holds st 1 (Table 7) MS /\ holds st 2 (Table 7) MIX /\ conflict MS MIX.
Proof.
  run_to [OBegin 1 RR; OBegin 2 RR; OLockTable 1 MS 7; OLockTable 1 MIX 7; OLockTable 2 MIX 7]
    [LNone; LNone; LOk true; LOk true; LOk true] (fun st => negb (holdsb st 1 (Table 7) MS) && holdsb st 2 (Table 7) MIX) st.
  exists st. split; [given|]. split; [given|]. split; [given|]. exists Reading, Writing. cbn. unfold clash. tauto.
Qed.
Print Assumptions c60_own_request_refuted.

(** The same when the further request has to wait: the lock held so far is given up. *)
Theorem c60_waiting_upgrade_refuted : exists st,
  lrun lm_init [OBegin 1 RR; OBegin 2 RR; OLockTable 1 MS 7; OLockTable 2 MS 7; OLockTable 1 MX 7]
  = Some ([LNone; LNone; LOk true; LOk true; LOk false], st) /\ (forall m, ~ holds st 1 (Table 7) m).
Proof.
  run_to [OBegin 1 RR; OBegin 2 RR; OLockTable 1 MS 7; OLockTable 2 MS 7; OLockTable 1 MX 7]
    [LNone; LNone; LOk true; LOk true; LOk false]
    (fun st => negb (holdsb st 1 (Table 7) MS) && negb (holdsb st 1 (Table 7) MX) && negb (holdsb st 1 (Table 7) MIS)
      && negb (holdsb st 1 (Table 7) MIX) && negb (holdsb st 1 (Table 7) MSIX)) st.
  exists st. split; [given|]. intros []; given.
Qed.
Print Assumptions c60_waiting_upgrade_refuted.
