(** * Two-phase locking, releasing and deadlock reports *)
From stdpp Require Import gmap list sets fin_sets.
From Coq Require Import NArith Lia.
From Verif Require Import LockModel LockSpec LockGraphProofs LockProofs.

Lemma conflict_dec a b : {conflict a b} + {~ conflict a b}.
Proof.
  destruct (are_compatible a b) eqn:E; [right; by apply compatible_spec|left].
  unfold conflict, clash. destruct a, b; try discriminate E; clear;
      first [ exists Writing, Writing; cbn; tauto | exists Reading, Writing; cbn; tauto
            | exists Writing, Reading; cbn; tauto ].
Qed.

(** ** Transaction states *)
Definition over (s : tstate) : Prop := s = Shrinking \/ s = Aborted \/ s = Committed.

Lemma set_state_txn t s st u i s0 : txns st !! u = Some (i, s0) ->
  txns (set_state t s st) !! u = Some (i, if decide (t = u) then s else s0).
Proof.
  intros H. cbn. destruct (decide (t = u)) as [->|].
  - by rewrite lookup_alter, H.
  - by rewrite lookup_alter_ne.
Qed.

Lemma check_deadlock_txn t st u i s0 : txns st !! u = Some (i, s0) ->
  exists s2, txns (check_deadlock t st) !! u = Some (i, s2) /\ (s2 = s0 \/ s2 = Aborted).
Proof.
  intros H. unfold check_deadlock. destruct (victim st); [|eauto]. destruct (N.eqb _ _); [|eauto].
  rewrite (set_state_txn _ _ _ u i s0) by done. destruct (decide _); eauto.
Qed.

Lemma validate_state i s m s2 : validate i s m = inr s2 -> s2 = s \/ s2 = Shrinking.
Proof. destruct i, s, m; simpl; intros [= <-]; auto. Qed.

Lemma state_after_unlock_cases i m s : state_after_unlock i m s = s \/ state_after_unlock i m s = Shrinking.
Proof. destruct i, m; simpl; auto. Qed.

Lemma force_release_txns t st st2 : force_release t st = Some st2 -> txns st2 = txns st.
Proof.
  unfold force_release. destruct (sets st !! t) as [[ts rs]|]; [|by intros [= <-]].
  destruct (purge_all _ _ _); [|done]. destruct (purge_all _ _ _); [|done]. by intros [= <-].
Qed.

(** A step leaves the state of a transaction as it is or makes it one of three. *)
Lemma step_txn st o res st2 u i s : lstep st o = Some (res, st2) -> txns st !! u = Some (i, s) ->
  exists s2, txns st2 !! u = Some (i, s2) /\ (s2 = s \/ over s2).
Proof.
  unfold over. intros H Hu. destruct o; cbn [lstep] in H.
  - injection H as H. unfold lock_table in H. destruct (txns st !! t) as [[i0 s0]|] eqn:E; [|injection H as <- <-; eauto].
    destruct (validate i0 s0 m) as [e|s2] eqn:V; [injection H as <- <-; eauto|].
    pose proof (set_state_txn t s2 st u i s Hu) as K. destruct (grant_lock _ _ _) as [[|] q]; injection H as <- <-.
    + cbn in *. rewrite K. eexists. split; [done|]. destruct (decide (t = u)) as [->|]; [|by left].
      assert (s0 = s) by congruence. subst. apply validate_state in V. naive_solver.
    + match goal with |- context [check_deadlock t ?S] => destruct (check_deadlock_txn t S u i _ K) as (s3 & K2 & D) end.
      rewrite K2. eexists. split; [done|]. destruct (decide (t = u)) as [->|]; [|naive_solver].
      assert (s0 = s) by congruence. subst. apply validate_state in V. naive_solver.
  - unfold unlock_table in H. destruct (txns st !! t) as [[i0 s0]|] eqn:E; [|injection H as <- <-; eauto].
    destruct (negb _); [injection H as <- <-; rewrite (set_state_txn _ _ _ _ _ _ Hu); destruct (decide _); naive_solver|].
    destruct (negb _); [injection H as <- <-; rewrite (set_state_txn _ _ _ _ _ _ Hu); destruct (decide _); naive_solver|].
    destruct (release _ _) as [| |q]; [done|injection H as <- <-; eauto|]. injection H as <- <-.
    rewrite (set_state_txn _ _ _ u i s) by done. eexists. split; [done|]. destruct (decide (t = u)) as [->|]; [|by left].
    assert (s0 = s) by congruence. subst. destruct (state_after_unlock_cases i0 m s); naive_solver.
  - injection H as H. unfold lock_row in H. destruct (txns st !! t) as [[i0 s0]|] eqn:E; [|injection H as <- <-; eauto].
    destruct (validate i0 s0 m) as [e|s2] eqn:V; [injection H as <- <-; eauto|].
    pose proof (set_state_txn t s2 st u i s Hu) as K.
    assert (A : forall stx, stx = set_state t Aborted (set_state t s2 st) ->
       exists s3, txns stx !! u = Some (i, s3) /\ (s3 = s \/ s3 = Shrinking \/ s3 = Aborted \/ s3 = Committed)).
    { intros stx ->. rewrite (set_state_txn t Aborted _ u i _ K). eexists. split; [done|]. destruct (decide (t = u)); naive_solver. }
    assert (D : (exists e, (res, st2) = (LErr e, set_state t Aborted (set_state t s2 st))) \/
       let '(granted, q) := grant_lock (default empty_queue (rows st !! r)) t m in
             (res, st2) = if granted then
               (LOk true, LM (tables st) (<[r := q]> (rows st))
                      (<[t := ((locks_of t st).1, {[(r.1, r)]} ∪ (locks_of t st).2)]> (sets st))
                      (waits st) (victim st) (txns (set_state t s2 st)))
             else (LOk false, check_deadlock t
                     (LM (tables st) (<[r := q]> (rows st)) (sets st)
                         (add_edges t q (waits st)) (victim st) (txns (set_state t s2 st))))).
    { destruct m; try (left; eexists; by rewrite <- H); cbn [set_state tables rows sets waits victim txns] in *;
        destruct (existsb _ _); try (left; eexists; by rewrite <- H); right; destruct (grant_lock _ _ _) as [[|] q]; by rewrite <- H. }
    clear H. destruct D as [[e D]|D]; [injection D as -> ->; by apply A|].
    destruct (grant_lock _ _ _) as [[|] q]; injection D as -> ->.
    + cbn in *. rewrite K. eexists. split; [done|]. destruct (decide (t = u)) as [->|]; [|by left].
      assert (s0 = s) by congruence. subst. apply validate_state in V. naive_solver.
    + match goal with |- context [check_deadlock t ?S] => destruct (check_deadlock_txn t S u i _ K) as (s3 & K2 & D) end.
      rewrite K2. eexists. split; [done|]. destruct (decide (t = u)) as [->|]; [|naive_solver].
      assert (s0 = s) by congruence. subst. apply validate_state in V. naive_solver.
  - unfold unlock_row in H. destruct (txns st !! t) as [[i0 s0]|] eqn:E; [|injection H as <- <-; eauto].
    destruct (negb _); [injection H as <- <-; rewrite (set_state_txn _ _ _ _ _ _ Hu); destruct (decide _); naive_solver|].
    destruct (release _ _) as [| |q]; [done|injection H as <- <-; eauto|]. injection H as <- <-.
    rewrite (set_state_txn _ _ _ u i s) by done. eexists. split; [done|]. destruct (decide (t = u)) as [->|]; [|by left].
    assert (s0 = s) by congruence. subst. destruct (state_after_unlock_cases i0 m s); naive_solver.
  - destruct (txns st !! t) eqn:E; injection H as <- <-; [eauto|]. cbn. rewrite lookup_insert_ne by congruence. eauto.
  - destruct (force_release _ _) as [st3|] eqn:F; [|done]. injection H as <- <-. rewrite (force_release_txns _ _ _ F).
    rewrite (set_state_txn _ _ _ _ _ _ Hu). destruct (decide _); naive_solver.
  - destruct (force_release _ _) as [st3|] eqn:F; [|done]. injection H as <- <-. rewrite (force_release_txns _ _ _ F).
    rewrite (set_state_txn _ _ _ _ _ _ Hu). destruct (decide _); naive_solver.
  - destruct (find_cycle _ _) as [[v|]|]; injection H as <- <-; eauto.
  - injection H as <- <-. eauto.
Qed.

Lemma run_over ops : forall st rs st2 u i s, lrun st ops = Some (rs, st2) -> txns st !! u = Some (i, s) -> over s ->
  exists s2, txns st2 !! u = Some (i, s2) /\ over s2.
Proof.
  induction ops as [|o ops IH]; intros st rs st2 u i s H Hu Ho; cbn [lrun] in H; [injection H as <- <-; eauto|].
  destruct (lstep st o) as [[r st3]|] eqn:E; [|done].
  destruct (lrun st3 ops) as [[rs2 st4]|] eqn:R; [|done]. injection H as <- <-.
  destruct (step_txn _ _ _ _ _ _ _ E Hu) as (s2 & H2 & D). eapply IH; [exact R|exact H2|]. destruct D as [->|]; done.
Qed.

Lemma lock_refused st o t m x i s e : lock_request o = Some (t, m, x) -> txns st !! t = Some (i, s) ->
  validate i s m = inl e -> lstep st o = Some (LErr e, st).
Proof.
  intros L H V. destruct o; try done; injection L as -> -> L; cbn [lstep]; unfold lock_table, lock_row; by rewrite H, V.
Qed.

Lemma unlock_state st o t m st2 i s : unlock_request o = Some (t, m) -> txns st !! t = Some (i, s) ->
  lstep st o = Some (LOk true, st2) -> txns st2 !! t = Some (i, state_after_unlock i m s).
Proof.
  intros U H E. destruct o; try done; injection U as -> ->; cbn [lstep] in E; unfold unlock_table, unlock_row in E; rewrite H in E.
  - destruct (negb _); [done|]. destruct (negb _); [done|]. destruct (release _ _) as [| |q]; [done|done|].
    injection E as <-. rewrite (set_state_txn _ _ _ t i s) by done. by rewrite decide_True.
  - destruct (negb _); [done|]. destruct (release _ _) as [| |q]; [done|done|].
    injection E as <-. rewrite (set_state_txn _ _ _ t i s) by done. by rewrite decide_True.
Qed.

Lemma finish_state st o t res st2 i s : finish_request o = Some t -> txns st !! t = Some (i, s) ->
  lstep st o = Some (res, st2) -> exists s2, txns st2 !! t = Some (i, s2) /\ (s2 = Committed \/ s2 = Aborted).
Proof.
  intros F H E. destruct o; try done; injection F as ->; cbn [lstep] in E;
    destruct (force_release _ _) as [st3|] eqn:R; try done; injection E as <- <-;
    rewrite (force_release_txns _ _ _ R), (set_state_txn _ _ _ t i s) by done; rewrite decide_True by done; eauto.
Qed.

(** A finished transaction with the stricter isolation levels stays finished. *)
Definition finished (t : N) (i : iso) (st : lm) : Prop :=
  exists s, txns st !! t = Some (i, s) /\ (s = Committed \/ s = Aborted) /\ sets st !! t = None.

Lemma step_finished t i st o res st2 : i = RR \/ i = RC -> finished t i st -> lstep st o = Some (res, st2) ->
  finished t i st2.
Proof.
  intros Hi (s & Ht & Hs & Hn) H.
  assert (V : forall m, exists e, validate i s m = inl e).
  { intros m. destruct Hi as [-> | ->], Hs as [-> | ->]; simpl; eauto. }
  destruct (lock_request o) as [[[t0 m0] y]|] eqn:L.
  { destruct (decide (t0 = t)) as [->|Hne].
    - destruct (V m0) as [e Ve]. rewrite (lock_refused _ _ _ _ _ _ _ _ L Ht Ve) in H. injection H as <- <-. by exists s.
    - assert (S : sets st2 !! t = None).
      { destruct (lock_queues _ _ _ _ _ _ _ L H) as [(_ & _ & _ & -> & _)|(b & _ & _ & _ & SF & ST)]; [done|].
        destruct b; [destruct (ST eq_refl) as [_ ->]; by rewrite lookup_insert_ne|by destruct (SF eq_refl) as [-> _]]. }
      assert (T : txns st2 !! t = txns st !! t); [|rewrite Ht in T; by exists s].
      assert (SS : forall s0 st0, txns (set_state t0 s0 st0) !! t = txns st0 !! t) by (intros; cbn; by rewrite lookup_alter_ne).
      assert (CD : forall st0, txns (check_deadlock t0 st0) !! t = txns st0 !! t).
      { intros st0. unfold check_deadlock. destruct (victim st0); [|done]. destruct (N.eqb _ _); [|done]. by rewrite SS. }
      destruct o; try done; injection L as -> -> <-; cbn [lstep] in H; injection H as H.
      + unfold lock_table in H. destruct (txns st !! t0) as [[i0 s0]|]; [|by injection H as <- <-].
        destruct (validate i0 s0 m0) as [e|s2]; [by injection H as <- <-|].
        destruct (grant_lock _ _ _) as [[|] q]; injection H as <- <-; [|rewrite CD]; cbn; by rewrite lookup_alter_ne.
      + unfold lock_row in H. destruct (txns st !! t0) as [[i0 s0]|]; [|by injection H as <- <-].
        destruct (validate i0 s0 m0) as [e|s2]; [by injection H as <- <-|].
        destruct m0; try (injection H as <- <-; by rewrite !SS);
          destruct (existsb _ _); try (injection H as <- <-; by rewrite !SS);
          destruct (grant_lock _ _ _) as [[|] q]; injection H as <- <-; [|rewrite CD| |rewrite CD]; cbn; by rewrite lookup_alter_ne. }
  destruct (unlock_target o) as [[[t0 m0] y]|] eqn:U.
  { destruct (decide (t0 = t)) as [->|Hne].
    - assert (S2 : res = LErr ENoLockHeld /\ st2 = set_state t Aborted st).
      { destruct o; try done; injection U as -> -> <-; cbn [lstep] in H; unfold unlock_table, unlock_row, locks_of in H;
          rewrite Ht, Hn in H; simpl in H; (rewrite bool_decide_eq_false_2 in H by set_solver); simpl in H; by injection H as <- <-. }
      destruct S2 as [-> ->]. exists Aborted. rewrite (set_state_txn _ _ _ t i s) by done. rewrite decide_True by done. naive_solver.
    - assert (S : sets st2 !! t = None).
      { destruct (unlock_queues _ _ _ _ _ _ _ U H) as [(_ & _ & -> & _)|(_ & q2 & _ & _ & -> & _)]; [done|]. by rewrite lookup_alter_ne. }
      assert (T : txns st2 !! t = txns st !! t); [|rewrite Ht in T; by exists s].
      assert (SS : forall s0 st0, txns (set_state t0 s0 st0) !! t = txns st0 !! t) by (intros; cbn; by rewrite lookup_alter_ne).
      destruct o; try done; injection U as -> -> <-; cbn [lstep] in H; unfold unlock_table, unlock_row in H;
        destruct (txns st !! t0) as [[i0 s0]|]; try (by injection H as <- <-);
        repeat (destruct (negb _); [injection H as <- <-; by rewrite SS|]);
        destruct (release _ _) as [| |q]; try done; injection H as <- <-; try done; by rewrite SS. }
  destruct (finish_request o) as [t0|] eqn:F.
  { destruct (finish_queues _ _ _ _ _ F H) as (_ & S & _). destruct (decide (t0 = t)) as [->|Hne].
    - destruct (finish_state _ _ _ _ _ _ _ F Ht H) as (s2 & T2 & D). exists s2. split; [done|]. split; [done|].
      rewrite S. by rewrite lookup_delete.
    - exists s. split; [|split; [done|by rewrite S, lookup_delete_ne]].
      destruct o; try done; injection F as ->; cbn [lstep] in H;
        destruct (force_release _ _) as [st3|] eqn:R; try done; injection H as <- <-;
        rewrite (force_release_txns _ _ _ R); cbn; by rewrite lookup_alter_ne. }
  exists s. destruct (other_queues _ _ _ _ L U F H) as [(_ & S & _)|(_ & S & _ & ->)].
  - split; [|split; [done|by rewrite S]].
    destruct o; try done; cbn [lstep] in H.
    + destruct (txns st !! t0) eqn:E0; injection H as <- <-; [done|]. cbn. rewrite lookup_insert_ne; [done|congruence].
    + destruct (find_cycle _ _) as [[v|]|]; by injection H as <- <-.
    + by injection H as <- <-.
  - cbn [lstep] in H. injection H as <- <-. by split.
Qed.

Lemma run_finished t i ops st rs st2 : i = RR \/ i = RC -> finished t i st -> lrun st ops = Some (rs, st2) -> finished t i st2.
Proof.
  intros Hi Hf H. revert H.
  apply (lrun_ind (finished t i) (fun _ _ => True)); [|done|done].
  intros st0 o ops0 res st3 _ M E. split; [|done]. eapply step_finished; eauto.
Qed.

(** ** READ UNCOMMITTED *)
Lemma finish_grant_In q t m r : r ∈ q_reqs (finish_grant q t m).2 -> r ∈ q_reqs q \/ (rq_txn r = t /\ rq_mode r = m).
Proof.
  unfold finish_grant. destruct (compat q t m); simpl; intros H; apply elem_of_app in H as [H|H]; auto;
    apply elem_of_list_singleton in H as ->; auto.
Qed.

Lemma grant_In q t m r : r ∈ q_reqs (grant_lock q t m).2 -> r ∈ q_reqs q \/ (rq_txn r = t /\ rq_mode r = m).
Proof.
  unfold grant_lock. destruct (own_granted t (q_reqs q)) as [old|]; [|apply finish_grant_In].
  case_bool_decide; [by left|].
  assert (G : r ∈ q_reqs (if other_upgrading (q_up q) t then (false, q)
      else finish_grant (Queue (remove_own t (q_reqs q)) (Some t)) t m).2 -> r ∈ q_reqs q \/ (rq_txn r = t /\ rq_mode r = m)).
  { destruct (other_upgrading (q_up q) t); [by left|]. intros H2. apply finish_grant_In in H2 as [H2|]; [|by right].
    left. eapply sublist_In; [exact H2|]. apply remove_own_sub. }
  destruct old, m; try exact G; apply finish_grant_In.
Qed.

Lemma grant_waiters_In up done rest l r : grant_waiters up done rest = Some l -> r ∈ l ->
  exists r0, r0 ∈ done ++ rest /\ rq_txn r0 = rq_txn r /\ rq_mode r0 = rq_mode r.
Proof.
  revert done. induction rest as [|a rest IH]; intros done H Hr; simpl in H.
  - injection H as <-. exists r. by rewrite app_nil_r.
  - destruct (rq_granted a).
    + destruct (IH _ H Hr) as (r0 & I & E). exists r0. by rewrite <- (assoc_L (++)) in I.
    + destruct (compat_held up done a) as [b|]; [|done]. destruct (IH _ H Hr) as (r0 & I & E1 & E2).
      rewrite <- (assoc_L (++)) in I. apply elem_of_app in I as [I|I]; [exists r0; split; [apply elem_of_app; by left|done]|].
      apply elem_of_cons in I as [->|I]; [exists a; split; [apply elem_of_app; right; left|done]|].
      exists r0. split; [apply elem_of_app; right; by right|done].
Qed.

Lemma qchange_In o x q q2 r : qchange o x q q2 -> r ∈ q_reqs q2 ->
  (exists r0, r0 ∈ q_reqs q /\ rq_txn r0 = rq_txn r /\ rq_mode r0 = rq_mode r) \/ lock_request o = Some (rq_txn r, rq_mode r, x).
Proof.
  intros [E|t m L E|t m U R|t F R|_ E] Hr.
  - subst. eauto.
  - subst. apply grant_In in Hr as [Hr|[<- <-]]; eauto.
  - left. unfold release in R. destruct (own_granted t _); [|done]. destruct (grant_waiters _ [] _) as [l|] eqn:G; [|done].
    injection R as <-. destruct (grant_waiters_In _ _ _ _ _ G Hr) as (r0 & I & E1). exists r0. split; [|done].
    eapply sublist_In; [exact I|apply remove_own_sub].
  - left. unfold purge in R. destruct (grant_waiters _ [] _) as [l|] eqn:G; [|done].
    injection R as <-. destruct (grant_waiters_In _ _ _ _ _ G Hr) as (r0 & I & E1). exists r0. split; [|done].
    eapply sublist_In; [exact I|apply sublist_filter].
  - subst. by apply elem_of_nil in Hr.
Qed.

Definition ru_inv (st : lm) : Prop := forall x r, r ∈ q_reqs (the_queue st x) ->
  exists i s, txns st !! rq_txn r = Some (i, s) /\ (i = RU -> rq_mode r = MX \/ rq_mode r = MIX).

Lemma step_ru st o res st2 : ru_inv st -> lstep st o = Some (res, st2) -> ru_inv st2.
Proof.
  intros I H x r Hr.
  assert (K : forall u i s, txns st !! u = Some (i, s) -> exists s2, txns st2 !! u = Some (i, s2)).
  { intros u i s Hu. destruct (step_txn _ _ _ _ _ _ _ H Hu) as (s2 & ? & _). eauto. }
  destruct (qchange_In _ _ _ _ _ (step_qchange _ _ _ _ x H) Hr) as [(r0 & I0 & E1 & E2)|L].
  - destruct (I x r0 I0) as (i & s & T & M). rewrite E1 in T.
    destruct (K _ _ _ T) as [s2 T2]. exists i, s2. split; [done|]. by rewrite <- E2.
  - destruct (txns st !! rq_txn r) as [[i s]|] eqn:T.
    + destruct (validate i s (rq_mode r)) as [e|s2] eqn:V.
      * rewrite (lock_refused _ _ _ _ _ _ _ _ L T V) in H. injection H as <- <-. by apply (I x r).
      * destruct (K _ _ _ T) as [s3 T3]. exists i, s3. split; [done|]. intros ->.
        destruct (rq_mode r); simpl in V; auto; done.
    + assert (st2 = st).
      { destruct o; try done; injection L as -> -> <-; cbn [lstep] in H; unfold lock_table, lock_row in H; rewrite T in H; by injection H as <- <-. }
      subst. by apply (I x r).
Qed.

Lemma run_ru ops st rs st2 : ru_inv st -> lrun st ops = Some (rs, st2) -> ru_inv st2.
Proof.
  intros I. apply (lrun_ind ru_inv (fun _ _ => True)); [|done|done].
  intros st0 o ops0 res st3 _ M E. split; [|done]. eapply step_ru; eauto.
Qed.

Lemma init_ru : ru_inv lm_init.
Proof. intros [x|x] r Hr; simpl in Hr; rewrite lookup_empty in Hr; by apply elem_of_nil in Hr. Qed.

(** ** Releasing *)

(** What is recorded for a polite transaction that never waits is what it holds. *)
Definition mine_rec (t : N) (st : lm) : Prop :=
  (forall x, recorded st t x -> of t (q_reqs (the_queue st x)) <> []) /\
  (forall p r, (p, r) ∈ (locks_of t st).2 -> p = r.1).

Lemma step_mine_rec t st o res st2 : mine t st -> mine_rec t st ->
  (forall m x, lock_request o = Some (t, m, x) -> polite_request st t m x) ->
  (forall m x, lock_request o = Some (t, m, x) -> res <> LOk false) ->
  lstep st o = Some (res, st2) -> mine_rec t st2.
Proof.
  intros M [R1 R2] P W H.
  assert (M2 := step_mine _ _ _ _ _ M P W H).
  destruct (lock_request o) as [[[t0 m0] y]|] eqn:L.
  { destruct (lock_queues _ _ _ _ _ _ _ L H) as [(_ & _ & Q & S & _)|(b & -> & B & Q & SF & ST)].
    - unfold mine_rec, recorded, locks_of in *. rewrite S. split; [|done]. intros x Hx. rewrite (Q x). by apply R1.
    - destruct (decide (t0 = t)) as [->|Hne].
      + destruct b; [|by exfalso; eapply W]. destruct (ST eq_refl) as [_ S]. clear SF ST.
        assert (LO : locks_of t st2 = match y with
                          | Table oid => ({[oid]} ∪ (locks_of t st).1, (locks_of t st).2)
                          | Row r => ((locks_of t st).1, {[(r.1, r)]} ∪ (locks_of t st).2) end).
        { unfold locks_of at 1. by rewrite S, lookup_insert. }
        assert (Y : of t (q_reqs (the_queue st2 y)) <> []).
        { rewrite (Q y), decide_True by done. pose proof (grant_polite (the_queue st y) t m0) as G. rewrite <- queue_of_the in G.
          specialize (G (polite_request_q _ _ _ _ (P _ _ eq_refl))).
          destruct (grant_lock (the_queue st y) t m0) as [b q]; simpl in *. subst b. by rewrite G. }
        split.
        * intros x Hx. destruct (decide (x = y)) as [->|Hxy]; [done|]. rewrite (Q x), decide_False by done. apply R1.
          unfold recorded in *. rewrite LO in Hx. destruct x, y; simpl in *; try set_solver.
        * rewrite LO. destruct y; simpl; [done|]. intros p r0 Hp. apply elem_of_union in Hp as [Hp|Hp]; [|auto].
          apply elem_of_singleton in Hp. injection Hp as -> ->. done.
      + assert (LO : locks_of t st2 = locks_of t st).
        { unfold locks_of. destruct b; [destruct (ST eq_refl) as [_ ->]|by destruct (SF eq_refl) as [-> _]]. by rewrite lookup_insert_ne. }
        split; [|by rewrite LO]. intros x Hx. rewrite (Q x).
        assert (E2 : of t (q_reqs (if decide (x = y) then (grant_lock (the_queue st y) t0 m0).2 else the_queue st x))
                     = of t (q_reqs (the_queue st x))).
        { destruct (decide (x = y)) as [->|]; [|done]. by apply grant_other. }
        rewrite E2. apply R1. unfold recorded in *. by rewrite LO in Hx. }
  destruct (unlock_target o) as [[[t0 m0] y]|] eqn:U.
  { destruct (unlock_queues _ _ _ _ _ _ _ U H) as [(_ & Q & S & _)|(_ & q2 & R & Q & S & _)].
    - unfold mine_rec, recorded, locks_of in *. rewrite S. split; [|done]. intros x Hx. rewrite (Q x). by apply R1.
    - destruct (decide (t0 = t)) as [->|Hne].
      + assert (LO : (locks_of t st2) = match sets st !! t with Some l => drop_lock y l | None => (∅, ∅) end).
        { unfold locks_of. rewrite S, lookup_alter. by destruct (sets st !! t). }
        assert (R2' : forall p r, (p, r) ∈ (locks_of t st2).2 -> (p, r) ∈ (locks_of t st).2).
        { intros p r. rewrite LO. unfold locks_of. destruct (sets st !! t) as [[ts rs]|]; simpl; [|set_solver]. destruct y; simpl; set_solver. }
        split; [|intros p r Hp; by apply R2, R2'].
        intros x Hx.
        destruct (decide (x = y)) as [->|Hxy].
        * exfalso. unfold recorded in Hx. rewrite LO in Hx. unfold locks_of in R2.
          destruct (sets st !! t) as [[ts rs]|] eqn:E; simpl in Hx.
          -- destruct y; simpl in *; [set_solver|]. destruct Hx as [p Hx]. apply elem_of_difference in Hx as [Hx Hx2].
             assert (p = r.1) as -> by auto. set_solver.
          -- destruct y; simpl in Hx; set_solver.
        * rewrite (Q x), decide_False by done. apply R1. unfold recorded in *. destruct x as [oid|r].
          -- rewrite LO in Hx. unfold locks_of. destruct (sets st !! t) as [[ts rs]|]; simpl in *; [|done]. destruct y; simpl in *; set_solver.
          -- destruct Hx as [p Hx]. eauto.
      + assert (LO : locks_of t st2 = locks_of t st) by (unfold locks_of; by rewrite S, lookup_alter_ne).
        split; [|by rewrite LO]. intros x Hx. rewrite (Q x).
        assert (E2 : of t (q_reqs (if decide (x = y) then q2 else the_queue st x)) = of t (q_reqs (the_queue st x))).
        { destruct (decide (x = y)) as [->|]; [|done]. eapply release_other; [done|by apply mine_granted|done]. }
        rewrite E2. apply R1. unfold recorded in *. by rewrite LO in Hx. }
  destruct (finish_request o) as [t0|] eqn:F.
  { destruct (finish_queues _ _ _ _ _ F H) as (Q & S & _). destruct (decide (t0 = t)) as [->|Hne].
    - assert (LO : locks_of t st2 = (∅, ∅)) by (unfold locks_of; by rewrite S, lookup_delete).
      split; [|rewrite LO; simpl; set_solver]. intros x Hx. exfalso. unfold recorded in Hx. rewrite LO in Hx.
      destruct x; simpl in Hx; set_solver.
    - assert (LO : locks_of t st2 = locks_of t st) by (unfold locks_of; by rewrite S, lookup_delete_ne).
      split; [|by rewrite LO]. intros x Hx.
      assert (E2 : of t (q_reqs (the_queue st2 x)) = of t (q_reqs (the_queue st x))).
      { destruct (Q x) as [[_ Pu]|[_ Pu]]; [|by rewrite Pu]. eapply purge_other; [done|by apply mine_granted|done]. }
      rewrite E2. apply R1. unfold recorded in *. by rewrite LO in Hx. }
  destruct (other_queues _ _ _ _ L U F H) as [(Q & S & _)|(Q & S & _)].
  - unfold mine_rec, recorded, locks_of in *. rewrite S. split; [|done]. intros x Hx. rewrite (Q x). by apply R1.
  - assert (LO : locks_of t st2 = (∅, ∅)) by (unfold locks_of; by rewrite S, lookup_empty).
    split; [|rewrite LO; simpl; set_solver]. intros x Hx. exfalso. unfold recorded in Hx. rewrite LO in Hx.
    destruct x; simpl in Hx; set_solver.
Qed.

Lemma run_mine_rec t ops st rs st2 : polite (fun u => u = t) st ops -> never_waits t st ops ->
  mine t st /\ mine_rec t st -> lrun st ops = Some (rs, st2) -> mine t st2 /\ mine_rec t st2.
Proof.
  intros P W. apply (lrun_ind (fun st => mine t st /\ mine_rec t st)
    (fun st ops => polite (fun u => u = t) st ops /\ never_waits t st ops)); [|done].
  intros st0 o ops0 res st3 [[P1 P2] [W1 W2]] [M R] H.
  assert (A1 : forall m x, lock_request o = Some (t, m, x) -> polite_request st0 t m x) by (intros m x L; by eapply P1).
  assert (A2 : forall m x, lock_request o = Some (t, m, x) -> res <> LOk false) by (intros m x L ->; by eapply W1).
  split; [split|].
  - by eapply (step_mine t st0 o res st3).
  - by eapply (step_mine_rec t st0 o res st3).
  - split; [by eapply P2|by eapply W2].
Qed.

Lemma init_mine_rec t : mine_rec t lm_init.
Proof.
  assert (LO : locks_of t lm_init = (∅, ∅)) by (unfold locks_of; simpl; by rewrite lookup_empty).
  split; [|rewrite LO; simpl; set_solver]. intros x Hx. exfalso. unfold recorded in Hx. rewrite LO in Hx.
  destruct x; simpl in Hx; set_solver.
Qed.

Lemma grant_waiters_no_waiters up done rest : (forall r, r ∈ rest -> rq_granted r = true) ->
  grant_waiters up done rest = Some (done ++ rest).
Proof.
  revert done. induction rest as [|r rest IH]; intros done H; simpl; [by rewrite app_nil_r|].
  rewrite (H r) by left. rewrite IH; [by rewrite <- (assoc_L (++))|]. intros r0 Hr0. apply H. by right.
Qed.

Lemma nobody_waits st x : (forall u m, ~ waits_on st u x m) -> forall r, r ∈ q_reqs (the_queue st x) -> rq_granted r = true.
Proof.
  intros H r Hr. destruct (rq_granted r) eqn:G; [done|]. exfalso. apply (H (rq_txn r) (rq_mode r)).
  unfold waits_on. rewrite queue_of_the. destruct r; simpl in *; by subst.
Qed.

Lemma unlock_returns t m st : mine t st -> mine_rec t st -> forall oid m0 i s, txns st !! t = Some (i, s) ->
  holds st t (Table oid) m0 -> (forall r m1, r.1 = oid -> ~ holds st t (Row r) m1) ->
  (forall u m1, ~ waits_on st u (Table oid) m1) ->
  exists st2, unlock_table t m oid st = Some (LOk true, st2) /\ absent st2 t (Table oid).
Proof.
  intros M [R1 R2] oid m0 i s T Hh Hr Hw.
  assert (HO : of t (q_reqs (the_queue st (Table oid))) = [Req t m0 true] /\ oid ∈ (locks_of t st).1).
  { unfold holds in Hh. rewrite queue_of_the in Hh. apply (of_In (Req t m0 true)) in Hh. simpl in Hh.
    destruct (M (Table oid)) as [E|(m2 & E & Rc)]; cbn [the_queue] in *; rewrite E in Hh; [by apply elem_of_nil in Hh|].
    apply elem_of_list_singleton in Hh. injection Hh as ->. done. }
  destruct HO as [HO HR].
  assert (HRow : filter (fun x => x.1 = oid) (locks_of t st).2 = ∅).
  { apply leibniz_equiv. intros [p r]. split; [|set_solver]. intros I. exfalso. apply elem_of_filter in I as [I1 I2]. simpl in I1.
    assert (E1 : r.1 = oid) by (rewrite <- I1; symmetry; by apply R2).
    assert (Rx : recorded st t (Row r)) by (simpl; eauto). pose proof (R1 _ Rx) as N.
    destruct (M (Row r)) as [E|(m2 & E & _)]; [done|]. apply (Hr r m2 E1). unfold holds. rewrite queue_of_the.
    apply (of_In (Req t m2 true)). cbn [rq_txn]. rewrite E. left. }
  unfold unlock_table. rewrite T. rewrite bool_decide_eq_true_2 by done. simpl. rewrite HRow.
  rewrite bool_decide_eq_true_2 by done. simpl.
  unfold release. change (default empty_queue (tables st !! oid)) with (the_queue st (Table oid)).
  rewrite (own_granted_single _ _ _ HO).
  rewrite grant_waiters_no_waiters; [|intros r I; apply (nobody_waits st (Table oid)); [exact Hw|]; eapply sublist_In; [exact I|apply remove_own_sub]].
  eexists. split; [done|]. intros m1. unfold holds, waits_on. rewrite !queue_of_the. cbn [the_queue set_state tables]. rewrite lookup_insert. simpl.
  pose proof (remove_own_single _ _ _ HO) as RO. apply of_nil_txn in RO.
  split; intros I; apply RO; apply elem_of_list_fmap; eexists; (split; [|exact I]); done.
Qed.

(** With a waiter and no upgrade under way a polite release never returns. *)
Lemma release_hangs st t oid u m1 m0 : all_tidy st -> holds st t (Table oid) m0 -> waits_on st u (Table oid) m1 ->
  q_up (the_queue st (Table oid)) = None -> release (the_queue st (Table oid)) t = Hangs.
Proof.
  intros T Hh Hw Up. unfold holds, waits_on in *. rewrite queue_of_the in *. unfold release.
  destruct (own_granted t (q_reqs (the_queue st (Table oid)))) eqn:O; [|by eapply own_granted_None in O].
  rewrite grant_waiters_single; [|eapply tidy_sub; [apply remove_own_sub|apply (T (Table oid))]].
  assert (existsb (fun r => negb (rq_granted r) && negb (other_upgrading (q_up (the_queue st (Table oid))) (rq_txn r)))
    (remove_own t (q_reqs (the_queue st (Table oid)))) = true) as ->; [|done].
  apply existsb_exists. exists (Req u m1 false). split; [|cbn [rq_granted rq_txn]; by rewrite Up].
  apply elem_of_list_In. clear - Hw. induction (q_reqs (the_queue st (Table oid))) as [|r l IH]; [by apply elem_of_nil in Hw|].
  simpl. destruct (own t r) eqn:O.
  - apply elem_of_cons in Hw as [<-|Hw]; [|done]. done.
  - apply elem_of_cons in Hw as [<-|Hw]; [left|right; auto].
Qed.

(** ** Deadlock reports in plain histories *)
Definition waiting_for (st : lm) (t u : N) : Prop :=
  exists x m m', waits_on st t x m /\ holds st u x m' /\ conflict m m'.

Definition plain_inv (st : lm) : Prop :=
  all_tidy st /\ (forall x, q_up (the_queue st x) = None) /\
  (forall x r, r ∈ q_reqs (the_queue st x) -> rq_mode r = MS \/ rq_mode r = MX) /\
  (forall t u, edge (waits st) t u -> waiting_for st t u).

Lemma absent_of st t x : absent st t x -> of t (q_reqs (the_queue st x)) = [].
Proof.
  intros A. apply of_nil_txn. intros I. apply elem_of_list_fmap in I as ([t0 m0 [|]] & E & I); simpl in E; subst t0;
    destruct (A m0) as [A1 A2]; unfold holds, waits_on in *; rewrite queue_of_the in *; done.
Qed.

Lemma edge_delete g t a b : edge (delete t g) a b -> edge g a b /\ a <> t.
Proof. intros (l & Hl & Hb). apply lookup_delete_Some in Hl as [? ?]. split; [by exists l|done]. Qed.

Lemma edge_add t q g a b : edge (add_edges t q g) a b ->
  edge g a b \/ (a = t /\ exists r, r ∈ q_reqs q /\ rq_granted r = true /\ rq_txn r = b).
Proof.
  unfold add_edges. destruct (rq_txn <$> filter (fun r => rq_granted r = true) (q_reqs q)) as [|h hs] eqn:E; [by left|].
  intros (l & Hl & Hb). destruct (decide (a = t)) as [->|Hne].
  - rewrite lookup_insert in Hl. injection Hl as <-. apply elem_of_app in Hb as [Hb|Hb].
    + left. destruct (g !! t) as [l|] eqn:G; [by exists l|by apply elem_of_nil in Hb].
    + right. split; [done|]. rewrite <- E in Hb. apply elem_of_list_fmap in Hb as (r & -> & Hr).
      apply elem_of_list_filter in Hr as [? ?]. eauto.
  - rewrite lookup_insert_ne in Hl by done. left. by exists l.
Qed.

Lemma step_plain st o res st2 : plain_inv st ->
  (forall t m x, lock_request o = Some (t, m, x) -> (m = MS \/ m = MX) /\ absent st t x) ->
  lstep st o = Some (res, st2) -> plain_inv st2.
Proof.
  intros (T & Up & Md & Ed) P H.
  assert (T2 : all_tidy st2).
  { eapply step_tidy; [done| |done]. intros t m x L. destruct (P _ _ _ L) as [_ A]. unfold polite_request.
    rewrite queue_of_the. fold (of t (q_reqs (the_queue st x))). by rewrite absent_of. }
  destruct (lock_request o) as [[[t m] y]|] eqn:L.
  { destruct (P _ _ _ eq_refl) as [Hm A]. apply absent_of in A.
    destruct (lock_queues _ _ _ _ _ _ _ L H) as [(_ & _ & Q & _ & Wt)|(b & -> & B & Q & SF & ST)].
    - split; [done|]. split; [|split].
      + intros x. rewrite (Q x). apply Up.
      + intros x r. rewrite (Q x). apply Md.
      + intros a b. rewrite Wt. intros E. destruct (Ed _ _ E) as (x & m1 & m2 & W1 & H1 & C). exists x, m1, m2.
        unfold waits_on, holds in *. rewrite queue_of_the in *. by rewrite (Q x).
    - unfold grant_lock in B, Q. rewrite own_granted_nil in B, Q by done.
      assert (FG : finish_grant (the_queue st y) t m = (b, Queue (q_reqs (the_queue st y) ++ [Req t m b]) None)).
      { unfold finish_grant in *. rewrite (Up y) in *. destruct (compat (the_queue st y) t m); simpl in B; by subst. }
      rewrite FG in Q. simpl in Q.
      assert (EXT : forall x r, r ∈ q_reqs (the_queue st x) -> r ∈ q_reqs (the_queue st2 x)).
      { intros x r Hr. rewrite (Q x). destruct (decide (x = y)) as [->|]; [|done]. simpl. apply elem_of_app. by left. }
      assert (EOLD : forall a c, edge (waits st) a c -> waiting_for st2 a c).
      { intros a c E. destruct (Ed _ _ E) as (x & m1 & m2 & W1 & H1 & C). exists x, m1, m2.
        unfold waits_on, holds in *. rewrite queue_of_the in *. auto. }
      split; [done|]. split; [|split].
      + intros x. rewrite (Q x). destruct (decide (x = y)); [done|]. apply Up.
      + intros x r. rewrite (Q x). destruct (decide (x = y)) as [->|]; [|apply Md]. simpl. intros Hr.
        apply elem_of_app in Hr as [Hr|Hr]; [by eapply Md|]. by apply elem_of_list_singleton in Hr as ->.
      + intros a c E. destruct b.
        * destruct (ST eq_refl) as [Wt _]. rewrite Wt in E. auto.
        * destruct (SF eq_refl) as [_ Wt]. rewrite Wt in E. rewrite (Q y), decide_True in E by done.
          apply edge_add in E as [E|(-> & r & Hr & G & <-)]; [auto|]. simpl in Hr.
          apply elem_of_app in Hr as [Hr|Hr]; [|by apply elem_of_list_singleton in Hr as ->].
          exists y, m, (rq_mode r). unfold waits_on, holds. rewrite !queue_of_the, (Q y), decide_True by done. simpl.
          split; [apply elem_of_app; right; left|]. split.
          { apply elem_of_app. left. destruct r; simpl in *; by subst. }
          assert (CF : compat (the_queue st y) t m = false).
          { unfold finish_grant in FG. destruct (compat (the_queue st y) t m); [done|done]. }
          unfold compat in CF. rewrite (Up y) in CF. simpl in CF. rewrite own_granted_nil in CF by done.
          destruct (are_compatible (rq_mode r) m) eqn:CO; [|].
          { (* the only holder is the conflicting one *)
            exfalso. assert (X : exists r', r' ∈ q_reqs (the_queue st y) /\ rq_granted r' = true /\ are_compatible (rq_mode r') m = false).
            { clear - CF. induction (q_reqs (the_queue st y)) as [|r' l IH]; [done|]. simpl in CF.
              apply andb_false_iff in CF as [CF|CF].
              - exists r'. split; [left|]. apply orb_false_iff in CF as [C1 C2]. by apply negb_false_iff in C1.
              - destruct (IH CF) as (r0 & I & E). exists r0. split; [by right|done]. }
            destruct X as (r' & I' & G' & C'). destruct (Md _ _ Hr) as [E1|E1], (Md _ _ I') as [E2|E2], Hm as [-> | ->];
              rewrite E1 in CO; rewrite E2 in C'; try discriminate.
            assert (rq_txn r <> rq_txn r') as Hne.
            { intros Heq. assert (r = r').
              { destruct (T y) as [Sg _]. unfold single in Sg. apply elem_of_list_lookup in Hr as [i Hi]. apply elem_of_list_lookup in I' as [j Hj].
                assert (i = j); [|by subst; congruence].
                eapply (NoDup_lookup _ i j (rq_txn r)); [exact Sg| |]; rewrite list_lookup_fmap; [by rewrite Hi|rewrite Hj; simpl; by rewrite Heq]. }
              subst. congruence. }
            destruct (T y) as [_ Ag]. specialize (Ag r r' Hr I' G G' Hne). rewrite E1, E2 in Ag. done. }
          destruct (conflict_dec m (rq_mode r)) as [C|C]; [done|]. apply compatible_spec in C. rewrite compatible_sym in C. congruence. }
  destruct (unlock_target o) as [[[t m] y]|] eqn:U.
  { destruct (unlock_queues _ _ _ _ _ _ _ U H) as [(_ & Q & _ & Wt)|(_ & q2 & R & Q & _ & Wt)].
    - split; [done|]. split; [|split].
      + intros x. rewrite (Q x). apply Up.
      + intros x r. rewrite (Q x). apply Md.
      + intros a b. rewrite Wt. intros E. destruct (Ed _ _ E) as (x & m1 & m2 & W1 & H1 & C). exists x, m1, m2.
        unfold waits_on, holds in *. rewrite queue_of_the in *. by rewrite (Q x).
    - pose proof (release_tidy _ _ _ (T y) R) as RQ.
      assert (RU2 : q_up q2 = None).
      { unfold release in R. destruct (own_granted _ _); [|done]. destruct (grant_waiters _ _ _); [|done]. injection R as <-. simpl. apply Up. }
      assert (NW : forall u m1, ~ waits_on st u y m1).
      { intros u m1 Hw. unfold waits_on in Hw. rewrite queue_of_the in Hw. unfold release in R.
        destruct (own_granted _ _); [|done]. rewrite grant_waiters_single in R; [|simpl; eapply tidy_sub; [apply remove_own_sub|apply T]].
        destruct (existsb _ _) eqn:X; [done|]. clear R. revert X.
        assert (forall l, Req u m1 false ∈ l -> existsb (fun r => negb (rq_granted r) && negb (other_upgrading (q_up (the_queue st y)) (rq_txn r))) (remove_own t l) = true) as G; [|by rewrite G].
        intros l. induction l as [|r l IH]; intros I; [by apply elem_of_nil in I|]. simpl.
        apply elem_of_cons in I as [<-|I].
        - unfold own at 1. simpl. by rewrite (Up y).
        - destruct (own t r) eqn:OO; simpl.
          + clear IH. apply existsb_exists. exists (Req u m1 false). split; [by apply elem_of_list_In|]. simpl. by rewrite (Up y).
          + rewrite (IH I). by rewrite orb_true_r. }
      split; [done|]. split; [|split].
      + intros x. rewrite (Q x). destruct (decide (x = y)); [done|]. apply Up.
      + intros x r. rewrite (Q x). destruct (decide (x = y)) as [->|]; [|apply Md]. rewrite RQ. intros I.
        eapply Md. eapply sublist_In; [exact I|apply remove_own_sub].
      + intros a b. rewrite Wt. intros E. apply edge_delete in E as [E _].
        destruct (Ed _ _ E) as (x & m1 & m2 & W1 & H1 & C). exists x, m1, m2.
        destruct (decide (x = y)) as [->|Hxy]; [by exfalso; eapply NW|].
        unfold waits_on, holds in *. rewrite queue_of_the in *. by rewrite (Q x), decide_False. }
  destruct (finish_request o) as [t|] eqn:F.
  { destruct (finish_queues _ _ _ _ _ F H) as (Q & _ & Wt). split; [done|]. split; [|split].
    - intros x. destruct (Q x) as [[_ Pu]|[_ ->]]; [|apply Up]. unfold purge in Pu.
      destruct (grant_waiters _ _ _); [|done]. injection Pu as <-. simpl. apply Up.
    - intros x r. destruct (Q x) as [[_ Pu]|[_ ->]]; [|apply Md]. rewrite (purge_tidy _ _ _ (T x) Pu). intros I.
      eapply Md. eapply sublist_In; [exact I|apply sublist_filter].
    - intros a b. rewrite Wt. intros E. apply edge_delete in E as [E Hat].
      destruct (Ed _ _ E) as (x & m1 & m2 & W1 & H1 & C). exists x, m1, m2.
      destruct (Q x) as [[_ Pu]|[_ Pu]]; [|unfold waits_on, holds in *; rewrite queue_of_the in *; by rewrite Pu].
      exfalso. unfold waits_on in W1. rewrite queue_of_the in W1. unfold purge in Pu.
      rewrite grant_waiters_single in Pu; [|simpl; eapply tidy_sub; [apply sublist_filter|apply T]].
      destruct (existsb _ _) eqn:X; [done|]. apply not_true_iff_false in X. apply X. apply existsb_exists.
      exists (Req a m1 false). split; [|simpl; by rewrite (Up x)]. apply elem_of_list_In, elem_of_list_filter. done. }
  destruct (other_queues _ _ _ _ L U F H) as [(Q & _ & Wt)|(Q & _ & Wt & _)].
  - split; [done|]. split; [|split].
    + intros x. rewrite (Q x). apply Up.
    + intros x r. rewrite (Q x). apply Md.
    + intros a b. rewrite Wt. intros E. destruct (Ed _ _ E) as (x & m1 & m2 & W1 & H1 & C). exists x, m1, m2.
      unfold waits_on, holds in *. rewrite queue_of_the in *. by rewrite (Q x).
  - split; [done|]. split; [|split].
    + intros x. by rewrite (Q x).
    + intros x r. rewrite (Q x). intros I. by apply elem_of_nil in I.
    + intros a b. rewrite Wt. intros (l & Hl & _). by rewrite lookup_empty in Hl.
Qed.

Lemma run_plain ops st rs st2 : plain st ops -> plain_inv st -> lrun st ops = Some (rs, st2) -> plain_inv st2.
Proof.
  apply (lrun_ind plain_inv plain). intros st0 o ops0 res st3 [P1 P2] T H.
  split; [eapply step_plain; eauto|by eapply P2].
Qed.

Lemma init_plain : plain_inv lm_init.
Proof.
  split; [apply init_tidy|]. split; [|split].
  - intros [x|x]; simpl; by rewrite lookup_empty.
  - intros [x|x] r Hr; simpl in Hr; rewrite lookup_empty in Hr; by apply elem_of_nil in Hr.
  - intros t u (l & Hl & _). simpl in Hl. by rewrite lookup_empty in Hl.
Qed.
