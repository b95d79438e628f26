(** * Proofs about the lock manager *)
From stdpp Require Import gmap list sets fin_sets.
From Coq Require Import NArith Lia.
From Verif Require Import LockModel LockSpec.

(** ** The matrix *)
Lemma compatible_spec a b : are_compatible a b = true <-> ~ conflict a b.
Proof.
  unfold conflict, clash. split.
  - intros H (r1 & r2 & C & D). destruct a, b, r1, r2; simpl in *; try discriminate; intuition congruence.
  - intros H. destruct (are_compatible a b) eqn:E; [done|]. exfalso. apply H.
    destruct a, b; try discriminate E; clear;
      first [ exists Writing, Writing; cbn; tauto | exists Reading, Writing; cbn; tauto
            | exists Writing, Reading; cbn; tauto ].
Qed.

Lemma compatible_sym a b : are_compatible a b = are_compatible b a.
Proof. by destruct a, b. Qed.

(** ** One queue *)
Definition of (t : N) (l : list request) : list request := filter (fun r => rq_txn r = t) l.

Lemma of_app t l1 l2 : of t (l1 ++ l2) = of t l1 ++ of t l2.
Proof. apply filter_app. Qed.
Lemma of_cons t r l : of t (r :: l) = if decide (rq_txn r = t) then r :: of t l else of t l.
Proof. unfold of. by rewrite filter_cons. Qed.

Lemma own_true t r : own t r = true <-> rq_granted r = true /\ rq_txn r = t.
Proof. unfold own. rewrite andb_true_iff, N.eqb_eq. done. Qed.

Lemma own_granted_of t l : own_granted t l = own_granted t (of t l).
Proof.
  induction l as [|r l IH]; [done|]. simpl. rewrite of_cons.
  destruct (own t r) eqn:O.
  - apply own_true in O as [? ?]. rewrite decide_True by done. simpl.
    assert (own t r = true) as -> by (by apply own_true). done.
  - destruct (decide (rq_txn r = t)) as [E|E]; [simpl; by rewrite O|done].
Qed.

Lemma own_granted_In t l m : own_granted t l = Some m -> Req t m true ∈ l.
Proof.
  induction l as [|r l IH]; [done|]. simpl. destruct (own t r) eqn:O.
  - intros [= <-]. apply own_true in O as [G T]. destruct r as [t0 m0 g0]; simpl in *; subst. left.
  - intros H. right. auto.
Qed.

Lemma own_granted_None t l : own_granted t l = None <-> forall m, Req t m true ∉ l.
Proof.
  induction l as [|r l IH]; simpl; [split; [intros _ m H; by apply elem_of_nil in H|done]|].
  destruct (own t r) eqn:O.
  - split; [done|]. intros H. exfalso. apply own_true in O as [G T]. apply (H (rq_mode r)).
    destruct r; simpl in *; subst. left.
  - rewrite IH. split.
    + intros H m Hin. apply elem_of_cons in Hin as [E|Hin]; [|by apply (H m)].
      subst r. unfold own in O. simpl in O. by rewrite N.eqb_refl in O.
    + intros H m Hin. apply (H m). by right.
Qed.

Lemma remove_own_other t t' l : t <> t' -> of t' (remove_own t l) = of t' l.
Proof.
  intros Hne. induction l as [|r l IH]; [done|]. simpl. destruct (own t r) eqn:O.
  - apply own_true in O as [_ T]. rewrite of_cons, decide_False; [done|congruence].
  - rewrite !of_cons, IH. done.
Qed.

Lemma remove_own_single t l m : of t l = [Req t m true] -> of t (remove_own t l) = [].
Proof.
  induction l as [|r l IH]; [done|]. simpl. rewrite of_cons. intros H.
  destruct (decide (rq_txn r = t)) as [E|E].
  - injection H as -> H. unfold own. simpl. by rewrite N.eqb_refl.
  - destruct (own t r) eqn:O; [apply own_true in O as [_ ?]; congruence|].
    rewrite of_cons, decide_False by done. auto.
Qed.

Lemma remove_own_sub t l : remove_own t l `sublist_of` l.
Proof.
  induction l as [|r l IH]; simpl; [constructor|]. destruct (own t r); [by apply sublist_cons|by apply sublist_skip].
Qed.

Lemma own_granted_single t l m : of t l = [Req t m true] -> own_granted t l = Some m.
Proof. intros H. rewrite own_granted_of, H. simpl. unfold own. simpl. by rewrite N.eqb_refl. Qed.

Lemma own_granted_nil t l : of t l = [] -> own_granted t l = None.
Proof. intros H. by rewrite own_granted_of, H. Qed.

Lemma of_In r l : r ∈ of (rq_txn r) l <-> r ∈ l.
Proof. unfold of. rewrite elem_of_list_filter. naive_solver. Qed.

Lemma of_In2 t r l : r ∈ of t l <-> rq_txn r = t /\ r ∈ l.
Proof. unfold of. rewrite elem_of_list_filter. done. Qed.

(** *** Other transactions' requests are left alone *)
Lemma finish_other q t m t' : t <> t' -> of t' (q_reqs (finish_grant q t m).2) = of t' (q_reqs q).
Proof.
  intros Hne. unfold finish_grant. destruct (compat q t m); simpl;
    rewrite of_app, of_cons, decide_False, app_nil_r by (simpl; congruence); done.
Qed.

Lemma grant_other q t m t' : t <> t' -> of t' (q_reqs (grant_lock q t m).2) = of t' (q_reqs q).
Proof.
  intros Hne. unfold grant_lock. destruct (own_granted t (q_reqs q)) as [old|]; [|by apply finish_other].
  case_bool_decide; [done|].
  assert (G : of t' (q_reqs (if other_upgrading (q_up q) t then (false, q)
      else finish_grant (Queue (remove_own t (q_reqs q)) (Some t)) t m).2) = of t' (q_reqs q)).
  { destruct (other_upgrading (q_up q) t); [done|]. rewrite finish_other by done. simpl.
    by apply remove_own_other. }
  destruct old, m; try exact G; by apply finish_other.
Qed.

(** The granted requests of [t]. *)
Definition granted_of (t : N) (l : list request) : list request :=
  filter (fun r => rq_txn r = t /\ rq_granted r = true) l.

Lemma granted_of_In t m l : Req t m true ∈ l <-> Req t m true ∈ granted_of t l.
Proof. unfold granted_of. rewrite elem_of_list_filter. simpl. naive_solver. Qed.

Lemma granted_of_of t l : granted_of t l = granted_of t (of t l).
Proof.
  unfold granted_of, of. induction l as [|r l IH]; [done|].
  rewrite !filter_cons. destruct (decide (rq_txn r = t)) as [E|E].
  - rewrite filter_cons. by destruct (decide _); rewrite IH.
  - rewrite decide_False by tauto. done.
Qed.

Lemma grant_waiters_keeps up done rest l : grant_waiters up done rest = Some l ->
  forall r, rq_granted r = true -> r ∈ done ++ rest -> r ∈ l.
Proof.
  revert done. induction rest as [|r rest IH]; intros done H r0 G Hin.
  - simpl in H. injection H as <-. by rewrite app_nil_r in Hin.
  - simpl in H. destruct (rq_granted r) eqn:Gr.
    + apply (IH _ H r0 G). by rewrite <- (assoc_L (++)).
    + destruct (compat_held up done r) as [b|]; [|done]. apply (IH _ H r0 G).
      rewrite <- (assoc_L (++)). simpl. apply elem_of_app in Hin as [Hin|Hin]; apply elem_of_app; [by left|].
      apply elem_of_cons in Hin as [->|Hin]; [congruence|]. right. by right.
Qed.

(** Where all of [t]'s requests are granted, granting waiters leaves them as they are. *)
Lemma grant_waiters_of t up done rest l : grant_waiters up done rest = Some l ->
  (forall r, r ∈ rest -> rq_txn r = t -> rq_granted r = true) ->
  of t l = of t done ++ of t rest.
Proof.
  revert done. induction rest as [|r rest IH]; intros done H Hg.
  - simpl in H. injection H as <-. by rewrite app_nil_r.
  - simpl in H. destruct (rq_granted r) eqn:Gr.
    + rewrite (IH _ H), of_app, <- (assoc_L (++)); [|intros r0 Hr0; apply Hg; by right].
      f_equal. rewrite !of_cons. by destruct (decide (rq_txn r = t)).
    + destruct (compat_held up done r) as [b|]; [|done].
      rewrite (IH _ H), of_app, <- (assoc_L (++)); [|intros r0 Hr0; apply Hg; by right].
      f_equal. destruct (decide (rq_txn r = t)) as [E|E].
      * exfalso. specialize (Hg r (elem_of_list_here _ _) E). congruence.
      * rewrite !of_cons. simpl. rewrite !decide_False by done. done.
Qed.

Lemma grant_waiters_txns up done rest l : grant_waiters up done rest = Some l ->
  rq_txn <$> l = (rq_txn <$> done) ++ (rq_txn <$> rest).
Proof.
  revert done. induction rest as [|r rest IH]; intros done H.
  - simpl in H. injection H as <-. by rewrite app_nil_r.
  - simpl in H. destruct (rq_granted r).
    + rewrite (IH _ H), fmap_app, <- (assoc_L (++)). done.
    + destruct (compat_held up done r); [|done]. rewrite (IH _ H), fmap_app, <- (assoc_L (++)). done.
Qed.

(** *** Queues with one request per transaction *)
Lemma sublist_In {A} (l k : list A) x : x ∈ l -> l `sublist_of` k -> x ∈ k.
Proof. intros H S. eapply elem_of_submseteq; [exact H|]. by apply sublist_submseteq. Qed.

Lemma sublist_NoDup {A} (l k : list A) : l `sublist_of` k -> NoDup k -> NoDup l.
Proof.
  induction 1 as [|x l k S IH|x l k S IH]; intros H; [constructor| |].
  - apply NoDup_cons in H as [H1 H2]. constructor; [|auto]. intros Hin. apply H1. by eapply sublist_In.
  - apply NoDup_cons in H as [_ H2]. auto.
Qed.

Lemma sublist_filter {A} (P : A -> Prop) `{forall x, Decision (P x)} (l : list A) : filter P l `sublist_of` l.
Proof.
  induction l as [|x l IH]; [constructor|]. rewrite filter_cons.
  destruct (decide (P x)); [by apply sublist_skip|by apply sublist_cons].
Qed.

Definition single (l : list request) : Prop := NoDup (rq_txn <$> l).
Definition agree (l : list request) : Prop :=
  forall r1 r2, r1 ∈ l -> r2 ∈ l -> rq_granted r1 = true -> rq_granted r2 = true ->
    rq_txn r1 <> rq_txn r2 -> are_compatible (rq_mode r1) (rq_mode r2) = true.
Definition tidy (l : list request) : Prop := single l /\ agree l.

Lemma tidy_nil : tidy [].
Proof. split; [constructor|]. intros r1 r2 H. by apply elem_of_nil in H. Qed.

Lemma tidy_sub l l2 : l2 `sublist_of` l -> tidy l -> tidy l2.
Proof.
  intros S [H1 H2]. split.
  - unfold single in *. eapply sublist_NoDup; [|exact H1]. by apply fmap_sublist.
  - intros r1 r2 A B. apply H2; eapply sublist_In; eauto.
Qed.

Lemma of_nil_txn t l : of t l = [] <-> t ∉ rq_txn <$> l.
Proof.
  unfold of. induction l as [|r l IH]; [split; [intros _ H; by apply elem_of_nil in H|done]|].
  rewrite filter_cons, fmap_cons, elem_of_cons. destruct (decide (rq_txn r = t)) as [E|E].
  - split; [done|]. intros H. exfalso. apply H. left. congruence.
  - rewrite IH. split; [intros H [H2|H2]; congruence|tauto].
Qed.

Lemma finish_tidy q t m : tidy (q_reqs q) -> of t (q_reqs q) = [] -> tidy (q_reqs (finish_grant q t m).2).
Proof.
  intros [H1 H2] H. unfold finish_grant.
  assert (S : forall b, single (q_reqs q ++ [Req t m b])).
  { intros b. unfold single. rewrite fmap_app. simpl. apply NoDup_app. split; [done|]. split; [|apply NoDup_singleton].
    intros x Hx Hx2. apply elem_of_list_singleton in Hx2 as ->. apply of_nil_txn in H. done. }
  destruct (compat q t m) eqn:C; simpl; split; try apply S.
  - unfold compat in C. destruct (other_upgrading (q_up q) t); [done|]. rewrite own_granted_nil in C by done.
    rewrite forallb_forall in C.
    assert (K : forall r, r ∈ q_reqs q -> rq_granted r = true -> are_compatible (rq_mode r) m = true).
    { intros r Hr G. specialize (C r (proj1 (elem_of_list_In _ _) Hr)). by rewrite G in C. }
    intros r1 r2 A B G1 G2 Hne. apply elem_of_app in A as [A|A]; apply elem_of_app in B as [B|B].
    + by apply H2.
    + apply elem_of_list_singleton in B as ->. by apply K.
    + apply elem_of_list_singleton in A as ->. rewrite compatible_sym. by apply K.
    + apply elem_of_list_singleton in A as ->. apply elem_of_list_singleton in B as ->. done.
  - intros r1 r2 A B G1 G2 Hne. apply elem_of_app in A as [A|A]; apply elem_of_app in B as [B|B];
      try (apply elem_of_list_singleton in A as ->; done); try (apply elem_of_list_singleton in B as ->; done).
    by apply H2.
Qed.

(** What [polite_request] says of the queue. *)
Definition polite_q (t : N) (m : mode) (l : list request) : Prop :=
  of t l = [] \/ exists m0, of t l = [Req t m0 true] /\ ~ (m0 = MIS /\ m = MS) /\ ~ (m0 = MIX /\ m = MX).

Lemma polite_request_q st t m x : polite_request st t m x -> polite_q t m (queue_of st x).
Proof.
  unfold polite_request, polite_q. fold (of t (queue_of st x)).
  destruct (of t (queue_of st x)) as [|[t0 m0 [|]] [|]] eqn:E; try done; [by left|].
  intros H. right. exists m0. split; [|done].
  assert (In : Req t0 m0 true ∈ of t (queue_of st x)) by (rewrite E; left).
  apply of_In2 in In as [In _]. simpl in In. by subst.
Qed.

(** A polite request: granted at once (one granted request now), refused leaving all as it
    was, or put in the queue. *)
Lemma grant_polite q t m : polite_q t m (q_reqs q) ->
  let '(b, q2) := grant_lock q t m in
  if b then of t (q_reqs q2) = [Req t m true]
  else q2 = q \/ of t (q_reqs q2) = [Req t m false].
Proof.
  intros [H|(m0 & H & N1 & N2)]; unfold grant_lock.
  - rewrite own_granted_nil by done. unfold finish_grant. destruct (compat q t m); simpl;
      [|right]; rewrite of_app, H, of_cons, decide_True by done; done.
  - rewrite (own_granted_single _ _ _ H). case_bool_decide as E; [by subst|].
    assert (R : of t (remove_own t (q_reqs q)) = []) by (by eapply remove_own_single).
    assert (G : let '(b, q2) := (if other_upgrading (q_up q) t then (false, q)
          else finish_grant (Queue (remove_own t (q_reqs q)) (Some t)) t m) in
          if b then of t (q_reqs q2) = [Req t m true] else q2 = q \/ of t (q_reqs q2) = [Req t m false]).
    { destruct (other_upgrading (q_up q) t); [by left|]. unfold finish_grant.
      destruct (compat _ t m); simpl; [|right]; rewrite of_app, R, of_cons, decide_True by done; done. }
    destruct m0, m; try exact G; exfalso; tauto.
Qed.

Lemma grant_tidy q t m : polite_q t m (q_reqs q) -> tidy (q_reqs q) -> tidy (q_reqs (grant_lock q t m).2).
Proof.
  intros [H|(m0 & H & N1 & N2)] T; unfold grant_lock.
  - rewrite own_granted_nil by done. by apply finish_tidy.
  - rewrite (own_granted_single _ _ _ H). case_bool_decide as E; [done|].
    assert (G : tidy (q_reqs (if other_upgrading (q_up q) t then (false, q)
          else finish_grant (Queue (remove_own t (q_reqs q)) (Some t)) t m).2)).
    { destruct (other_upgrading (q_up q) t); [done|]. apply finish_tidy; simpl.
      - eapply tidy_sub; [apply remove_own_sub|done].
      - by eapply remove_own_single. }
    destruct m0, m; try exact G; exfalso; tauto.
Qed.

(** With one request per transaction, granting waiters changes nothing or never returns. *)
Lemma grant_waiters_single up done rest : single (done ++ rest) ->
  grant_waiters up done rest =
    if existsb (fun r => negb (rq_granted r) && negb (other_upgrading up (rq_txn r))) rest
    then None else Some (done ++ rest).
Proof.
  revert done. induction rest as [|r rest IH]; intros done S; simpl; [by rewrite app_nil_r|].
  assert (S2 : single ((done ++ [r]) ++ rest)) by (by rewrite <- (assoc_L (++))).
  destruct (rq_granted r) eqn:G; simpl; [rewrite (IH _ S2), <- (assoc_L (++)); done|].
  unfold compat_held. destruct (other_upgrading up (rq_txn r)) eqn:O; simpl.
  - assert (Req (rq_txn r) (rq_mode r) false = r) as -> by (destruct r; simpl in *; by subst).
    rewrite (IH _ S2), <- (assoc_L (++)). done.
  - rewrite own_granted_nil; [done|]. apply of_nil_txn. intros Hin.
    unfold single in S. rewrite fmap_app, fmap_cons in S. apply NoDup_app in S as (_ & S & _).
    apply (S _ Hin). left.
Qed.

Lemma grant_waiters_tidy up l l2 : tidy l -> grant_waiters up [] l = Some l2 -> l2 = l.
Proof.
  intros T H. rewrite grant_waiters_single in H by apply T. destruct (existsb _ l); [done|]. by injection H.
Qed.

Lemma release_tidy q t q2 : tidy (q_reqs q) -> release q t = Returns q2 -> q_reqs q2 = remove_own t (q_reqs q).
Proof.
  intros T. unfold release. destruct (own_granted t (q_reqs q)); [|done].
  destruct (grant_waiters _ [] _) as [l|] eqn:E; [|done]. intros [= <-]. simpl.
  apply grant_waiters_tidy in E; [done|]. eapply tidy_sub; [apply remove_own_sub|done].
Qed.

Lemma purge_tidy t q q2 : tidy (q_reqs q) -> purge t q = Some q2 ->
  q_reqs q2 = filter (fun r => rq_txn r <> t) (q_reqs q).
Proof.
  intros T. unfold purge. destruct (grant_waiters _ [] _) as [l|] eqn:E; [|done]. intros [= <-]. simpl.
  apply grant_waiters_tidy in E; [done|]. eapply tidy_sub; [|done]. apply sublist_filter.
Qed.

(** ** Queues of the manager after a step *)
Lemma set_state_queue t s st x : queue_of (set_state t s st) x = queue_of st x.
Proof. by destruct x. Qed.
Lemma check_deadlock_queue t st x : queue_of (check_deadlock t st) x = queue_of st x.
Proof. unfold check_deadlock. destruct (victim st); [destruct (N.eqb _ _)|]; by destruct x. Qed.
Lemma check_deadlock_sets t st : sets (check_deadlock t st) = sets st.
Proof. unfold check_deadlock. destruct (victim st); [destruct (N.eqb _ _)|]; done. Qed.
Lemma check_deadlock_waits t st : waits (check_deadlock t st) = waits st.
Proof. unfold check_deadlock. destruct (victim st); [destruct (N.eqb _ _)|]; done. Qed.

Definition the_queue (st : lm) (x : resource) : queue :=
  match x with
  | Table oid => default empty_queue (tables st !! oid)
  | Row r => default empty_queue (rows st !! r)
  end.
Lemma queue_of_the st x : queue_of st x = q_reqs (the_queue st x).
Proof. by destruct x. Qed.

Global Instance resource_eq_dec : EqDecision resource.
Proof. solve_decision. Defined.

(** What a lock call does to the queues: nothing (refused), or one [grant_lock]. *)
Lemma lock_queues st o t m x res st2 : lock_request o = Some (t, m, x) -> lstep st o = Some (res, st2) ->
  (res <> LOk true /\ res <> LOk false /\ (forall y, the_queue st2 y = the_queue st y) /\ sets st2 = sets st /\ waits st2 = waits st) \/
  (exists b, res = LOk b /\ b = (grant_lock (the_queue st x) t m).1 /\
     (forall y, the_queue st2 y = if decide (y = x) then (grant_lock (the_queue st x) t m).2 else the_queue st y) /\
     (b = false -> sets st2 = sets st /\ waits st2 = add_edges t (the_queue st2 x) (waits st)) /\
     (b = true -> waits st2 = waits st /\
        sets st2 = <[t := match x with
                          | Table oid => ({[oid]} ∪ (locks_of t st).1, (locks_of t st).2)
                          | Row r => ((locks_of t st).1, {[(r.1, r)]} ∪ (locks_of t st).2) end]> (sets st))).
Proof.
  destruct o; try done; intros [= <- <- <-]; cbn [lstep]; intros [= H].
  - unfold lock_table in H. destruct (txns st !! t0) as [[i s]|]; [|injection H as <- <-; by left].
    destruct (validate i s m0) as [e|s2]; [injection H as <- <-; by left|].
    cbn [set_state tables rows sets waits victim txns] in H.
    destruct (grant_lock (default empty_queue (tables st !! oid)) t0 m0) as [b q] eqn:G.
    right. exists b. cbn [the_queue]. rewrite G. destruct b; injection H as <- <-.
    + split; [done|]. split; [done|]. split; [|split; [done|]].
      * intros y. destruct y as [o2|r2]; cbn [the_queue tables rows].
        -- destruct (decide (Table o2 = Table oid)) as [E|E].
           ++ injection E as ->. by rewrite lookup_insert.
           ++ rewrite lookup_insert_ne; [done|congruence].
        -- by rewrite decide_False.
      * intros _. done.
    + split; [done|]. split; [done|]. split; [|split; [|done]].
      * intros y. destruct y as [o2|r2].
        -- cbn [the_queue]. unfold check_deadlock. cbn [victim].
           destruct (decide (Table o2 = Table oid)) as [E|E].
           ++ injection E as ->. destruct (victim st); [destruct (N.eqb _ _)|]; cbn; by rewrite lookup_insert.
           ++ assert (o2 <> oid) by congruence.
              destruct (victim st); [destruct (N.eqb _ _)|]; cbn; by rewrite lookup_insert_ne.
        -- rewrite decide_False by done. unfold check_deadlock. cbn [victim].
           destruct (victim st); [destruct (N.eqb _ _)|]; done.
      * intros _. rewrite check_deadlock_sets, check_deadlock_waits. cbn. split; [done|].
        f_equal. unfold check_deadlock. cbn [victim].
        destruct (victim st); [destruct (N.eqb _ _)|]; cbn; by rewrite lookup_insert.
  - unfold lock_row in H. destruct (txns st !! t0) as [[i s]|]; [|injection H as <- <-; by left].
    destruct (validate i s m0) as [e|s2]; [injection H as <- <-; by left|].
    cbn [set_state tables rows sets waits victim txns] in H.
    assert (D : (exists e s3, (res, st2) = (LErr e, set_state t0 s3 (set_state t0 s2 st))) \/
       (if existsb (fun q => own t0 q && table_permits (rq_mode q) m0) (q_reqs (default empty_queue (tables st !! oid)))
        then let '(granted, q) := grant_lock (default empty_queue (rows st !! r)) t0 m0 in
             (res, st2) = if granted then
               (LOk true, LM (tables st) (<[r := q]> (rows st))
                      (<[t0 := ((locks_of t0 st).1, {[(r.1, r)]} ∪ (locks_of t0 st).2)]> (sets st))
                      (waits st) (victim st) (txns (set_state t0 s2 st)))
             else (LOk false, check_deadlock t0
                     (LM (tables st) (<[r := q]> (rows st)) (sets st)
                         (add_edges t0 q (waits st)) (victim st) (txns (set_state t0 s2 st))))
        else (res, st2) = (LErr ETableLockMissing, set_state t0 Aborted (set_state t0 s2 st)))).
    { destruct m0; try (left; eexists _, _; by rewrite <- H); right; cbn [set_state tables rows sets waits victim txns];
        destruct (existsb _ _); try (by rewrite <- H); destruct (grant_lock _ _ _) as [[|] q]; by rewrite <- H. }
    clear H. destruct D as [(e & s3 & E)|D]; [injection E as -> ->; by left|].
    destruct (existsb _ _); [|injection D as -> ->; by left].
    destruct (grant_lock (default empty_queue (rows st !! r)) t0 m0) as [b q] eqn:G.
    right. exists b. cbn [the_queue]. rewrite G. destruct b; injection D as -> ->.
    + split; [done|]. split; [done|]. split; [|split; [done|]].
      * intros y. destruct y as [o2|r2]; cbn [the_queue tables rows].
        -- by rewrite decide_False.
        -- destruct (decide (Row r2 = Row r)) as [E|E].
           ++ injection E as ->. by rewrite lookup_insert.
           ++ rewrite lookup_insert_ne; [done|congruence].
      * intros _. done.
    + split; [done|]. split; [done|]. split; [|split; [|done]].
      * intros y. destruct y as [o2|r2].
        -- rewrite decide_False by done. unfold check_deadlock. cbn [victim].
           destruct (victim st); [destruct (N.eqb _ _)|]; done.
        -- cbn [the_queue]. unfold check_deadlock. cbn [victim].
           destruct (decide (Row r2 = Row r)) as [E|E].
           ++ injection E as ->. destruct (victim st); [destruct (N.eqb _ _)|]; cbn; by rewrite lookup_insert.
           ++ assert (r2 <> r) by congruence.
              destruct (victim st); [destruct (N.eqb _ _)|]; cbn; by rewrite lookup_insert_ne.
      * intros _. rewrite check_deadlock_sets, check_deadlock_waits. cbn. split; [done|].
        f_equal. unfold check_deadlock. cbn [victim].
        destruct (victim st); [destruct (N.eqb _ _)|]; cbn; by rewrite lookup_insert.
Qed.

Definition drop_lock (x : resource) (l : gset N * gset (N * rid)) : gset N * gset (N * rid) :=
  match x with
  | Table oid => (l.1 ∖ {[oid]}, l.2)
  | Row r => (l.1, l.2 ∖ {[(r.1, r)]})
  end.

Lemma unlock_queues st o t m x res st2 : unlock_target o = Some (t, m, x) -> lstep st o = Some (res, st2) ->
  (res <> LOk true /\ (forall y, the_queue st2 y = the_queue st y) /\ sets st2 = sets st /\ waits st2 = waits st) \/
  (res = LOk true /\ exists q2, release (the_queue st x) t = Returns q2 /\
     (forall y, the_queue st2 y = if decide (y = x) then q2 else the_queue st y) /\
     sets st2 = alter (drop_lock x) t (sets st) /\ waits st2 = delete t (waits st)).
Proof.
  destruct o; try done; intros [= <- <- <-]; cbn [lstep].
  - unfold unlock_table. destruct (txns st !! t0) as [[i s]|]; [|intros [= <- <-]; by left].
    destruct (negb _); [intros [= <- <-]; by left|]. destruct (negb _); [intros [= <- <-]; by left|].
    cbn [the_queue]. destruct (release (default empty_queue (tables st !! oid)) t0) as [| |q] eqn:R; [done|intros [= <- <-]; by left|].
    intros [= <- <-]. right. split; [done|]. exists q. split; [done|]. split; [|done].
    intros [o2|r2]; cbn [the_queue set_state tables rows].
    + destruct (decide (Table o2 = Table oid)) as [E|E].
      * injection E as ->. by rewrite lookup_insert.
      * rewrite lookup_insert_ne; [done|congruence].
    + by rewrite decide_False.
  - unfold unlock_row. destruct (txns st !! t0) as [[i s]|]; [|intros [= <- <-]; by left].
    destruct (negb _); [intros [= <- <-]; by left|].
    cbn [the_queue]. destruct (release (default empty_queue (rows st !! r)) t0) as [| |q] eqn:R; [done|intros [= <- <-]; by left|].
    intros [= <- <-]. right. split; [done|]. exists q. split; [done|]. split; [|done].
    intros [o2|r2]; cbn [the_queue set_state tables rows].
    + by rewrite decide_False.
    + destruct (decide (Row r2 = Row r)) as [E|E].
      * injection E as ->. by rewrite lookup_insert.
      * rewrite lookup_insert_ne; [done|congruence].
Qed.

Definition recorded (st : lm) (t : N) (x : resource) : Prop :=
  match x with
  | Table oid => oid ∈ (locks_of t st).1
  | Row r => exists p, (p, r) ∈ (locks_of t st).2
  end.

Lemma purge_empty t : purge t empty_queue = Some empty_queue.
Proof. done. Qed.

Lemma purge_all_lookup {K} `{Countable K} t (sel : K -> bool) (m m2 : gmap K queue) k :
  purge_all t sel m = Some m2 ->
  if sel k then purge t (default empty_queue (m !! k)) = Some (default empty_queue (m2 !! k))
  else m2 !! k = m !! k.
Proof.
  unfold purge_all. destruct (forallb _ _) eqn:F; [|done]. intros [= <-].
  rewrite map_lookup_imap. destruct (m !! k) as [q|] eqn:E; simpl.
  - destruct (sel k) eqn:S; [|done]. rewrite forallb_forall in F.
    assert (In : List.In (k, q) (map_to_list m)) by (by apply elem_of_list_In, elem_of_map_to_list).
    specialize (F _ In). simpl in F. rewrite S in F. simpl in F. case_bool_decide as I; [|done].
    destruct I as [q2 I]. by rewrite I.
  - by destruct (sel k).
Qed.

Lemma finish_queues st o t res st2 : finish_request o = Some t -> lstep st o = Some (res, st2) ->
  (forall x, (recorded st t x /\ purge t (the_queue st x) = Some (the_queue st2 x)) \/
             (~ recorded st t x /\ the_queue st2 x = the_queue st x)) /\
  sets st2 = delete t (sets st) /\ waits st2 = delete t (waits st).
Proof.
  intros Ho H.
  assert (F : exists s, force_release t (set_state t s st) = Some st2).
  { destruct o; try done; injection Ho as <-; cbn [lstep] in H;
      destruct (force_release _ _) as [st3|] eqn:E; try done; injection H as <- <-; eauto. }
  destruct F as [s F]. clear H Ho. unfold force_release in F. cbn [set_state sets tables rows waits victim txns] in F.
  unfold recorded, locks_of. destruct (sets st !! t) as [[ts rs]|] eqn:E.
  - destruct (purge_all t _ (rows st)) as [rows2|] eqn:R; [|done].
    destruct (purge_all t _ (tables st)) as [tables2|] eqn:T; [|done].
    injection F as <-. split; [|done]. simpl. intros [oid|r]; cbn [the_queue tables rows].
    + pose proof (purge_all_lookup _ _ _ _ oid T) as P. cbn in P. case_bool_decide; [by left|right; split; [done|by rewrite P]].
    + pose proof (purge_all_lookup _ _ _ _ r R) as P. cbn in P.
      destruct (existsb (fun x => bool_decide (x.2 = r)) (elements rs)) eqn:X.
      * left. split; [|done]. apply existsb_exists in X as ([p r2] & X1 & X2).
        apply elem_of_list_In, elem_of_elements in X1. simpl in X2. case_bool_decide; [subst|done]. eauto.
      * right. split; [|by rewrite P]. intros [p Hp].
        assert (true = false) as ?; [|done]. rewrite <- X. symmetry. apply existsb_exists. exists (p, r).
        split; [by apply elem_of_list_In, elem_of_elements|]. by apply bool_decide_eq_true.
  - injection F as <-. simpl. rewrite (delete_notin (sets st)) by done. split; [|done].
    intros [oid|r]; right; (split; [|done]); simpl; set_solver.
Qed.

Lemma other_queues st o res st2 : lock_request o = None -> unlock_target o = None -> finish_request o = None ->
  lstep st o = Some (res, st2) ->
  ((forall x, the_queue st2 x = the_queue st x) /\ sets st2 = sets st /\ waits st2 = waits st) \/
  ((forall x, the_queue st2 x = empty_queue) /\ sets st2 = ∅ /\ waits st2 = ∅ /\ o = OUnlockAll).
Proof.
  destruct o; try done; intros _ _ _; cbn [lstep].
  - destruct (txns st !! t); intros [= <- <-]; by left.
  - destruct (find_cycle _ _) as [[v|]|]; intros [= <- <-]; by left.
  - intros [= <- <-]. right. split; [|done]. intros [x|x]; simpl; by rewrite lookup_empty.
Qed.

(** All that a step can do to a queue. *)
Inductive qchange (o : lop) (x : resource) (q q2 : queue) : Prop :=
| QSame : q2 = q -> qchange o x q q2
| QGrant t m : lock_request o = Some (t, m, x) -> q2 = (grant_lock q t m).2 -> qchange o x q q2
| QRelease t m : unlock_target o = Some (t, m, x) -> release q t = Returns q2 -> qchange o x q q2
| QPurge t : finish_request o = Some t -> purge t q = Some q2 -> qchange o x q q2
| QEmpty : o = OUnlockAll -> q2 = empty_queue -> qchange o x q q2.

Lemma step_qchange st o res st2 x : lstep st o = Some (res, st2) -> qchange o x (the_queue st x) (the_queue st2 x).
Proof.
  intros H. destruct (lock_request o) as [[[t m] y]|] eqn:L.
  - destruct (lock_queues _ _ _ _ _ _ _ L H) as [(_ & _ & Q & _)|(b & _ & _ & Q & _)]; [by apply QSame|].
    rewrite (Q x). destruct (decide (x = y)) as [->|]; [by eapply QGrant|by apply QSame].
  - destruct (unlock_target o) as [[[t m] y]|] eqn:U.
    + destruct (unlock_queues _ _ _ _ _ _ _ U H) as [(_ & Q & _)|(_ & q2 & R & Q & _)]; [by apply QSame|].
      rewrite (Q x). destruct (decide (x = y)) as [->|]; [by eapply QRelease|by apply QSame].
    + destruct (finish_request o) as [t|] eqn:F.
      * destruct (finish_queues _ _ _ _ _ F H) as (Q & _). destruct (Q x) as [[_ P]|[_ P]]; [by eapply QPurge|by apply QSame].
      * destruct (other_queues _ _ _ _ L U F H) as [(Q & _)|(Q & _ & _ & E)]; [by apply QSame|by apply QEmpty].
Qed.

(** ** Histories *)
Lemma lrun_ind (P : lm -> Prop) (Q : lm -> list lop -> Prop) :
  (forall st o ops res st2, Q st (o :: ops) -> P st -> lstep st o = Some (res, st2) -> P st2 /\ Q st2 ops) ->
  forall ops st rs st2, Q st ops -> P st -> lrun st ops = Some (rs, st2) -> P st2.
Proof.
  intros S. induction ops as [|o ops IH]; intros st rs st2 HQ HP H; cbn [lrun] in H; [by injection H as <- <-|].
  destruct (lstep st o) as [[r st3]|] eqn:E; [|done].
  destruct (lrun st3 ops) as [[rs2 st4]|] eqn:R; [|done]. injection H as <- <-.
  destruct (S _ _ _ _ _ HQ HP E) as [HP3 HQ3]. eapply IH; eauto.
Qed.

Definition all_tidy (st : lm) : Prop := forall x, tidy (q_reqs (the_queue st x)).

Lemma init_tidy : all_tidy lm_init.
Proof. intros [x|x]; simpl; rewrite lookup_empty; apply tidy_nil. Qed.

Lemma step_tidy st o res st2 : all_tidy st ->
  (forall t m x, lock_request o = Some (t, m, x) -> polite_request st t m x) ->
  lstep st o = Some (res, st2) -> all_tidy st2.
Proof.
  intros T P H x. destruct (step_qchange _ _ _ _ x H) as [E|t m L E|t m U R|t F R|_ E].
  - rewrite E. apply T.
  - rewrite E. apply grant_tidy; [|apply T]. rewrite <- queue_of_the. by apply polite_request_q, P.
  - rewrite (release_tidy _ _ _ (T x) R). eapply tidy_sub; [apply remove_own_sub|apply T].
  - rewrite (purge_tidy _ _ _ (T x) R). eapply tidy_sub; [apply sublist_filter|apply T].
  - rewrite E. apply tidy_nil.
Qed.

Lemma run_tidy ops st rs st2 : polite (fun _ => True) st ops -> all_tidy st -> lrun st ops = Some (rs, st2) -> all_tidy st2.
Proof.
  apply (lrun_ind all_tidy (polite (fun _ => True))). intros st0 o ops0 res st3 [P1 P2] T H.
  split; [eapply step_tidy; eauto; intros; by apply P1|by eapply P2].
Qed.

(** ** A transaction that is polite and never waits *)
Definition mine (t : N) (st : lm) : Prop :=
  forall x, of t (q_reqs (the_queue st x)) = [] \/
            exists m, of t (q_reqs (the_queue st x)) = [Req t m true] /\ recorded st t x.

Lemma release_other q t t' q2 : t <> t' -> (forall r, r ∈ q_reqs q -> rq_txn r = t' -> rq_granted r = true) ->
  release q t = Returns q2 -> of t' (q_reqs q2) = of t' (q_reqs q).
Proof.
  intros Hne G. unfold release. destruct (own_granted _ _); [|done].
  destruct (grant_waiters _ [] _) as [l|] eqn:E; [|done]. intros [= <-]. simpl.
  rewrite (grant_waiters_of t' _ _ _ _ E); simpl.
  - by apply remove_own_other.
  - intros r Hr. apply G. eapply sublist_In; [exact Hr|apply remove_own_sub].
Qed.

Lemma of_filter_ne t t' l : t <> t' -> of t' (filter (fun r => rq_txn r <> t) l) = of t' l.
Proof.
  intros Hne. induction l as [|r l IH]; [done|]. rewrite filter_cons. destruct (decide (rq_txn r <> t)) as [E|E].
  - rewrite !of_cons, IH. done.
  - rewrite of_cons, decide_False; [done|]. destruct (decide (rq_txn r = t)); [congruence|tauto].
Qed.

Lemma of_filter_eq t l : of t (filter (fun r => rq_txn r <> t) l) = [].
Proof.
  induction l as [|r l IH]; [done|]. rewrite filter_cons. destruct (decide (rq_txn r <> t)) as [E|E]; [|done].
  rewrite of_cons, decide_False by done. done.
Qed.

Lemma purge_other t t' q q2 : t <> t' -> (forall r, r ∈ q_reqs q -> rq_txn r = t' -> rq_granted r = true) ->
  purge t q = Some q2 -> of t' (q_reqs q2) = of t' (q_reqs q).
Proof.
  intros Hne G. unfold purge. destruct (grant_waiters _ [] _) as [l|] eqn:E; [|done]. intros [= <-]. simpl.
  rewrite (grant_waiters_of t' _ _ _ _ E); simpl.
  - by apply of_filter_ne.
  - intros r Hr. apply G. eapply sublist_In; [exact Hr|apply sublist_filter].
Qed.

Lemma purge_self t q q2 : purge t q = Some q2 -> of t (q_reqs q2) = [].
Proof.
  unfold purge. destruct (grant_waiters _ [] _) as [l|] eqn:E; [|done]. intros [= <-]. simpl.
  rewrite (grant_waiters_of t _ _ _ _ E); simpl; [apply of_filter_eq|].
  intros r Hr Ht. apply elem_of_list_filter in Hr as [Hr _]. done.
Qed.

Lemma mine_granted t st x : mine t st ->
  forall r, r ∈ q_reqs (the_queue st x) -> rq_txn r = t -> rq_granted r = true.
Proof.
  intros M r Hr Ht. assert (I : r ∈ of t (q_reqs (the_queue st x))) by (by apply of_In2).
  destruct (M x) as [E|(m & E & _)]; rewrite E in I; [by apply elem_of_nil in I|].
  apply elem_of_list_singleton in I as ->. done.
Qed.

Lemma recorded_sets st st2 t x : sets st2 !! t = sets st !! t -> recorded st t x -> recorded st2 t x.
Proof. unfold recorded, locks_of. by intros ->. Qed.

Lemma step_mine t st o res st2 : mine t st ->
  (forall m x, lock_request o = Some (t, m, x) -> polite_request st t m x) ->
  (forall m x, lock_request o = Some (t, m, x) -> res <> LOk false) ->
  lstep st o = Some (res, st2) -> mine t st2.
Proof.
  intros M P W H x.
  destruct (lock_request o) as [[[t0 m0] y]|] eqn:L.
  { destruct (lock_queues _ _ _ _ _ _ _ L H) as [(_ & _ & Q & S & _)|(b & -> & B & Q & SF & ST)].
    - rewrite (Q x). destruct (M x) as [E|(m & E & R)]; [by left|right]. exists m. split; [done|].
      eapply recorded_sets; [|exact R]. by rewrite S.
    - destruct (decide (t0 = t)) as [->|Hne].
      + destruct b; [|by exfalso; eapply W]. destruct (ST eq_refl) as [_ S]. clear SF ST.
        assert (REC : forall z, recorded st t z -> recorded st2 t z).
        { intros [z|z]; simpl; unfold locks_of at 2; rewrite S, lookup_insert; simpl.
          - destruct y; simpl; set_solver.
          - intros [p Hp]. exists p. destruct y; simpl; set_solver. }
        rewrite (Q x). destruct (decide (x = y)) as [->|Hxy].
        * right. exists m0. split.
          -- pose proof (grant_polite (the_queue st y) t m0) as G. rewrite <- queue_of_the in G.
             specialize (G (polite_request_q _ _ _ _ (P _ _ eq_refl))).
             destruct (grant_lock (the_queue st y) t m0) as [b q]; simpl in *. subst b. done.
          -- unfold recorded, locks_of. rewrite S, lookup_insert. destruct y; simpl; [set_solver|].
             exists (r.1). set_solver.
        * destruct (M x) as [E|(m & E & R)]; [by left|right]. exists m. auto.
      + rewrite (Q x).
        assert (E2 : of t (q_reqs (if decide (x = y) then (grant_lock (the_queue st y) t0 m0).2 else the_queue st x))
                     = of t (q_reqs (the_queue st x))).
        { destruct (decide (x = y)) as [->|]; [|done]. by apply grant_other. }
        rewrite E2. destruct (M x) as [E|(m & E & R)]; [by left|right]. exists m. split; [done|].
        eapply recorded_sets; [|exact R]. destruct b; [destruct (ST eq_refl) as [_ ->]|destruct (SF eq_refl) as [-> _]; done].
        by rewrite lookup_insert_ne. }
  destruct (unlock_target o) as [[[t0 m0] y]|] eqn:U.
  { destruct (unlock_queues _ _ _ _ _ _ _ U H) as [(_ & Q & S & _)|(_ & q2 & R & Q & S & _)].
    - rewrite (Q x). destruct (M x) as [E|(m & E & R)]; [by left|right]. exists m. split; [done|].
      eapply recorded_sets; [|exact R]. by rewrite S.
    - destruct (decide (t0 = t)) as [->|Hne].
      + rewrite (Q x). destruct (decide (x = y)) as [->|Hxy].
        * left. unfold release in R. destruct (own_granted t _) eqn:O; [|done].
          destruct (grant_waiters _ [] _) as [l|] eqn:G; [|done]. injection R as <-. simpl.
          destruct (M y) as [E|(m2 & E & _)]; [rewrite own_granted_nil in O; done|].
          assert (RO : of t (remove_own t (q_reqs (the_queue st y))) = []) by (by eapply remove_own_single).
          rewrite (grant_waiters_of t _ _ _ _ G); simpl; [done|].
          intros r Hr Ht. exfalso. assert (I : r ∈ of t (remove_own t (q_reqs (the_queue st y)))) by (by apply of_In2).
          rewrite RO in I. by apply elem_of_nil in I.
        * destruct (M x) as [E|(m & E & Rx)]; [by left|right]. exists m. split; [done|].
          unfold recorded, locks_of in *. rewrite S, lookup_alter.
          destruct (sets st !! t) as [[ts rs]|]; simpl in *.
          -- destruct x, y; simpl in *; try done.
             ++ apply elem_of_difference. split; [done|]. intros I. apply elem_of_singleton in I. congruence.
             ++ destruct Rx as [p Rx]. exists p. apply elem_of_difference. split; [done|].
                intros I. apply elem_of_singleton in I. congruence.
          -- done.
      + rewrite (Q x).
        assert (E2 : of t (q_reqs (if decide (x = y) then q2 else the_queue st x)) = of t (q_reqs (the_queue st x))).
        { destruct (decide (x = y)) as [->|]; [|done]. eapply release_other; [done|by apply mine_granted|done]. }
        rewrite E2. destruct (M x) as [E|(m & E & Rx)]; [by left|right]. exists m. split; [done|].
        eapply recorded_sets; [|exact Rx]. by rewrite S, lookup_alter_ne. }
  destruct (finish_request o) as [t0|] eqn:F.
  { destruct (finish_queues _ _ _ _ _ F H) as (Q & S & _). destruct (decide (t0 = t)) as [->|Hne].
    - left. destruct (Q x) as [[_ Pu]|[NR Pu]]; [by eapply purge_self|]. rewrite Pu.
      destruct (M x) as [E|(m & E & R)]; [done|]. by destruct NR.
    - assert (E2 : of t (q_reqs (the_queue st2 x)) = of t (q_reqs (the_queue st x))).
      { destruct (Q x) as [[_ Pu]|[_ Pu]]; [|by rewrite Pu]. eapply purge_other; [done|by apply mine_granted|done]. }
      rewrite E2. destruct (M x) as [E|(m & E & Rx)]; [by left|right]. exists m. split; [done|].
      eapply recorded_sets; [|exact Rx]. by rewrite S, lookup_delete_ne. }
  destruct (other_queues _ _ _ _ L U F H) as [(Q & S & _)|(Q & _)].
  - rewrite (Q x). destruct (M x) as [E|(m & E & R)]; [by left|right]. exists m. split; [done|].
    eapply recorded_sets; [|exact R]. by rewrite S.
  - left. by rewrite (Q x).
Qed.

Lemma init_mine t : mine t lm_init.
Proof. intros [x|x]; left; simpl; by rewrite lookup_empty. Qed.

Lemma run_mine t ops st rs st2 : polite (fun u => u = t) st ops -> never_waits t st ops -> mine t st ->
  lrun st ops = Some (rs, st2) -> mine t st2.
Proof.
  intros P W. apply (lrun_ind (mine t) (fun st ops => polite (fun u => u = t) st ops /\ never_waits t st ops)); [|done].
  intros st0 o ops0 res st3 [[P1 P2] [W1 W2]] M H. split.
  - eapply (step_mine t st0 o res st3); [done| | |done].
    + intros m x L. by eapply P1.
    + intros m x L ->. by eapply W1.
  - split; [by eapply P2|by eapply W2].
Qed.

Lemma mine_absent t st : (forall x, of t (q_reqs (the_queue st x)) = []) -> forall x, absent st t x.
Proof.
  intros H x m. unfold holds, waits_on. rewrite queue_of_the. specialize (H x). apply of_nil_txn in H.
  split; intros I; apply H; apply elem_of_list_fmap; eexists; (split; [|exact I]); done.
Qed.

Lemma finish_mine t st o res st2 : mine t st -> finish_request o = Some t -> lstep st o = Some (res, st2) ->
  forall x, absent st2 t x.
Proof.
  intros M F H. apply mine_absent. intros x. destruct (finish_queues _ _ _ _ _ F H) as (Q & _).
  destruct (Q x) as [[_ Pu]|[NR Pu]]; [by eapply purge_self|]. rewrite Pu.
  destruct (M x) as [E|(m & E & R)]; [done|]. by destruct NR.
Qed.

(** ** Nobody loses a lock through somebody else *)
Lemma step_keeps t st o res st2 m x : op_txn o <> Some t -> o <> OUnlockAll ->
  lstep st o = Some (res, st2) -> holds st t x m -> holds st2 t x m.
Proof.
  intros Ho Hall H Hh. unfold holds in *. rewrite queue_of_the in *.
  assert (OT : forall u, op_txn o = Some u -> u <> t) by (intros u E ->; done).
  destruct (step_qchange _ _ _ _ x H) as [E|u m0 L E|u m0 U R|u F R|E _]; [by rewrite E| | | |done].
  - assert (u <> t) as Hu by (apply OT; unfold op_txn; by rewrite L).
    apply (of_In (Req t m true)). simpl. rewrite E, grant_other by done. by apply (of_In (Req t m true)).
  - assert (u <> t) as Hu.
    { apply OT. unfold op_txn. rewrite U. destruct o; done. }
    unfold release in R. destruct (own_granted u _); [|done]. destruct (grant_waiters _ [] _) as [l|] eqn:G; [|done].
    injection R as R. rewrite <- R. simpl. eapply grant_waiters_keeps; [exact G|done|]. simpl.
    apply (of_In (Req t m true)). simpl. rewrite remove_own_other by done. by apply (of_In (Req t m true)).
  - assert (u <> t) as Hu.
    { apply OT. unfold op_txn. rewrite F. destruct o; done. }
    unfold purge in R. destruct (grant_waiters _ [] _) as [l|] eqn:G; [|done].
    injection R as R. rewrite <- R. simpl. eapply grant_waiters_keeps; [exact G|done|]. simpl.
    apply elem_of_list_filter. simpl. done.
Qed.
