(** * Committing and sessions: the properties

    C53: what a commit reports is what happened.
    C67: a client's statements between BEGIN and COMMIT or ROLLBACK are one transaction. *)
From stdpp Require Import gmap list.
From Coq Require Import NArith Lia.
From Verif Require Import WatermarkModel MvccModel MvccSpec MvccProofs SessSpec SessModel SessProofs.
Local Open Scope N_scope.

Definition reachable (d : db) : Prop := exists qs rs, drun db_init qs = (rs, d).

Lemma reach_dinv d : reachable d -> dinv d.
Proof. intros (qs & rs & E). by eapply reachable_dinv. Qed.

(** Every row of [ws] can be stamped and every page of it can be flushed. *)
Definition good_env (e : env) (ws : gset rid) : Prop :=
  e_bad e ## ws /\ pages_of ws ⊆ e_pool e /\ pages_of ws ## e_wfail e.

Lemma flushes_ok_spec e ws : flushes_ok e ws = true <-> pages_of ws ⊆ e_pool e /\ pages_of ws ## e_wfail e.
Proof.
  unfold flushes_ok, pages_of. set (l := map fst (elements ws)). clearbody l. rewrite forallb_forall. unfold flush_ok. split.
  - intros H. split.
    + intros p Hp. apply elem_of_list_to_set, elem_of_list_In in Hp. specialize (H p Hp). apply andb_true_iff in H as [H _].
      by apply bool_decide_eq_true in H.
    + intros p Hp Hf. apply elem_of_list_to_set, elem_of_list_In in Hp. specialize (H p Hp). apply andb_true_iff in H as [_ H].
      rewrite bool_decide_eq_true_2 in H by done. done.
  - intros [H1 H2] p Hp. assert (Hin : p ∈ (list_to_set l : gset N)) by (by apply elem_of_list_to_set, elem_of_list_In).
    rewrite bool_decide_eq_true_2 by (by apply H1). rewrite bool_decide_eq_false_2; [done|]. intros Hf. by apply (H2 p).
Qed.

(** ** C53 *)

(** If every row can be stamped and every page flushed, a commit answers true exactly when the
    transaction is committed afterwards; when it answers false the transaction had been rolled
    back before and no row changes; the transaction's locks are gone; and after a true answer
    for a running transaction whoever begins next reads, of every row it wrote, what it read
    itself. *)
Theorem commit_reports_partial d t e r d' x :
  reachable d -> obj d t = Some x -> good_env e (x_ws x) -> f_commit t e d = (r, d') ->
  (r = true <-> exists x', obj d' t = Some x' /\ x_state x' = Committed) /\
  (r = false -> x_state x = Aborted /\ mvs d' = mvs d) /\
  t ∉ d_locks d' /\
  (r = true -> WCommit t ∈ d_log d') /\
  (x_state x = Running -> wm_next (wk (mvs d)) + 3 < 2 ^ 64 ->
     forall i rd, rd ∈ x_ws x -> written_by (mvs d) t rd -> next_reads (mvs d') i rd = read (mvs d) t rd).
Proof.
  intros Hr Ho (G1 & G2 & G3) Hf. apply reach_dinv in Hr. unfold f_commit in Hf.
  assert (Ho1 : obj (add_log (WCommit t) d) t = Some x) by exact Ho.
  destruct (running (mvs d) t) as [y|] eqn:E.
  - assert (y = x) as -> by (unfold obj in Ho; rewrite E in Ho; congruence).
    destruct (tm_commit_running t (e_bad e) (add_log (WCommit t) d) x E) as (d1 & E1 & H1 & H2 & H3 & H4 & H5 & H6 & H7 & H8 & H9).
    rewrite E1 in Hf. cbn [add_log mvs] in *.
    assert (Hw : ws_of d1 t = x_ws x) by (unfold ws_of, obj; by rewrite H2, H1). rewrite Hw in Hf.
    assert (Fl : flushes_ok e (x_ws x) = true) by (by apply flushes_ok_spec). rewrite Fl in Hf. injection Hf as <- <-.
    split; [split; [|done]; intros _; eexists; split; [unfold obj; cbn; rewrite H2; exact H1|done]|].
    split; [done|]. split; [cbn; set_solver|]. split; [intros _; cbn; rewrite H6; cbn; set_solver|].
    intros Hs Hb i rd Hrd (m & v & Hp & Hc). destruct (running_some _ _ _ E) as [Hx _].
    rewrite (read_own _ t x rd m v Hx Hp Hc). cbn [release set_locks mvs].
    assert (Hp' : pg (mvs d1) !! rd = Some (Meta (m_creator m) (Some (wm_next (wk (mvs d)))) (m_del m) (m_idx m), v)).
    { rewrite H9, decide_True, Hp by set_solver. cbn. by rewrite Hc, N.eqb_refl. }
    rewrite (next_reads_committed _ i rd _ _ _ Hp' eq_refl); [done|]. specialize (H8 Hb). lia.
  - assert (Hold : d_old d !! t = Some x) by (unfold obj in Ho; rewrite E in Ho; done).
    pose proof (v_old _ Hr t x Hold) as Hn. unfold tm_commit in Hf. rewrite Ho1 in Hf.
    destruct (x_state x) eqn:Es; [done| |].
    + assert (Hw : ws_of (add_log (WCommit t) d) t = x_ws x) by (unfold ws_of; by rewrite Ho1). rewrite Hw in Hf.
      assert (Fl : flushes_ok e (x_ws x) = true) by (by apply flushes_ok_spec). rewrite Fl in Hf. injection Hf as <- <-.
      split; [split; [|done]; intros _; exists x; split; [exact Ho1|done]|]. split; [done|]. split; [cbn; set_solver|].
      split; [intros _; cbn; set_solver|]. done.
    + injection Hf as <- <-. split; [split; [done|]; intros (x' & H1 & H2); assert (x' = x) by (cbn in H1; unfold obj in *; cbn in H1; congruence); congruence|].
      split; [done|]. split; [cbn; set_solver|]. split; done.
Qed.
Print Assumptions commit_reports_partial.

Definition r0 : rid := (0, 0).
Definition r1 : rid := (0, 1).
Definition r2 : rid := (1, 0).
Definition env0 : env := Env ∅ {[0; 1]} ∅ false.
Definition dfin (qs : list req) : db := (drun db_init qs).2.
Definition dres (qs : list req) : list resp := (drun db_init qs).1.

Lemma dfin_reach qs : reachable (dfin qs).
Proof. exists qs, (dres qs). apply surjective_pairing. Qed.

(** Client 7's transaction 1 inserts a row, deletes another and is about to commit. *)
Definition before_commit : list req :=
  [QOpen 7; QSql LRC (SWork [Ins r0 10] true) env0; QBegin 7 LSnap; QQuery 7 (SWork [Ins r2 20; Del r0] true) env0].

Example commit_reports_ex :
  reachable (dfin before_commit) /\
  (exists x, obj (dfin before_commit) 1 = Some x /\ x_state x = Running /\ good_env env0 (x_ws x) /\
             r0 ∈ x_ws x /\ r2 ∈ x_ws x) /\
  written_by (mvs (dfin before_commit)) 1 r0 /\ written_by (mvs (dfin before_commit)) 1 r2 /\
  wm_next (wk (mvs (dfin before_commit))) + 3 < 2 ^ 64 /\
  read (mvs (dfin before_commit)) 1 r2 = Some 20 /\ read (mvs (dfin before_commit)) 1 r0 = None /\
  next_reads (mvs (dfin before_commit)) LSnap r2 = None /\ next_reads (mvs (dfin before_commit)) LSnap r0 = Some 10.
Proof.
  split; [apply dfin_reach|]. split.
  - eexists. split; [vm_compute; reflexivity|]. split; [reflexivity|]. split; [|split; apply (bool_decide_unpack _); vm_compute; exact I].
    split; [|split]; apply (bool_decide_unpack _); vm_compute; exact I.
  - split; [do 2 eexists; split; vm_compute; reflexivity|]. split; [do 2 eexists; split; vm_compute; reflexivity|].
    repeat split; vm_compute; reflexivity.
Qed.

(** A flush that fails turns the answer into false; but the transaction is committed, every row
    is as after a commit that answered true, and the rollback that the caller then asks for
    changes nothing any more.  The client is told that its commit failed, and the rows are there. *)
Theorem commit_flush_failure_refuted d t e x :
  reachable d -> running (mvs d) t = Some x -> ~ (pages_of (x_ws x) ⊆ e_pool e /\ pages_of (x_ws x) ## e_wfail e) ->
  exists d' x', f_commit t e d = (false, d') /\ obj d' t = Some x' /\ x_state x' = Committed /\
    WCommit t ∈ d_log d' /\
    mvs (f_abort t d') = mvs d' /\
    (forall e2, e_bad e2 = e_bad e -> mvs (f_commit t e2 d).2 = mvs d').
Proof.
  intros Hr E Hf. unfold f_commit at 1.
  destruct (tm_commit_running t (e_bad e) (add_log (WCommit t) d) x E) as (d1 & E1 & H1 & H2 & H3 & H4 & H5 & H6 & H7 & H8 & H9).
  rewrite E1. assert (Hw : ws_of d1 t = x_ws x) by (unfold ws_of, obj; by rewrite H2, H1). rewrite Hw.
  assert (Fl : flushes_ok e (x_ws x) = false).
  { destruct (flushes_ok e (x_ws x)) eqn:F; [|done]. by apply flushes_ok_spec in F. }
  rewrite Fl. eexists. eexists. split; [reflexivity|]. cbn [release set_locks].
  split; [unfold obj; cbn; rewrite H2; exact H1|]. split; [done|]. split; [cbn; rewrite H6; cbn; set_solver|]. split.
  - unfold f_abort, tm_abort. cbn [release set_locks mvs add_log]. unfold obj. cbn. by rewrite H2, H1.
  - intros e2 He. unfold f_commit. rewrite He, E1. done.
Qed.
Print Assumptions commit_flush_failure_refuted.

(** This needs no failing disk: a transaction that wrote rows on more pages than the buffer pool
    has frames can never be reported as committed, because a page is flushed only if it is still
    in the pool. *)
Theorem commit_big_transaction_refuted d t e x frames :
  reachable d -> running (mvs d) t = Some x -> (size (e_pool e) <= frames)%nat -> (frames < size (pages_of (x_ws x)))%nat ->
  exists d' x', f_commit t e d = (false, d') /\ obj d' t = Some x' /\ x_state x' = Committed.
Proof.
  intros Hr E Hs Hb. destruct (commit_flush_failure_refuted d t e x Hr E) as (d' & x' & H1 & H2 & H3 & _).
  - intros [H _]. apply subseteq_size in H. lia.
  - eauto.
Qed.
Print Assumptions commit_big_transaction_refuted.

Definition env_small : env := Env ∅ {[1]} ∅ false.

(** Seen by the client: the commit fails, and the next transaction of anybody reads the row. *)
Example commit_flush_failure_ex :
  (exists x, running (mvs (dfin before_commit)) 1 = Some x /\ ~ (pages_of (x_ws x) ⊆ e_pool env_small /\ pages_of (x_ws x) ## e_wfail env_small) /\
     (size (e_pool env_small) <= 1)%nat /\ (1 < size (pages_of (x_ws x)))%nat) /\
  dres (before_commit ++ [QCommit 7 env_small; QSql LSnap (SSelect [r0; r2]) env0]) =
    [POk []; POk []; POk []; POk []; PFail; POk [None; Some 20]] /\
  dres [QSql LRC (SWork [Ins r0 10; Ins r2 20] true) env_small; QSql LSnap (SSelect [r0; r2]) env0] =
    [PFail; POk [Some 10; Some 20]].
Proof.
  split; [|split; vm_compute; reflexivity]. eexists. split; [vm_compute; reflexivity|]. split; [|split; vm_compute; lia].
  apply (bool_decide_unpack _). vm_compute. exact I.
Qed.

(** A row that cannot be stamped (its page cannot be fetched, its table is not registered) does
    not keep the commit from answering true; but nobody who begins afterwards reads the row. *)
Theorem commit_unstamped_refuted d t e x rd m y :
  reachable d -> running (mvs d) t = Some x -> pages_of (x_ws x) ⊆ e_pool e -> pages_of (x_ws x) ## e_wfail e ->
  rd ∈ e_bad e -> pg (mvs d) !! rd = Some (m, y) -> m_creator m = t -> m_ts m = None -> lk (mvs d) !! rd = None ->
  exists d', f_commit t e d = (true, d') /\
    forall i, i <> LRU -> next_reads (mvs d') i rd = None.
Proof.
  intros Hr E G2 G3 Hb Hp Hc Ht Hl. apply reach_dinv in Hr. unfold f_commit.
  destruct (tm_commit_running t (e_bad e) (add_log (WCommit t) d) x E) as (d1 & E1 & H1 & H2 & H3 & H4 & H5 & H6 & H7 & H8 & H9).
  rewrite E1. assert (Hw : ws_of d1 t = x_ws x) by (unfold ws_of, obj; by rewrite H2, H1). rewrite Hw.
  assert (Fl : flushes_ok e (x_ws x) = true) by (by apply flushes_ok_spec). rewrite Fl.
  eexists. split; [reflexivity|]. intros i Hi. cbn [release set_locks mvs].
  destruct (running_some _ _ _ E) as [Hx _]. pose proof (proj1 (v_mok _ Hr) t x Hx) as Hlt.
  eapply next_reads_uncommitted; [|exact Hc|exact Ht| | |done].
  - rewrite H9, decide_False by set_solver. exact Hp.
  - rewrite H4. exact Hl.
  - rewrite H3. exact Hlt.
Qed.
Print Assumptions commit_unstamped_refuted.

Definition env_bad : env := Env {[r2]} {[0; 1]} ∅ false.
Example commit_unstamped_ex :
  (exists x m y, running (mvs (dfin before_commit)) 1 = Some x /\ pages_of (x_ws x) ⊆ e_pool env_bad /\ pages_of (x_ws x) ## e_wfail env_bad /\
     r2 ∈ e_bad env_bad /\ r2 ∈ x_ws x /\ pg (mvs (dfin before_commit)) !! r2 = Some (m, y) /\ m_creator m = 1 /\ m_ts m = None /\
     lk (mvs (dfin before_commit)) !! r2 = None) /\
  dres (before_commit ++ [QCommit 7 env_bad; QSql LSnap (SSelect [r0; r2]) env0]) =
    [POk []; POk []; POk []; POk []; POk []; POk [None; None]].
Proof.
  split; [|vm_compute; reflexivity]. do 3 eexists. split; [vm_compute; reflexivity|].
  split; [apply (bool_decide_unpack _); vm_compute; exact I|]. split; [apply (bool_decide_unpack _); vm_compute; exact I|].
  split; [apply (bool_decide_unpack _); vm_compute; exact I|]. split; [apply (bool_decide_unpack _); vm_compute; exact I|].
  split; [vm_compute; reflexivity|]. repeat split.
Qed.

(** A commit of a transaction that has been rolled back answers false; but its commit record is
    in the log, after its abort record. *)
Theorem commit_after_abort_refuted d t e x :
  reachable d -> obj d t = Some x -> x_state x = Aborted ->
  exists d', f_commit t e d = (false, d') /\ mvs d' = mvs d /\ d_log d' = d_log d ++ [WCommit t].
Proof.
  intros Hr Ho Hs. unfold f_commit, tm_commit.
  assert (Ho1 : obj (add_log (WCommit t) d) t = Some x) by exact Ho. rewrite Ho1, Hs. eexists. split; [reflexivity|]. done.
Qed.
Print Assumptions commit_after_abort_refuted.

(** The client rolls back in SQL and then commits through the protocol. *)
Example commit_after_abort_ex :
  let qs := before_commit ++ [QQuery 7 (SRollback false) env0] in
  (exists x, obj (dfin qs) 1 = Some x /\ x_state x = Aborted) /\
  dres (qs ++ [QCommit 7 env0]) = [POk []; POk []; POk []; POk []; POk []; PFail] /\
  d_log (dfin (qs ++ [QCommit 7 env0])) = [WBegin 0; WCommit 0; WBegin 1; WAbort 1; WCommit 1].
Proof.
  cbn zeta. split; [eexists; split; vm_compute; reflexivity|]. split; vm_compute; reflexivity.
Qed.

(** ** C67 *)

(** Requests that leave client [c]'s transaction [t] open: [c] itself only runs queries and row
    changes, and nobody ends a transaction by its number. *)
Definition keeps_open (c t : N) (q : req) : Prop :=
  match q with
  | QOpen c' | QClose c' | QCommit c' _ | QRollback c' => c' <> c
  | QQuery c' s _ | QPrepare c' s _ =>
      c' = c -> match s with SWork _ _ | SSelect _ => True | _ => False end
  | QCommitId u _ | QAbortId u => u <> t
  | QBegin _ _ | QSql _ _ _ => True
  end.

Lemma engine_work t s e d x : match s with SWork _ _ | SSelect _ => True | _ => False end ->
  running (mvs d) t = Some x ->
  exists x', running (mvs (engine t s e d).2) t = Some x' /\ x_level x' = x_level x /\ x_ws x ⊆ x_ws x' /\
    ((engine t s e d).1.1 <> None -> match s with SWork ops _ => forall o, o ∈ ops -> op_rid o ∈ x_ws x' | _ => True end).
Proof.
  intros Hs E. destruct s as [ops aff|rds| | |]; [| |done|done|done]; cbn [engine].
  - destruct (row_ops t ops d) as [b d1] eqn:E1. pose proof (row_ops_grows _ _ _ _ _ E1) as G. unfold grows in G. rewrite E in G.
    destruct G as (x' & R & L & W). exists x'. destruct b; cbn [snd fst].
    + split; [done|]. split; [done|]. split; [set_solver|]. intros _ o Ho. apply W, elem_of_union. right.
      apply elem_of_list_to_set. apply elem_of_list_fmap. eauto.
    + split; [done|]. split; [done|]. split; [set_solver|]. done.
  - exists x. cbn. repeat split; done.
Qed.

Lemma keeps_step q d r d' c t ss x :
  dinv d -> d_sess d !! c = Some ss -> s_cur ss = Some t -> running (mvs d) t = Some x -> keeps_open c t q ->
  dstep q d = (r, d') ->
  d_sess d' !! c = Some ss /\
  exists x', running (mvs d') t = Some x' /\ x_level x' = x_level x /\ x_ws x ⊆ x_ws x'.
Proof.
  intros V Hc Ht E Hk Hq.
  assert (Hlt : t < nid (mvs d)) by (eapply v_sess; eauto).
  assert (Oth : target d q <> Some t -> exists x', running (mvs d') t = Some x' /\ x_level x' = x_level x /\ x_ws x ⊆ x_ws x').
  { intros Hn. destruct (dstep_other q d r d' t V Hq Hlt Hn) as [R _]. exists x. rewrite R. done. }
  assert (Uq : forall c', c' <> c -> cur d c' <> Some t).
  { intros c' Hne Hx. unfold cur in Hx. destruct (d_sess d !! c') as [s'|] eqn:E'; [|done]. apply Hne. eapply (v_uniq _ V); eauto. }
  assert (Wk : forall s e, match s with SWork _ _ | SSelect _ => True | _ => False end ->
     d_sess (engine t s e d).2 !! c = Some ss /\
     exists x', running (mvs (engine t s e d).2) t = Some x' /\ x_level x' = x_level x /\ x_ws x ⊆ x_ws x').
  { intros s e Hs. split; [by rewrite (k_sess _ _ _ (step_engine t s e d))|].
    destruct (engine_work t s e d x Hs E) as (x' & W1 & W2 & W3 & _). eauto. }
  destruct q as [c'|c'|c' s e|c' s e|c' i|c' e|c'|i s e|u e|u]; cbn [keeps_open target dstep] in *.
  - injection Hq as <- <-. split; [cbn; by rewrite lookup_insert_ne|]. apply Oth. done.
  - split; [|apply Oth, Uq; done]. destruct (d_sess d !! c') as [s'|] eqn:E'; [|by injection Hq as <- <-].
    injection Hq as <- <-. destruct (s_cur s') as [u|].
    + rewrite (k_sess _ _ _ (step_f_abort u _)). cbn. by rewrite lookup_delete_ne.
    + cbn. by rewrite lookup_delete_ne.
  - destruct (decide (c' = c)) as [->|Hne].
    + rewrite Hc in Hq. unfold net_query in Hq. rewrite Ht in Hq. specialize (Hk eq_refl). specialize (Wk s e Hk).
      destruct (engine t s e d) as [[[b|] rows] d1]; injection Hq as <- <-; exact Wk.
    + split; [|apply Oth, Uq; done]. destruct (d_sess d !! c') as [s'|] eqn:E'; [|by injection Hq as <- <-].
      pose proof (k_sess _ _ _ (step_net_query s' s e d)) as K. rewrite Hq in K. cbn in K. by rewrite K.
  - destruct (decide (c' = c)) as [->|Hne].
    + rewrite Hc in Hq. unfold sql_query in Hq. rewrite Ht in Hq. specialize (Hk eq_refl). specialize (Wk s e Hk).
      destruct (engine t s e d) as [[[[]|] rows] d1]; injection Hq as <- <-; exact Wk.
    + split; [|apply Oth, Uq; done]. destruct (d_sess d !! c') as [s'|] eqn:E'; [|by injection Hq as <- <-].
      pose proof (k_sess _ _ _ (step_sql_query s' s e d)) as K. rewrite Hq in K. cbn in K. by rewrite K.
  - split; [|apply Oth; done]. destruct (decide (c' = c)) as [->|Hne].
    + rewrite Hc, Ht in Hq. by injection Hq as <- <-.
    + destruct (d_sess d !! c') as [s'|] eqn:E'; [|by injection Hq as <- <-].
      destruct (s_cur s'); [by injection Hq as <- <-|]. rewrite (f_begin_id i d) in Hq. injection Hq as <- <-.
      cbn. by rewrite lookup_insert_ne.
  - split; [|apply Oth, Uq; done]. destruct (d_sess d !! c') as [s'|] eqn:E'; [|by injection Hq as <- <-].
    destruct (s_cur s') as [u|]; [|by injection Hq as <- <-].
    pose proof (k_sess _ _ _ (step_f_commit u e (take_txn c' s' d))) as K.
    destruct (f_commit u e (take_txn c' s' d)) as [[] d1]; injection Hq as <- <-; cbn in K; rewrite K; by rewrite lookup_insert_ne.
  - split; [|apply Oth, Uq; done]. destruct (d_sess d !! c') as [s'|] eqn:E'; [|by injection Hq as <- <-].
    destruct (s_cur s') as [u|]; [|by injection Hq as <- <-]. injection Hq as <- <-.
    rewrite (k_sess _ _ _ (step_f_abort u _)). cbn. by rewrite lookup_insert_ne.
  - split; [|apply Oth; done]. pose proof (k_sess _ _ _ (step_execute_sql i s e d)) as K. rewrite Hq in K. cbn in K. by rewrite K.
  - split; [|apply Oth; congruence]. destruct (tx (mvs d) !! u); [|by injection Hq as <- <-].
    pose proof (k_sess _ _ _ (step_tm_commit u (e_bad e) d)) as K.
    destruct (tm_commit u (e_bad e) d) as [[] d1]; injection Hq as <- <-; cbn in K; by rewrite K.
  - split; [|apply Oth; congruence]. destruct (tx (mvs d) !! u); injection Hq as <- <-; [|done].
    by rewrite (k_sess _ _ _ (step_tm_abort u d)).
Qed.

(** Between the protocol's begin request and its commit, rollback or disconnect, a client's
    session stays in the one transaction it began, which stays running and keeps every row the
    client has written, whatever the other clients do. *)
Theorem session_one_transaction_partial qs d rs d' c t ss x :
  reachable d -> d_sess d !! c = Some ss -> s_cur ss = Some t -> running (mvs d) t = Some x ->
  Forall (keeps_open c t) qs -> drun d qs = (rs, d') ->
  d_sess d' !! c = Some ss /\
  exists x', running (mvs d') t = Some x' /\ x_level x' = x_level x /\ x_ws x ⊆ x_ws x'.
Proof.
  intros Hr Hc Ht. apply reach_dinv in Hr. revert d rs x Hr Hc.
  induction qs as [|q qs IH]; intros d rs x V Hc E Hk; cbn [drun].
  - intros [= _ <-]. split; [done|]. eauto.
  - destruct (dstep q d) as [r1 d1] eqn:E1. destruct (drun d1 qs) as [rs2 d2] eqn:E2. intros [= _ <-].
    apply Forall_cons in Hk as [Hk1 Hk2].
    destruct (keeps_step q d r1 d1 c t ss x V Hc Ht E Hk1 E1) as (K1 & x1 & K2 & K3 & K4).
    destruct (IH d1 rs2 x1 (q_inv _ _ _ (dstep_ok q d r1 d1 V E1)) K1 K2 Hk2 E2) as (L1 & x2 & L2 & L3 & L4).
    split; [done|]. exists x2. split; [done|]. split; [congruence|]. set_solver.
Qed.
Print Assumptions session_one_transaction_partial.

(** A statement the client is told succeeded has put all its rows into that transaction. *)
Theorem session_statement_partial d c t ss x ops aff e rows d' :
  reachable d -> d_sess d !! c = Some ss -> s_cur ss = Some t -> running (mvs d) t = Some x ->
  dstep (QQuery c (SWork ops aff) e) d = (POk rows, d') ->
  exists x', running (mvs d') t = Some x' /\ x_ws x ⊆ x_ws x' /\ (forall o, o ∈ ops -> op_rid o ∈ x_ws x').
Proof.
  intros Hr Hc Ht E. cbn [dstep]. rewrite Hc. unfold net_query. rewrite Ht.
  destruct (engine_work t (SWork ops aff) e d x I E) as (x' & W1 & W2 & W3 & W4).
  destruct (engine t (SWork ops aff) e d) as [[[b|] rows1] d1] eqn:Ee; intros [= _ <-]. cbn [snd fst] in *.
  exists x'. split; [done|]. split; [done|]. apply W4. done.
Qed.
Print Assumptions session_statement_partial.

(** Rolling back, or disconnecting, ends the transaction, releases its locks, and nobody who
    begins afterwards reads a row it inserted. *)
Theorem session_rollback_partial d c t ss x q r d' :
  reachable d -> d_sess d !! c = Some ss -> s_cur ss = Some t -> running (mvs d) t = Some x ->
  q = QRollback c \/ q = QClose c -> dstep q d = (r, d') ->
  r = POk [] /\ cur d' c = None /\ t ∉ d_locks d' /\
  (exists x', obj d' t = Some x' /\ x_state x' = Aborted) /\
  forall i rd, rd ∈ x_ws x -> lk (mvs d) !! rd = None -> is_Some (pg (mvs d) !! rd) -> next_reads (mvs d') i rd = None.
Proof.
  intros Hr Hc Ht E Hq Hd.
  assert (Hx : exists d0, r = POk [] /\ d' = f_abort t d0 /\ mvs d0 = mvs d /\ cur d0 c = None).
  { destruct Hq as [-> | ->]; cbn [dstep] in Hd; rewrite Hc, Ht in Hd; injection Hd as <- <-; eexists; (split; [done|]); (split; [reflexivity|]); (split; [done|]);
      unfold cur; cbn; [by rewrite lookup_insert|by rewrite lookup_delete]. }
  destruct Hx as (d0 & -> & -> & M & Cu). split; [done|].
  assert (E0 : running (mvs (add_log (WAbort t) d0)) t = Some x) by (cbn; by rewrite M).
  destruct (tm_abort_running t (add_log (WAbort t) d0) x E0) as (A1 & A2 & (x' & A3 & A4) & A5 & A6). cbn [add_log mvs] in *.
  split; [unfold cur in *; by rewrite (k_sess _ _ _ (step_f_abort t d0))|]. split; [cbn; set_solver|].
  split; [exists x'; split; [unfold obj; cbn; by rewrite A1|done]|].
  intros i rd H1 H2 [p H3]. rewrite <- M in H2, H3. destruct (A6 rd p H1 H2 H3) as [P1 P2].
  eapply next_reads_unborn; [exact P1|exact P2].
Qed.
Print Assumptions session_rollback_partial.

Definition in_session : list req := [QOpen 7; QOpen 8; QBegin 7 LRC; QQuery 7 (SWork [Ins r0 10; Ins r2 20] true) env0].
Example session_rollback_ex :
  (exists ss x, d_sess (dfin in_session) !! 7 = Some ss /\ s_cur ss = Some 0 /\ running (mvs (dfin in_session)) 0 = Some x /\
     r0 ∈ x_ws x /\ lk (mvs (dfin in_session)) !! r0 = None /\ is_Some (pg (mvs (dfin in_session)) !! r0)) /\
  Forall (keeps_open 7 0) [QQuery 7 (SWork [Upd r0 11] true) env0; QQuery 8 (SWork [Ins r1 5] true) env0; QBegin 8 LSer; QClose 8] /\
  dres (in_session ++ [QRollback 7; QQuery 8 (SSelect [r0; r2]) env0]) =
    [POk []; POk []; POk []; POk []; POk []; POk [None; None]].
Proof.
  split; [|split; [|vm_compute; reflexivity]].
  - do 2 eexists. split; [vm_compute; reflexivity|]. split; [reflexivity|]. split; [vm_compute; reflexivity|].
    split; [apply (bool_decide_unpack _); vm_compute; exact I|]. split; [vm_compute; reflexivity|]. eexists. vm_compute. reflexivity.
  - repeat constructor; cbn; intros; lia.
Qed.

(** Every row can be stamped, and the page of [rd] flushed. *)
Definition calm_env (e : env) (rd : rid) : Prop := e_bad e = ∅ /\ rd.1 ∈ e_pool e /\ rd.1 ∉ e_wfail e.

Lemma calm_flush e rd : calm_env e rd -> flushes_ok e {[rd]} = true.
Proof.
  intros (H1 & H2 & H3). apply flushes_ok_spec. unfold pages_of. rewrite elements_singleton. cbn. split; set_solver.
Qed.

(** BEGIN, INSERT and ROLLBACK given to execute_sql are all answered with success; but the row
    stays, and everybody who begins afterwards reads it. *)
Theorem session_sql_begin_refuted d i j rd y e1 e2 e3 :
  reachable d -> pg (mvs d) !! rd = None -> calm_env e2 rd -> wm_next (wk (mvs d)) + 20 < 2 ^ 64 ->
  exists d', drun d [QSql j (SBegin i) e1; QSql j (SWork [Ins rd y] true) e2; QSql j (SRollback false) e3]
               = ([POk []; POk []; POk []], d') /\
             forall k, next_reads (mvs d') k rd = Some y.
Proof.
  intros Hr Hp He Hb. cbn [drun dstep].
  destruct (sql_begin j i e1 d ltac:(lia)) as (d1 & E1 & _ & W1 & P1 & _). rewrite E1.
  destruct (sql_insert j rd y e2 d1 ltac:(lia) ltac:(by rewrite P1) (proj1 He) (calm_flush _ _ He)) as (d2 & E2 & W2 & (c & P2 & C2) & _). rewrite E2.
  destruct (sql_rollback j e3 d2 ltac:(lia)) as (d3 & E3 & W3 & P3 & _). rewrite E3.
  exists d3. split; [done|]. intros k. rewrite <- (P3 rd) in P2.
  rewrite (next_reads_committed _ k rd _ _ c P2); [done|done|lia].
Qed.
Print Assumptions session_sql_begin_refuted.

Example session_sql_begin_ex :
  pg (mvs (dfin before_commit)) !! r1 = None /\ calm_env env0 r1 /\ wm_next (wk (mvs (dfin before_commit))) + 20 < 2 ^ 64 /\
  dres [QSql LRC (SBegin LSnap) env0; QSql LRC (SWork [Ins r1 5] true) env0; QSql LRC (SRollback false) env0; QSql LSnap (SSelect [r1]) env0]
    = [POk []; POk []; POk []; POk [Some 5]].
Proof.
  split; [vm_compute; reflexivity|]. split; [|split; vm_compute; reflexivity].
  split; [reflexivity|]. split; apply (bool_decide_unpack _); vm_compute; exact I.
Qed.

(** The transaction that BEGIN started belongs to nobody: whatever requests follow, unless
    somebody ends it by its number, it is running for ever. *)
Theorem session_sql_begin_leaks_refuted d i j e d1 qs rs d2 :
  reachable d -> wm_next (wk (mvs d)) + 6 < 2 ^ 64 ->
  dstep (QSql j (SBegin i) e) d = (POk [], d1) -> drun d1 qs = (rs, d2) ->
  (forall e', QCommitId (nid (mvs d) + 1) e' ∉ qs) -> QAbortId (nid (mvs d) + 1) ∉ qs ->
  is_Some (running (mvs d2) (nid (mvs d) + 1)).
Proof.
  intros Hr Hb E1 E2 H1 H2. apply reach_dinv in Hr. pose proof (q_inv _ _ _ (dstep_ok _ _ _ _ Hr E1)) as V1.
  cbn [dstep] in E1. destruct (sql_begin j i e d Hb) as (d' & Ed & N1 & _ & _ & R1 & S1).
  assert (d1 = d') as -> by congruence. clear E1 Ed. set (n := nid (mvs d) + 1) in *.
  assert (Hlt : n < nid (mvs d')) by lia.
  assert (Hc : forall c, cur d' c <> Some n).
  { intros c. unfold cur. rewrite S1. destruct (d_sess d !! c) as [ss|] eqn:Ec; [|done]. intros Hx.
    pose proof (v_sess _ Hr c ss n Ec Hx). lia. }
  clearbody n. clear Hb Hr N1 S1 d. revert d' rs V1 R1 Hlt Hc E2.
  induction qs as [|q qs IH]; intros d rs V1 R1 Hlt Hc; cbn [drun]; [by intros [= _ <-]|].
  destruct (dstep q d) as [r9 d9] eqn:E9. destruct (drun d9 qs) as [rs2 d3] eqn:E3. intros [= _ <-].
  assert (Ht : target d q <> Some n).
  { destruct q as [c|c|c s e9|c s e9|c i9|c e9|c|i9 s e9|u e9|u]; cbn; try done.
    - intros [= ->]. apply (H1 e9). by left.
    - intros [= ->]. apply H2. by left. }
  destruct (dstep_other q d r9 d9 n V1 E9 Hlt Ht) as [R9 L9].
  eapply IH; [| |exact (q_inv _ _ _ (dstep_ok q d r9 d9 V1 E9))|by rewrite R9|exact L9| |exact E3].
  - intros e' Hin. apply (H1 e'). by right.
  - intros Hin. apply H2. by right.
  - intros c Hx. apply (Hc c). by eapply dstep_cur.
Qed.
Print Assumptions session_sql_begin_leaks_refuted.

Example session_sql_begin_leaks_ex :
  (dstep (QSql LRC (SBegin LSnap) env0) db_init).1 = POk [] /\
  is_Some (running (mvs (dfin [QSql LRC (SBegin LSnap) env0; QSql LRC (SCommit false) env0; QSql LRC (SRollback false) env0])) 1).
Proof. split; [vm_compute; reflexivity|]. eexists. vm_compute. reflexivity. Qed.

(** COMMIT sent as SQL text in a transaction that the protocol began is answered with success; but
    the session stays in the finished transaction: it refuses every later change and every later
    begin request, and keeps the transaction's locks. *)
Theorem session_sql_commit_refuted d c t ss x e :
  reachable d -> d_sess d !! c = Some ss -> s_cur ss = Some t -> running (mvs d) t = Some x ->
  good_env e (x_ws x) -> e_sfail e = false ->
  exists d', dstep (QQuery c (SCommit false) e) d = (POk [], d') /\
    (exists x', obj d' t = Some x' /\ x_state x' = Committed) /\ d_locks d' = d_locks d /\
    forall i o ops aff e2, (dstep (QBegin c i) d').1 = PFail /\ (dstep (QQuery c (SWork (o :: ops) aff) e2) d').1 = PFail.
Proof.
  intros Hr Hc Ht E (G1 & G2 & G3) Hs. cbn [dstep]. rewrite Hc. unfold net_query. rewrite Ht. cbn [engine]. unfold e_commit.
  destruct (tm_commit_running t (e_bad e) (add_log (WCommit t) d) x E) as (d1 & E1 & H1 & H2 & H3 & H4 & H5 & H6 & H7 & H8 & H9).
  rewrite E1. assert (Hw : ws_of d1 t = x_ws x) by (unfold ws_of, obj; by rewrite H2, H1). rewrite Hw, Hs.
  assert (Fl : flushes_ok e (x_ws x) = true) by (by apply flushes_ok_spec). rewrite Fl. cbn [andb negb].
  exists d1. split; [done|]. split; [eexists; split; [unfold obj; rewrite H2; exact H1|done]|]. split; [exact H5|].
  intros i o ops aff e2. rewrite H7. cbn [add_log d_sess]. rewrite Hc, Ht. split; [done|].
  cbn [engine row_ops]. rewrite (row_op_refused t o d1 H2). done.
Qed.
Print Assumptions session_sql_commit_refuted.

Example session_sql_commit_ex :
  (exists ss x, d_sess (dfin in_session) !! 7 = Some ss /\ s_cur ss = Some 0 /\ running (mvs (dfin in_session)) 0 = Some x /\
     good_env env0 (x_ws x)) /\ 0 ∈ d_locks (dfin in_session) /\
  dres (in_session ++ [QQuery 7 (SCommit false) env0; QQuery 7 (SWork [Ins r1 5] true) env0; QBegin 7 LRC]) =
    [POk []; POk []; POk []; POk []; POk []; PFail; PFail].
Proof.
  split; [|split; [apply (bool_decide_unpack _); vm_compute; exact I|vm_compute; reflexivity]].
  do 2 eexists. split; [vm_compute; reflexivity|]. split; [reflexivity|]. split; [vm_compute; reflexivity|].
  split; [|split]; apply (bool_decide_unpack _); vm_compute; exact I.
Qed.

(** A statement outside a transaction that inserts rows is all or nothing, as long as its pages
    can be flushed: when it succeeds everybody who begins afterwards reads every row, when it
    fails nobody reads any. *)
Theorem autocommit_insert_partial d j ops aff e r d' :
  reachable d -> Forall is_ins ops -> (forall o, o ∈ ops -> calm_env e (op_rid o)) -> e_bad e = ∅ ->
  wm_next (wk (mvs d)) + 6 < 2 ^ 64 -> execute_sql j (SWork ops aff) e d = (r, d') ->
  (r <> PFail -> forall rd y, Ins rd y ∈ ops -> exists z, Ins rd z ∈ ops /\ forall i, next_reads (mvs d') i rd = Some z) /\
  (r = PFail -> forall rd i, pg (mvs d) !! rd = None -> next_reads (mvs d') i rd = None).
Proof.
  intros Hr Hi He Hbad Hb. apply reach_dinv in Hr. unfold execute_sql. rewrite f_begin_id.
  set (n := nid (mvs d)). set (d0 := (f_begin j d).2). destruct (running_begin j (mvs d)) as [ts Hr0].
  assert (Hr1 : running (mvs d0) n = Some (Txn j Running ts 0 [] ∅)) by exact Hr0.
  assert (W0 : wm_next (wk (mvs d0)) = wm_next (wk (mvs d)) + 1) by (apply begin_next; lia).
  assert (P0 : pg (mvs d0) = pg (mvs d)) by done. assert (L0 : lk (mvs d0) = lk (mvs d)) by done. clearbody d0.
  assert (We : ws_exist n (mvs d0)). { intros x rd Hx. assert (x = Txn j Running ts 0 [] ∅) as -> by congruence. cbn. set_solver. }
  cbn [engine]. destruct (row_ops n ops d0) as [b d1] eqn:Eo.
  destruct (ins_ops n ops d0 b d1 _ Hi Hr1 We Eo) as [(x & A1 & A2 & A3 & A4 & A5 & A6) A7]. cbn [x_ws] in *.
  assert (Ab : forall rd i, pg (mvs d) !! rd = None -> next_reads (mvs (f_abort n d1)) i rd = None).
  { intros rd i Hn. unfold f_abort. cbn [release set_locks mvs].
    assert (A1' : running (mvs (add_log (WAbort n) d1)) n = Some x) by exact A1.
    destruct (tm_abort_running n _ x A1') as (B1 & B2 & B3 & B4 & B5). cbn [add_log mvs] in *.
    assert (Hl : lk (mvs d1) !! rd = None).
    { rewrite A3, L0. destruct (lk (mvs d) !! rd) eqn:El; [|done]. destruct (proj2 (v_mok _ Hr) rd ltac:(eauto)). congruence. }
    destruct (A6 rd) as [(C1 & C2 & y & C3)|[C1 C2]].
    - destruct (B5 rd _ ltac:(set_solver) Hl C3) as [D1 D2]. by eapply next_reads_unborn.
    - destruct (B4 rd ltac:(set_solver)) as [D1 _]. apply next_reads_none. rewrite D1, C2, P0. exact Hn. }
  destruct b; [destruct aff|]; [|intros [= <- <-]; split; [done|intros _; exact Ab]|intros [= <- <-]; split; [done|intros _; exact Ab]].
  assert (Sub : forall rd, rd ∈ x_ws x -> exists o, o ∈ ops /\ op_rid o = rd).
  { pose proof (row_ops_only n ops d0 true d1 (Txn j Running ts 0 [] ∅) x Hr1 Eo A1) as S. intros rd Hin. destruct (S rd Hin) as [S1|S1]; [set_solver|done]. }
  assert (Fl : flushes_ok e (x_ws x) = true).
  { apply flushes_ok_spec. unfold pages_of. split; intros p Hp; apply elem_of_list_to_set, elem_of_list_fmap in Hp as (rd & -> & Hin);
      apply elem_of_elements, Sub in Hin as (o & Ho & <-); destruct (He o Ho) as (_ & K1 & K2); [done|]. intros K. done. }
  destruct (f_commit_running n e d1 x A1 Fl) as (d2 & E2 & C1 & C2 & C3 & C4). rewrite E2. intros [= <- <-].
  split; [|done]. intros _ rd y Hin. destruct (A7 eq_refl rd y Hin) as (z & Z1 & Z2). exists z. split; [done|]. intros i.
  assert (Hw : rd ∈ x_ws x).
  { destruct (A6 rd) as [(K1 & _)|[K1 K2]]; [set_solver|]. rewrite Z2, P0 in K2. exfalso.
    pose proof (row_ops_ins_new n ops d0 d1 rd y Eo Hin) as K3. rewrite P0 in K3. congruence. }
  assert (Hp : pg (mvs d2) !! rd = Some (Meta n (Some (wm_next (wk (mvs d1)))) false None, z)).
  { rewrite C4, decide_True, Z2 by (rewrite Hbad; set_solver). cbn. by rewrite N.eqb_refl. }
  rewrite (next_reads_committed _ i rd _ _ _ Hp eq_refl); [done|]. rewrite C3 by (rewrite A5; lia). lia.
Qed.
Print Assumptions autocommit_insert_partial.

Example autocommit_insert_ex :
  Forall is_ins [Ins r0 10; Ins r2 20] /\ (forall o, o ∈ [Ins r0 10; Ins r2 20] -> calm_env env0 (op_rid o)) /\ e_bad env0 = ∅ /\
  dres [QSql LRC (SWork [Ins r0 10; Ins r2 20] true) env0; QSql LRC (SWork [Ins r1 30; Ins r0 40] true) env0;
        QSql LSnap (SSelect [r0; r1; r2]) env0] = [POk []; PFail; POk [Some 10; None; Some 20]].
Proof.
  split; [repeat constructor|]. split; [|split; [reflexivity|vm_compute; reflexivity]].
  intros o Ho. apply elem_of_list_In in Ho. cbn in Ho.
  destruct Ho as [<-|[<-|[]]]; (split; [reflexivity|split; apply (bool_decide_unpack _); vm_compute; exact I]).
Qed.
