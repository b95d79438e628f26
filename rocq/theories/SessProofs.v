(** * Proofs about committing and sessions *)
From stdpp Require Import gmap list.
From Coq Require Import NArith Lia.
From Verif Require Import WatermarkModel MvccModel MvccSpec MvccProofs SessSpec SessModel.
Local Open Scope N_scope.

(** ** One step of the rows *)

Definition mok (st : mv) : Prop :=
  (forall t x, tx st !! t = Some x -> t < nid st) /\ (forall rd, is_Some (lk st !! rd) -> is_Some (pg st !! rd)).

(** Only [u]'s own state may have changed, and no transaction was lost. *)
Definition fr (u : N) (st st' : mv) : Prop :=
  nid st <= nid st' /\ (mok st -> mok st') /\ (forall t, t <> u -> t < nid st -> running st' t = running st t).

Lemma fr_refl u st : fr u st st.
Proof. split; [lia|]. split; auto. Qed.

Lemma fr_trans u a b c : fr u a b -> fr u b c -> fr u a c.
Proof.
  intros (A1 & A2 & A3) (B1 & B2 & B3). split; [lia|]. split; [auto|]. intros t H1 H2.
  rewrite B3 by lia. by apply A3.
Qed.

Lemma running_tx st st' t : tx st' !! t = tx st !! t -> running st' t = running st t.
Proof. unfold running. by intros ->. Qed.

Lemma running_prune st t : running (prune st) t = running st t.
Proof.
  unfold running, prune. cbn. rewrite lookup_omap. destruct (tx st !! t) as [x|]; cbn; [|done].
  unfold kept. destruct (x_state x) eqn:E; cbn; [by rewrite E| |]; destruct (_ : bool); cbn; by rewrite ?E.
Qed.

Lemma fr_prune u st : fr u st (prune st).
Proof.
  split; [cbn; lia|]. split; [|intros; apply running_prune].
  intros [H1 H2]. split; [|exact H2]. intros t x. cbn. rewrite lookup_omap.
  destruct (tx st !! t) as [y|] eqn:E; cbn; [|done]. intros _. by apply (H1 t y).
Qed.

Lemma fr_begin u i st : fr u st (begin i st).2.
Proof.
  unfold begin. destruct (get_next_ts_and_register (wk st)) as [w ts]. cbn. split; [cbn; lia|]. split.
  - intros [H1 H2]. split; [|exact H2]. cbn. intros t x. destruct (decide (t = nid st)) as [->|Hne]; [lia|].
    rewrite lookup_insert_ne by done. intros H. specialize (H1 t x H). lia.
  - intros t _ Hlt. apply running_tx. cbn. rewrite lookup_insert_ne by lia. done.
Qed.

Lemma begin_nid i st : nid (begin i st).2 = nid st + 1.
Proof. unfold begin. by destruct (get_next_ts_and_register (wk st)). Qed.

Lemma running_begin i st : exists ts, running (begin i st).2 (nid st) = Some (Txn i Running ts 0 [] ∅).
Proof.
  unfold begin. destruct (get_next_ts_and_register (wk st)) as [w ts]. exists ts. unfold running. cbn.
  by rewrite lookup_insert.
Qed.

Lemma running_some st t x : running st t = Some x -> tx st !! t = Some x /\ x_state x = Running.
Proof.
  unfold running. destruct (tx st !! t) as [y|]; [|done]. destruct (x_state y) eqn:E; [|done|done].
  intros [= ->]. done.
Qed.

Lemma fr_insert t rd y st : fr t st (insert t rd y st).2.
Proof.
  unfold insert. destruct (running st t) as [x|] eqn:E; [|apply fr_refl].
  destruct (pg st !! rd) as [p|] eqn:Ep; [apply fr_refl|]. apply running_some in E as [Hx _].
  cbn. split; [cbn; lia|]. split.
  - intros [H1 H2]. split; cbn.
    + intros u z. destruct (decide (u = t)) as [->|Hne]; [intros _; by apply (H1 t x)|].
      rewrite lookup_insert_ne by done. apply H1.
    + intros r Hr. destruct (decide (r = rd)) as [->|Hne]; [rewrite lookup_insert; by eexists|].
      rewrite lookup_insert_ne by done. by apply H2.
  - intros u Hne _. apply running_tx. cbn. by rewrite lookup_insert_ne.
Qed.

Lemma fr_overwrite t x rd m old y del st : tx st !! t = Some x -> is_Some (pg st !! rd) ->
  fr t st (overwrite t x rd m old y del st).
Proof.
  intros Hx Hp. unfold overwrite. split; [cbn; lia|]. split.
  - intros [H1 H2]. split; cbn.
    + intros u z. destruct (decide (u = t)) as [->|Hne]; [intros _; by apply (H1 t x)|].
      rewrite lookup_insert_ne by done. apply H1.
    + intros r Hr. destruct (decide (r = rd)) as [->|Hne]; [rewrite lookup_insert; by eexists|].
      rewrite lookup_insert_ne in Hr by done. rewrite lookup_insert_ne by done. by apply H2.
  - intros u Hne _. apply running_tx. cbn. by rewrite lookup_insert_ne.
Qed.

Lemma fr_update t c rd y st : fr t st (update t c rd y st).2.
Proof.
  unfold update. destruct (running st t) as [x|] eqn:E; [|apply fr_refl].
  destruct (pg st !! rd) as [[m old]|] eqn:Ep; [|apply fr_refl]. destruct (m_del m); [apply fr_refl|].
  destruct (_ && _); [apply fr_refl|]. apply running_some in E as [Hx _]. apply fr_overwrite; eauto.
Qed.

Lemma fr_delete t rd st : fr t st (delete_row t rd st).2.
Proof.
  unfold delete_row. destruct (running st t) as [x|] eqn:E; [|apply fr_refl].
  destruct (pg st !! rd) as [[m old]|] eqn:Ep; [|apply fr_refl]. destruct (m_del m); [apply fr_refl|].
  destruct (_ && _); [apply fr_refl|]. apply running_some in E as [Hx _]. apply fr_overwrite; eauto.
Qed.

Lemma commit_start_some t st x : running st t = Some x ->
  exists cts w, commit_start t st =
    (RCommitted cts, MV (pg st) (lk st) (<[t := Txn (x_level x) Committed (x_read x) cts (x_logs x) (x_ws x)]> (tx st))
       (nid st) w (nlogs st)) /\ cts = wm_next (wk st) /\
    w = remove_txn (update_commit_ts (get_next_ts (wk st)).1 cts) (x_read x).
Proof.
  intros E. unfold commit_start. rewrite E. cbn. eauto.
Qed.

Lemma fr_stamp_all t cts bad ws st u : fr u st (stamp_all t cts bad ws st).
Proof.
  unfold stamp_all. eapply fr_trans; [|apply fr_prune].
  destruct (stamp_fold t cts (elements (ws ∖ bad)) st (NoDup_elements _)) as (H1 & H2 & H3 & _ & _ & H6).
  cbn zeta in *. split; [lia|]. split.
  - intros [K1 K2]. split; [by rewrite H2, H3|]. intros rd. rewrite H1, H6. intros Hr. apply K2 in Hr.
    destruct (decide _); [by apply fmap_is_Some|done].
  - intros v _ _. apply running_tx. by rewrite H2.
Qed.

Lemma fr_commit_start t st : fr t st (commit_start t st).2.
Proof.
  destruct (running st t) as [x|] eqn:E.
  - destruct (commit_start_some t st x E) as (cts & w & -> & _). apply running_some in E as [Hx _]. cbn. split; [cbn; lia|]. split.
    + intros [H1 H2]. split; [|exact H2]. cbn. intros u z. destruct (decide (u = t)) as [->|Hne]; [intros _; by apply (H1 t x)|].
      rewrite lookup_insert_ne by done. apply H1.
    + intros u Hne _. apply running_tx. cbn. by rewrite lookup_insert_ne.
  - unfold commit_start. rewrite E. apply fr_refl.
Qed.

Lemma fr_abort t st : fr t st (abort t st).2.
Proof.
  unfold abort. destruct (running st t) as [x|] eqn:E; [|apply fr_refl]. cbn [snd].
  eapply fr_trans; [|apply fr_prune]. apply running_some in E as [Hx _].
  destruct (undo_fold t (elements (x_ws x)) st (NoDup_elements _)) as (U1 & U2 & U3 & U4 & U5 & U6). cbn zeta in *.
  split; [cbn; lia|]. split.
  - intros [H1 H2]. split; cbn.
    + rewrite U1, U2. intros u z. destruct (decide (u = t)) as [->|Hne]; [intros _; by apply (H1 t x)|].
      rewrite lookup_insert_ne by done. apply H1.
    + intros rd Hr. destruct (decide (rd ∈ elements (x_ws x))) as [Hin|Hni].
      * destruct (U6 rd Hin) as [P1 P2]. rewrite P1. rewrite P2 in Hr. unfold undo_row in *.
        destruct (lk st !! rd) as [l|] eqn:El; [destruct (get_log (tx st) l) as [g|] eqn:Eg|]; cbn in *.
        -- rewrite lookup_alter. apply fmap_is_Some, H2. eauto.
        -- apply H2. eauto.
        -- rewrite El in Hr. by destruct Hr.
      * destruct (U5 rd Hni) as [-> P2]. rewrite P2 in Hr. by apply H2.
  - intros u Hne _. apply running_tx. cbn. rewrite lookup_insert_ne by done. by rewrite U1.
Qed.

Lemma abort_not_running t st : running (abort t st).2 t = None.
Proof.
  unfold abort. destruct (running st t) as [x|] eqn:E; [|by cbn]. cbn [snd]. rewrite running_prune.
  unfold running. cbn. by rewrite lookup_insert.
Qed.

Lemma stamp_all_running t cts bad ws st u : running (stamp_all t cts bad ws st) u = running st u.
Proof.
  unfold stamp_all. rewrite running_prune.
  destruct (stamp_fold t cts (elements (ws ∖ bad)) st (NoDup_elements _)) as (H1 & H2 & _). cbn zeta in *.
  apply running_tx. by rewrite H2.
Qed.

(** ** The invariant of the database *)

Record dinv (d : db) : Prop := {
  v_mok : mok (mvs d);
  v_old : forall t x, d_old d !! t = Some x -> x_state x <> Running;
  v_dis : forall t, is_Some (d_old d !! t) -> running (mvs d) t = None /\ t < nid (mvs d);
  v_sess : forall c s t, d_sess d !! c = Some s -> s_cur s = Some t -> t < nid (mvs d);
  v_uniq : forall c1 c2 s1 s2 t, d_sess d !! c1 = Some s1 -> d_sess d !! c2 = Some s2 ->
             s_cur s1 = Some t -> s_cur s2 = Some t -> c1 = c2 }.

Lemma dinv_init : dinv db_init.
Proof.
  split; cbn.
  - split; cbn; intros *; rewrite lookup_empty; [done|]. by intros [].
  - intros *. by rewrite lookup_empty.
  - intros t. rewrite lookup_empty. by intros [].
  - intros c s t. by rewrite lookup_empty.
  - intros c1 c2 s1 s2 t. by rewrite lookup_empty.
Qed.

(** The effect of one call on the database: [u] is the transaction it works for. *)
Record step_ok (u : N) (d d' : db) : Prop := {
  k_inv : dinv d -> dinv d';
  k_fr : fr u (mvs d) (mvs d');
  k_sess : d_sess d' = d_sess d;
  k_old : forall t, t <> u -> d_old d' !! t = d_old d !! t }.

Lemma step_refl u d : step_ok u d d.
Proof. split; auto. apply fr_refl. Qed.

Lemma step_trans u a b c : step_ok u a b -> step_ok u b c -> step_ok u a c.
Proof.
  intros [A1 A2 A3 A4] [B1 B2 B3 B4]. split; [auto|by eapply fr_trans|congruence|].
  intros t Hne. rewrite B4 by done. by apply A4.
Qed.

Lemma step_log u r d : step_ok u d (add_log r d).
Proof. split; [|apply fr_refl|done|done]. intros [? ? ? ? ?]. by split. Qed.

Lemma step_locks u l d : step_ok u d (set_locks l d).
Proof. split; [|apply fr_refl|done|done]. intros [? ? ? ? ?]. by split. Qed.

Lemma step_release u t d : step_ok u d (release t d).
Proof. apply step_locks. Qed.

Lemma step_set_mv u m d : fr u (mvs d) m -> (running (mvs d) u = None -> running m u = None \/ nid (mvs d) <= u) ->
  step_ok u d (set_mv m d).
Proof.
  intros F Hu. split; [|done|done|done]. destruct F as (F1 & F2 & F3). intros [V1 V2 V3 V4 V5]. split; cbn; auto.
  - intros t Ht. destruct (V3 t Ht) as [Hr Hn]. split; [|lia].
    destruct (decide (t = u)) as [->|Hne]; [destruct (Hu Hr); [done|lia]|]. by rewrite F3.
  - intros c s t H1 H2. pose proof (V4 c s t H1 H2). lia.
Qed.

Lemma step_begin u i d : step_ok u d (t_begin i d).
Proof.
  unfold t_begin. apply step_set_mv; [apply fr_begin|]. intros H. destruct (decide (u < nid (mvs d))) as [Hlt|]; [|right; lia].
  left. destruct (decide (u = 0 /\ False)) as [[]|_]; [done|].
  destruct (fr_begin (u + 1) i (mvs d)) as (_ & _ & F3). rewrite F3 by lia. done.
Qed.

Lemma step_f_begin u i d : step_ok u d (f_begin i d).2.
Proof. cbn. eapply step_trans; [apply (step_begin u i)|apply step_log]. Qed.

Lemma step_tm_commit t bad d : step_ok t d (tm_commit t bad d).2.
Proof.
  unfold tm_commit. destruct (obj d t) as [x|] eqn:Eo; [|apply step_refl].
  destruct (x_state x) eqn:Es; [|apply step_refl|apply step_refl].
  destruct (running (mvs d) t) as [y|] eqn:E.
  - assert (x = y) as -> by (unfold obj in Eo; rewrite E in Eo; congruence).
    destruct (commit_start_some t _ y E) as (cts & w & Ec & _).
    assert (F : fr t (mvs d) (stamp_all t cts bad (x_ws y) (commit_start t (mvs d)).2)).
    { eapply fr_trans; [apply fr_commit_start|apply fr_stamp_all]. }
    assert (Hr : running (stamp_all t cts bad (x_ws y) (commit_start t (mvs d)).2) t = None).
    { rewrite stamp_all_running, Ec. cbn. unfold running. cbn. by rewrite lookup_insert. }
    rewrite Ec in *. cbn [snd fst] in *.
    set (m9 := stamp_all _ _ _ _ _) in *. clearbody m9. split; [|exact F|done|cbn; intros u Hne; by rewrite lookup_insert_ne].
    destruct F as (F1 & F2 & F3). intros [V1 V2 V3 V4 V5]. split; cbn; auto.
    + intros u z. destruct (decide (u = t)) as [->|Hne]; [rewrite lookup_insert; intros [= <-]; done|].
      rewrite lookup_insert_ne by done. apply V2.
    + intros u. destruct (decide (u = t)) as [->|Hne].
      * intros _. split; [exact Hr|]. apply running_some in E as [Hx _]. destruct V1 as [V1 _]. pose proof (V1 _ _ Hx). lia.
      * rewrite lookup_insert_ne by done. intros H. destruct (V3 u H) as [H1 H2]. split; [by rewrite F3|lia].
    + intros c s u H1 H2. pose proof (V4 c s u H1 H2). lia.
  - unfold commit_start. rewrite E. apply step_refl.
Qed.

Lemma step_tm_abort t d : step_ok t d (tm_abort t d).
Proof.
  unfold tm_abort. destruct (obj d t) as [x|] eqn:Eo; [|apply step_refl].
  destruct (x_state x) eqn:Es; [|apply step_refl|apply step_refl].
  pose proof (fr_abort t (mvs d)) as F. pose proof (abort_not_running t (mvs d)) as Hr.
  set (m9 := (abort t (mvs d)).2) in *. clearbody m9.
  split; [|exact F|done|cbn; intros u Hne; by rewrite lookup_insert_ne].
  destruct F as (F1 & F2 & F3). intros [V1 V2 V3 V4 V5]. split; cbn; auto.
  + intros u z. destruct (decide (u = t)) as [->|Hne]; [rewrite lookup_insert; intros [= <-]; done|].
    rewrite lookup_insert_ne by done. apply V2.
  + intros u. destruct (decide (u = t)) as [->|Hne].
    * intros _. split; [exact Hr|]. unfold obj in Eo. destruct (running (mvs d) t) as [y|] eqn:E.
      -- apply running_some in E as [Hx _]. destruct V1 as [V1 _]. pose proof (V1 _ _ Hx). lia.
      -- destruct (V3 t ltac:(eauto)) as [_ Hlt]. lia.
    * rewrite lookup_insert_ne by done. intros H. destruct (V3 u H) as [H1 H2]. split; [by rewrite F3|lia].
  + intros c s u H1 H2. pose proof (V4 c s u H1 H2). lia.
Qed.

Lemma step_f_commit t e d : step_ok t d (f_commit t e d).2.
Proof.
  unfold f_commit. pose proof (step_tm_commit t (e_bad e) (add_log (WCommit t) d)) as S.
  destruct (tm_commit t (e_bad e) (add_log (WCommit t) d)) as [[] d1]; cbn [snd] in *;
    (eapply step_trans; [apply step_log|]; eapply step_trans; [exact S|apply step_release]).
Qed.

Lemma step_f_abort t d : step_ok t d (f_abort t d).
Proof.
  unfold f_abort. eapply step_trans; [apply step_log|]. eapply step_trans; [apply step_tm_abort|apply step_release].
Qed.

Lemma step_e_commit t e d : step_ok t d (e_commit t e d).2.
Proof.
  unfold e_commit. pose proof (step_tm_commit t (e_bad e) (add_log (WCommit t) d)) as S.
  destruct (tm_commit t (e_bad e) (add_log (WCommit t) d)) as [[] d1]; cbn [snd] in *;
    (eapply step_trans; [apply step_log|exact S]).
Qed.

Lemma step_e_abort t d : step_ok t d (e_abort t d).
Proof. unfold e_abort. eapply step_trans; [apply step_log|apply step_tm_abort]. Qed.

(** What a row operation does to its own transaction. *)
Definition grows (st st' : mv) (t : N) (extra : gset rid) : Prop :=
  match running st t with
  | Some x => exists x', running st' t = Some x' /\ x_level x' = x_level x /\ x_ws x ∪ extra ⊆ x_ws x'
  | None => running st' t = None
  end.

Definition op_rid (o : rop) : rid := match o with Ins rd _ | Upd rd _ | Del rd => rd end.

Lemma row_op_grows t o d b d' : row_op t o d = (b, d') ->
  grows (mvs d) (mvs d') t (if b then {[op_rid o]} else ∅).
Proof.
  unfold row_op, grows. destruct (running (mvs d) t) as [x|] eqn:E.
  - destruct (running_some _ _ _ E) as [Hx Hs].
    assert (Hsame : exists x', running (mvs d) t = Some x' /\ x_level x' = x_level x /\ x_ws x ∪ ∅ ⊆ x_ws x').
    { exists x. split; [done|]. split; [done|]. set_solver. }
    destruct o as [rd y|rd y|rd]; cbn [op_rid].
    + cbn [mvs set_locks]. unfold insert. rewrite E. destruct (pg (mvs d) !! rd) as [p|]; cbn; intros [= <- <-]; cbn; [done|].
      eexists. split; [unfold running; cbn; rewrite lookup_insert; cbn; rewrite Hs; reflexivity|]. cbn. split; [done|]. set_solver.
    + unfold update. rewrite E. destruct (pg (mvs d) !! rd) as [[m old]|]; cbn; [|intros [= <- <-]; done].
      destruct (m_del m); [intros [= <- <-]; done|]. destruct (_ && _); [intros [= <- <-]; done|]. intros [= <- <-]. cbn.
      eexists. split; [unfold running; cbn; rewrite lookup_insert; cbn; rewrite Hs; reflexivity|]. cbn. split; [done|]. set_solver.
    + unfold delete_row. rewrite E. destruct (pg (mvs d) !! rd) as [[m old]|]; cbn; [|intros [= <- <-]; done].
      destruct (m_del m); [intros [= <- <-]; done|]. destruct (_ && _); [intros [= <- <-]; done|]. intros [= <- <-]. cbn.
      eexists. split; [unfold running; cbn; rewrite lookup_insert; cbn; rewrite Hs; reflexivity|]. cbn. split; [done|]. set_solver.
  - destruct o as [rd y|rd y|rd]; unfold insert, update, delete_row; cbn; rewrite E; cbn; intros [= <- <-]; done.
Qed.

Lemma row_op_refused t o d : running (mvs d) t = None -> row_op t o d = (false, set_mv (mvs d) d).
Proof. intros E. unfold row_op. destruct o; unfold insert, update, delete_row; cbn; rewrite E; cbn; by rewrite ?E. Qed.

Lemma step_row_op t o d : step_ok t d (row_op t o d).2.
Proof.
  unfold row_op. set (d1 := match o, running (mvs d) t with Ins _ _, Some _ => set_locks ({[t]} ∪ d_locks d) d | _, _ => d end).
  assert (S1 : step_ok t d d1) by (unfold d1; destruct o, (running (mvs d) t); first [apply step_locks|apply step_refl]).
  assert (M : mvs d1 = mvs d) by (unfold d1; by destruct o, (running (mvs d) t)).
  eapply step_trans; [exact S1|]. cbn [snd]. apply step_set_mv.
  - destruct o; [apply fr_insert|apply fr_update|apply fr_delete].
  - rewrite M. intros E. left. destruct o; unfold insert, update, delete_row; rewrite E; done.
Qed.

Lemma step_row_ops t ops d : step_ok t d (row_ops t ops d).2.
Proof.
  revert d. induction ops as [|o ops IH]; intros d; cbn [row_ops]; [apply step_refl|].
  pose proof (step_row_op t o d) as S. destruct (row_op t o d) as [[] d1]; cbn [snd] in *; [|done].
  eapply step_trans; [exact S|apply IH].
Qed.

Lemma row_ops_grows t ops d b d' : row_ops t ops d = (b, d') ->
  grows (mvs d) (mvs d') t (if b then list_to_set (map op_rid ops) else ∅).
Proof.
  revert d. induction ops as [|o ops IH]; intros d; cbn [row_ops map].
  - intros [= <- <-]. unfold grows. destruct (running (mvs d) t) as [x|] eqn:E; [|done]. exists x. cbn. split; [done|]. split; [done|]. set_solver.
  - destruct (row_op t o d) as [[] d1] eqn:E1.
    + intros E2. pose proof (row_op_grows _ _ _ _ _ E1) as G1. pose proof (IH _ E2) as G2. unfold grows in *.
      destruct (running (mvs d) t) as [x|] eqn:E; [|by rewrite G1 in G2].
      destruct G1 as (x1 & R1 & L1 & W1). rewrite R1 in G2. destruct G2 as (x2 & R2 & L2 & W2).
      exists x2. split; [done|]. split; [congruence|]. destruct b; cbn in *; set_solver.
    + intros [= <- <-]. exact (row_op_grows _ _ _ _ _ E1).
Qed.

Lemma step_engine t s e d : step_ok t d (engine t s e d).2.
Proof.
  destruct s as [ops aff|rds|i|ch|ch]; cbn [engine].
  - pose proof (step_row_ops t ops d) as S. by destruct (row_ops t ops d) as [[] d1].
  - apply step_refl.
  - apply step_begin.
  - pose proof (step_e_commit t e d) as S. destruct (e_commit t e d) as [[b|] d1]; cbn [snd] in *; [|done].
    destruct ch; [|done]. eapply step_trans; [exact S|apply step_begin].
  - pose proof (step_e_abort t d) as S. cbn zeta. cbn [snd]. destruct ch; [|done]. eapply step_trans; [exact S|apply step_begin].
Qed.

(** ** Requests *)

Lemma dinv_set_sess d m : dinv d ->
  (forall c s t, m !! c = Some s -> s_cur s = Some t -> exists s0, d_sess d !! c = Some s0 /\ s_cur s0 = Some t) ->
  dinv (set_sess m d).
Proof.
  intros [V1 V2 V3 V4 V5] H. split; cbn; auto.
  - intros c s t H1 H2. destruct (H c s t H1 H2) as (s0 & H3 & H4). eauto.
  - intros c1 c2 s1 s2 t H1 H2 H3 H4. destruct (H c1 s1 t H1 H3) as (s3 & H5 & H6).
    destruct (H c2 s2 t H2 H4) as (s4 & H7 & H8). eauto.
Qed.

Lemma dinv_take c ss d : dinv d -> dinv (take_txn c ss d).
Proof.
  intros V. apply dinv_set_sess; [done|]. intros c' s t. destruct (decide (c' = c)) as [->|Hne].
  - rewrite lookup_insert. by intros [= <-].
  - rewrite lookup_insert_ne by done. eauto.
Qed.

(** The transaction a request works for, when it is not a new one. *)
Definition cur (d : db) (c : N) : option N := match d_sess d !! c with Some s => s_cur s | None => None end.

Definition target (d : db) (q : req) : option N :=
  match q with
  | QOpen _ | QBegin _ _ | QSql _ _ _ => None
  | QClose c | QQuery c _ _ | QPrepare c _ _ | QCommit c _ | QRollback c => cur d c
  | QCommitId t _ | QAbortId t => Some t
  end.

(** The effect of a request on everything but [u]. *)
Record req_ok (u : N) (d d' : db) : Prop := {
  q_inv : dinv d';
  q_fr : fr u (mvs d) (mvs d');
  q_old : forall t, t <> u -> d_old d' !! t = d_old d !! t }.

Lemma step_req u d d' : dinv d -> step_ok u d d' -> req_ok u d d'.
Proof. intros V [K1 K2 K3 K4]. split; auto. Qed.

Lemma req_refl u d : dinv d -> req_ok u d d.
Proof. intros V. split; [done|apply fr_refl|done]. Qed.

Lemma f_begin_id i d : f_begin i d = (nid (mvs d), (f_begin i d).2).
Proof. done. Qed.

Lemma step_execute_sql i s e d : step_ok (nid (mvs d)) d (execute_sql i s e d).2.
Proof.
  unfold execute_sql. rewrite (f_begin_id i d). set (n := nid (mvs d)).
  pose proof (step_f_begin n i d) as S0. set (d0 := (f_begin i d).2) in *.
  pose proof (step_engine n s e d0) as S1. destruct (engine n s e d0) as [[[ok|] rows] d1]; cbn [snd] in *.
  - assert (S2 : step_ok n d d1) by (eapply step_trans; [exact S0|exact S1]).
    assert (A : step_ok n d (f_abort n d1)) by (eapply step_trans; [exact S2|apply step_f_abort]).
    assert (B : step_ok n d (if ok then match f_commit n e d1 with (true, d2) => (POk rows, d2) | (false, d2) => (PFail, f_abort n d2) end
                             else (PFail, f_abort n d1)).2).
    { destruct ok; [|exact A]. pose proof (step_f_commit n e d1) as S3. destruct (f_commit n e d1) as [[] d2]; cbn [snd] in *.
      - eapply step_trans; [exact S2|exact S3].
      - eapply step_trans; [exact S2|]. eapply step_trans; [exact S3|apply step_f_abort]. }
    destruct s; try exact B. exact S2.
  - eapply step_trans; [exact S0|]. eapply step_trans; [exact S1|apply step_f_abort].
Qed.

Lemma step_net_query ss s e d : step_ok (default (nid (mvs d)) (s_cur ss)) d (net_query ss s e d).2.
Proof.
  unfold net_query. destruct (s_cur ss) as [t|]; cbn [default].
  - pose proof (step_engine t s e d) as S. by destruct (engine t s e d) as [[[b|] rows] d1].
  - rewrite (f_begin_id (s_level ss) d). set (n := nid (mvs d)).
    pose proof (step_f_begin n (s_level ss) d) as S0. set (d0 := (f_begin (s_level ss) d).2) in *.
    pose proof (step_engine n s e d0) as S1. destruct (engine n s e d0) as [[[ok|] rows] d1]; cbn [snd] in *.
    + pose proof (step_f_commit n e d1) as S3. destruct (f_commit n e d1) as [[] d2]; cbn [snd] in *;
        (eapply step_trans; [exact S0|]; eapply step_trans; [exact S1|]); [exact S3|].
      eapply step_trans; [exact S3|apply step_f_abort].
    + eapply step_trans; [exact S0|]. eapply step_trans; [exact S1|apply step_f_abort].
Qed.

Lemma step_sql_query ss s e d : step_ok (default (nid (mvs d)) (s_cur ss)) d (sql_query ss s e d).2.
Proof.
  unfold sql_query. destruct (s_cur ss) as [t|]; cbn [default].
  - pose proof (step_engine t s e d) as S. by destruct (engine t s e d) as [[[[]|] rows] d1].
  - apply step_execute_sql.
Qed.

Lemma dstep_ok q d r d' : dinv d -> dstep q d = (r, d') -> req_ok (default (nid (mvs d)) (target d q)) d d'.
Proof.
  intros V. destruct q as [c|c|c s e|c s e|c i|c e|c|i s e|t e|t]; cbn [dstep target].
  - intros [= <- <-]. split; [|apply fr_refl|done]. apply dinv_set_sess; [done|]. intros c' s t.
    destruct (decide (c' = c)) as [->|Hne]; [rewrite lookup_insert; by intros [= <-]|]. rewrite lookup_insert_ne by done. eauto.
  - unfold cur. destruct (d_sess d !! c) as [ss|] eqn:Ec; [|intros [= <- <-]; by apply req_refl].
    assert (V1 : dinv (set_sess (delete c (d_sess d)) d)).
    { apply dinv_set_sess; [done|]. intros c' s t. destruct (decide (c' = c)) as [->|Hne]; [by rewrite lookup_delete|].
      rewrite lookup_delete_ne by done. eauto. }
    destruct (s_cur ss) as [t|]; intros [= <- <-]; cbn [default]; [|by split; [|apply fr_refl|]].
    destruct (step_req t _ _ V1 (step_f_abort t (set_sess (delete c (d_sess d)) d))) as [Q1 Q2 Q3]. by split.
  - unfold cur. destruct (d_sess d !! c) as [ss|] eqn:Ec; [|intros [= <- <-]; by apply req_refl].
    intros E. pose proof (step_net_query ss s e d) as S. rewrite E in S. by apply step_req.
  - unfold cur. destruct (d_sess d !! c) as [ss|] eqn:Ec; [|intros [= <- <-]; by apply req_refl].
    intros E. pose proof (step_sql_query ss s e d) as S. rewrite E in S. by apply step_req.
  - destruct (d_sess d !! c) as [ss|] eqn:Ec; [|intros [= <- <-]; by apply req_refl].
    destruct (s_cur ss) as [t|] eqn:Es; [intros [= <- <-]; by apply req_refl|].
    rewrite (f_begin_id i d). intros [= <- <-]. cbn [default].
    pose proof (step_f_begin (nid (mvs d)) i d) as [S1 S2 S3 S4]. set (d1 := (f_begin i d).2) in *.
    assert (Hn : nid (mvs d1) = nid (mvs d) + 1) by apply begin_nid.
    split; [|exact S2|exact S4]. specialize (S1 V). destruct S1 as [V1 V2 V3 V4 V5]. rewrite S3 in *. split; cbn; auto.
    + intros c' s t. destruct (decide (c' = c)) as [->|Hne].
      * rewrite lookup_insert. intros [= <-]. cbn. intros [= <-]. lia.
      * rewrite lookup_insert_ne by done. eauto.
    + intros c1 c2 s1 s2 t. destruct (decide (c1 = c)) as [->|H1], (decide (c2 = c)) as [->|H2]; [done| | |].
      * rewrite lookup_insert, lookup_insert_ne by done. intros [= <-] K1 [= <-] K2. pose proof (v_sess _ V _ _ _ K1 K2). lia.
      * rewrite lookup_insert, lookup_insert_ne by done. intros K1 [= <-] K2 [= <-]. pose proof (v_sess _ V _ _ _ K1 K2). lia.
      * rewrite !lookup_insert_ne by done. eauto.
  - unfold cur. destruct (d_sess d !! c) as [ss|] eqn:Ec; [|intros [= <- <-]; by apply req_refl].
    destruct (s_cur ss) as [t|] eqn:Es; [|intros [= <- <-]; by apply req_refl]. cbn [default].
    pose proof (step_req t _ _ (dinv_take c ss d V) (step_f_commit t e (take_txn c ss d))) as [Q1 Q2 Q3].
    destruct (f_commit t e (take_txn c ss d)) as [[] d1]; intros [= <- <-]; by split.
  - unfold cur. destruct (d_sess d !! c) as [ss|] eqn:Ec; [|intros [= <- <-]; by apply req_refl].
    destruct (s_cur ss) as [t|] eqn:Es; [|intros [= <- <-]; by apply req_refl]. cbn [default]. intros [= <- <-].
    pose proof (step_req t _ _ (dinv_take c ss d V) (step_f_abort t (take_txn c ss d))) as [Q1 Q2 Q3]. by split.
  - intros E. pose proof (step_execute_sql i s e d) as S. rewrite E in S. by apply step_req.
  - cbn [default]. destruct (tx (mvs d) !! t); [|intros [= <- <-]; by apply req_refl].
    pose proof (step_tm_commit t (e_bad e) d) as S. destruct (tm_commit t (e_bad e) d) as [[] d1]; intros [= <- <-]; by apply step_req.
  - cbn [default]. destruct (tx (mvs d) !! t); intros [= <- <-]; [|by apply req_refl]. apply step_req; [done|apply step_tm_abort].
Qed.

Lemma drun_dinv qs d rs d' : dinv d -> drun d qs = (rs, d') -> dinv d'.
Proof.
  revert d rs. induction qs as [|q qs IH]; intros d rs V; cbn [drun]; [by intros [= _ <-]|].
  destruct (dstep q d) as [r d1] eqn:E1. destruct (drun d1 qs) as [rs2 d2] eqn:E2. intros [= _ <-].
  eapply IH; [|exact E2]. apply (q_inv _ _ _ (dstep_ok q d r d1 V E1)).
Qed.

Lemma reachable_dinv qs rs d : drun db_init qs = (rs, d) -> dinv d.
Proof. apply drun_dinv, dinv_init. Qed.

(** A transaction a request does not work for stays as it is. *)
Lemma dstep_other q d r d' t : dinv d -> dstep q d = (r, d') -> t < nid (mvs d) -> target d q <> Some t ->
  running (mvs d') t = running (mvs d) t /\ t < nid (mvs d').
Proof.
  intros V E Hlt Hne. destruct (dstep_ok q d r d' V E) as [_ (F1 & F2 & F3) _]. split; [|lia]. apply F3; [|done].
  destruct (target d q) as [u|]; cbn; [congruence|lia].
Qed.

(** No session takes up a transaction that exists already. *)
Lemma dstep_cur q d r d' c t : dinv d -> dstep q d = (r, d') -> t < nid (mvs d) -> cur d' c = Some t -> cur d c = Some t.
Proof.
  intros V. unfold cur. destruct q as [c'|c'|c' s e|c' s e|c' i|c' e|c'|i s e|u e|u]; cbn [dstep].
  - intros [= <- <-] Hlt. cbn. destruct (decide (c = c')) as [->|Hne]; [by rewrite lookup_insert|by rewrite lookup_insert_ne].
  - destruct (d_sess d !! c') as [ss|] eqn:Ec; [|by intros [= <- <-]]. intros E Hlt.
    assert (Hs : d_sess d' = delete c' (d_sess d)).
    { destruct (s_cur ss) as [u|]; injection E as <- <-; [|done]. by rewrite (k_sess _ _ _ (step_f_abort u _)). }
    rewrite Hs. destruct (decide (c = c')) as [->|Hne]; [by rewrite lookup_delete|by rewrite lookup_delete_ne].
  - destruct (d_sess d !! c') as [ss|] eqn:Ec; [|by intros [= <- <-]]. intros E Hlt.
    pose proof (k_sess _ _ _ (step_net_query ss s e d)) as K. rewrite E in K. cbn in K. by rewrite K.
  - destruct (d_sess d !! c') as [ss|] eqn:Ec; [|by intros [= <- <-]]. intros E Hlt.
    pose proof (k_sess _ _ _ (step_sql_query ss s e d)) as K. rewrite E in K. cbn in K. by rewrite K.
  - destruct (d_sess d !! c') as [ss|] eqn:Ec; [|by intros [= <- <-]].
    destruct (s_cur ss) as [u|] eqn:Es; [by intros [= <- <-]|]. rewrite (f_begin_id i d). intros [= <- <-] Hlt.
    cbn.
    destruct (decide (c = c')) as [->|Hne]; [rewrite lookup_insert; cbn; intros [= <-]; lia|by rewrite lookup_insert_ne].
  - destruct (d_sess d !! c') as [ss|] eqn:Ec; [|by intros [= <- <-]].
    destruct (s_cur ss) as [u|] eqn:Es; [|by intros [= <- <-]]. intros E Hlt.
    pose proof (k_sess _ _ _ (step_f_commit u e (take_txn c' ss d))) as K.
    destruct (f_commit u e (take_txn c' ss d)) as [[] d1]; injection E as <- <-; cbn in K; rewrite K;
      (destruct (decide (c = c')) as [->|Hne]; [by rewrite lookup_insert|by rewrite lookup_insert_ne]).
  - destruct (d_sess d !! c') as [ss|] eqn:Ec; [|by intros [= <- <-]].
    destruct (s_cur ss) as [u|] eqn:Es; [|by intros [= <- <-]]. intros [= <- <-] Hlt.
    rewrite (k_sess _ _ _ (step_f_abort u _)). cbn.
    destruct (decide (c = c')) as [->|Hne]; [by rewrite lookup_insert|by rewrite lookup_insert_ne].
  - intros E Hlt. pose proof (k_sess _ _ _ (step_execute_sql i s e d)) as K. rewrite E in K. cbn in K. by rewrite K.
  - destruct (tx (mvs d) !! u); [|by intros [= <- <-]]. pose proof (k_sess _ _ _ (step_tm_commit u (e_bad e) d)) as K.
    destruct (tm_commit u (e_bad e) d) as [[] d1]; intros [= <- <-] Hlt; cbn in K; by rewrite K.
  - destruct (tx (mvs d) !! u); intros [= <- <-] Hlt; [|done]. by rewrite (k_sess _ _ _ (step_tm_abort u d)).
Qed.

(** ** Rows after a commit *)

Lemma next_ts_commit w c r : wm_next w + 3 < 2 ^ 64 -> c = wm_next w ->
  wm_next (remove_txn (update_commit_ts (get_next_ts w).1 c) r) = c + 1.
Proof.
  intros Hb ->. assert (E : u64_incr (wm_next w) = wm_next w + 1) by (unfold u64_incr; apply N.mod_small; lia).
  assert (U : forall x, wm_next (update_watermark x) = wm_next x) by (intros x; unfold update_watermark; by destruct (wm_active x)).
  unfold remove_txn. rewrite U. cbn [wm_next]. unfold update_commit_ts. rewrite U. cbn [wm_next get_next_ts fst]. rewrite E.
  assert (S : u64_sat_succ (wm_next w) = wm_next w + 1) by (unfold u64_sat_succ; lia). rewrite S.
  destruct (_ <? _); lia.
Qed.

Lemma next_reads_eq st i rd : next_reads st i rd =
  read (MV (pg st) (lk st) (<[nid st := Txn i Running (wm_next (wk st)) 0 [] ∅]> (tx st)) (nid st + 1)
           (add_txn (get_next_ts (wk st)).1 (wm_next (wk st))) (nlogs st)) (nid st) rd.
Proof. reflexivity. Qed.

(** A committed version no newer than now is what the next transaction reads. *)
Lemma next_reads_committed st i rd m y c : pg st !! rd = Some (m, y) -> m_ts m = Some c -> c <= wm_next (wk st) ->
  next_reads st i rd = if m_del m then None else Some y.
Proof.
  intros Hp Ht Hc. rewrite next_reads_eq. unfold read. cbn [pg]. rewrite Hp. unfold resolve. cbn [tx]. rewrite lookup_insert. cbn [x_level x_read].
  assert (V : visibility m (nid st) (wm_next (wk st)) = if m_del m then Deleted else Visible).
  { unfold visibility. rewrite Ht. destruct (_ =? _); [done|]. destruct (N.ltb_spec (wm_next (wk st)) c); [lia|done]. }
  assert (C : committed m = true) by (unfold committed; by rewrite Ht).
  unfold get_visible. cbn [fst snd]. rewrite V, C, orb_true_r. destruct i, (m_del m); done.
Qed.

(** A transaction reads its own row. *)
Lemma read_own st t x rd m y : tx st !! t = Some x -> pg st !! rd = Some (m, y) -> m_creator m = t ->
  read st t rd = if m_del m then None else Some y.
Proof.
  intros Hx Hp Hc. unfold read. rewrite Hp. unfold resolve. rewrite Hx.
  assert (V : visibility m t (x_read x) = if m_del m then Deleted else Visible) by (unfold visibility; by rewrite Hc, N.eqb_refl).
  unfold get_visible. cbn [fst snd]. rewrite V, Hc, N.eqb_refl. cbn [orb]. by destruct (x_level x), (m_del m).
Qed.

(** The rows of the database after a commit of a running transaction. *)
Lemma tm_commit_running t bad d x : running (mvs d) t = Some x ->
  exists d', tm_commit t bad d = (true, d') /\
    d_old d' !! t = Some (Txn (x_level x) Committed (x_read x) (wm_next (wk (mvs d))) (x_logs x) (x_ws x)) /\
    running (mvs d') t = None /\ nid (mvs d') = nid (mvs d) /\ lk (mvs d') = lk (mvs d) /\
    d_locks d' = d_locks d /\ d_log d' = d_log d /\ d_sess d' = d_sess d /\
    (wm_next (wk (mvs d)) + 3 < 2 ^ 64 -> wm_next (wk (mvs d')) = wm_next (wk (mvs d)) + 1) /\
    (forall rd, pg (mvs d') !! rd = if decide (rd ∈ x_ws x ∖ bad)
       then (fun p => if N.eqb (m_creator p.1) t
                      then (Meta (m_creator p.1) (Some (wm_next (wk (mvs d)))) (m_del p.1) (m_idx p.1), p.2) else p) <$> pg (mvs d) !! rd
       else pg (mvs d) !! rd).
Proof.
  intros E. destruct (commit_start_some t _ x E) as (cts & w & Ec & Hc & Hw).
  unfold tm_commit. assert (Eo : obj d t = Some x) by (unfold obj; by rewrite E). rewrite Eo.
  destruct (running_some _ _ _ E) as [Hx Hs]. rewrite Hs, Ec. eexists. split; [reflexivity|]. cbn [end_txn d_old mvs d_locks d_log d_sess].
  set (s1 := MV _ _ _ _ _ _).
  destruct (stamp_fold t cts (elements (x_ws x ∖ bad)) s1 (NoDup_elements _)) as (H1 & H2 & H3 & H4 & H5 & H6). cbn zeta in *.
  split; [rewrite lookup_insert; by subst cts|]. split; [rewrite stamp_all_running; unfold running; cbn; by rewrite lookup_insert|].
  split; [exact H3|]. split; [exact H1|]. do 3 (split; [done|]). split.
  - intros Hb. unfold stamp_all. cbn [prune wk]. rewrite H4. cbn [wk s1]. rewrite Hw. subst cts. by apply next_ts_commit.
  - intros rd. unfold stamp_all. cbn [prune pg]. rewrite H6. subst cts.
    destruct (decide (rd ∈ elements _)) as [Hi|Hi]; [rewrite decide_True by set_solver|rewrite decide_False by set_solver]; done.
Qed.

(** An inserted row after the abort of its transaction. *)
Lemma tm_abort_running t d x : running (mvs d) t = Some x ->
  running (mvs (tm_abort t d)) t = None /\ nid (mvs (tm_abort t d)) = nid (mvs d) /\
  (exists x', d_old (tm_abort t d) !! t = Some x' /\ x_state x' = Aborted) /\
  (forall rd, rd ∉ x_ws x -> pg (mvs (tm_abort t d)) !! rd = pg (mvs d) !! rd /\ lk (mvs (tm_abort t d)) !! rd = lk (mvs d) !! rd) /\
  (forall rd p, rd ∈ x_ws x -> lk (mvs d) !! rd = None -> pg (mvs d) !! rd = Some p ->
     pg (mvs (tm_abort t d)) !! rd = Some (Meta t None true None, p.2) /\ lk (mvs (tm_abort t d)) !! rd = None).
Proof.
  intros E. pose proof (abort_not_running t (mvs d)) as Hr. pose proof E as E0. apply running_some in E0 as [Hx Hs].
  unfold tm_abort. assert (Eo : obj d t = Some x) by (unfold obj; by rewrite E). rewrite Eo, Hs. cbn [end_txn mvs d_old].
  split; [exact Hr|]. unfold abort. rewrite E. cbn [snd prune nid pg lk].
  destruct (undo_fold t (elements (x_ws x)) (mvs d) (NoDup_elements _)) as (U1 & U2 & U3 & U4 & U5 & U6). cbn zeta in *.
  split; [done|]. split; [rewrite lookup_insert; eauto|]. split.
  - intros rd Hni. apply U5. set_solver.
  - intros rd p Hin Hl Hp. destruct (U6 rd ltac:(set_solver)) as [P1 P2]. rewrite P1, P2. unfold undo_row. rewrite Hl. cbn.
    rewrite lookup_alter, Hp. done.
Qed.

(** A tombstone that was never committed is read by nobody else. *)
Lemma next_reads_unborn st i rd t y : pg st !! rd = Some (Meta t None true None, y) -> lk st !! rd = None ->
  next_reads st i rd = None.
Proof.
  intros Hp Hl. rewrite next_reads_eq. unfold read. cbn [pg]. rewrite Hp. unfold resolve. cbn [tx]. rewrite lookup_insert. cbn [x_level x_read].
  unfold get_visible, visibility. cbn [fst snd m_creator m_ts m_del committed lk]. rewrite Hl, orb_false_r.
  destruct (t =? nid st) eqn:E; destruct i; cbn [walk]; try done; destruct (S _); done.
Qed.

(** An uncommitted row of another transaction without older versions. *)
Lemma next_reads_uncommitted st i rd t m y : pg st !! rd = Some (m, y) -> m_creator m = t -> m_ts m = None ->
  lk st !! rd = None -> t < nid st -> i <> LRU -> next_reads st i rd = None.
Proof.
  intros Hp Hc Ht Hl Hlt Hi. rewrite next_reads_eq. unfold read. cbn [pg]. rewrite Hp. unfold resolve. cbn [tx]. rewrite lookup_insert. cbn [x_level x_read].
  unfold get_visible, visibility, committed. cbn [fst snd lk]. rewrite Hl, Ht, Hc.
  destruct (N.eqb_spec t (nid st)); [lia|]. cbn [orb]. destruct i; try done; cbn [walk]; by destruct (S _).
Qed.

(** ** Whole statements *)

Lemma wm_next_update x : wm_next (update_watermark x) = wm_next x.
Proof. unfold update_watermark. by destruct (wm_active x). Qed.

Lemma begin_next i st : wm_next (wk st) + 1 < 2 ^ 64 -> wm_next (wk (begin i st).2) = wm_next (wk st) + 1.
Proof.
  intros H. unfold begin, get_next_ts_and_register. cbn. unfold add_txn. rewrite wm_next_update. cbn.
  unfold u64_incr. apply N.mod_small. lia.
Qed.

Lemma begin_pg i st : pg (begin i st).2 = pg st /\ lk (begin i st).2 = lk st.
Proof. done. Qed.

Lemma abort_next t st : wm_next (wk (abort t st).2) = wm_next (wk st).
Proof.
  unfold abort. destruct (running st t) as [x|]; [|done]. cbn. unfold remove_txn. rewrite wm_next_update. cbn.
  by destruct (undo_fold t (elements (x_ws x)) st (NoDup_elements _)) as (_ & _ & -> & _).
Qed.

Lemma running_t_begin i d t : t < nid (mvs d) -> running (mvs (t_begin i d)) t = running (mvs d) t.
Proof. intros H. destruct (fr_begin (t + 1) i (mvs d)) as (_ & _ & F). apply F; lia. Qed.

Lemma flushes_ok_empty e : flushes_ok e ∅ = true.
Proof. unfold flushes_ok. by rewrite elements_empty. Qed.

(** A commit of a running transaction whose pages can all be flushed. *)
Lemma f_commit_running t e d x : running (mvs d) t = Some x -> flushes_ok e (x_ws x) = true ->
  exists d', f_commit t e d = (true, d') /\ nid (mvs d') = nid (mvs d) /\ d_sess d' = d_sess d /\
    (wm_next (wk (mvs d)) + 3 < 2 ^ 64 -> wm_next (wk (mvs d')) = wm_next (wk (mvs d)) + 1) /\
    (forall rd, pg (mvs d') !! rd = if decide (rd ∈ x_ws x ∖ e_bad e)
       then (fun p => if N.eqb (m_creator p.1) t
                      then (Meta (m_creator p.1) (Some (wm_next (wk (mvs d)))) (m_del p.1) (m_idx p.1), p.2) else p) <$> pg (mvs d) !! rd
       else pg (mvs d) !! rd).
Proof.
  intros E Fl. unfold f_commit.
  destruct (tm_commit_running t (e_bad e) (add_log (WCommit t) d) x E) as (d1 & E1 & H1 & H2 & H3 & H4 & H5 & H6 & H7 & H8 & H9).
  rewrite E1. assert (Hw : ws_of d1 t = x_ws x) by (unfold ws_of, obj; by rewrite H2, H1). rewrite Hw, Fl.
  eexists. split; [reflexivity|]. cbn [release set_locks mvs d_sess]. done.
Qed.

Lemma sql_begin j i e d : wm_next (wk (mvs d)) + 6 < 2 ^ 64 ->
  exists d', execute_sql j (SBegin i) e d = (POk [], d') /\ nid (mvs d') = nid (mvs d) + 2 /\
    wm_next (wk (mvs d')) = wm_next (wk (mvs d)) + 3 /\ (forall rd, pg (mvs d') !! rd = pg (mvs d) !! rd) /\
    is_Some (running (mvs d') (nid (mvs d) + 1)) /\ d_sess d' = d_sess d.
Proof.
  intros Hb. unfold execute_sql. rewrite f_begin_id. set (n := nid (mvs d)). set (d0 := (f_begin j d).2).
  assert (N0 : nid (mvs d0) = n + 1) by apply begin_nid.
  assert (W0 : wm_next (wk (mvs d0)) = wm_next (wk (mvs d)) + 1) by (apply begin_next; lia).
  cbn [engine]. destruct (running_begin j (mvs d)) as [ts Hr].
  assert (Hr1 : running (mvs (t_begin i d0)) n = Some (Txn j Running ts 0 [] ∅)).
  { rewrite running_t_begin by lia. exact Hr. }
  pose proof (begin_next i (mvs d0) ltac:(lia)) as W1.
  destruct (f_commit_running n e (t_begin i d0) _ Hr1 (flushes_ok_empty e)) as (d2 & E2 & C1 & C2 & C3 & C4).
  rewrite E2. exists d2. split; [done|].
  assert (W1' : wm_next (wk (mvs (t_begin i d0))) = wm_next (wk (mvs d)) + 2) by (unfold t_begin; cbn [set_mv mvs]; lia).
  split; [rewrite C1; unfold t_begin; cbn [set_mv mvs]; rewrite begin_nid; lia|].
  split; [rewrite C3 by lia; lia|]. split; [intros rd; rewrite C4; rewrite decide_False by (cbn; set_solver); done|].
  split; [|rewrite C2; done].
  pose proof (step_f_commit n e (t_begin i d0)) as [_ (_ & _ & F) _ _]. rewrite E2 in F. cbn [snd] in F.
  rewrite F; [|lia|unfold t_begin; cbn [set_mv mvs]; rewrite begin_nid; lia].
  destruct (running_begin i (mvs d0)) as [ts2 H2]. rewrite N0 in H2. unfold t_begin. cbn [set_mv mvs]. rewrite H2. eauto.
Qed.

Lemma sql_insert j rd y e d : wm_next (wk (mvs d)) + 6 < 2 ^ 64 -> pg (mvs d) !! rd = None ->
  e_bad e = ∅ -> flushes_ok e {[rd]} = true ->
  exists d', execute_sql j (SWork [Ins rd y] true) e d = (POk [], d') /\
    wm_next (wk (mvs d')) = wm_next (wk (mvs d)) + 2 /\
    (exists c, pg (mvs d') !! rd = Some (Meta (nid (mvs d)) (Some c) false None, y) /\ c < wm_next (wk (mvs d'))) /\
    d_sess d' = d_sess d.
Proof.
  intros Hb Hp He Hf. unfold execute_sql. rewrite f_begin_id. set (n := nid (mvs d)). set (d0 := (f_begin j d).2).
  assert (W0 : wm_next (wk (mvs d0)) = wm_next (wk (mvs d)) + 1) by (apply begin_next; lia).
  destruct (running_begin j (mvs d)) as [ts Hr]. assert (Hr0 : running (mvs d0) n = Some (Txn j Running ts 0 [] ∅)) by exact Hr.
  assert (Hp0 : pg (mvs d0) !! rd = None) by exact Hp.
  assert (S0 : d_sess d0 = d_sess d) by done.
  clearbody d0. cbn [engine row_ops]. unfold row_op. rewrite Hr0. cbn [set_locks mvs]. unfold insert. rewrite Hr0, Hp0. cbn [fst snd x_level x_state x_read x_commit x_logs x_ws].
  set (d1 := set_mv _ _).
  assert (Hr1 : running (mvs d1) n = Some (Txn j Running ts 0 [] ({[rd]} ∪ ∅))).
  { unfold running, d1. cbn. by rewrite lookup_insert. }
  assert (W1 : wm_next (wk (mvs d1)) = wm_next (wk (mvs d0))) by done.
  assert (P1 : pg (mvs d1) !! rd = Some (Meta n None false None, y)) by (unfold d1; cbn; by rewrite lookup_insert).
  assert (S1 : d_sess d1 = d_sess d0) by done.
  clearbody d1. destruct (f_commit_running n e d1 _ Hr1) as (d2 & E2 & C1 & C2 & C3 & C4).
  { cbn. by rewrite (right_id_L ∅ (∪)). }
  rewrite E2. exists d2. split; [done|]. split; [rewrite C3 by lia; lia|]. split; [|congruence].
  exists (wm_next (wk (mvs d1))). split; [|rewrite C3 by lia; lia].
  rewrite C4, decide_True by (rewrite He; cbn; set_solver). rewrite P1. cbn. by rewrite N.eqb_refl.
Qed.

Lemma sql_rollback j e d : wm_next (wk (mvs d)) + 6 < 2 ^ 64 ->
  exists d', execute_sql j (SRollback false) e d = (POk [], d') /\
    wm_next (wk (mvs d')) = wm_next (wk (mvs d)) + 1 /\ (forall rd, pg (mvs d') !! rd = pg (mvs d) !! rd) /\ d_sess d' = d_sess d.
Proof.
  intros Hb. unfold execute_sql. rewrite f_begin_id. set (n := nid (mvs d)). set (d0 := (f_begin j d).2).
  assert (W0 : wm_next (wk (mvs d0)) = wm_next (wk (mvs d)) + 1) by (apply begin_next; lia).
  destruct (running_begin j (mvs d)) as [ts Hr]. assert (Hr0 : running (mvs d0) n = Some (Txn j Running ts 0 [] ∅)) by exact Hr.
  cbn [engine]. eexists. split; [reflexivity|]. unfold e_abort.
  assert (Hr1 : running (mvs (add_log (WAbort n) d0)) n = Some (Txn j Running ts 0 [] ∅)) by exact Hr0.
  destruct (tm_abort_running n _ _ Hr1) as (A1 & A2 & A3 & A4 & A5). split; [|split].
  - rewrite <- W0. unfold tm_abort. assert (Eo : obj (add_log (WAbort n) d0) n = Some (Txn j Running ts 0 [] ∅)) by (unfold obj; by rewrite Hr1).
    rewrite Eo. cbn [x_state end_txn mvs]. rewrite abort_next. done.
  - intros rd. destruct (A4 rd) as [-> _]; [cbn; set_solver|]. done.
  - rewrite (k_sess _ _ _ (step_tm_abort n _)). done.
Qed.

(** ** A statement that only inserts *)
Definition is_ins (o : rop) : Prop := match o with Ins _ _ => True | _ => False end.

(** [st'] is [st] with new rows of [t], which are its write set beyond [w0]. *)
Definition inserted (t : N) (w0 : gset rid) (st st' : mv) : Prop :=
  exists x, running st' t = Some x /\ w0 ⊆ x_ws x /\ lk st' = lk st /\ nid st' = nid st /\ wk st' = wk st /\
    forall rd, rd ∈ x_ws x ∖ w0 /\ pg st !! rd = None /\ (exists y, pg st' !! rd = Some (Meta t None false None, y)) \/
               rd ∉ x_ws x ∖ w0 /\ pg st' !! rd = pg st !! rd.

Lemma inserted_step t x st rd y : running st t = Some x -> pg st !! rd = None -> rd ∉ x_ws x ->
  inserted t (x_ws x) st (insert t rd y st).2.
Proof.
  intros E Hp Hni. destruct (running_some _ _ _ E) as [Hx Hs]. unfold insert. rewrite E, Hp. cbn [snd]. eexists.
  split; [unfold running; cbn; rewrite lookup_insert; cbn; rewrite Hs; reflexivity|]. cbn.
  split; [set_solver|]. do 3 (split; [done|]). intros r. destruct (decide (r = rd)) as [->|Hne].
  - left. split; [set_solver|]. split; [done|]. rewrite lookup_insert. eauto.
  - right. split; [set_solver|]. by rewrite lookup_insert_ne.
Qed.

Lemma inserted_refl t x st : running st t = Some x -> inserted t (x_ws x) st st.
Proof. intros E. exists x. split; [done|]. split; [done|]. do 3 (split; [done|]). intros rd. right. split; [set_solver|done]. Qed.

(** Every row of [t]'s write set exists. *)
Definition ws_exist (t : N) (st : mv) : Prop :=
  forall x rd, running st t = Some x -> rd ∈ x_ws x -> is_Some (pg st !! rd).

Lemma ins_ops t ops d b d' x : Forall is_ins ops -> running (mvs d) t = Some x -> ws_exist t (mvs d) ->
  row_ops t ops d = (b, d') ->
  inserted t (x_ws x) (mvs d) (mvs d') /\ (b = true -> forall rd y, Ins rd y ∈ ops ->
    exists z, Ins rd z ∈ ops /\ pg (mvs d') !! rd = Some (Meta t None false None, z)).
Proof.
  revert d x. induction ops as [|o ops IH]; intros d x Hi E We; cbn [row_ops].
  - intros [= <- <-]. split; [by apply inserted_refl|]. intros _ rd y Hin. by apply elem_of_nil in Hin.
  - apply Forall_cons in Hi as [Ho Hi]. destruct o as [rd0 y0|?|?]; [|done|done].
    unfold row_op at 1. rewrite E. cbn [set_locks mvs]. destruct (pg (mvs d) !! rd0) as [p|] eqn:Ep.
    + unfold insert. rewrite E, Ep. cbn. intros [= <- <-]. split; [by apply inserted_refl|done].
    + assert (Hni : rd0 ∉ x_ws x). { intros Hin. destruct (We x rd0 E Hin). congruence. }
      pose proof (inserted_step t x (mvs d) rd0 y0 E Ep Hni) as I1.
      assert (R1 : (insert t rd0 y0 (mvs d)).1 = ROk) by (unfold insert; by rewrite E, Ep). rewrite R1.
      set (d1 := set_mv _ _). assert (M1 : mvs d1 = (insert t rd0 y0 (mvs d)).2) by done. rewrite <- M1 in I1.
      assert (P1 : pg (mvs d1) !! rd0 = Some (Meta t None false None, y0)).
      { rewrite M1. unfold insert. rewrite E, Ep. cbn. by rewrite lookup_insert. }
      clearbody d1. destruct I1 as (x1 & A1 & A2 & A3 & A4 & A5 & A6).
      assert (We1 : ws_exist t (mvs d1)).
      { intros x' rd Hx' Hin. assert (x' = x1) as -> by congruence. destruct (A6 rd) as [(_ & _ & y & ->)|[Hn ->]]; [eauto|].
        destruct (decide (rd ∈ x_ws x)) as [Hw|Hw]; [by apply (We x)|set_solver]. }
      intros E2. destruct (IH d1 x1 Hi A1 We1 E2) as [(x2 & B1 & B2 & B3 & B4 & B5 & B6) B7]. split.
      * exists x2. split; [done|]. split; [set_solver|]. split; [congruence|]. split; [congruence|]. split; [congruence|].
        intros rd. destruct (A6 rd) as [(C1 & C2 & y & C3)|[C1 C2]].
        -- left. split; [set_solver|]. split; [done|]. destruct (B6 rd) as [(D1 & D2 & D3)|[D1 D2]]; [done|]. exists y. congruence.
        -- destruct (B6 rd) as [(D1 & D2 & D3)|[D1 D2]].
           ++ left. split; [set_solver|]. split; [congruence|done].
           ++ right. split; [set_solver|congruence].
      * intros Hb rd y Hin. apply elem_of_cons in Hin as [Hin|Hin].
        -- injection Hin as -> ->. destruct (B6 rd0) as [(D1 & D2 & D3)|[D1 D2]]; [congruence|].
           exists y0. split; [by left|congruence].
        -- destruct (B7 Hb rd y Hin) as (z & Z1 & Z2). exists z. split; [by right|done].
Qed.

Lemma next_reads_none st i rd : pg st !! rd = None -> next_reads st i rd = None.
Proof. intros H. rewrite next_reads_eq. unfold read. cbn [pg]. by rewrite H. Qed.

(** A statement writes the rows it names and no others. *)
Lemma row_op_only t o d b d' x x' : running (mvs d) t = Some x -> row_op t o d = (b, d') -> running (mvs d') t = Some x' ->
  forall rd, rd ∈ x_ws x' -> rd ∈ x_ws x \/ op_rid o = rd.
Proof.
  intros E Er E' rd Hin. destruct (running_some _ _ _ E) as [Hx Hs].
  assert (Same : running (mvs d) t = Some x' -> rd ∈ x_ws x \/ op_rid o = rd).
  { intros H. left. by assert (x' = x) as <- by congruence. }
  unfold row_op in Er. rewrite E in Er. destruct o as [r y|r y|r]; cbn [op_rid] in *; cbn [set_locks mvs] in Er.
  - unfold insert in Er. rewrite E in Er. destruct (pg (mvs d) !! r); cbn in Er; injection Er as <- <-; [auto|].
    unfold running in E'. cbn in E'. rewrite lookup_insert in E'. cbn in E'. rewrite Hs in E'. injection E' as <-. cbn in Hin. set_solver.
  - unfold update in Er. rewrite E in Er. destruct (pg (mvs d) !! r) as [[m old]|]; cbn in Er; [|injection Er as <- <-; auto].
    destruct (m_del m); [injection Er as <- <-; auto|]. destruct (_ && _); [injection Er as <- <-; auto|]. injection Er as <- <-.
    unfold running in E'. cbn in E'. rewrite lookup_insert in E'. cbn in E'. rewrite Hs in E'. injection E' as <-. cbn in Hin. set_solver.
  - unfold delete_row in Er. rewrite E in Er. destruct (pg (mvs d) !! r) as [[m old]|]; cbn in Er; [|injection Er as <- <-; auto].
    destruct (m_del m); [injection Er as <- <-; auto|]. destruct (_ && _); [injection Er as <- <-; auto|]. injection Er as <- <-.
    unfold running in E'. cbn in E'. rewrite lookup_insert in E'. cbn in E'. rewrite Hs in E'. injection E' as <-. cbn in Hin. set_solver.
Qed.

Lemma row_ops_only t ops d b d' x x' : running (mvs d) t = Some x -> row_ops t ops d = (b, d') -> running (mvs d') t = Some x' ->
  forall rd, rd ∈ x_ws x' -> rd ∈ x_ws x \/ exists o, o ∈ ops /\ op_rid o = rd.
Proof.
  revert d x. induction ops as [|o ops IH]; intros d x E; cbn [row_ops].
  - intros [= <- <-] E' rd Hin. left. by assert (x' = x) as <- by congruence.
  - destruct (row_op t o d) as [b1 d1] eqn:E1. intros E2 E' rd Hin.
    pose proof (row_op_grows _ _ _ _ _ E1) as G. unfold grows in G. rewrite E in G. destruct G as (x1 & R1 & _ & _).
    assert (O1 : forall r, r ∈ x_ws x1 -> r ∈ x_ws x \/ op_rid o = r) by (by eapply row_op_only).
    destruct b1.
    + destruct (IH d1 x1 R1 E2 E' rd Hin) as [H|(o' & H1 & H2)]; [|right; exists o'; split; [by right|done]].
      destruct (O1 rd H) as [?|?]; [by left|]. right. exists o. split; [by left|done].
    + injection E2 as <- <-. assert (x' = x1) as -> by congruence.
      destruct (O1 rd Hin) as [?|?]; [by left|]. right. exists o. split; [by left|done].
Qed.

(** A row that an accepted statement inserts did not exist before. *)
Lemma row_op_pg t o d b d' rd : row_op t o d = (b, d') -> pg (mvs d') !! rd = None -> pg (mvs d) !! rd = None.
Proof.
  unfold row_op. destruct o as [r y|r y|r].
  - set (d1 := match running (mvs d) t with Some _ => _ | None => _ end). assert (M : mvs d1 = mvs d) by (unfold d1; by destruct (running (mvs d) t)).
    clearbody d1. unfold insert. rewrite M. destruct (running (mvs d) t); [|by intros [= <- <-]].
    destruct (pg (mvs d) !! r) eqn:E; intros [= <- <-]; cbn; [done|].
    destruct (decide (rd = r)) as [->|Hne]; [by rewrite lookup_insert|by rewrite lookup_insert_ne].
  - cbn. unfold update. destruct (running (mvs d) t); [|by intros [= <- <-]].
    destruct (pg (mvs d) !! r) as [[m old]|]; [|by intros [= <- <-]]. destruct (m_del m); [by intros [= <- <-]|].
    destruct (_ && _); intros [= <- <-]; cbn; [done|]. destruct (decide (rd = r)) as [->|Hne]; [by rewrite lookup_insert|by rewrite lookup_insert_ne].
  - cbn. unfold delete_row. destruct (running (mvs d) t); [|by intros [= <- <-]].
    destruct (pg (mvs d) !! r) as [[m old]|]; [|by intros [= <- <-]]. destruct (m_del m); [by intros [= <- <-]|].
    destruct (_ && _); intros [= <- <-]; cbn; [done|]. destruct (decide (rd = r)) as [->|Hne]; [by rewrite lookup_insert|by rewrite lookup_insert_ne].
Qed.

Lemma row_ops_ins_new t ops d d' rd y : row_ops t ops d = (true, d') -> Ins rd y ∈ ops -> pg (mvs d) !! rd = None.
Proof.
  revert d. induction ops as [|o ops IH]; intros d; cbn [row_ops]; [intros _ H; by apply elem_of_nil in H|].
  destruct (row_op t o d) as [[] d1] eqn:E1; [|done]. intros E2 Hin. apply elem_of_cons in Hin as [<-|Hin].
  - unfold row_op in E1. destruct (running (mvs d) t) eqn:E; cbn in E1; unfold insert in E1; rewrite E in E1; [|done].
    by destruct (pg (mvs d) !! rd).
  - eapply row_op_pg; [exact E1|]. by apply IH.
Qed.
