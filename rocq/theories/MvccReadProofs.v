(** * Timestamps of versions, and reads that repeat *)
From stdpp Require Import gmap list.
From Coq Require Import NArith Lia ZifyBool ZifyNat ZifyN.
From Verif Require Import WatermarkModel WatermarkProofs MvccModel MvccSpec MvccRowProofs MvccProofs MvccDirtyProofs.
Local Open Scope N_scope.

Lemma commit_clock t st cts st' : commit t st = (RCommitted cts, st') ->
  cts = wm_next (wk st).
Proof.
  intros H. unfold commit, commit_start in H. destruct (running st t); [|done]. cbn [get_next_ts] in H. by injection H as <- <-.
Qed.

(** A step adds at most one version to a row, stamped with the clock's time. *)
Lemma wstep_adds st w o r st' rd : mstep o st = (r, st') -> calm w o ->
  versions (wstep w (o, r)) rd = versions w rd \/
  exists t v, o = OCommit t /\ r = RCommitted (wm_next (wk st)) /\
    versions (wstep w (o, r)) rd = (wm_next (wk st), v) :: versions w rd.
Proof.
  intros Hm Hc. destruct o as [i|u rd' y|u c rd' y|u rd'|u rd'|u|u| |u|u rd'|]; destruct r as [n ts| | |v|c0]; cbn [wstep];
    try (by left); try done.
  assert (c0 = wm_next (wk st)) as -> by (by eapply commit_clock).
  unfold finish_commit. destruct (now w !! u) as [a|]; [|by left]. rewrite versions_publish.
  destruct (writes a rd) as [|v ws]; [by left|right]. exists u, v. done.
Qed.

Lemma commit_ticks t st cts st' : commit t st = (RCommitted cts, st') -> bounded (wk st) -> wm_next (wk st) + 2 < 2 ^ 64 ->
  wm_next (wk st') = wm_next (wk st) + 1.
Proof.
  intros H Hb Hr. unfold commit, commit_start in H. destruct (running st t) as [x|]; [|done]. cbn [get_next_ts] in H.
  injection H as <- <-. destruct (clk_commit (wk st) (x_read x) Hb Hr) as (_ & E & _). cbn [get_next_ts fst] in E.
  match goal with |- context [foldr ?f ?s ?l] => assert (forall l0, wk (foldr f s l0) = wk s) as W end.
  { induction l0 as [|? ? IH]; [done|]. exact IH. }
  cbn [prune wk]. rewrite W. exact E.
Qed.

Definition in_time (st : mv) (w : world) : Prop := forall rd c v, (c, v) ∈ versions w rd -> c < wm_next (wk st).

Lemma mstep_in_time st w o r st' : mstep o st = (r, st') -> inv st w -> calm w o -> wm_next (wk st) + 2 < 2 ^ 64 ->
  in_time st w -> in_time st' (wstep w (o, r)).
Proof.
  intros Hm HI Hc Hroom T rd c v Hin. pose proof (mstep_inv st w o HI Hc Hroom) as S. rewrite Hm in S. destruct S as (_ & Nx & _).
  destruct (wstep_adds st w o r st' rd Hm Hc) as [E|(t & v0 & -> & -> & E)]; rewrite E in Hin.
  - specialize (T _ _ _ Hin). lia.
  - pose proof (commit_ticks _ _ _ _ Hm (i_clk _ _ HI) Hroom). apply elem_of_cons in Hin as [[= -> ->]|Hin]; [lia|].
    specialize (T _ _ _ Hin). lia.
Qed.

Lemma mrun_in_time ops : forall st w rs st', inv st w -> mrun st ops = (rs, st') -> calm_history w (zip ops rs) ->
  wm_next (wk st) + N.of_nat (length ops) + 2 < 2 ^ 64 -> in_time st w ->
  in_time st' (fold_left wstep (zip ops rs) w).
Proof.
  induction ops as [|o ops IH]; intros st w rs st' HI Hrun Hcalm Hroom T; cbn [mrun length] in *.
  - by injection Hrun as <- <-.
  - destruct (mstep o st) as [r st1] eqn:E1. destruct (mrun st1 ops) as [rs2 st2] eqn:E2. injection Hrun as <- <-.
    cbn [zip zip_with calm_history fold_left] in *. destruct Hcalm as [Hc1 Hc2]. cbn [fst] in Hc1.
    pose proof (mstep_inv st w o HI Hc1 ltac:(lia)) as S. rewrite E1 in S. destruct S as (I1 & N1 & _).
    eapply IH; [exact I1|exact E2|exact Hc2|lia|]. eapply mstep_in_time; eauto. lia.
Qed.

(** A step that a running transaction survives does not change what it must see of a row it
    does not write. *)
Lemma calm_keeps st w o r st' t a : mstep o st = (r, st') -> inv st w -> calm w o -> now w !! t = Some a ->
  now (wstep w (o, r)) !! t = None \/ exists a', now (wstep w (o, r)) !! t = Some a' /\ a_snap a' = a_snap a /\
    a_level a' = a_level a /\ (forall rd, writes a' rd = [] -> writes a rd = []) /\
    (forall rd, as_of (a_snap a) (versions (wstep w (o, r)) rd) = as_of (a_snap a) (versions w rd)).
Proof.
  intros Hm HI Hc Ha.
  assert (V : forall rd, as_of (a_snap a) (versions (wstep w (o, r)) rd) = as_of (a_snap a) (versions w rd)).
  { intros rd. destruct (wstep_adds st w o r st' rd Hm Hc) as [->|(u & v & -> & -> & ->)]; [done|]. cbn [as_of].
    pose proof (i_reg _ _ HI _ _ Ha) as Hreg. destruct (i_clk _ _ HI) as (_ & B & _). specialize (B _ Hreg).
    by replace (wm_next (wk st) <=? a_snap a) with false by lia. }
  assert (K : now (wstep w (o, r)) !! t = None \/ exists a', now (wstep w (o, r)) !! t = Some a' /\ a_snap a' = a_snap a /\
    a_level a' = a_level a /\ (forall rd, writes a' rd = [] -> writes a rd = [])).
  2: { destruct K as [?|(a' & K1 & K2 & K3 & K4)]; [by left|right]. exists a'. auto. }
  clear V.
  assert (Same : now w !! t = None \/ exists a', now w !! t = Some a' /\ a_snap a' = a_snap a /\ a_level a' = a_level a /\
    (forall rd, writes a' rd = [] -> writes a rd = [])) by eauto 10.
  assert (Add : forall u rd v, now (add_write u rd v w) !! t = None \/
    exists a', now (add_write u rd v w) !! t = Some a' /\ a_snap a' = a_snap a /\ a_level a' = a_level a /\
    (forall rd, writes a' rd = [] -> writes a rd = [])).
  { intros u rd v. right. cbn. destruct (decide (t = u)) as [<-|Hne].
    - rewrite lookup_alter, Ha. eexists. split; [done|]. cbn. do 2 (split; [done|]). intros rd'. unfold writes. cbn.
      destruct (decide (rd' = rd)) as [->|Hrd]; [by rewrite lookup_insert|by rewrite lookup_insert_ne].
    - rewrite lookup_alter_ne by done. eauto 10. }
  assert (Fin : forall u p, now (World p (delete u (now w))) !! t = None \/
    exists a', now (World p (delete u (now w))) !! t = Some a' /\ a_snap a' = a_snap a /\ a_level a' = a_level a /\
    (forall rd, writes a' rd = [] -> writes a rd = [])).
  { intros u p. cbn. destruct (decide (t = u)) as [<-|Hne]; [left; by rewrite lookup_delete|].
    rewrite lookup_delete_ne by done. exact Same. }
  destruct o as [i|u rd y|u c rd y|u rd|u rd|u|u| |u|u rd|]; destruct r as [n ts| | |v|c0]; cbn [wstep];
    try exact Same; try apply Add; try apply Fin; try done.
  - right. cbn [mstep] in Hm. unfold begin in Hm. destruct (get_next_ts_and_register (wk st)) as [w1 ts1].
    injection Hm as <- <- <-. cbn. destruct (i_run _ _ HI t a Ha) as (x & Hx & _).
    pose proof (i_ids _ _ HI _ _ Hx). rewrite lookup_insert_ne by lia. eauto 10.
  - unfold finish_commit. destruct (now w !! u); [apply Fin|exact Same].
Qed.

Lemma mrun_calm_keeps ops : forall st w rs st' t a, inv st w -> mrun st ops = (rs, st') -> calm_history w (zip ops rs) ->
  wm_next (wk st) + N.of_nat (length ops) + 2 < 2 ^ 64 -> now w !! t = Some a ->
  forall a', now (fold_left wstep (zip ops rs) w) !! t = Some a' ->
    a_snap a' = a_snap a /\ a_level a' = a_level a /\ (forall rd, writes a' rd = [] -> writes a rd = []) /\
    (forall rd, as_of (a_snap a) (versions (fold_left wstep (zip ops rs) w) rd) = as_of (a_snap a) (versions w rd)).
Proof.
  induction ops as [|o ops IH]; intros st w rs st' t a HI Hrun Hcalm Hroom Ha a' Ha'; cbn [mrun length] in *.
  - injection Hrun as <- <-. cbn in Ha'. assert (a' = a) by congruence. subst a'. done.
  - destruct (mstep o st) as [r st1] eqn:E1. destruct (mrun st1 ops) as [rs2 st2] eqn:E2. injection Hrun as <- <-.
    cbn [zip zip_with calm_history fold_left] in *. destruct Hcalm as [Hc1 Hc2]. cbn [fst] in Hc1.
    pose proof (mstep_inv st w o HI Hc1 ltac:(lia)) as S. rewrite E1 in S. destruct S as (I1 & N1 & _).
    destruct (calm_keeps st w o r st1 t a E1 HI Hc1 Ha) as [Hn|(a1 & A1 & A2 & A3 & A4 & A5)].
    + exfalso. destruct (i_run _ _ HI t a Ha) as (x & Hx & _). pose proof (i_ids _ _ HI _ _ Hx).
      pose proof (mstep_nid _ _ _ _ E1). rewrite (mrun_no_return ops st1 _ rs2 st2 t E2 ltac:(lia) Hn) in Ha'. done.
    + destruct (IH st1 _ rs2 st2 t a1 I1 E2 Hc2 ltac:(lia) A1 a' Ha') as (B1 & B2 & B3 & B4).
      split; [congruence|]. split; [congruence|]. split; [auto|]. intros rd. rewrite <- A5, <- A2. apply B4.
Qed.

Lemma mrun_app st ops1 ops2 : mrun st (ops1 ++ ops2) =
  let (rs1, st1) := mrun st ops1 in let (rs2, st2) := mrun st1 ops2 in (rs1 ++ rs2, st2).
Proof.
  revert st. induction ops1 as [|o ops1 IH]; intros st; cbn [app mrun].
  - by destruct (mrun st ops2).
  - destruct (mstep o st) as [r st1]. rewrite IH. destruct (mrun st1 ops1) as [rs1 st2].
    by destruct (mrun st2 ops2).
Qed.

Lemma mrun_length ops : forall st rs st', mrun st ops = (rs, st') -> length rs = length ops.
Proof.
  induction ops as [|o ops IH]; intros st rs st' H; cbn [mrun] in H.
  - by injection H as <- <-.
  - destruct (mstep o st) as [r st1]. destruct (mrun st1 ops) as [rs2 st2] eqn:E. injection H as <- <-. cbn.
    f_equal. by eapply IH.
Qed.

Lemma mrun_split ops1 ops2 rs1 rs2 st1 st2 st : mrun st ops1 = (rs1, st1) -> mrun st1 ops2 = (rs2, st2) ->
  mrun st (ops1 ++ ops2) = (rs1 ++ rs2, st2) /\ zip (ops1 ++ ops2) (rs1 ++ rs2) = zip ops1 rs1 ++ zip ops2 rs2.
Proof.
  intros R1 R2. split; [by rewrite mrun_app, R1, R2|]. apply zip_with_app. symmetry. by eapply mrun_length.
Qed.

Lemma calm_app tr1 : forall w tr2, calm_history w (tr1 ++ tr2) <->
  calm_history w tr1 /\ calm_history (fold_left wstep tr1 w) tr2.
Proof.
  induction tr1 as [|e tr1 IH]; intros w tr2; cbn [app calm_history fold_left]; [tauto|]. rewrite IH. tauto.
Qed.

(** When every version is older than the snapshot, the newest one is seen. *)
Lemma as_of_all s vs : (forall c v, (c, v) ∈ vs -> c <= s) -> as_of s vs = match vs with [] => None | (_, v) :: _ => v end.
Proof.
  destruct vs as [|[c v] vs]; [done|]. intros H. cbn. specialize (H c v ltac:(by left)). by replace (c <=? s) with true by lia.
Qed.
