(** * Histories of transactions on multi-version rows *)
From stdpp Require Import gmap list.
From Coq Require Import NArith Lia ZifyBool ZifyNat ZifyN.
From Verif Require Import WatermarkModel WatermarkSpec WatermarkProofs MvccModel MvccSpec MvccRowProofs.
Local Open Scope N_scope.

(** ** The clock *)
Lemma clk_begin w w' ts : bounded w -> wm_next w + 2 < 2 ^ 64 -> get_next_ts_and_register w = (w', ts) ->
  ts = wm_next w /\ bounded w' /\ wm_next w' = wm_next w + 1 /\ wm_mark w <= wm_mark w' /\
  (forall x, In x (wm_active w') <-> ts = x \/ In x (wm_active w)).
Proof.
  intros Hb Hr E.
  destruct (step_bounded w OpRegister (wm_next w) Hb I ltac:(lia) ltac:(lia) I) as (B1 & B2 & B3).
  cbn [wm_step] in *. rewrite E in *. cbn [fst] in *.
  unfold get_next_ts_and_register in E. cbn [get_next_ts] in E. injection E as <- <-.
  split; [done|]. split; [done|]. split; [rewrite add_next; cbn [wm_next]; apply u64_incr_small; lia|].
  split; [done|]. intros x. rewrite add_in. done.
Qed.

Lemma clk_commit w rts : bounded w -> wm_next w + 2 < 2 ^ 64 ->
  let w' := remove_txn (update_commit_ts (fst (get_next_ts w)) (wm_next w)) rts in
  bounded w' /\ wm_next w' = wm_next w + 1 /\ wm_mark w <= wm_mark w' /\
  (forall x, In x (wm_active w') <-> In x (wm_active w) /\ rts <> x).
Proof.
  intros Hb Hr.
  pose proof (step_bounded w OpNext (wm_next w) Hb I ltac:(lia) ltac:(lia) I) as (B1 & B2 & B3).
  cbn [wm_step get_next_ts fst] in *. rewrite u64_incr_small in * by lia. set (w1 := mkWm _ _ _) in *.
  pose proof (step_bounded w1 (OpCommitTs (wm_next w)) (wm_next w + 1) B1 I
    ltac:(cbn; lia) ltac:(lia) ltac:(cbn; lia)) as (C1 & C2 & C3).
  cbn [wm_step update_commit_ts_and_get_watermark fst] in *.
  assert (N2 : wm_next (update_commit_ts w1 (wm_next w)) = wm_next w + 1).
  { rewrite commit_next, sat_small by lia. cbn. lia. }
  destruct (remove_bounded _ rts C1) as (D1 & D2 & D3). split; [done|]. rewrite remove_next. split; [done|]. split; [lia|].
  intros x. rewrite remove_in, commit_active. done.
Qed.

(** ** The invariant *)
Definition wrs (w : world) (rd : rid) (u : N) : option (list (option tuple)) :=
  (fun a => writes a rd) <$> (now w !! u).

Definition row_inv (st : mv) (w : world) (rd : rid) : Prop :=
  match pg st !! rd with
  | Some p => row_ok (tx st) (wrs w rd) (nid st) (wm_mark (wk st)) (nlogs st) (lk st !! rd) p.1 p.2 (versions w rd)
  | None => lk st !! rd = None /\ versions w rd = [] /\ nobody (wrs w rd)
  end.

Record inv (st : mv) (w : world) : Prop := Inv {
  i_clk : bounded (wk st);
  i_ids : forall u x, tx st !! u = Some x -> u < nid st;
  i_run : forall u a, now w !! u = Some a -> exists x, tx st !! u = Some x /\ x_state x = Running /\
            x_level x = a_level a /\ x_read x = a_snap a /\ (forall rd, rd ∈ x_ws x <-> writes a rd <> []);
  i_now : forall u x, tx st !! u = Some x -> x_state x = Running -> exists a, now w !! u = Some a;
  i_reg : forall u a, now w !! u = Some a -> In (a_snap a) (wm_active (wk st));
  i_uniq : forall u1 u2 a1 a2, now w !! u1 = Some a1 -> now w !! u2 = Some a2 -> a_snap a1 = a_snap a2 -> u1 = u2;
  i_rows : forall rd, row_inv st w rd }.

Lemma inv_init : inv mv_init world0.
Proof.
  constructor; cbn; try (intros; congruence); try (intros *; rewrite lookup_empty; discriminate).
  - apply new_bounded.
  - intros rd. unfold row_inv. cbn. rewrite lookup_empty. split; [done|]. split; [done|]. intros u. by left.
Qed.

Lemma running_spec st t x : running st t = Some x <-> tx st !! t = Some x /\ x_state x = Running.
Proof.
  unfold running. destruct (tx st !! t) as [z|]; [|split; [done|by intros [? _]]].
  destruct (x_state z) eqn:E; split; try done.
  - intros [= ->]. done.
  - by intros [[= ->] _].
  - intros [[= ->] ?]. congruence.
  - intros [[= ->] ?]. congruence.
Qed.

Lemma wrs_none w rd u st : inv st w -> nid st <= u -> wrs w rd u = None.
Proof.
  intros HI Hu. unfold wrs. destruct (now w !! u) as [a|] eqn:E; [|done].
  destruct (i_run _ _ HI u a E) as (x & Hx & _). pose proof (i_ids _ _ HI _ _ Hx). lia.
Qed.

Lemma row_ext txs wr wr' n mark k l m y vs :
  row_ok txs wr n mark k l m y vs -> (forall u, wr' u = wr u) -> wr n = None -> row_ok txs wr' n mark k l m y vs.
Proof.
  intros H Hw Hn. eapply (row_frame txs txs wr wr' n n mark mark k k l m y vs n); eauto; try lia.
  left. by rewrite Hw.
Qed.

(** Rows the acting transaction does not touch. *)
Lemma row_inv_frame st st' w w' t rd :
  row_inv st w rd -> pg st' !! rd = pg st !! rd -> lk st' !! rd = lk st !! rd -> versions w' rd = versions w rd ->
  (forall u, u <> t -> tx st' !! u = tx st !! u) -> (forall u, u <> t -> wrs w' rd u = wrs w rd u) ->
  (nid st <= t \/ (wrs w rd t = Some [] /\ tx st !! t <> None)) -> (wrs w' rd t = None \/ wrs w' rd t = Some []) ->
  nid st <= nid st' -> wm_mark (wk st) <= wm_mark (wk st') -> (nlogs st <= nlogs st')%nat ->
  row_inv st' w' rd.
Proof.
  unfold row_inv. intros H -> -> -> Htx Hwr Hold Hnew Hn Hm Hk. destruct (pg st !! rd) as [[m y]|].
  - eapply row_frame; eauto.
  - destruct H as (H1 & H2 & Nb). split; [done|]. split; [done|]. intros u.
    destruct (decide (u = t)) as [->|Hne]; [done|]. rewrite Hwr by done. apply Nb.
Qed.

(** Pruning forgets only finished transactions. *)
Lemma prune_lookup st u : tx (prune st) !! u = tx st !! u \/
  (tx (prune st) !! u = None /\ forall x, tx st !! u = Some x -> kept (wm_mark (wk st)) x = false).
Proof.
  unfold prune. cbn. rewrite lookup_omap. destruct (tx st !! u) as [x|]; cbn; [|by left].
  unfold get_watermark. destruct (kept (wm_mark (wk st)) x) eqn:E; [by left|right]. split; [done|]. by intros ? [= <-].
Qed.

Lemma inv_prune st w : inv st w -> inv (prune st) w.
Proof.
  intros HI. destruct HI as [Hc Hi Hr Hn Hg Hu Hrow].
  assert (K : forall u x, tx (prune st) !! u = Some x -> tx st !! u = Some x).
  { intros u x. destruct (prune_lookup st u) as [->|[-> _]]; done. }
  constructor; cbn [wk nid]; eauto.
  - intros u a Ha. destruct (Hr u a Ha) as (x & Hx & Hs & Hrest). exists x. split; [|done].
    destruct (prune_lookup st u) as [->|[_ E]]; [done|]. specialize (E x Hx). unfold kept in E. by rewrite Hs in E.
  - intros rd. specialize (Hrow rd). unfold row_inv in *. cbn [pg lk nid wk nlogs prune]. destruct (pg st !! rd) as [[m y]|]; [|done].
    eapply row_prune; [exact Hrow| |apply prune_lookup].
    intros u ws Hw. unfold wrs in Hw. destruct (now w !! u) as [a|] eqn:Ea; [|done].
    destruct (Hr u a Ea) as (x & ? & ? & _). eauto.
Qed.

(** ** Begin *)
Lemma begin_inv i st w : inv st w -> wm_next (wk st) + 2 < 2 ^ 64 ->
  let '(r, st') := begin i st in
  inv st' (wstep w (OBegin i, r)) /\ wm_next (wk st') = wm_next (wk st) + 1 /\ wm_mark (wk st) <= wm_mark (wk st').
Proof.
  intros HI Hroom. unfold begin. destruct (get_next_ts_and_register (wk st)) as [w1 ts] eqn:E.
  destruct (clk_begin _ _ _ (i_clk _ _ HI) Hroom E) as (Ets & B & Nx & Mk & In1). cbn [wk].
  split; [|done]. cbn [wstep]. pose proof HI as [Hc Hi Hr Hn Hg Hu Hrow].
  assert (Fr : now w !! nid st = None).
  { destruct (now w !! nid st) as [a|] eqn:Ea; [|done]. destruct (Hr _ _ Ea) as (x & Hx & _). specialize (Hi _ _ Hx). lia. }
  constructor; cbn [wk tx nid now pg].
  - done.
  - intros u x. destruct (decide (u = nid st)) as [->|Hne]; [lia|]. rewrite lookup_insert_ne by done.
    intros Hx. specialize (Hi _ _ Hx). lia.
  - intros u a. destruct (decide (u = nid st)) as [->|Hne].
    + rewrite !lookup_insert. intros [= <-]. eexists. split; [done|]. cbn. split; [done|]. split; [done|]. split; [done|].
      intros rd. unfold writes. cbn. rewrite lookup_empty. cbn. set_solver.
    + rewrite !lookup_insert_ne by done. apply Hr.
  - intros u x. destruct (decide (u = nid st)) as [->|Hne].
    + rewrite !lookup_insert. intros _ _. by eexists.
    + rewrite !lookup_insert_ne by done. apply Hn.
  - intros u a. destruct (decide (u = nid st)) as [->|Hne].
    + rewrite lookup_insert. intros [= <-]. cbn. apply In1. by left.
    + rewrite lookup_insert_ne by done. intros Ha. apply In1. right. by eapply Hg.
  - assert (Sm : forall u a, now w !! u = Some a -> a_snap a < ts).
    { intros u a Ha. specialize (Hg _ _ Ha). destruct Hc as (_ & Hc & _). specialize (Hc _ Hg). lia. }
    intros u1 u2 a1 a2. destruct (decide (u1 = nid st)) as [->|H1]; destruct (decide (u2 = nid st)) as [->|H2].
    + done.
    + rewrite lookup_insert, lookup_insert_ne by done. intros [= <-] Ha. cbn. specialize (Sm _ _ Ha). lia.
    + rewrite lookup_insert, lookup_insert_ne by done. intros Ha [= <-]. cbn. specialize (Sm _ _ Ha). lia.
    + rewrite !lookup_insert_ne by done. apply Hu.
  - intros rd. eapply (row_inv_frame st _ w _ (nid st)); cbn [pg lk tx nid wk nlogs]; try done.
    + intros u Hu'. by rewrite lookup_insert_ne.
    + intros u Hu'. unfold wrs. cbn. by rewrite lookup_insert_ne.
    + left. lia.
    + right. unfold wrs. cbn. rewrite lookup_insert. done.
    + lia.
Qed.

(** ** Writing *)
Lemma versions_add t rd v w rd' : versions (add_write t rd v w) rd' = versions w rd'.
Proof. done. Qed.

Lemma wrs_add t rd v w a rd' u : now w !! t = Some a ->
  wrs (add_write t rd v w) rd' u = if N.eqb u t then Some (if decide (rd' = rd) then v :: writes a rd else writes a rd')
                                   else wrs w rd' u.
Proof.
  intros Ha. unfold wrs, add_write. cbn. destruct (N.eqb_spec u t) as [->|Hne].
  - rewrite lookup_alter, Ha. cbn. f_equal. unfold writes. cbn. destruct (decide (rd' = rd)) as [->|Hrd].
    + by rewrite lookup_insert.
    + by rewrite lookup_insert_ne.
  - by rewrite lookup_alter_ne.
Qed.

(** Any accepted write of [t] to [rd]: everything but the row itself. *)
Lemma write_inv st st' w t x x' a rd v :
  inv st w -> tx st !! t = Some x -> now w !! t = Some a ->
  x_state x' = x_state x -> x_level x' = x_level x -> x_read x' = x_read x -> x_ws x' = {[rd]} ∪ x_ws x ->
  tx st' = <[t := x']> (tx st) -> nid st' = nid st -> wk st' = wk st -> (nlogs st <= nlogs st')%nat ->
  (forall rd', rd' <> rd -> pg st' !! rd' = pg st !! rd' /\ lk st' !! rd' = lk st !! rd') ->
  (forall rd', rd' <> rd -> writes a rd' <> [] -> row_inv st' (add_write t rd v w) rd') ->
  row_inv st' (add_write t rd v w) rd ->
  inv st' (add_write t rd v w).
Proof.
  intros HI Hx Ha Xs Xl Xr Xw Et En Ew Ek Hrest Hown Hrow'. pose proof HI as [Hc Hi Hr Hn Hg Hu Hrow].
  destruct (Hr t a Ha) as (x0 & Hx0 & R1 & R2 & R3 & R4). assert (x0 = x) by congruence. subst x0.
  constructor; rewrite ?Ew, ?En, ?Et.
  - done.
  - intros u z. destruct (decide (u = t)) as [->|Hne].
    + intros _. by eapply Hi.
    + rewrite lookup_insert_ne by done. apply Hi.
  - intros u b. cbn. destruct (decide (u = t)) as [->|Hne].
    + rewrite lookup_alter, Ha, lookup_insert. cbn. intros [= <-]. exists x'. cbn. split; [done|].
      split; [congruence|]. split; [congruence|]. split; [congruence|]. intros rd'. rewrite Xw. unfold writes. cbn.
      destruct (decide (rd' = rd)) as [->|Hrd].
      * rewrite lookup_insert. cbn. split; [done|]. intros _. set_solver.
      * rewrite lookup_insert_ne by done. rewrite <- (R4 rd'). set_solver.
    + rewrite lookup_alter_ne, lookup_insert_ne by done. apply Hr.
  - intros u z. cbn. destruct (decide (u = t)) as [->|Hne].
    + intros _ _. rewrite lookup_alter, Ha. by eexists.
    + rewrite lookup_alter_ne, lookup_insert_ne by done. apply Hn.
  - intros u b. cbn. destruct (decide (u = t)) as [->|Hne].
    + rewrite lookup_alter, Ha. cbn. intros [= <-]. cbn. by eapply Hg.
    + rewrite lookup_alter_ne by done. apply Hg.
  - assert (Sn : forall u b, now (add_write t rd v w) !! u = Some b -> exists b0, now w !! u = Some b0 /\ a_snap b0 = a_snap b).
    { intros u b. cbn. destruct (decide (u = t)) as [->|Hne].
      - rewrite lookup_alter, Ha. cbn. intros [= <-]. by exists a.
      - rewrite lookup_alter_ne by done. intros ?. by exists b. }
    intros u1 u2 b1 b2 H1 H2 E. destruct (Sn _ _ H1) as (c1 & C1 & D1). destruct (Sn _ _ H2) as (c2 & C2 & D2).
    eapply Hu; [exact C1|exact C2|congruence].
  - intros rd'. destruct (decide (rd' = rd)) as [->|Hrd]; [done|].
    destruct (writes a rd') as [|v0 vs0] eqn:Ewr; [|apply Hown; [done|by rewrite Ewr]].
    destruct (Hrest rd' Hrd) as [P1 P2].
    eapply (row_inv_frame st _ w _ t); try done.
    + intros u Hu'. rewrite Et. by rewrite lookup_insert_ne.
    + intros u Hu'. rewrite (wrs_add _ _ _ _ a) by done. by destruct (N.eqb_spec u t).
    + right. split; [|congruence]. unfold wrs. rewrite Ha. cbn. by rewrite Ewr.
    + right. rewrite (wrs_add _ _ _ _ a) by done. rewrite N.eqb_refl. rewrite decide_False by done. by rewrite Ewr.
    + rewrite En. lia.
    + rewrite Ew. lia.
Qed.

(** A row that [t] has written before, when [t] writes another one. *)
Lemma row_grow txs wr n mark k k' l m y vs t x gs ws :
  row_ok txs wr n mark k l m y vs -> txs !! t = Some x -> x_state x = Running -> (k <= k')%nat ->
  row_ok (<[t := Txn (x_level x) (x_state x) (x_read x) (x_commit x) (x_logs x ++ gs) ws]> txs) wr n mark k' l m y vs.
Proof.
  intros (L & Hc & Hf & HF & Hl & Hcov & Ht) Hx Hrun Hk. exists L. split; [by apply chain_grow|].
  split; [done|]. split; [done|]. split; [done|]. split.
  - intros L1 u g L2 z E Hz. destruct (decide (u = t)) as [->|Hne].
    + rewrite lookup_insert in Hz. injection Hz as <-. cbn. by rewrite Hrun.
    + rewrite lookup_insert_ne in Hz by done. by apply (Hcov L1 u g L2 z).
  - destruct Ht as [(ws0 & H1 & H2 & H3 & H4 & H5 & H6)|[(c & vs0 & H1 & H2 & H3 & H4)|H]].
    + left. exists ws0. split; [done|]. split; [done|]. split; [done|]. split; [done|]. split; [lia|done].
    + right; left. exists c, vs0. split; [done|]. split; [done|]. split; [done|].
      destruct H4 as [[? ?]|[(i & I1 & I2 & I3) ?]]; [left; split; [done|lia]|right; split; [|lia]].
      exists i. split; [done|]. split; [done|].
      destruct I3 as [(x1 & g & X1 & X2 & X3)|[X1 X2]]; [left|right].
      * exists x1, g. rewrite lookup_insert_ne by congruence. done.
      * split; [|done]. rewrite lookup_insert_ne by congruence. done.
    + by right; right.
Qed.

Lemma insert_inv t rd y st w : inv st w ->
  let '(r, st') := insert t rd y st in inv st' (wstep w (OInsert t rd y, r)) /\ wk st' = wk st.
Proof.
  intros HI. unfold insert. destruct (running st t) as [x|] eqn:Er; [|done].
  destruct (pg st !! rd) as [p|] eqn:Ep; [done|]. cbn [wstep]. split; [|done].
  apply running_spec in Er as [Hx Hs]. destruct (i_now _ _ HI t x Hx Hs) as [a Ha].
  pose proof (i_rows _ _ HI rd) as H0. unfold row_inv in H0. rewrite Ep in H0. destruct H0 as (L0 & V0 & N0).
  assert (Wt : writes a rd = []).
  { specialize (N0 t). unfold wrs in N0. rewrite Ha in N0. cbn in N0. destruct N0; congruence. }
  eapply (write_inv st _ w t x (Txn (x_level x) (x_state x) (x_read x) (x_commit x) (x_logs x) ({[rd]} ∪ x_ws x)) a rd (Some y)); cbn [tx nid wk nlogs x_state x_level x_read x_ws x_logs]; try reflexivity; try assumption; try lia.
  - intros rd' Hrd. cbn. by rewrite lookup_insert_ne.
  - intros rd' Hrd Hw. pose proof (i_rows _ _ HI rd') as H1. unfold row_inv in *. cbn [pg lk tx nid wk nlogs].
    rewrite lookup_insert_ne by done. destruct (pg st !! rd') as [[m0 y0]|] eqn:Ep'.
    + eapply row_ext.
      * pose proof (row_grow _ _ _ _ _ (nlogs st) _ _ _ _ t x [] ({[rd]} ∪ x_ws x) H1 Hx Hs ltac:(lia)) as G.
        rewrite app_nil_r in G. exact G.
      * intros u. rewrite (wrs_add _ _ _ _ a) by done. destruct (N.eqb_spec u t) as [->|]; [|done].
        rewrite decide_False by done. unfold wrs. by rewrite Ha.
      * by eapply wrs_none.
    + exfalso. destruct H1 as (_ & _ & Nb). specialize (Nb t). unfold wrs in Nb. rewrite Ha in Nb. cbn in Nb. destruct Nb; congruence.
  - unfold row_inv. cbn [pg lk tx nid wk nlogs]. rewrite lookup_insert. cbn [fst snd]. rewrite L0.
    pose proof (i_ids _ _ HI _ _ Hx).
    assert (Wt2 : wrs (add_write t rd (Some y) w) rd t = Some [Some y]).
    { rewrite (wrs_add _ _ _ _ a) by done. rewrite N.eqb_refl, decide_True by done. by rewrite Wt. }
    exists []. split; [constructor|]. split; [split; cbn; [done|by rewrite Wt2]|]. split; [constructor|]. split; [|split].
    + intros r _. cbn. by rewrite versions_add, V0.
    + intros L1 ? ? ? ? E. by destruct L1.
    + left. exists []. cbn. split; [done|]. split; [done|]. split; [|split; [done|split; [lia|]]].
      * intros u Hu. rewrite (wrs_add _ _ _ _ a) by done. destruct (N.eqb_spec u t); [done|]. apply N0.
      * intros _. by left.
Qed.

Lemma overwrite_inv t x rd m old y del st w a :
  inv st w -> tx st !! t = Some x -> x_state x = Running -> now w !! t = Some a -> pg st !! rd = Some (m, old) ->
  m_del m = false -> (m_creator m = t \/ m_ts m <> None) ->
  inv (overwrite t x rd m old y del st) (add_write t rd (if del then None else Some y) w).
Proof.
  intros HI Hx Hs Ha Ep Hdel Hor. pose proof (i_rows _ _ HI rd) as H0. unfold row_inv in H0. rewrite Ep in H0.
  cbn [fst snd] in H0.
  eapply (write_inv st _ w t x (Txn (x_level x) (x_state x) (x_read x) (x_commit x) (x_logs x ++ [ULog old (m_ts m) (m_creator m) (m_idx m)]) ({[rd]} ∪ x_ws x)) a rd); cbn [overwrite tx nid wk nlogs x_state x_level x_read x_ws x_logs]; try reflexivity; try assumption; try lia.
  - intros rd' Hrd. cbn. by rewrite !lookup_insert_ne.
  - intros rd' Hrd Hw. pose proof (i_rows _ _ HI rd') as H1. unfold row_inv in *. cbn [overwrite pg lk tx nid wk nlogs].
    rewrite !lookup_insert_ne by done. destruct (pg st !! rd') as [[m0 y0]|] eqn:Ep'.
    + eapply row_ext.
      * by eapply row_grow; [exact H1|done|done|lia].
      * intros u. rewrite (wrs_add _ _ _ _ a) by done. destruct (N.eqb_spec u t) as [->|]; [|done].
        rewrite decide_False by done. unfold wrs. by rewrite Ha.
      * by eapply wrs_none.
    + exfalso. destruct H1 as (_ & _ & Nb). specialize (Nb t). unfold wrs in Nb. rewrite Ha in Nb. cbn in Nb. destruct Nb; congruence.
  - unfold row_inv. cbn [overwrite pg lk tx nid wk nlogs]. rewrite !lookup_insert. cbn [fst snd].
    eapply row_ext.
    + eapply (row_overwrite _ (wrs w rd) _ _ _ _ _ _ _ t x (writes a rd)); try done.
      * unfold wrs. by rewrite Ha.
      * by eapply i_ids.
    + intros u. rewrite (wrs_add _ _ _ _ a) by done. unfold upd. destruct (N.eqb u t); [|done]. by rewrite decide_True.
    + rewrite upd_ne; [by eapply wrs_none|]. pose proof (i_ids _ _ HI _ _ Hx). lia.
Qed.

Lemma committed_ts m : committed m = true -> m_ts m <> None.
Proof. unfold committed. by destruct (m_ts m). Qed.

Lemma update_inv t rd y st w : inv st w ->
  let '(r, st') := update t t rd y st in inv st' (wstep w (OUpdate t t rd y, r)) /\ wk st' = wk st.
Proof.
  intros HI. unfold update. destruct (running st t) as [x|] eqn:Er; [|done].
  destruct (pg st !! rd) as [[m old]|] eqn:Ep; [|done]. destruct (m_del m) eqn:Ed; [done|].
  destruct (negb (m_creator m =? t) && negb (committed m)) eqn:Ec; [done|]. cbn [wstep]. split; [|done].
  apply running_spec in Er as [Hx Hs]. destruct (i_now _ _ HI t x Hx Hs) as [a Ha].
  eapply (overwrite_inv t x rd m old y false); eauto.
  apply andb_false_iff in Ec as [Ec|Ec]; [left; lia|right]. apply committed_ts. by destruct (committed m).
Qed.

Lemma delete_inv t rd st w : inv st w ->
  let '(r, st') := delete_row t rd st in inv st' (wstep w (ODelete t rd, r)) /\ wk st' = wk st.
Proof.
  intros HI. unfold delete_row. destruct (running st t) as [x|] eqn:Er; [|done].
  destruct (pg st !! rd) as [[m old]|] eqn:Ep; [|done]. destruct (m_del m) eqn:Ed; [done|].
  destruct (negb (m_creator m =? t) && negb (committed m)) eqn:Ec; [done|]. cbn [wstep]. split; [|done].
  apply running_spec in Er as [Hx Hs]. destruct (i_now _ _ HI t x Hx Hs) as [a Ha].
  eapply (overwrite_inv t x rd m old old true); eauto.
  apply andb_false_iff in Ec as [Ec|Ec]; [left; lia|right]. apply committed_ts. by destruct (committed m).
Qed.

(** ** Commit *)
Lemma stamp_fold t cts l st : NoDup l ->
  let st' := foldr (stamp t cts) st l in
  lk st' = lk st /\ tx st' = tx st /\ nid st' = nid st /\ wk st' = wk st /\ nlogs st' = nlogs st /\
  (forall rd, pg st' !! rd = if decide (rd ∈ l)
      then (fun p => if N.eqb (m_creator p.1) t
                     then (Meta (m_creator p.1) (Some cts) (m_del p.1) (m_idx p.1), p.2) else p) <$> pg st !! rd
      else pg st !! rd).
Proof.
  induction 1 as [|rd0 l Hni Hnd IH]; cbn [foldr].
  - repeat (split; [done|]). intros rd. by rewrite decide_False by (apply not_elem_of_nil).
  - destruct IH as (H1 & H2 & H3 & H4 & H5 & H6). cbn. repeat (split; [done|]). intros rd.
    destruct (decide (rd = rd0)) as [->|Hne].
    + rewrite lookup_alter, H6, decide_False by done. rewrite decide_True by (by left). done.
    + rewrite lookup_alter_ne, H6 by done. destruct (decide (rd ∈ l)).
      * rewrite decide_True by (by right). done.
      * rewrite decide_False; [done|]. intros Hin. apply elem_of_cons in Hin as [?|?]; congruence.
Qed.

Lemma versions_publish cts a p n rd : versions (World (publish cts a p) n) rd =
  match writes a rd with v :: _ => (cts, v) :: default [] (p !! rd) | [] => default [] (p !! rd) end.
Proof.
  unfold versions, publish, writes. cbn. rewrite lookup_merge. destruct (a_writes a !! rd) as [[|v ws]|]; cbn.
  - by destruct (p !! rd).
  - by destruct (p !! rd).
  - by destruct (p !! rd).
Qed.

Lemma wrs_delete w p t rd u : wrs (World p (delete t (now w))) rd u = upd (wrs w rd) t None u.
Proof.
  unfold wrs, upd. cbn. destruct (N.eqb_spec u t) as [->|Hne].
  - by rewrite lookup_delete.
  - by rewrite lookup_delete_ne.
Qed.

(** The end of a transaction: everything but the rows. *)
Lemma finish_inv st st' w p t x x' :
  inv st w -> tx st !! t = Some x -> x_state x = Running -> x_state x' <> Running ->
  tx st' = <[t := x']> (tx st) -> nid st' = nid st -> bounded (wk st') ->
  (forall y, In y (wm_active (wk st')) <-> In y (wm_active (wk st)) /\ x_read x <> y) ->
  (forall rd, row_inv st' (World p (delete t (now w))) rd) ->
  inv st' (World p (delete t (now w))).
Proof.
  intros HI Hx Hs Hs' Et En Hb Hin Hrow'. pose proof HI as [Hc Hi Hr Hn Hg Hu Hrow].
  constructor; rewrite ?En, ?Et; cbn [now].
  - done.
  - intros u z. destruct (decide (u = t)) as [->|Hne].
    + intros _. by eapply Hi.
    + rewrite lookup_insert_ne by done. apply Hi.
  - intros u b Hb'. destruct (decide (u = t)) as [->|Hne]; [by rewrite lookup_delete in Hb'|].
    rewrite lookup_delete_ne in Hb' by done. rewrite lookup_insert_ne by done. by apply Hr.
  - intros u z. destruct (decide (u = t)) as [->|Hne].
    + rewrite lookup_insert. intros [= <-]. done.
    + rewrite lookup_insert_ne, lookup_delete_ne by done. apply Hn.
  - intros u b Hb'. destruct (decide (u = t)) as [->|Hne]; [by rewrite lookup_delete in Hb'|].
    rewrite lookup_delete_ne in Hb' by done. apply Hin. split; [by eapply Hg|]. intros E.
    destruct (Hn t x Hx Hs) as [a Ha]. destruct (Hr t a Ha) as (x0 & X0 & _ & _ & X1 & _).
    assert (x0 = x) by congruence. subst x0. apply Hne. eapply Hu; [exact Hb'|exact Ha|congruence].
  - intros u1 u2 b1 b2 H1 H2. apply lookup_delete_Some in H1 as [_ H1]. apply lookup_delete_Some in H2 as [_ H2]. by eapply Hu.
  - done.
Qed.

Lemma commit_inv t st w : inv st w -> wm_next (wk st) + 2 < 2 ^ 64 ->
  let '(r, st') := commit t st in
  inv st' (wstep w (OCommit t, r)) /\ wm_next (wk st) <= wm_next (wk st') <= wm_next (wk st) + 1 /\
  wm_mark (wk st) <= wm_mark (wk st').
Proof.
  intros HI Hroom. unfold commit. destruct (running st t) as [x|] eqn:Er; [|split; [done|lia]].
  unfold commit_start. rewrite Er. cbn [get_next_ts]. apply running_spec in Er as [Hx Hs].
  destruct (clk_commit (wk st) (x_read x) (i_clk _ _ HI) Hroom) as (B & Nx & Mk & In1). cbn [get_next_ts fst] in *.
  set (w3 := remove_txn _ _) in *. set (cts := wm_next (wk st)).
  set (x' := Txn (x_level x) Committed (x_read x) cts (x_logs x) (x_ws x)).
  set (st1 := MV (pg st) (lk st) _ (nid st) w3 (nlogs st)).
  pose proof (stamp_fold t cts (elements (x_ws x)) st1 (NoDup_elements _)) as SF. cbn zeta in SF.
  set (st2 := foldr _ _ _) in *. destruct SF as (S1 & S2 & S3 & S4 & S5 & S6).
  cbn [prune wk]. rewrite S4. cbn [st1 wk]. split; [|lia]. apply inv_prune. cbn [wstep]. unfold finish_commit.
  destruct (i_now _ _ HI t x Hx Hs) as [a Ha]. rewrite Ha.
  destruct (i_run _ _ HI t a Ha) as (x0 & X0 & _ & _ & X1 & X2). assert (x0 = x) by congruence. subst x0.
  eapply (finish_inv st st2 w _ t x x'); try done; try (rewrite S4; done).
  intros rd. pose proof (i_rows _ _ HI rd) as H0.
  destruct (writes a rd) as [|v ws] eqn:Ew.
  - (* not written by t *)
    assert (Hni : rd ∉ x_ws x) by (rewrite X2; by intros ?).
    eapply (row_inv_frame st st2 w _ t); [exact H0|..].
    + rewrite S6. rewrite decide_False; [done|]. by rewrite elem_of_elements.
    + by rewrite S1.
    + rewrite versions_publish, Ew. done.
    + intros u Hu. rewrite S2. cbn. by rewrite lookup_insert_ne.
    + intros u Hu. rewrite wrs_delete, upd_ne; done.
    + right. split; [|congruence]. unfold wrs. rewrite Ha. cbn. by rewrite Ew.
    + left. rewrite wrs_delete, upd_eq. done.
    + rewrite S3. cbn. lia.
    + rewrite S4. cbn. lia.
    + rewrite S5. cbn. lia.
  - assert (Hi : rd ∈ x_ws x) by (rewrite X2; by rewrite Ew).
    assert (Hw : wrs w rd t = Some (v :: ws)) by (unfold wrs; rewrite Ha; cbn; by rewrite Ew).
    unfold row_inv in *. rewrite S6, S1, S2, S3, S4, S5. rewrite decide_True by (by rewrite elem_of_elements).
    cbn [st1 pg lk tx nid wk nlogs]. rewrite versions_publish, Ew. fold (versions w rd).
    destruct (pg st !! rd) as [[m y]|] eqn:Ep; cbn [fmap option_fmap option_map fst snd] in *.
    + destruct (row_commit _ _ _ _ (wm_mark w3) _ _ _ _ _ t x v ws cts H0 Hx Hw Mk) as [E G].
      replace (m_creator m =? t) with true by lia. cbn [fst snd].
      eapply row_ext; [exact G|intros u; apply wrs_delete|].
      rewrite upd_ne; [by eapply wrs_none|]. pose proof (i_ids _ _ HI _ _ Hx). lia.
    + exfalso. destruct H0 as (_ & _ & Nb). destruct (Nb t); congruence.
Qed.

(** ** Abort *)
Lemma undo_fold t l st : NoDup l ->
  let st' := foldr (undo_row t) st l in
  tx st' = tx st /\ nid st' = nid st /\ wk st' = wk st /\ nlogs st' = nlogs st /\
  (forall rd, rd ∉ l -> pg st' !! rd = pg st !! rd /\ lk st' !! rd = lk st !! rd) /\
  (forall rd, rd ∈ l -> pg st' !! rd = pg (undo_row t rd st) !! rd /\ lk st' !! rd = lk (undo_row t rd st) !! rd).
Proof.
  assert (Fr : forall rd s, tx (undo_row t rd s) = tx s /\ nid (undo_row t rd s) = nid s /\ wk (undo_row t rd s) = wk s /\
      nlogs (undo_row t rd s) = nlogs s /\
      (forall rd', rd' <> rd -> pg (undo_row t rd s) !! rd' = pg s !! rd' /\ lk (undo_row t rd s) !! rd' = lk s !! rd')).
  { intros rd s. unfold undo_row. destruct (lk s !! rd) as [l0|]; [destruct (get_log (tx s) l0) as [g|]|]; cbn;
      (do 4 (split; [done|])); intros rd' Hne; rewrite ?lookup_alter_ne by done; try done.
    split; [done|]. destruct (prev_link g); [by rewrite lookup_insert_ne|by rewrite lookup_delete_ne]. }
  assert (Dp : forall rd s1 s2, pg s1 !! rd = pg s2 !! rd -> lk s1 !! rd = lk s2 !! rd -> tx s1 = tx s2 ->
      pg (undo_row t rd s1) !! rd = pg (undo_row t rd s2) !! rd /\ lk (undo_row t rd s1) !! rd = lk (undo_row t rd s2) !! rd).
  { intros rd s1 s2 E1 E2 E3. unfold undo_row. rewrite E2, E3.
    destruct (lk s2 !! rd) as [l0|] eqn:El; [destruct (get_log (tx s2) l0) as [g|]|]; cbn; rewrite ?lookup_alter, ?E1; try done; try (by rewrite E2, El).
    split; [done|]. destruct (prev_link g); [by rewrite !lookup_insert|by rewrite !lookup_delete]. }
  induction 1 as [|rd0 l Hni Hnd IH]; cbn [foldr].
  - repeat (split; [done|]). intros rd Hrd. by apply elem_of_nil in Hrd.
  - destruct IH as (H1 & H2 & H3 & H4 & H5 & H6). destruct (Fr rd0 (foldr (undo_row t) st l)) as (F1 & F2 & F3 & F4 & F5).
    split; [congruence|]. split; [congruence|]. split; [congruence|]. split; [congruence|]. split.
    + intros rd Hrd. apply not_elem_of_cons in Hrd as [Hne Hrd]. destruct (F5 rd Hne) as [-> ->]. by apply H5.
    + intros rd Hrd. destruct (decide (rd = rd0)) as [->|Hne].
      * apply Dp; [apply H5|apply H5|]; done.
      * apply elem_of_cons in Hrd as [?|Hrd]; [done|]. destruct (F5 rd Hne) as [-> ->]. by apply H6.
Qed.

Lemma abort_inv t st w : inv st w -> (forall a, now w !! t = Some a -> clean_abort w a) ->
  let '(r, st') := abort t st in
  inv st' (wstep w (OAbort t, r)) /\ wm_next (wk st') = wm_next (wk st) /\ wm_mark (wk st) <= wm_mark (wk st').
Proof.
  intros HI Hcl. unfold abort. destruct (running st t) as [x|] eqn:Er; [|split; [done|lia]].
  apply running_spec in Er as [Hx Hs].
  pose proof (undo_fold t (elements (x_ws x)) st (NoDup_elements _)) as UF. cbn zeta in UF.
  set (st1 := foldr _ _ _) in *. destruct UF as (U1 & U2 & U3 & U4 & U5 & U6).
  cbn [prune wk]. rewrite U3, remove_next. destruct (remove_bounded (wk st) (x_read x) (i_clk _ _ HI)) as (B & _ & Mk).
  split; [|done]. apply inv_prune. cbn [wstep].
  set (x' := Txn (x_level x) Aborted (x_read x) (x_commit x) (x_logs x) (x_ws x)).
  destruct (i_now _ _ HI t x Hx Hs) as [a Ha]. specialize (Hcl a Ha).
  destruct (i_run _ _ HI t a Ha) as (x0 & X0 & _ & _ & X1 & X2). assert (x0 = x) by congruence. subst x0.
  eapply (finish_inv st _ w _ t x x'); cbn [tx nid wk]; try done; try (rewrite ?U1, ?U3; done).
  { intros y. rewrite remove_in. done. }
  intros rd. pose proof (i_rows _ _ HI rd) as H0.
  destruct (writes a rd) as [|v ws] eqn:Ew.
  - assert (Hni : rd ∉ elements (x_ws x)) by (rewrite elem_of_elements, X2; by intros ?).
    destruct (U5 rd Hni) as [P1 P2].
    eapply (row_inv_frame st _ w _ t); [exact H0|..]; cbn [pg lk tx nid wk nlogs].
    + done.
    + done.
    + done.
    + intros u Hu. rewrite U1. by rewrite lookup_insert_ne.
    + intros u Hu. rewrite wrs_delete, upd_ne; done.
    + right. split; [|congruence]. unfold wrs. rewrite Ha. cbn. by rewrite Ew.
    + left. rewrite wrs_delete, upd_eq. done.
    + lia.
    + lia.
    + lia.
  - assert (Hi : rd ∈ elements (x_ws x)) by (rewrite elem_of_elements, X2; by rewrite Ew).
    destruct (U6 rd Hi) as [P1 P2].
    destruct (Hcl rd ltac:(by rewrite Ew)) as [C1 C2]. rewrite Ew in C1. destruct ws; [|done].
    assert (Hw : wrs w rd t = Some [v]) by (unfold wrs; rewrite Ha; cbn; by rewrite Ew).
    unfold row_inv in *. cbn [pg lk tx nid wk nlogs]. rewrite P1, P2, U1, U2, U4.
    change (versions (World (past w) (delete t (now w))) rd) with (versions w rd).
    destruct (pg st !! rd) as [[m y]|] eqn:Ep.
    2: { exfalso. destruct H0 as (_ & _ & Nb). destruct (Nb t); congruence. }
    pose proof (row_abort _ _ _ _ (wm_mark (remove_txn (wk st) (x_read x))) _ _ _ _ _ t x v H0 Hx Hw Mk) as G.
    rewrite X1 in G. specialize (G C2). cbn zeta in G.
    assert (Nn : upd (wrs w rd) t None (nid st) = None).
    { rewrite upd_ne; [by eapply wrs_none|]. pose proof (i_ids _ _ HI _ _ Hx). lia. }
    unfold undo_row. destruct (lk st !! rd) as [l0|] eqn:El; cbn [fst snd] in *.
    + destruct G as (g & Hg & G). rewrite Hg. cbn [pg lk]. rewrite lookup_alter, Ep. cbn [fmap option_fmap option_map fst snd].
      eapply row_ext; [|intros u; apply wrs_delete|done].
      replace ((match prev_link g with Some l2 => <[rd:=l2]> (lk st) | None => delete rd (lk st) end) !! rd) with (prev_link g).
      * rewrite <- X1 in G. exact G.
      * destruct (prev_link g); [by rewrite lookup_insert|by rewrite lookup_delete].
    + cbn [pg lk]. rewrite lookup_alter, Ep, El. cbn [fmap option_fmap option_map fst snd].
      eapply row_ext; [|intros u; apply wrs_delete|done]. rewrite <- X1 in G. exact G.
Qed.

(** ** Histories *)
Lemma mstep_inv st w o : inv st w -> calm w o -> wm_next (wk st) + 2 < 2 ^ 64 ->
  let '(r, st') := mstep o st in
  inv st' (wstep w (o, r)) /\ wm_next (wk st) <= wm_next (wk st') <= wm_next (wk st) + 1 /\
  wm_mark (wk st) <= wm_mark (wk st').
Proof.
  intros HI Hcalm Hroom. destruct o as [i|t rd y|t c rd y|t rd|t rd|t|t| |t|t rd|]; cbn [mstep]; cbn [calm] in Hcalm; try done.
  - pose proof (begin_inv i st w HI Hroom) as H. destruct (begin i st) as [r st']. destruct H as (? & ? & ?). split; [done|lia].
  - pose proof (insert_inv t rd y st w HI) as H. destruct (insert t rd y st) as [r st']. destruct H as [? ->]. split; [done|lia].
  - subst c. pose proof (update_inv t rd y st w HI) as H. destruct (update t t rd y st) as [r st']. destruct H as [? ->]. split; [done|lia].
  - pose proof (delete_inv t rd st w HI) as H. destruct (delete_row t rd st) as [r st']. destruct H as [? ->]. split; [done|lia].
  - cbn. split; [done|lia].
  - exact (commit_inv t st w HI Hroom).
  - pose proof (abort_inv t st w HI Hcalm) as H. destruct (abort t st) as [r st']. destruct H as (? & ? & ?). split; [done|lia].
  - cbn [wstep]. split; [by apply inv_prune|]. cbn. lia.
Qed.

Lemma mrun_inv ops : forall st w rs st', inv st w -> mrun st ops = (rs, st') -> calm_history w (zip ops rs) ->
  wm_next (wk st) + N.of_nat (length ops) + 2 < 2 ^ 64 ->
  inv st' (fold_left wstep (zip ops rs) w) /\ wm_next (wk st') <= wm_next (wk st) + N.of_nat (length ops).
Proof.
  induction ops as [|o ops IH]; intros st w rs st' HI Hrun Hcalm Hroom; cbn [mrun length] in *.
  - injection Hrun as <- <-. split; [done|]. lia.
  - destruct (mstep o st) as [r st1] eqn:E1. destruct (mrun st1 ops) as [rs2 st2] eqn:E2. injection Hrun as <- <-.
    cbn [zip zip_with calm_history fold_left] in *. destruct Hcalm as [Hc1 Hc2]. cbn [fst] in Hc1.
    pose proof (mstep_inv st w o HI Hc1 ltac:(lia)) as S. rewrite E1 in S. destruct S as (I1 & N1 & _).
    destruct (IH st1 _ rs2 st2 I1 E2 Hc2 ltac:(lia)) as [I2 N2]. split; [exact I2|lia].
Qed.

Lemma history_inv ops rs st : mrun mv_init ops = (rs, st) -> calm_history world0 (zip ops rs) ->
  N.of_nat (length ops) + 3 < 2 ^ 64 -> inv st (world_after ops rs) /\ wm_next (wk st) <= 1 + N.of_nat (length ops).
Proof. intros R C Hl. apply (mrun_inv ops mv_init world0); [apply inv_init|exact R|exact C|cbn; lia]. Qed.

Lemma inv_read st w t a rd : inv st w -> now w !! t = Some a -> snapshot_level (a_level a) ->
  read st t rd = seen w a rd.
Proof.
  intros HI Ha Hl. destruct (i_run _ _ HI t a Ha) as (x & Hx & _ & X1 & X2 & _).
  pose proof (i_rows _ _ HI rd) as H0. unfold row_inv, read in *. unfold seen.
  assert (Hw : wrs w rd t = Some (writes a rd)) by (unfold wrs; by rewrite Ha).
  destruct (pg st !! rd) as [[m y]|].
  - assert (R : resolve st t rd (m, y) = get_visible st t (x_read x) rd (m, y)).
    { unfold resolve. rewrite Hx, X1. destruct Hl as [E|[E|E]]; rewrite E; done. }
    rewrite R, X2. eapply row_read; [exact H0|done|done|exact Hw|].
    apply old_mark_le; [apply HI|]. by eapply i_reg.
  - destruct H0 as (_ & -> & Nb). destruct (Nb t) as [E|E]; rewrite Hw in E; [done|]. by injection E as ->.
Qed.
