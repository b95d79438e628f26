(** * C15, C16, C63: the disk manager *)
From Coq Require Import NArith Lia.
From stdpp Require Import gmap list.
From Verif Require Import WbufSpec WbufModel DiskSpec DiskModel DiskProofs.

(** Notations for the examples: a write, a read and a flush that meet neither faults nor contention. *)
Definition wr (p : N) (d : bytes) : dop := DWrite p d false nofault free_store false nofault.
Definition rd (p : N) : dop := DRead p free_look.
Definition fl : dop := DFlush nofault.
(** Pages of two bytes, room for four of them, a flush at four. *)
Definition tiny : dcfg := mkDcfg 2 8 4 4 true false true true.
Definition tiny_steal : dcfg := mkDcfg 2 8 4 4 true true true true.
Definition tiny_nocache : dcfg := mkDcfg 2 8 4 4 false false true true.
Local Open Scope N_scope.

(** ** C15: a write that returned Ok is in the file after the next flush that returned Ok. *)
(** Any configuration whose buffer holds the pages below its flush threshold; calls one after another; every write
    and flush so far returned Ok. *)
Theorem c15_flushed_partial : forall g ops f s tr, (d_page g * max 1 (d_threshold g) <= d_max g)%nat ->
  Forall sequential ops -> drun g (disk_new g) (ops ++ [DFlush f]) = (s, tr) -> Forall ok_call tr ->
  forall p d, written tr !! p = Some d -> s_file s !! p = Some d.
Proof.
  intros g ops f s tr Hg Hs E Hok p d Hp. rewrite drun_app in E. destruct (drun g (disk_new g) ops) as [s1 t1] eqn:E1. cbn [drun] in E. destruct (dstep g s1 (DFlush f)) as [s2 r] eqn:E2.
  assert (s = s2) by congruence. assert (tr = t1 ++ [(DFlush f, r)]) by congruence. subst. apply Forall_app in Hok as [Hok1 Hok2]. apply Forall_cons in Hok2 as [Hok2 _].
  pose proof (drun_inv g _ ∅ _ _ _ Hg (dinv_new g) Hs E1 Hok1) as HI. destruct (dstep_inv g s1 _ (DFlush f) s2 r Hg HI I E2 Hok2) as [_ H]. apply (H f eq_refl).
  unfold written in Hp. rewrite fold_left_app in Hp. exact Hp.
Qed.
(** The default configuration meets the condition. *)
Example c15_default : (d_page default_cfg * max 1 (d_threshold default_cfg) <= d_max default_cfg)%nat.
Proof. unfold default_cfg. cbn [d_page d_threshold d_max]. lia. Qed.
Example c15_flushed_ex : exists s tr, drun tiny (disk_new tiny) ([wr 1 [1; 1]; wr 2 [2; 2]; wr 1 [3; 3]; rd 1] ++ [fl]) = (s, tr) /\
  Forall ok_call tr /\ written tr !! 1 = Some [3; 3] /\ s_file s !! 1 = Some [3; 3] /\ s_file s !! 2 = Some [2; 2].
Proof. eexists _, _. split; [vm_compute; reflexivity|]. split; [repeat constructor|]. vm_compute. auto. Qed.

(** A buffer smaller than a page refuses every write, and every write returns Ok: nothing ever reaches the file. *)
Theorem c15_small_buffer_refuted : forall g, (d_max g < d_page g)%nat -> forall ops f s tr, Forall sequential ops -> drun g (disk_new g) (ops ++ [DFlush f]) = (s, tr) -> s_file s = ∅.
Proof.
  intros g Hg. set (P s := s_buf s = wbuf_new (d_max g) /\ s_file s = ∅).
  assert (Hd : forall s f s1 r, P s -> drain g s f = (s1, r) -> P s1 /\ r = Some []).
  { intros s f s1 r [Hb Hf] E. unfold drain, wbuf_drain in E. rewrite Hb in E. cbn [w_buf wbuf_new] in E. rewrite map_to_list_empty in E. assert (s1 = set_buf s (wbuf_new (d_max g))) by (cbn in E; unfold wbuf_new; congruence). subst. split; [done|congruence]. }
  assert (Hfl : forall s f s1 ok, P s -> flush g s f = (s1, ok) -> P s1).
  { intros s f s1 ok H E. unfold flush, flush_pages in E. destruct (drain g s f) as [s2 r] eqn:Ed. destruct (Hd _ _ _ _ H Ed) as [H2 ->]. assert (s1 = s2) by congruence. by subst. }
  assert (Hc : forall s t, core s = core t -> P s -> P t).
  { intros s t H [H1 H2]. split; [by rewrite <- (core_buf _ _ H)|by rewrite <- (core_file _ _ H)]. }
  assert (Hw : forall s p d due f c bf s1 ok, P s -> write_one g s p d due f c bf = (s1, ok) -> P s1).
  { intros s p d due f c bf s1 ok H E. unfold write_one in E. destruct (Nat.eqb (length d) (d_page g)) eqn:El; cbn [negb] in E; [|assert (s1 = s) by congruence; by subst]. apply Nat.eqb_eq in El.
    unfold buffer_write in E. destruct H as [Hb Hf]. destruct (wbuf_write (s_buf s) p d) as [b okb] eqn:Eb.
    assert (Hbb : b = wbuf_new (d_max g) /\ okb = false).
    { unfold wbuf_write in Eb. rewrite Hb in Eb. cbn [w_buf wbuf_new w_size w_max] in Eb. rewrite lookup_empty in Eb. destruct (d_max g <? _)%nat eqn:Em; [split; congruence|]. apply Nat.ltb_ge in Em. lia. }
    destruct Hbb as [-> ->]. assert (H0 : P (set_buf s (wbuf_new (d_max g)))) by done. destruct (drain g (set_buf s (wbuf_new (d_max g))) f) as [s2 r] eqn:Ed. destruct (Hd _ _ _ _ H0 Ed) as [H2 ->].
    destruct (d_cache g), bf; cbn [andb negb] in E; (assert (s1 = s2) by congruence; by subst) || (assert (s1 = store_page s2 p d c) by congruence; subst; eapply Hc; [symmetry; apply core_store|done]). }
  assert (Hl : forall l s s1 ok, P s -> write_list g s l = (s1, ok) -> P s1).
  { induction l as [|[[q e] [[due f] c]] l IH]; intros s s1 ok H E; cbn in E; [assert (s1 = s) by congruence; by subst|]. destruct (write_one g s q e due f c false) as [s2 ok2] eqn:E2. apply (Hw _ _ _ _ _ _ _ _ _ H) in E2. destruct ok2; [by eapply IH|assert (s1 = s2) by congruence; by subst]. }
  assert (Hst : forall s o s1 r, P s -> sequential o -> dstep g s o = (s1, r) -> P s1).
  { intros s o s1 r H Hs E. destruct o as [q e due1 f1 c due2 f2|l due2 f2|q k|f|t f|t f]; cbn [dstep] in E; try done.
    - unfold write_page in E. destruct (write_one g s q e due1 f1 c true) as [s2 ok] eqn:E2. apply (Hw _ _ _ _ _ _ _ _ _ H) in E2. unfold answer in E. destruct ok; cbn [negb fst snd] in E; [|assert (s1 = s2) by congruence; by subst].
      destruct (should_flush g s2 due2); [|assert (s1 = s2) by (cbn in E; congruence); by subst]. destruct (flush g s2 f2) as [s3 ok3] eqn:E3. assert (s1 = s3) by (cbn in E; congruence). subst. by eapply Hfl.
    - unfold write_batch in E. destruct (write_list g s l) as [s2 ok] eqn:E2. apply (Hl _ _ _ _ H) in E2. unfold answer in E. destruct ok; cbn [negb fst snd] in E; [|assert (s1 = s2) by congruence; by subst].
      destruct (should_flush g s2 due2); [|assert (s1 = s2) by (cbn in E; congruence); by subst]. destruct (flush g s2 f2) as [s3 ok3] eqn:E3. assert (s1 = s3) by (cbn in E; congruence). subst. by eapply Hfl.
    - eapply Hc; [|exact H]. symmetry. by eapply core_read.
    - destruct (flush g s f) as [s3 ok3] eqn:E3. assert (s1 = s3) by (unfold answer in E; cbn in E; congruence). subst. by eapply Hfl. }
  assert (Hr : forall ops s s1 tr, P s -> Forall sequential ops -> drun g s ops = (s1, tr) -> P s1).
  { induction ops as [|o ops IH]; intros s s1 tr H Hs E; cbn [drun] in E; [assert (s1 = s) by congruence; by subst|]. apply Forall_cons in Hs as [Hs1 Hs2]. destruct (dstep g s o) as [s2 r] eqn:E2. destruct (drun g s2 ops) as [s3 t3] eqn:E3. assert (s3 = s1) by congruence. subst. eapply IH; [|done|done]. by eapply Hst. }
  intros ops f s tr Hs E. eapply Hr; [| |exact E]; [done|]. apply Forall_app. split; [done|]. by repeat constructor.
Qed.
(** The write that does not fit in a partly full buffer is dropped too, and returns Ok. *)
Theorem c15_refused_refuted : exists g ops s tr p d, (d_page g <= d_max g)%nat /\ Forall sequential ops /\ drun g (disk_new g) (ops ++ [fl]) = (s, tr) /\ Forall ok_call tr /\
  written tr !! p = Some d /\ s_file s !! p = None.
Proof.
  exists (mkDcfg 2 3 8 8 true false true true), [wr 1 [1; 1]; wr 2 [2; 2]]. eexists _, _, 2, [2; 2]. split; [cbn; lia|]. split; [repeat constructor|]. split; [vm_compute; reflexivity|]. split; [repeat constructor|]. by vm_compute.
Qed.
(** A failed sync drops the pages it was to make durable: earlier writes that returned Ok are lost, and later flushes return Ok. *)
Theorem c15_sync_error_refuted : exists ops s tr p d, Forall sequential ops /\ drun tiny (disk_new tiny) (ops ++ [fl]) = (s, tr) /\
  written tr !! p = Some d /\ s_file s !! p = None.
Proof. exists [wr 1 [1; 1]; DFlush (mkFault true None false false)]. eexists _, _, 1, [1; 1]. split; [repeat constructor|]. split; [vm_compute; reflexivity|]. by vm_compute. Qed.
(** So does a failed page write, for the pages not yet written. *)
Theorem c15_write_error_refuted : exists ops s tr p d, Forall sequential ops /\ drun tiny (disk_new tiny) (ops ++ [fl]) = (s, tr) /\
  written tr !! p = Some d /\ s_file s !! p = None.
Proof. exists [wr 1 [1; 1]; wr 2 [2; 2]; DFlush (mkFault false (Some [1]) false false)]. eexists _, _, 2, [2; 2]. split; [repeat constructor|]. split; [vm_compute; reflexivity|]. by vm_compute. Qed.
(** Two tasks: an older flush lands after a newer one and puts the old content back. *)
Theorem c15_race_refuted : exists ops s tr p d1 d2, drun tiny (disk_new tiny) (ops ++ [fl]) = (s, tr) /\ Forall ok_call tr /\
  written tr !! p = Some d2 /\ d1 <> d2 /\ s_file s !! p = Some d1.
Proof.
  exists [wr 1 [1; 1]; DDrain 0 nofault; wr 1 [2; 2]; fl; DLand 0 nofault]. eexists _, _, 1, [1; 1], [2; 2]. split; [vm_compute; reflexivity|]. split; [repeat constructor|]. by vm_compute.
Qed.
(** A flush returns Ok while another task still holds the pages it was to write. *)
Theorem c15_inflight_refuted : exists ops s tr p d, drun tiny (disk_new tiny) (ops ++ [fl]) = (s, tr) /\ Forall ok_call tr /\ written tr !! p = Some d /\ s_file s !! p = None.
Proof. exists [wr 1 [1; 1]; DDrain 0 nofault]. eexists _, _, 1, [1; 1]. split; [vm_compute; reflexivity|]. split; [repeat constructor|]. by vm_compute. Qed.

(** ** C16: a read returns the latest content written. *)
(** A page written with one content, not read before a flush that returned Ok: whatever happens afterwards (other
    tasks, faults, contention, evictions), a read returns that content, fails because the file read fails, or waits. *)
Theorem c16_once_partial : forall g p d pre f post s tr1 s2 tr2, (d_page g * max 1 (d_threshold g) <= d_max g)%nat ->
  Forall sequential pre -> (forall o, o ∈ pre -> ~ reads_page p o) -> (forall o e, o ∈ pre ++ post -> (p, e) ∈ puts o -> e = d) ->
  drun g (disk_new g) (pre ++ [DFlush f]) = (s, tr1) -> Forall ok_call tr1 -> written tr1 !! p = Some d ->
  drun g s post = (s2, tr2) ->
  forall k r, (DRead p k, r) ∈ tr2 -> r = Data d \/ r = Failed /\ k_err k = true \/ r = Waits /\ d_steal g = true.
Proof.
  intros g p d pre f post s tr1 s2 tr2 Hg Hs Hr Hp E1 Hok Hw E2. pose proof (c15_flushed_partial _ _ _ _ _ Hg Hs E1 Hok _ _ Hw) as Hf.
  assert (Hon : only s p d /\ long s).
  { eapply only_pre; [apply only_new|apply long_new| | |exact E1].
    - intros o e Ho. apply elem_of_app in Ho as [Ho|Ho]; [apply Hp, elem_of_app; by left|]. apply elem_of_list_singleton in Ho. subst. cbn. intros He. by apply elem_of_nil in He.
    - intros o Ho. apply elem_of_app in Ho as [Ho|Ho]; [exact (Hr o Ho)|]. apply elem_of_list_singleton in Ho. subst. exact (fun x => x). }
  destruct Hon as [Hon Hl]. eapply only_run; [exact Hon|exact Hl|exact Hf| |exact E2]. intros o e Ho. apply Hp, elem_of_app. by right.
Qed.
Example c16_once_ex : exists s tr1 s2 tr2, drun tiny (disk_new tiny) ([wr 2 [2; 2]; wr 1 [1; 1]; rd 2] ++ [fl]) = (s, tr1) /\ Forall ok_call tr1 /\ written tr1 !! 1 = Some [1; 1] /\
  drun tiny s [rd 1; wr 2 [9; 9]; DDrain 3 nofault; rd 1; rd 1] = (s2, tr2) /\ (rd 1, Data [1; 1]) ∈ tr2.
Proof. eexists _, _, _, _. split; [vm_compute; reflexivity|]. split; [repeat constructor|]. split; [vm_compute; reflexivity|]. split; [vm_compute; reflexivity|]. apply elem_of_cons. left. by vm_compute. Qed.
(** With the cache off: after a flush that returned Ok, reads return the latest content written before it, for as
    long as the page is not written again. *)
Theorem c16_nocache_partial : forall g p d pre f post s tr1 s2 tr2, d_cache g = false -> (d_page g * max 1 (d_threshold g) <= d_max g)%nat ->
  Forall sequential pre -> drun g (disk_new g) (pre ++ [DFlush f]) = (s, tr1) -> Forall ok_call tr1 -> written tr1 !! p = Some d ->
  (forall o e, o ∈ post -> (p, e) ∉ puts o) -> drun g s post = (s2, tr2) ->
  forall k r, (DRead p k, r) ∈ tr2 -> r = Data d \/ r = Failed /\ k_err k = true \/ r = Waits /\ d_steal g = true.
Proof.
  intros g p d pre f post s tr1 s2 tr2 Hc Hg Hs E1 Hok Hw Hp E2. pose proof (c15_flushed_partial _ _ _ _ _ Hg Hs E1 Hok _ _ Hw) as Hf.
  assert (Hb : bare s) by (eapply bare_run; [done| | |exact E1]; [done|apply Forall_app; split; [done|by repeat constructor]]).
  assert (Hl : long s) by (apply (grow_run _ _ _ _ _ E1), long_new).
  assert (Hbuf : w_buf (s_buf s) = ∅).
  { rewrite drun_app in E1. destruct (drun g (disk_new g) pre) as [s1 t1] eqn:Ep. cbn [drun] in E1. destruct (dstep g s1 (DFlush f)) as [s3 r] eqn:E3. assert (s3 = s) by congruence. assert (tr1 = t1 ++ [(DFlush f, r)]) by congruence. subst.
    apply Forall_app in Hok as [Hok1 Hok2]. apply Forall_cons in Hok2 as [Hok2 _]. pose proof (drun_inv g _ ∅ _ _ _ Hg (dinv_new g) Hs Ep Hok1) as HI. cbn [dstep] in E3. destruct (flush g s1 f) as [s4 ok] eqn:E4. unfold answer in E3. cbn [fst snd] in E3.
    destruct ok; [|assert (r = Failed) by congruence; by subst]. assert (s4 = s) by congruence. subst. destruct (flush_inv _ _ _ _ _ HI E4) as (_ & _ & ->). done. }
  destruct Hb as (B1 & B2 & B3 & B4). eapply only_run; [|exact Hl|exact Hf| |exact E2].
  - split; rewrite ?B1, ?B2, ?B3, ?B4, ?Hbuf; try (left; apply lookup_empty); [by right|]. intros t l e H. by rewrite lookup_empty in H.
  - intros o e Ho He. by apply Hp in He.
Qed.
Example c16_nocache_ex : exists s tr1 s2 tr2, drun tiny_nocache (disk_new tiny_nocache) ([wr 1 [1; 1]; fl; rd 1; wr 1 [2; 2]] ++ [fl]) = (s, tr1) /\ Forall ok_call tr1 /\ written tr1 !! 1 = Some [2; 2] /\
  drun tiny_nocache s [wr 2 [9; 9]; rd 1] = (s2, tr2) /\ (rd 1, Data [2; 2]) ∈ tr2.
Proof. eexists _, _, _, _. split; [vm_compute; reflexivity|]. split; [repeat constructor|]. split; [vm_compute; reflexivity|]. split; [vm_compute; reflexivity|]. apply elem_of_cons. right. apply elem_of_cons. left. by vm_compute. Qed.

(** A stale copy in a tier above the one the write went to: written, read, written again and flushed, the page
    reads as before. Nothing fails and no lock is contended. *)
Theorem c16_tier_refuted : exists ops s tr p d1 d2 s2, Forall sequential ops /\ drun tiny (disk_new tiny) (ops ++ [fl]) = (s, tr) /\ Forall ok_call tr /\
  written tr !! p = Some d2 /\ d1 <> d2 /\ dstep tiny s (rd p) = (s2, Data d1).
Proof. exists [wr 1 [1; 1]; rd 1; wr 1 [2; 2]]. eexists _, _, 1, [1; 1], [2; 2], _. split; [repeat constructor|]. split; [vm_compute; reflexivity|]. split; [repeat constructor|]. split; [vm_compute; reflexivity|]. split; [done|]. vm_compute; reflexivity. Qed.
(** A page overwritten with the content of another page keeps its old copy in the cache. *)
Theorem c16_dedup_refuted : exists ops s tr p d1 d2 s2, Forall sequential ops /\ (forall o, o ∈ ops -> ~ reads_page p o) /\ drun tiny (disk_new tiny) (ops ++ [fl]) = (s, tr) /\ Forall ok_call tr /\
  written tr !! p = Some d2 /\ d1 <> d2 /\ dstep tiny s (rd p) = (s2, Data d1).
Proof.
  exists [wr 1 [1; 1]; wr 2 [2; 2]; wr 2 [1; 1]]. eexists _, _, 2, [2; 2], [1; 1], _. split; [repeat constructor|]. split; [intros o Ho; repeat (apply elem_of_cons in Ho as [->|Ho]; [by intros []|]); by apply elem_of_nil in Ho|].
  split; [vm_compute; reflexivity|]. split; [repeat constructor|]. split; [vm_compute; reflexivity|]. split; [done|]. vm_compute; reflexivity.
Qed.
(** With the cache off, a write that returned Ok is invisible until a flush. *)
Theorem c16_unflushed_refuted : exists ops s tr p d1 d2 s2, Forall sequential ops /\ drun tiny_nocache (disk_new tiny_nocache) ops = (s, tr) /\ Forall ok_call tr /\
  written tr !! p = Some d2 /\ d1 <> d2 /\ dstep tiny_nocache s (rd p) = (s2, Data d1).
Proof. exists [wr 1 [1; 1]; fl; wr 1 [2; 2]]. eexists _, _, 1, [1; 1], [2; 2], _. split; [repeat constructor|]. split; [vm_compute; reflexivity|]. split; [repeat constructor|]. split; [vm_compute; reflexivity|]. split; [done|]. vm_compute; reflexivity. Qed.

(** ** C63: a read of a page completes. *)
(** With work stealing off every read returns: the content in the cache or in the file, or an error. *)
Theorem c63_returns_partial : forall g ops s p k r, d_steal g = false -> (DRead p k, r) ∈ snd (drun g s ops) -> r <> Waits.
Proof.
  intros g ops s p k r Hst. revert s. induction ops as [|o ops IH]; intros s Hin; cbn [drun] in Hin; [by apply elem_of_nil in Hin|].
  destruct (dstep g s o) as [s2 r2] eqn:E2. destruct (drun g s2 ops) as [s3 t3] eqn:E3. cbn [snd] in Hin. apply elem_of_cons in Hin as [Hin|Hin].
  - assert (o = DRead p k) by congruence. assert (r = r2) by congruence. subst. cbn [dstep] in E2. unfold read_page in E2. rewrite Hst in E2.
    destruct (if d_cache g then lookup_page s p k else (s, None)) as [s4 [y|]]; [congruence|]. destruct (k_err k); [congruence|]. destruct (file_read g s4 p); congruence.
  - apply (IH s2). by rewrite E3.
Qed.
(** With work stealing on, as by default, no read that misses the cache ever returns. *)
Theorem c63_miss_refuted : forall g s p k, d_steal g = true -> (d_cache g = false \/ s_hot s !! p = None /\ s_warm s !! p = None /\ s_cold s !! p = None) -> (read_page g s p k).2 = Waits.
Proof.
  intros g s p k Hst H. unfold read_page. rewrite Hst. destruct (d_cache g); [|done]. destruct H as [H|(H1 & H2 & H3)]; [done|].
  unfold lookup_page, record_access. destruct (k_rec k), (k_hot k), (k_warm k), (k_cold k); cbn; rewrite ?H1, ?H2, ?H3; done.
Qed.
(** So after a restart the first read of any page of the existing file never returns. *)
Theorem c63_restart_refuted : forall file len p k, let s := mkDisk (wbuf_new (d_max default_cfg)) ∅ ∅ ∅ ∅ ∅ file len ∅ in (read_page default_cfg s p k).2 = Waits.
Proof. intros file len p k s. apply c63_miss_refuted; [done|]. right. subst s. cbn [s_hot s_warm s_cold]. by rewrite lookup_empty. Qed.
(** Nor, without a restart, does the read of a page that was written with the same content as another page. *)
Theorem c63_dedup_refuted : exists ops s tr s2, Forall sequential ops /\ drun tiny_steal (disk_new tiny_steal) (ops ++ [fl]) = (s, tr) /\ Forall ok_call tr /\
  written tr !! 2 = Some [7; 7] /\ s_file s !! 2 = Some [7; 7] /\ dstep tiny_steal s (rd 2) = (s2, Waits).
Proof. exists [wr 1 [7; 7]; wr 2 [7; 7]]. eexists _, _, _. split; [repeat constructor|]. split; [vm_compute; reflexivity|]. split; [repeat constructor|]. split; [vm_compute; reflexivity|]. split; [vm_compute; reflexivity|]. vm_compute; reflexivity. Qed.
Example c63_returns_ex : (rd 1, Data [1; 1]) ∈ snd (drun tiny (disk_new tiny) [wr 1 [1; 1]; rd 1]).
Proof. vm_compute. apply elem_of_cons. right. apply elem_of_cons. by left. Qed.

Print Assumptions c15_flushed_partial. Print Assumptions c15_small_buffer_refuted. Print Assumptions c15_refused_refuted. Print Assumptions c15_sync_error_refuted.
Print Assumptions c15_write_error_refuted. Print Assumptions c15_race_refuted. Print Assumptions c15_inflight_refuted.
Print Assumptions c16_once_partial. Print Assumptions c16_nocache_partial. Print Assumptions c16_tier_refuted. Print Assumptions c16_dedup_refuted. Print Assumptions c16_unflushed_refuted.
Print Assumptions c63_returns_partial. Print Assumptions c63_miss_refuted. Print Assumptions c63_restart_refuted. Print Assumptions c63_dedup_refuted.
