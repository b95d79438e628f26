(** * C52, C64, C65: the I/O engine *)
From Coq Require Import NArith Lia.
From stdpp Require Import gmap list.
From Verif Require Import WbufSpec IoqSpec IoqModel IoqProofs.

(** The two first phases of the proofs below: the write is submitted and returns Ok. *)
Lemma acked_good page ls s tr w p d a b r t1 t2 rest : irun (eng_new page) ls = Some (s, tr) ->
  tr = t1 ++ ESub w (KWrite p d) a b :: t2 ++ ERet w (IOk r) :: rest ->
  exists l2 s2 (O : nat -> Prop), irun s2 l2 = Some (s, rest) /\ quiet O s2 /\ good O (e_vol s2) p /\ (forall i r, ERet i (IOk r) ∈ t1 -> O i) /\ IInv s2 (t1 ++ ESub w (KWrite p d) a b :: t2 ++ [ERet w (IOk r)]).
Proof.
  intros H ->. apply irun_cut in H as (l1 & l & l2 & sa & sb & _ & H1 & Hs & H2). destruct (irun_cut _ _ _ _ _ _ H2) as (l3 & l' & l4 & sc & sd & _ & H3 & Hs' & H4).
  pose proof (iinv_run _ _ _ _ _ (iinv_new page) H1) as HI. cbn [app] in HI. set (O i := i < e_next sa /\ ~ waiting sa i).
  assert (HQa : quiet O sa) by (intros i Hi; exact Hi). pose proof (quiet_step _ _ _ _ _ HQa Hs) as HQb.
  destruct (step_ev _ _ _ _ Hs) as [?|(v & Hv & Hm)]; [done|]. assert (v = ESub w (KWrite p d) a b) by congruence. subst v. destruct Hm as [-> Hw].
  assert (HW : wrote O sb w p).
  { split; [subst O; cbn; lia|]. split; [|split].
    - intros x Hx Hi. destruct (step_waits _ _ _ _ _ Hs Hx) as [Hx0|(k & pr & t & E & ->)].
      + exfalso. assert (Hi2 : o_id x < e_next sa) by (eapply (ii_lt _ _ HI), (ii_sub _ _ HI); destruct Hx0 as [Hx0|(w0 & Hx0)]; [by left|right; by exists w0, None]). lia.
      + exists d. cbn. congruence.
    - intros k x r0 Hk Hi. exfalso. destruct (step_ran _ _ _ _ _ _ _ Hs Hk) as [Hr|(f & s2 & E & _)]; [|done].
      assert (Hi2 : o_id x < e_next sa) by (eapply (ii_lt _ _ HI), (ii_sub _ _ HI); right; by exists k, (Some (IOk r0))). lia.
    - rewrite (step_next _ _ _ _ Hs). lia. }
  destruct (wrote_run _ _ _ _ _ _ _ HQb HW H3) as [HQc HWc]. destruct (wrote_step _ _ _ _ _ _ _ HQc HWc Hs') as [_ Hg].
  exists l4, sd, O. split; [done|]. split; [by eapply quiet_step|]. split; [eapply Hg; by apply elem_of_list_singleton|].
  split; [intros i r0 Hr; exact (ii_ret _ _ HI _ _ Hr)|].
  pose proof (iinv_step _ _ _ _ _ HI Hs) as J2. pose proof (iinv_run _ _ _ _ _ J2 H3) as J3. pose proof (iinv_step _ _ _ _ _ J3 Hs') as J4. by rewrite <- !app_assoc in J4.
Qed.
Lemma cut_app (t1 t2 t3 : list ev) v1 v2 : t1 ++ v1 :: t2 ++ v2 :: t3 = (t1 ++ v1 :: t2 ++ [v2]) ++ t3.
Proof. rewrite <- !app_assoc. cbn. by rewrite <- !app_assoc. Qed.
(** A call submitted afterwards. *)
Lemma later_good O tr s2 l2 s rest t0 p y k a b r (P : gmap N (nat * bytes) -> bytes -> Prop) t3 t4 t5 : IInv s2 t0 -> tr = t0 ++ rest -> quiet O s2 -> good O (e_vol s2) p ->
  irun s2 l2 = Some (s, rest) -> rest = t3 ++ ESub y k a b :: t4 ++ ERet y (IOk r) :: t5 ->
  (forall s0 d r s2 l0 e0, good O (e_vol s0) p -> P d r -> istep s0 l0 = Some (s2, e0) -> d = e_dur s0 -> P (e_dur s2) r) ->
  (forall s0 u x f s2 r, IInv s0 u -> (forall v, v ∈ u -> v ∈ tr) -> good O (e_vol s0) p -> o_kind x = k -> execute s0 x f = (s2, IOk r) -> P (e_dur s2) r) ->
  exists s3 l3, quiet O s3 /\ good O (e_vol s3) p /\ P (e_dur s3) r /\ irun s3 l3 = Some (s, t5).
Proof.
  intros HI Htr HQ Hg H2 -> HP1 HP2. apply irun_cut in H2 as (l3 & l & l4 & sa & sb & _ & H3 & Hs & H4). apply irun_cut in H4 as (l5 & l' & l6 & sc & sd & _ & H5 & Hs' & H6).
  destruct (good_run _ _ _ _ _ _ HQ Hg H3) as (HQa & Hga & _). pose proof (iinv_run _ _ _ _ _ HI H3) as HIa.
  destruct (step_ev _ _ _ _ Hs) as [?|(v & Hv & Hm)]; [done|]. assert (v = ESub y k a b) by congruence. subst v. destruct Hm as [-> Hy].
  pose proof (quiet_step _ _ _ _ _ HQa Hs) as HQb. pose proof (good_vol_step _ _ _ _ _ _ HQa Hga Hs) as Hgb.
  assert (HL : later O sb y k p P).
  { split; [|split].
    - intros x Hx Hi. destruct (step_waits _ _ _ _ _ Hs Hx) as [Hx0|(k' & pr & t & E & ->)]; [|cbn; congruence].
      exfalso. assert (Hi2 : o_id x < e_next sa) by (eapply (ii_lt _ _ HIa), (ii_sub _ _ HIa); destruct Hx0 as [Hx0|(w0 & Hx0)]; [by left|right; by exists w0, None]). lia.
    - intros w x r0 Hk Hi. exfalso. destruct (step_ran _ _ _ _ _ _ _ Hs Hk) as [Hr|(f & s3 & E & _)]; [|done].
      assert (Hi2 : o_id x < e_next sa) by (eapply (ii_lt _ _ HIa), (ii_sub _ _ HIa); right; by exists w, (Some (IOk r0))). lia.
    - rewrite (step_next _ _ _ _ Hs). lia. }
  pose proof (iinv_step _ _ _ _ _ HIa Hs) as HIb. pose proof (iinv_run _ _ _ _ _ HIb H5) as HIc.
  assert (Hpre : forall v, v ∈ ((t0 ++ t3) ++ [ESub y k a b]) ++ t4 -> v ∈ tr) by (intros v Hin; rewrite Htr; rewrite !elem_of_app, !elem_of_cons, !elem_of_app in *; set_solver).
  destruct (later_run _ _ _ _ _ _ _ _ _ _ _ HIb Hpre HQb Hgb HL HP1 HP2 H5) as (HQc & Hgc & HLc). destruct (later_step _ _ _ _ _ _ _ _ _ _ _ HIc Hpre HQc Hgc HLc HP1 HP2 Hs') as [_ HP].
  exists sd, l6. split; [by eapply quiet_step|]. split; [by eapply good_vol_step|]. split; [|done]. apply HP. by apply elem_of_list_singleton.
Qed.


(** ** C52: when a sync returns, the writes submitted before it are on disk. *)
(** Proved for the writes that returned Ok before the sync was submitted: once the sync has returned Ok, the device
    holds the write's content or that of a write which had not returned Ok when it was submitted. Whatever the
    workers, priorities, faults, cancellations and device writes are. *)
Theorem c52_acked_partial : forall page ls s tr w p d a b r y a' b' r' t1 t2 t3 t4 t5,
  irun (eng_new page) ls = Some (s, tr) ->
  tr = t1 ++ ESub w (KWrite p d) a b :: t2 ++ ERet w (IOk r) :: t3 ++ ESub y KSync a' b' :: t4 ++ ERet y (IOk r') :: t5 ->
  exists i d', e_dur s !! p = Some (i, d') /\ not_older tr t1 p d'.
Proof.
  intros page ls s tr w p d a b r y a' b' r' t1 t2 t3 t4 t5 H Htr. destruct (acked_good _ _ _ _ _ _ _ _ _ _ _ _ _ H Htr) as (l2 & s2 & O & H2 & HQ & Hg & HO & HI2).
  pose proof (iinv_run _ _ _ _ _ (iinv_new page) H) as HI. cbn [app] in HI.
  destruct (later_good O tr s2 l2 s _ _ p y KSync a' b' r' (fun m _ => good O m p) t3 t4 t5 HI2 (eq_trans Htr (cut_app _ _ _ _ _))) as (s3 & l3 & HQ3 & Hg3 & HP3 & H3); [exact HQ|exact Hg|exact H2|reflexivity| | |].
  { intros s0 d0 r0 s3 l0 e0 Hv Hp Hst ->. exact (good_dur_step _ _ _ _ _ _ Hv Hp Hst). }
  { intros s0 u x f s3 r0 _ _ Hv Hk He. apply execute_files in He as (_ & _ & He). specialize (He r0 eq_refl). rewrite Hk in He. destruct He as [-> _]. exact Hv. }
  destruct (good_run _ _ _ _ _ _ HQ3 Hg3 H3) as (_ & _ & Hd). destruct (Hd HP3) as (i & d' & Hi & HnO). exists i, d'. split; [done|]. destruct (ii_dur _ _ HI _ _ _ Hi) as (x & z & Hin). exists i, x, z. split; [done|]. intros r0 Hr. apply HnO. by eapply HO.
Qed.
(** If nothing else writes the page, the device holds exactly that content. *)
Theorem c52_sole_partial : forall page ls s tr w p d a b r y a' b' r' t1 t2 t3 t4 t5,
  irun (eng_new page) ls = Some (s, tr) -> only_writers tr p [w] ->
  tr = t1 ++ ESub w (KWrite p d) a b :: t2 ++ ERet w (IOk r) :: t3 ++ ESub y KSync a' b' :: t4 ++ ERet y (IOk r') :: t5 ->
  e_dur s !! p = Some (w, d).
Proof.
  intros page ls s tr w p d a b r y a' b' r' t1 t2 t3 t4 t5 H Hon Htr. destruct (c52_acked_partial _ _ _ _ _ _ _ _ _ _ _ _ _ _ _ _ _ _ _ H Htr) as (i & d' & Hd & _).
  pose proof (iinv_run _ _ _ _ _ (iinv_new page) H) as HI. cbn [app] in HI. destruct (ii_dur _ _ HI _ _ _ Hd) as (x & z & Hin). pose proof (Hon _ _ _ _ Hin) as Hw. apply elem_of_list_singleton in Hw. subst i.
  assert (Hin2 : ESub w (KWrite p d) a b ∈ tr) by (rewrite Htr; apply elem_of_app; right; apply elem_of_cons; by left). destruct (ii_one _ _ HI _ _ _ _ _ _ _ Hin Hin2) as (E & _). rewrite Hd. congruence.
Qed.
Definition wr (p : N) (d : bytes) (t : N) : lab := LSubmit (KWrite p d) prio_write t.
Definition sy (t : N) : lab := LSubmit KSync prio_sync t.
Definition rd (p : N) (t : N) : lab := LSubmit (KRead p) prio_read t.
Definition go (w id : nat) : list lab := [LTake w id; LExec w None; LDone w].
Example c52_ex : exists s, irun (eng_new 1) (wr 7 [1%N] 0 :: go 0 1 ++ wr 8 [2%N] 1 :: sy 2 :: go 3 3) = Some (s,
  [ESub 1 (KWrite 7 [1%N]) 7 0; ERet 1 (IOk [1%N]); ESub 2 (KWrite 8 [2%N]) 7 1; ESub 3 KSync 10 2; ERet 3 (IOk [])]) /\ e_dur s !! 7%N = Some (1, [1%N]) /\ e_dur s !! 8%N = None.
Proof. eexists. split; [vm_compute; reflexivity|]. by vm_compute. Qed.
(** False of writes that were only submitted: a sync has a higher priority than a page write and overtakes it in
    the queue, with any number of workers. *)
Theorem c52_overtaken_refuted : exists ls s w y p d a b a' b' r tr, Forall one_worker ls /\ irun (eng_new 1) ls = Some (s, tr) /\
  tr = [ESub w (KWrite p d) a b; ESub y KSync a' b'; ERet y (IOk r)] /\ a = prio_write /\ a' = prio_sync /\ e_dur s !! p = None.
Proof. exists (wr 7 [1%N] 0 :: sy 1 :: go 0 2). eexists _, 1, 2, 7%N, [1%N], 7%N, 0%N, 10%N, 1%N, [], _. split; [repeat constructor|]. split; [vm_compute; reflexivity|]. by vm_compute. Qed.
(** And with equal priorities one worker syncs while another still has the write. *)
Theorem c52_workers_refuted : exists ls s w y p d a b b' r tr, irun (eng_new 1) ls = Some (s, tr) /\
  tr = [ESub w (KWrite p d) a b; ESub y KSync a b'; ERet y (IOk r)] /\ e_dur s !! p = None.
Proof. exists (wr 7 [1%N] 0 :: LSubmit KSync prio_write 1 :: LTake 0 1 :: go 1 2). eexists _, 1, 2, 7%N, [1%N], 7%N, 0%N, 1%N, [], _. split; [vm_compute; reflexivity|]. by vm_compute. Qed.

(** ** C64: writes of a page take effect in the order they were submitted. *)
(** With one worker: the later of two writes of equal priority (or the less urgent one) wins, once it has returned Ok. *)
Theorem c64_order_partial : forall page ls s tr a b p d1 d2 pa pb ta tb r, Forall one_worker ls -> irun (eng_new page) ls = Some (s, tr) ->
  ESub a (KWrite p d1) pa ta ∈ tr -> ESub b (KWrite p d2) pb tb ∈ tr -> a < b -> (pb < pa)%N \/ pa = pb /\ (ta < tb)%N -> only_writers tr p [a; b] ->
  ERet b (IOk r) ∈ tr -> e_vol s !! p = Some (b, d2).
Proof.
  intros page ls s tr a b p d1 d2 pa pb ta tb r Hw H Ha Hb Hlt Hbef Hon Hr. pose proof (iinv_run _ _ _ _ _ (iinv_new page) H) as HI. cbn [app] in HI.
  assert (HO : Ord (eng_new page) [] a b p d2).
  { split; cbn.
    - intros (x & [Hx|(w & Hx)] & _); [by apply elem_of_nil in Hx|]. cbn in Hx. by rewrite lookup_empty in Hx.
    - intros w x Hx. by rewrite lookup_empty in Hx.
    - intros [(w & x & r0 & Hx & _)|[r0 Hx]]; [cbn in Hx; by rewrite lookup_empty in Hx|by apply elem_of_nil in Hx]. }
  pose proof (ord_run tr a b p d1 d2 pa pb ta tb (ii_one _ _ HI) Ha Hb Hlt Hbef Hon ls _ [] s tr eq_refl (iinv_new page) HO Hw H) as HF.
  apply (or_vol _ _ _ _ _ _ HF). right. by exists r.
Qed.
Example c64_ex : exists s tr, irun (eng_new 1) (wr 7 [1%N] 0 :: wr 7 [2%N] 1 :: go 0 1 ++ go 0 2) = Some (s, tr) /\ ERet 2 (IOk [2%N]) ∈ tr /\ e_vol s !! 7%N = Some (2, [2%N]).
Proof. eexists _, _. split; [vm_compute; reflexivity|]. split; [|by vm_compute]. apply elem_of_list_In. cbn. tauto. Qed.
(** With two workers (there are four by default) the earlier write can land last. *)
Theorem c64_workers_refuted : exists ls s tr p d1 d2, irun (eng_new 1) ls = Some (s, tr) /\ ESub 1 (KWrite p d1) prio_write 0 ∈ tr /\ ESub 2 (KWrite p d2) prio_write 1 ∈ tr /\
  (exists r, ERet 1 (IOk r) ∈ tr) /\ (exists r, ERet 2 (IOk r) ∈ tr) /\ d1 <> d2 /\ e_vol s !! p = Some (1, d1).
Proof.
  exists (wr 7 [1%N] 0 :: wr 7 [2%N] 1 :: LTake 0 1 :: go 1 2 ++ [LExec 0 None; LDone 0]). eexists _, _, 7%N, [1%N], [2%N]. split; [vm_compute; reflexivity|].
  rewrite !elem_of_list_In. split; [cbn; tauto|]. split; [cbn; tauto|]. split; [exists [1%N]; apply elem_of_list_In; cbn; tauto|]. split; [exists [2%N]; apply elem_of_list_In; cbn; tauto|]. by vm_compute.
Qed.
(** Even for a caller that waits: a write that was reported as failed (it timed out) lands after a later write that returned Ok. *)
Theorem c64_timeout_refuted : exists ls s p d1 d2 tr, irun (eng_new 1) ls = Some (s, tr) /\
  tr = [ESub 1 (KWrite p d1) prio_write 0; ERet 1 IErr; ESub 2 (KWrite p d2) prio_write 1; ERet 2 (IOk d2)] /\ d1 <> d2 /\ e_vol s !! p = Some (1, d1).
Proof. exists (wr 7 [1%N] 0 :: LTake 0 1 :: LCancel 1 :: wr 7 [2%N] 1 :: go 1 2 ++ [LExec 0 None; LDone 0]). eexists _, 7%N, [1%N], [2%N], _. split; [vm_compute; reflexivity|]. by vm_compute. Qed.

(** ** C65: a read sees every write that returned before it. *)
Theorem c65_read : forall page ls s tr w p d a b r y a' b' d' t1 t2 t3 t4 t5,
  irun (eng_new page) ls = Some (s, tr) ->
  tr = t1 ++ ESub w (KWrite p d) a b :: t2 ++ ERet w (IOk r) :: t3 ++ ESub y (KRead p) a' b' :: t4 ++ ERet y (IOk d') :: t5 ->
  not_older tr t1 p d'.
Proof.
  intros page ls s tr w p d a b r y a' b' d' t1 t2 t3 t4 t5 H Htr. destruct (acked_good _ _ _ _ _ _ _ _ _ _ _ _ _ H Htr) as (l2 & s2 & O & H2 & HQ & Hg & HO & HI2).
  pose proof (iinv_run _ _ _ _ _ (iinv_new page) H) as HI. cbn [app] in HI.
  destruct (later_good O tr s2 l2 s _ _ p y (KRead p) a' b' d' (fun _ r0 => not_older tr t1 p r0) t3 t4 t5 HI2 (eq_trans Htr (cut_app _ _ _ _ _))) as (s3 & l3 & _ & _ & HP3 & _); [exact HQ|exact Hg|exact H2|reflexivity|done| |exact HP3].
  intros s0 u x f s3 r0 HIu Hu (i & d0 & Hv & HnO) Hk He. apply execute_files in He as (_ & _ & He). specialize (He r0 eq_refl). rewrite Hk in He. destruct He as [j Hj]. assert (j = i) by congruence. assert (d0 = r0) by congruence. subst.
  destruct (ii_vol _ _ HIu _ _ _ Hv) as (x1 & x2 & Hin). exists i, x1, x2. split; [by apply Hu|]. intros r1 Hr. apply HnO. by eapply HO.
Qed.
Example c65_ex : exists s, irun (eng_new 1) (wr 7 [1%N] 0 :: go 0 1 ++ rd 7 1 :: go 0 2) = Some (s, [ESub 1 (KWrite 7 [1%N]) 7 0; ERet 1 (IOk [1%N]); ESub 2 (KRead 7) 5 1; ERet 2 (IOk [1%N])]).
Proof. eexists. vm_compute. reflexivity. Qed.

Print Assumptions c52_acked_partial. Print Assumptions c52_sole_partial. Print Assumptions c52_overtaken_refuted. Print Assumptions c52_workers_refuted.
Print Assumptions c64_order_partial. Print Assumptions c64_workers_refuted. Print Assumptions c64_timeout_refuted. Print Assumptions c65_read.
