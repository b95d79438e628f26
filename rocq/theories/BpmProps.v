(** * The buffer pool: C11, C12, C13, C14 *)
From Coq Require Import NArith Lia.
From stdpp Require Import gmap list.
From Verif Require Import CacheSpec LrukSpec LrukModel LrukProofs ReplacerProofs BpmSpec BpmModel BpmProofs BpmStepProofs BpmRunProofs.

Lemma seen_new n d : seen_on (pool_open n d) view0.
Proof. intros g. cbn. by rewrite !lookup_empty. Qed.
Lemma run_split n ops b tr pre o x post : brun (pool_new n) ops = (b, tr) -> tr = pre ++ (o, x) :: post ->
  exists ops1 ops2 b1 b2, ops = ops1 ++ o :: ops2 /\ brun (pool_new n) ops1 = (b1, pre) /\ bstep b1 o = (b2, x).
Proof.
  generalize (pool_new n). clear n. intros b0 H ->. revert b0 ops H. induction pre as [|[o1 x1] pre IH]; intros b0 ops H.
  - destruct ops as [|o' ops]; cbn in H; [congruence|]. destruct (bstep b0 o') as [b1 x'] eqn:E. destruct (brun b1 ops) as [b2 t2] eqn:E2.
    assert (o' = o) by congruence. assert (x' = x) by congruence. subst. exists [], ops, b0, b1. done.
  - destruct ops as [|o' ops]; cbn in H; [congruence|]. destruct (bstep b0 o') as [b1 x'] eqn:E. destruct (brun b1 ops) as [b2 t2] eqn:E2.
    assert (o' = o1) by congruence. assert (x' = x1) by congruence. assert (t2 = pre ++ (o, x) :: post) by congruence. assert (b2 = b) by congruence. subst.
    destruct (IH _ _ E2) as (ops1 & ops2 & b3 & b4 & -> & E3 & E4). exists (o1 :: ops1), ops2, b3, b4. split; [done|]. cbn. rewrite E, E3. done.
Qed.
Lemma always_app P v t1 t2 : always P v (t1 ++ t2) -> always P v t1 /\ always P (fold_left see t1 v) t2.
Proof. revert v. induction t1 as [|[o x] t1 IH]; intros v; cbn; [done|]. intros [H1 H2]. destruct (IH _ H2). auto. Qed.

(** ** C11 *)

(** C11, partial: as long as the disk does its work, pages are written through guards and loaded one
    at a time, a read through a guard gives the bytes last written to its page, however often the page was
    evicted and read back. Missing: failing writes, [write_page] on pages that are not open, batch
    loads and calls that overlap (see below). *)
Theorem c11_reads_partial : forall n ops b tr pre g x post p c w,
  brun (pool_new n) ops = (b, tr) -> always (fun v o => io_ok o /\ polite v o) view0 tr ->
  tr = pre ++ (BRead g, x) :: post -> v_on (views pre) !! g = Some p -> v_page (views pre) !! p = Some (c, w) ->
  x = BData (Some c).
Proof.
  intros n ops b tr pre g x post p c w H Hal Ht Hg Hp.
  destruct (run_split _ _ _ _ _ _ _ _ H Ht) as (ops1 & ops2 & b1 & b2 & _ & E1 & E2). subst tr. apply always_app in Hal as [Hal _].
  destruct (brun_cinv _ _ _ _ _ (inv_open n ∅) (cinv_new n) E1 Hal) as (HI & HC & _). cbn in E2. assert (x = BData (guard_read b1 g)) by congruence. subst x. f_equal.
  assert (Hg' := Hg). change (views pre) with (fold_left see pre view0) in *. rewrite (c_on _ _ HC) in Hg'. rewrite (read_pst _ _ _ HI Hg').
  destruct (c_page _ _ HC _ _ _ Hp) as (C1 & _). destruct (guard_resident _ _ _ HI Hg') as (f & l & o & Hf & Hl & Ho).
  assert (Hr : resident b1 p = Some l) by (unfold resident; rewrite Hf; exact Hl). pose proof (pst_res _ _ _ _ HI Hr Ho) as E. rewrite E. cbn.
  unfold okp in C1. rewrite E in C1. by destruct C1 as [-> _].
Qed.
Print Assumptions c11_reads_partial.

(** A pool of one frame: the page is written, evicted by another page and fetched again. *)
Definition ops_ex : list bop := [BNew 1 0 true; BWrite 1 2 [7; 8]%N; BDrop 1 1; BNew 1 2 true; BDrop 3 3; BFetch 1 0 4 true true].
Example c11_reads_partial_ex :
  let tr := (brun (pool_new 1) (ops_ex ++ [BRead 5])).2 in let pre := take 6 tr in
  always (fun v o => io_ok o /\ polite v o) view0 tr /\ tr = pre ++ [(BRead 5, (List.nth 6 tr.*2 (BOk false)))] /\
  v_on (views pre) !! 5%N = Some 0%N /\
  exists c w, v_page (views pre) !! 0%N = Some (c, w) /\ take 5 c = [1; 0; 7; 8; 0]%N.
Proof.
  cbv zeta. split; [|split; [|split]].
  - vm_compute. auto 20.
  - vm_compute. reflexivity.
  - vm_compute. reflexivity.
  - eexists _, _. split; [vm_compute; reflexivity|]. vm_compute. reflexivity.
Qed.

(** C11, partial: a page that was written or flushed can be fetched again whenever one of the frames is
    free of open pages. Missing: pages never written, and histories with failing fetches (see below). *)
Theorem c11_fetch_partial : forall n ops b tr t p now wr,
  brun (pool_new n) ops = (b, tr) -> always (fun v o => io_ok o /\ polite v o /\ good_fetch v o) view0 tr ->
  stored (views tr) t p -> size (open_pages (views tr)) < n ->
  exists g, (bstep b (BFetch t p now true wr)).2 = BGuard (Some (g, p)).
Proof.
  intros n ops b tr t p now wr H Hal Hst Hsz.
  assert (Hal2 : always (fun v o => io_ok o /\ polite v o) view0 tr) by (eapply always_impl; [|exact Hal]; cbn; tauto).
  destruct (brun_cinv _ _ _ _ _ (inv_open n ∅) (cinv_new n) H Hal2) as (HI & HC & Hs).
  pose proof (brun_covered _ _ _ _ _ (inv_open n ∅) (cinv_new n) (covered_new n) H Hal) as Hcov. cbn in Hs.
  cbn. destruct (fetch_page b t p now true wr) as [b1 r] eqn:E. cbn. destruct r as [[g p']|].
  - destruct (fetch_page_spec _ _ _ _ _ _ _ _ HI E) as (_ & _ & _ & _ & -> & _). eauto.
  - exfalso. destruct (stored_fetch _ _ _ _ _ _ _ _ _ HI HC Hst eq_refl E eq_refl) as (-> & Hfr & [H0|Hall]); [lia|].
    pose proof (pinned_frames _ _ HI (c_on _ _ HC) Hcov Hfr Hall). unfold views in Hsz. lia.
Qed.
Print Assumptions c11_fetch_partial.
Example c11_fetch_partial_ex :
  let tr := (brun (pool_new 1) (take 5 ops_ex)).2 in
  always (fun v o => io_ok o /\ polite v o /\ good_fetch v o) view0 tr /\ stored (views tr) 1 0 /\ size (open_pages (views tr)) < 1.
Proof.
  cbv zeta. split; [|split].
  - vm_compute. auto 20.
  - split; [done|]. eexists. split; vm_compute; reflexivity.
  - vm_compute. lia.
Qed.

(** The answers of a run, long reads cut to their first four bytes. *)
Definition short (x : bout) : bout := match x with BData (Some d) => BData (Some (take 4 d)) | _ => x end.
Definition answers (n : nat) (ops : list bop) : list bout := short <$> (brun (pool_new n) ops).2.*2.

(** C11 refuted: a page that was created and not written is gone once it was evicted. *)
Theorem c11_unwritten_refuted :
  answers 1 [BNew 1 0 true; BRead 1; BDrop 1 1; BNew 1 2 true; BDrop 3 3; BFetch 1 0 4 true true] =
  [BGuard (Some (1, 0)); BData (Some [1; 0; 0; 0]); BOk true; BGuard (Some (3, 1)); BOk true; BGuard None]%N.
Proof. vm_compute. reflexivity. Qed.
Print Assumptions c11_unwritten_refuted.

(** C11 refuted: when the write of an evicted page fails, the page is dropped all the same; nobody is told,
    and the next fetch gives older bytes. *)
Theorem c11_write_error_refuted :
  answers 1 [BNew 1 0 true; BWrite 1 2 [7; 8]%N; BFlush 0 true; BWrite 1 2 [9; 9]%N; BDrop 1 1; BNew 1 2 false; BDrop 3 3; BFetch 1 0 4 true true; BRead 5] =
  [BGuard (Some (1, 0)); BOk true; BOk true; BOk true; BOk true; BGuard (Some (3, 1)); BOk true; BGuard (Some (5, 0)); BData (Some [1; 0; 7; 8])]%N.
Proof. vm_compute. reflexivity. Qed.
Print Assumptions c11_write_error_refuted.

(** C11 refuted: [write_page] on a page that is not in memory does nothing and answers nothing. *)
Theorem c11_write_page_refuted :
  answers 1 [BNew 1 0 true; BWrite 1 2 [7; 8]%N; BDrop 1 1; BNew 1 2 true; BDrop 3 3; BPoke 0 (1 :: 0 :: 9 :: 9 :: repeat 0 4092)%N; BFetch 1 0 4 true true; BRead 5] =
  [BGuard (Some (1, 0)); BOk true; BOk true; BGuard (Some (3, 1)); BOk true; BOk true; BGuard (Some (5, 0)); BData (Some [1; 0; 7; 8])]%N.
Proof. vm_compute. reflexivity. Qed.
Print Assumptions c11_write_page_refuted.

(** C11 refuted: a batch load that finds no frame hands out a guard on a private copy of the page. What is
    written through it can be read through it, and is lost. *)
Theorem c11_batch_refuted :
  answers 1 [BNew 1 0 true; BWrite 1 2 [7; 8]%N; BDrop 1 1; BNew 1 2 true; BBatch 1 [0]%N 4 true true; BWrite 5 2 [9; 9]%N; BRead 5; BDrop 5 3; BDrop 3 3; BFetch 1 0 4 true true; BRead 7] =
  [BGuard (Some (1, 0)); BOk true; BOk true; BGuard (Some (3, 1)); BGuards [Some 5]; BOk true; BData (Some [1; 0; 9; 9]); BOk false; BOk true; BGuard (Some (7, 0)); BData (Some [1; 0; 7; 8])]%N.
Proof. vm_compute. reflexivity. Qed.
Print Assumptions c11_batch_refuted.

(** C11 refuted: the guards of a batch come in the order of the page ids, not in the order asked for. *)
Theorem c11_batch_order_refuted :
  answers 2 [BNew 1 0 true; BWrite 1 2 [7]%N; BNew 1 2 true; BWrite 3 2 [8]%N; BBatch 1 [1; 0]%N 4 true true; BRead 4; BRead 5] =
  [BGuard (Some (1, 0)); BOk true; BGuard (Some (3, 1)); BOk true; BGuards [Some 5; Some 4]; BData (Some [1; 0; 8; 0]); BData (Some [1; 0; 7; 0])]%N.
Proof. vm_compute. reflexivity. Qed.
Print Assumptions c11_batch_order_refuted.

(** ** C12 *)

(** C12, partial: while a guard on a page is open, whatever else is called and however the disk
    fails, the page keeps its frame, no write of others changes its bytes, it cannot be deleted, and every guard on
    it reads the same. Missing: batch loads and calls that overlap (see below). *)
Theorem c12_pinned_partial : forall n ops1 b1 tr1 ops2 b2 tr2 g p,
  Forall nobatch ops1 -> Forall nobatch ops2 ->
  brun (pool_new n) ops1 = (b1, tr1) -> brun b1 ops2 = (b2, tr2) ->
  v_on (views tr1) !! g = Some p -> Forall (keeps g) ops2 ->
  (exists f, b_table b1 !! p = Some f /\ b_table b2 !! p = Some f /\ b_frames b2 !! f = b_frames b1 !! f /\ is_Some (b_frames b1 !! f)) /\
  (always (fun v o => leaves v p o) (views tr1) tr2 -> (bstep b2 (BRead g)).2 = (bstep b1 (BRead g)).2) /\
  (forall g', v_on (views (tr1 ++ tr2)) !! g' = Some p -> (bstep b2 (BRead g')).2 = (bstep b2 (BRead g)).2) /\
  (exists c, (bstep b2 (BRead g)).2 = BData (Some c)) /\
  bstep b2 (BDelete p) = (b2, BOk false).
Proof.
  intros n ops1 b1 tr1 ops2 b2 tr2 g p Hn1 Hn2 H1 H2 Hg Hk.
  destruct (brun_any _ _ _ _ _ (inv_open n ∅) (seen_new n ∅) Hn1 H1) as (HI1 & HO1 & _).
  destruct (brun_any _ _ _ _ _ HI1 HO1 Hn2 H2) as (HI2 & HO2 & _).
  destruct (brun_open _ _ _ _ _ _ _ HI1 HO1 Hn2 H2 Hg Hk) as (Hg2 & Ht & Hf & Hst).
  assert (Hv : views (tr1 ++ tr2) = fold_left see tr2 (fold_left see tr1 view0)) by (unfold views; by rewrite fold_left_app).
  pose proof Hg as Hg1'. unfold views in Hg1'. rewrite HO1 in Hg1'. pose proof Hg2 as Hg2'. rewrite HO2 in Hg2'.
  destruct (guard_resident _ _ _ HI1 Hg1') as (f & l & o & R1 & R2 & R3).
  destruct (guard_resident _ _ _ HI2 Hg2') as (f2 & l2 & o2 & S1 & S2 & S3).
  assert (Hr2 : resident b2 p = Some l2) by (unfold resident; rewrite S1; exact S2).
  split; [|split; [|split; [|split]]].
  - exists f. split; [done|]. split; [congruence|]. split; [auto|by rewrite R2].
  - intros Hal. cbn [bstep snd]. f_equal. rewrite (read_pst _ _ _ HI1 Hg1'), (read_pst _ _ _ HI2 Hg2'). by apply Hst.
  - intros g' Hg'. cbn [bstep snd]. f_equal. rewrite Hv, HO2 in Hg'. by rewrite (read_pst _ _ _ HI2 Hg'), (read_pst _ _ _ HI2 Hg2').
  - cbn [bstep snd]. exists (o_data o2). f_equal. rewrite (read_pst _ _ _ HI2 Hg2'), (pst_res _ _ _ _ HI2 Hr2 S3). done.
  - cbn [bstep]. destruct (delete_page b2 p) as [b3 ok] eqn:E. destruct (delete_page_spec _ _ _ _ HI2 E) as (_ & _ & _ & _ & _ & _ & _ & _ & Hno & Hyes).
    destruct ok; [|by rewrite Hno]. exfalso. destruct (b_guards b2 !! g) as [G|] eqn:EG; [|done]. apply (Hyes eq_refl _ _ EG). cbn in Hg2'. congruence.
Qed.
Print Assumptions c12_pinned_partial.
(** Two frames; page 0 stays open while pages 1, 2 and 3 pass through the other frame, with failing writes. *)
Definition ops_pin : list bop := [BNew 1 1 false; BWrite 3 5 [4]%N; BDrop 3 2; BNew 1 3 false; BDrop 5 4; BNew 1 5 true; BDelete 0].
Example c12_pinned_partial_ex :
  let '(b1, tr1) := brun (pool_new 2) [BNew 1 0 true; BWrite 1 2 [7; 8]%N] in
  let '(b2, tr2) := brun b1 ops_pin in
  Forall nobatch ops_pin /\ v_on (views tr1) !! 1%N = Some 0%N /\ Forall (keeps 1) ops_pin /\ always (fun v o => leaves v 0 o) (views tr1) tr2 /\
  (short <$> tr2.*2) = [BGuard (Some (3, 1)); BOk true; BOk true; BGuard (Some (5, 2)); BOk true; BGuard (Some (7, 3)); BOk false]%N.
Proof.
  destruct (brun (pool_new 2) [BNew 1 0 true; BWrite 1 2 [7; 8]%N]) as [b1 tr1] eqn:E1. destruct (brun b1 ops_pin) as [b2 tr2] eqn:E2.
  assert (Ht1 : tr1 = (brun (pool_new 2) [BNew 1 0 true; BWrite 1 2 [7; 8]%N]).2) by (by rewrite E1).
  assert (Ht2 : tr2 = (brun (brun (pool_new 2) [BNew 1 0 true; BWrite 1 2 [7; 8]%N]).1 ops_pin).2) by (by rewrite E1; cbn [fst]; rewrite E2).
  clear E1 E2. subst. split; [repeat constructor|]. split; [vm_compute; reflexivity|]. split; [repeat constructor; done|].
  split; [vm_compute; repeat split; discriminate|]. vm_compute. reflexivity.
Qed.

(** The answers of an interleaved run. *)
Definition canswers (n : nat) (ops : list cop) : list bout := short <$> (crun (mkC (pool_new n) [] []) ops).2.

(** C12 refuted: a fetch that has found its page, and is about to pin it, is overtaken by a call that takes the
    frame. The fetch then hands out a guard on a page that is no longer in the pool: what is written through it is lost. *)
Theorem c12_race_refuted :
  canswers 1 [CCall (BNew 1 0 true); CCall (BWrite 1 2 [7; 8]%N); CCall (BDrop 1 1); CFind 1 0; CCall (BNew 1 2 true); CPin 3;
              CCall (BWrite 4 2 [9; 9]%N); CCall (BRead 4); CCall (BDrop 4 4); CCall (BDrop 3 4); CCall (BFetch 1 0 5 true true); CCall (BRead 6)] =
  [BGuard (Some (1, 0)); BOk true; BOk true; BOk true; BGuard (Some (3, 1)); BGuard (Some (4, 0)); BOk true; BData (Some [1; 0; 9; 9]);
   BOk false; BOk true; BGuard (Some (6, 0)); BData (Some [1; 0; 7; 8])]%N.
Proof. vm_compute. reflexivity. Qed.
Print Assumptions c12_race_refuted.

(** C12 refuted: two callers that load the same page at once get two copies of it, and do not see
    each other's writes. *)
Theorem c12_two_copies_refuted :
  canswers 3 [CCall (BNew 1 0 true); CCall (BWrite 1 2 [7; 8]%N); CCall (BFlush 0 true); CCall (BDrop 1 1);
              CCall (BNew 1 2 true); CCall (BNew 1 3 true); CCall (BNew 1 3 true); CCall (BDrop 3 3); CCall (BDrop 5 3); CCall (BDrop 7 3);
              CLoad 0 true true; CLoad 0 true true; CInstall 1 5; CInstall 1 6; CCall (BWrite 9 2 [9; 9]%N); CCall (BRead 9); CCall (BRead 11)] =
  [BGuard (Some (1, 0)); BOk true; BOk true; BOk true; BGuard (Some (3, 1)); BGuard (Some (5, 2)); BGuard (Some (7, 3)); BOk true; BOk true; BOk true;
   BOk true; BOk true; BGuard (Some (9, 0)); BGuard (Some (11, 0)); BOk true; BData (Some [1; 0; 9; 9]); BData (Some [1; 0; 7; 8])]%N.
Proof. vm_compute. reflexivity. Qed.
Print Assumptions c12_two_copies_refuted.

(** C12 refuted: a deleted page can be fetched again, with the bytes it had when it was flushed. *)
Theorem c12_delete_refuted :
  answers 1 [BNew 1 0 true; BWrite 1 2 [7; 8]%N; BDrop 1 1; BFlush 0 true; BDelete 0; BFetch 1 0 2 true true; BRead 3] =
  [BGuard (Some (1, 0)); BOk true; BOk true; BOk true; BOk true; BGuard (Some (3, 0)); BData (Some [1; 0; 7; 8])]%N.
Proof. vm_compute. reflexivity. Qed.
Print Assumptions c12_delete_refuted.

(** ** C13 *)

(** C13, partial: after any history whose fetches all gave a guard, whatever the disk did, a new page can be
    had as long as fewer pages are open than there are frames. Missing: histories with a fetch that fails (see
    below), batch loads. *)
Theorem c13_frames_partial : forall n ops b tr t now wr,
  Forall nobatch ops -> brun (pool_new n) ops = (b, tr) -> Forall got tr -> size (open_pages (views tr)) < n ->
  exists g p, (bstep b (BNew t now wr)).2 = BGuard (Some (g, p)).
Proof.
  intros n ops b tr t now wr Hn H Hgot Hsz.
  destruct (brun_any _ _ _ _ _ (inv_open n ∅) (seen_new n ∅) Hn H) as (HI & HO & Hs & Hcov). specialize (Hcov Hgot (covered_new n)). cbn in Hs.
  cbn. destruct (new_page b t now wr) as [b1 r] eqn:E. cbn. destruct r as [[g p]|]; [eauto|]. exfalso.
  destruct (new_page_spec _ _ _ _ _ _ HI E) as (-> & Hfr & [H0|Hall]); [lia|].
  pose proof (pinned_frames _ _ HI HO Hcov Hfr Hall). unfold views in Hsz. lia.
Qed.
Print Assumptions c13_frames_partial.
Example c13_frames_partial_ex :
  let ops := [BNew 1 0 true; BWrite 1 2 [7; 8]%N; BNew 1 1 true; BDrop 3 1; BNew 1 3 false; BDrop 5 1; BFetch 1 0 2 false false; BDelete 1; BDrop 1 5] in
  let tr := (brun (pool_new 2) ops).2 in
  Forall nobatch ops /\ Forall got tr /\ size (open_pages (views tr)) = 1.
Proof. cbv zeta. split; [repeat constructor|]. split; [vm_compute; repeat constructor|vm_compute; reflexivity]. Qed.

(** C13 refuted: a fetch that fails after it took a frame never gives it back. In a pool of one frame, no page is
    open, and no page can be had any more. *)
Theorem c13_leak_refuted :
  let ops := [BNew 1 0 true; BDrop 1 1; BNew 1 2 true; BWrite 3 2 [7]%N; BDrop 3 3; BFetch 1 0 4 true true] in
  answers 1 (ops ++ [BNew 1 9 true; BFetch 1 1 9 true true]) =
    [BGuard (Some (1, 0)); BOk true; BGuard (Some (3, 1)); BOk true; BOk true; BGuard None; BGuard None; BGuard None]%N /\
  size (open_pages (views (brun (pool_new 1) ops).2)) = 0.
Proof. split; vm_compute; reflexivity. Qed.
Print Assumptions c13_leak_refuted.

(** C13 refuted, for every pool and every page: a fetch of a page that is neither in memory nor on disk takes
    a frame for good. *)
Theorem c13_leak_always_refuted : forall n ops b tr t p now wr b1 x f rest,
  Forall nobatch ops -> brun (pool_new n) ops = (b, tr) -> b_free b = f :: rest ->
  (p < b_next b)%N -> p <> (2 ^ 64 - 1)%N -> resident b p = None -> b_disk b !! p = None ->
  bstep b (BFetch t p now true wr) = (b1, x) ->
  x = BGuard None /\ b_free b1 = rest /\ b_frames b1 = b_frames b /\ f ∉ b_free b1 /\ b_frames b1 !! f = None.
Proof.
  intros n ops b tr t p now wr b1 x f rest Hn H Hfr Hp Hmax Hr Hd E.
  destruct (brun_any _ _ _ _ _ (inv_open n ∅) (seen_new n ∅) Hn H) as (HI & _).
  assert (Hf : b_frames b !! f = None) by (apply (i_free _ HI); rewrite Hfr; apply elem_of_cons; by left).
  pose proof (i_nd _ HI) as Hnd. rewrite Hfr in Hnd. apply NoDup_cons in Hnd as [Hnf _].
  cbn [bstep] in E. unfold fetch_page in E. rewrite decide_False in E by (intros [?|?]; [done|lia]). rewrite Hr in E.
  unfold load_begin, get_available_frame in E. rewrite Hfr in E. unfold evict_if_necessary in E. cbn [b_frames set_free] in E. rewrite Hf in E.
  cbn [b_disk set_free] in E. rewrite Hd in E. cbn in E.
  assert (x = BGuard None) by congruence. assert (b1 = set_free b rest) by congruence. subst. cbn [b_free b_frames set_free]. done.
Qed.
Print Assumptions c13_leak_always_refuted.
Example c13_leak_always_refuted_ex :
  let ops := [BNew 1 0 true; BDrop 1 1; BDelete 0] in let b := (brun (pool_new 2) ops).1 in
  b_free b = [1; 0]%N /\ (0 < b_next b)%N /\ resident b 0 = None /\ b_disk b !! 0%N = None.
Proof. cbv zeta. split; [vm_compute; reflexivity|]. split; [vm_compute; reflexivity|]. split; vm_compute; reflexivity. Qed.

(** ** C14 *)

(** C14, partial: the page ids one pool hands out, whatever is called in whatever interleaving, with or
    without errors, are all different, and start at the number it was opened with. Missing: clones and
    pools opened on an existing file (see below). *)
Theorem c14_unique_partial : forall n ops c xs,
  crun (mkC (pool_new n) [] []) ops = (c, xs) -> NoDup (omap c_handed (zip ops xs)).
Proof. intros n ops c xs H. by destruct (crun_next _ _ _ _ H) as (_ & ? & _). Qed.
Print Assumptions c14_unique_partial.
Example c14_unique_partial_ex :
  let ops := [CCall (BNew 1 0 true); CCall (BDrop 1 1); CCall (BDelete 0); CCall BAlloc; CCall (BNew 1 3 true); CCall (BNew 1 3 true)] in
  omap c_handed (zip ops (crun (mkC (pool_new 1) [] []) ops).2) = [0; 1; 2]%N.
Proof. vm_compute. reflexivity. Qed.

(** C14 refuted: a clone of the pool has its own counter, so both hand out the same id; the page of the
    first one is then out of reach. *)
Theorem c14_clone_refuted :
  let '(b1, _) := brun (pool_new 2) [] in
  let k := clone_counter b1 in
  let '(b2, x1) := bstep b1 (BNew 1 0 true) in
  let '(b3, x2) := bstep b2 (BWrite 1 2 [7; 8]%N) in
  let '(b4, k', x3) := on_clone b3 k (BNew 1 1 true) in
  let '(b5, x4) := bstep b4 (BFetch 1 0 2 true true) in
  x1 = BGuard (Some (1, 0))%N /\ x3 = BGuard (Some (3, 0))%N /\ x4 = BGuard (Some (4, 0))%N /\
  short (bstep b5 (BRead 4)).2 = BData (Some [1; 0; 0; 0])%N.
Proof. vm_compute. auto. Qed.
Print Assumptions c14_clone_refuted.

(** C14 refuted: a pool opened on the file of an earlier one starts at 0 again. The first new page takes
    the id of an existing one, and, once written back, its place. *)
Theorem c14_reopen_refuted :
  let b1 := (brun (pool_new 2) [BNew 1 0 true; BWrite 1 2 [7; 8]%N; BFlush 0 true]).1 in
  let '(b2, tr) := brun (pool_open 2 (b_disk b1)) [BNew 1 0 true; BWrite 1 2 [9]%N; BFlush 0 true] in
  take 4 <$> b_disk b1 !! 0%N = Some [1; 0; 7; 8]%N /\ tr.*2 = [BGuard (Some (1, 0)); BOk true; BOk true]%N /\
  take 4 <$> b_disk b2 !! 0%N = Some [1; 0; 9; 0]%N.
Proof. vm_compute. auto. Qed.
Print Assumptions c14_reopen_refuted.

(** C14 refuted: and a page of the earlier pool cannot be fetched before the counter has passed it. *)
Theorem c14_reopen_fetch_refuted : forall n d t p now rd wr,
  (bstep (pool_open n d) (BFetch t p now rd wr)).2 = BGuard None.
Proof. intros. cbn. unfold fetch_page. rewrite decide_True; [done|]. right. cbn. lia. Qed.
Print Assumptions c14_reopen_fetch_refuted.
