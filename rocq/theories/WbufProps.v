(** * C17, C18 and C19 *)
From Coq Require Import NArith Lia.
From stdpp Require Import gmap list sorting.
From Verif Require Import WbufSpec WbufModel WbufProofs.

(** ** C17: accounting of the staging buffer *)
(** After every history of writes and drains the buffer holds exactly the last accepted content of each page
    since the last drain, the count of dirty pages is the number of those pages, and the byte count lies
    between the bytes held and the maximum. *)
Theorem c17_accounting : forall max ops b tr, wrun (wbuf_new max) ops = (b, tr) ->
  w_buf b = buffered tr /\ w_dirty b = size (buffered tr) /\ total (buffered tr) <= w_size b /\ w_size b <= max.
Proof.
  intros max ops b tr H. destruct (wrun_inv _ _ _ _ _ (winv_new max) H) as [[H1 H2 H3 H4] Hm]. cbn in Hm. subst max. done.
Qed.
Print Assumptions c17_accounting.
Example c17_accounting_ex : let '(b, tr) := wrun (wbuf_new 5) [WWrite 1 [1; 2; 3]; WWrite 2 [4; 5]; WWrite 3 [6]; WWrite 1 [7]; WWrite 2 [8; 9]]%N in
  w_dirty b = 2 /\ w_size b = 5 /\ total (buffered tr) = 3 /\ map snd tr = [WTaken true; WTaken true; WTaken false; WTaken true; WTaken true].
Proof. vm_compute. repeat split. Qed.

(** A refused write leaves the buffer as it was; a drain hands over the buffered pages, each once, and empties
    the buffer. *)
Theorem c17_drain : forall max ops b tr, wrun (wbuf_new max) ops = (b, tr) ->
  (forall p d b1, wstep b (WWrite p d) = (b1, WTaken false) -> b1 = b) /\
  exists l, wstep b WDrain = (wbuf_new max, WPages l) /\ NoDup (map fst l) /\ forall p d, In (p, d) l <-> buffered tr !! p = Some d.
Proof.
  intros max ops b tr H. destruct (wrun_inv _ _ _ _ _ (winv_new max) H) as [[H1 H2 H3 H4] Hm]. cbn in Hm. split.
  - intros p d b1 E. cbn in E. unfold wbuf_write in E. destruct (_ <? _); congruence.
  - exists (map_to_list (w_buf b)). cbn. unfold wbuf_drain, wbuf_new. rewrite Hm. split; [done|]. split; [apply NoDup_fst_map_to_list|].
    intros p d. rewrite <- elem_of_list_In, elem_of_map_to_list. by rewrite H1.
Qed.
Print Assumptions c17_drain.
Example c17_drain_ex : snd (wstep (fst (wrun (wbuf_new 9) [WWrite 1 [1; 2]; WWrite 2 [3]; WWrite 1 [4; 5; 6]]%N)) WDrain) = WPages [(1, [4; 5; 6]); (2, [3])]%N.
Proof. vm_compute. done. Qed.

(** With contents of one length, as the pages of the disk manager are, the byte count is exact, and a write is
    refused exactly when the page is new and the buffer cannot hold one more. *)
Theorem c17_exact : forall n max ops b tr, Forall (fun o => match o with WWrite _ d => length d = n | WDrain => True end) ops -> wrun (wbuf_new max) ops = (b, tr) ->
  w_size b = total (buffered tr) /\ w_size b = n * size (buffered tr) /\
  forall p d, length d = n -> exists b1 ok, wstep b (WWrite p d) = (b1, WTaken ok) /\ (ok = false <-> buffered tr !! p = None /\ max < n * size (buffered tr) + n).
Proof.
  intros n max ops b tr Hl H. destruct (wrun_inv _ _ _ _ _ (winv_new max) H) as [[H1 H2 H3 H4] Hm]. cbn in Hm.
  destruct (wrun_exact n _ _ _ _ Hl (eq_refl : w_size (wbuf_new max) = total (w_buf (wbuf_new max))) (map_Forall_empty _) H) as [HE HF].
  assert (HT : total (w_buf b) = n * size (w_buf b)).
  { clear - HF. induction (w_buf b) as [|p d m Hn IH] using map_ind; [rewrite map_size_empty; unfold total; rewrite map_to_list_empty; cbn; lia|].
    pose proof (total_insert m p d) as Ht. rewrite Hn in Ht. rewrite map_size_insert_None by done. apply map_Forall_insert in HF as [Hd HF]; [|done]. rewrite (IH HF) in Ht. lia. }
  unfold buffered. rewrite <- H1. split; [done|]. split; [lia|]. intros p d Hd. cbn. unfold wbuf_write. rewrite Hm, HE, HT, Hd.
  destruct (w_buf b !! p) as [y|] eqn:Ep.
  - pose proof (HF _ _ Ep) as Hy. cbn in Hy. rewrite Hy. destruct (Nat.ltb_spec max (n * size (w_buf b) + (n - n))); [lia|].
    eexists _, true. split; [reflexivity|]. split; [done|]. intros [? _]; done.
  - destruct (Nat.ltb_spec max (n * size (w_buf b) + (n - 0))).
    + eexists _, false. split; [reflexivity|]. split; [intros _; split; [done|lia]|done].
    + eexists _, true. split; [reflexivity|]. split; [done|lia].
Qed.
Print Assumptions c17_exact.
Example c17_exact_ex : exists b tr, wrun (wbuf_new 5) [WWrite 1 [1; 2]; WWrite 2 [3; 4]; WDrain; WWrite 1 [4; 5]; WWrite 3 [6; 7]]%N = (b, tr) /\
  w_size b = 4 /\ snd (wstep b (WWrite 4 [8; 9]%N)) = WTaken false /\ snd (wstep b (WWrite 3 [8; 9]%N)) = WTaken true.
Proof. eexists _, _. split; [vm_compute; reflexivity|]. vm_compute. done. Qed.

(** ** C18: the coalescer *)
(** In every run: each write hands back exactly the content submitted, whatever is pending for a page is the
    content last submitted for it, and the tables of contents, times and frequencies list the same pages, so
    that no cleanup reports an inconsistency. *)
Lemma erun_latest e tr e1 m : erun e tr e1 -> e_pend e ⊆ m -> e_pend e1 ⊆ fold_left last_write tr m.
Proof.
  intros H. revert m. induction H as [e|e o e1 r ok tr e2 Ho E HR IH]; intros m Hm; [done|]. cbn [fold_left]. apply IH. by destruct (estep_latest _ _ _ _ _ _ E Hm).
Qed.
Theorem c18_latest : forall window max now tr e, erun (eng_new window max now) tr e ->
  (forall p d, e_pend e !! p = Some d -> submitted tr !! p = Some d) /\
  (forall p d t order r ok, In (EWrite p d t order, r, ok) tr -> r = match d with [] => None | _ => Some d end /\ (ok = true <-> d <> [])) /\
  (forall p, (is_Some (e_pend e !! p) <-> is_Some (e_time e !! p)) /\ (is_Some (e_pend e !! p) <-> is_Some (e_freq e !! p))) /\
  (forall o r, ~ (exists p t order, o = EWrite p [] t order) -> In (o, r, false) tr -> False).
Proof.
  intros window max now tr e H. split; [|split; [|split]].
  - intros p d Hp. exact (lookup_weaken _ _ _ _ Hp (erun_latest _ _ _ ∅ H (map_empty_subseteq _))).
  - clear -H. revert H. generalize (eng_new window max now). intros e0 H. induction H as [e|e o e1 r ok tr e2 Ho E HR IH]; [done|].
    intros p d t order r' ok' [Heq|Hin]; [|by eapply IH]. assert (o = EWrite p d t order) by congruence. assert (r = r') by congruence. assert (ok = ok') by congruence. subst.
    destruct (estep_latest _ _ _ _ _ _ E (reflexivity (e_pend e))) as [_ Hr]. cbn in Hr. split; [done|]. cbn in E. destruct (coalesce e p d t order) as [e3 r3]. assert (r3 = r') by congruence. subst r3. assert (ok' = bool_decide (is_Some r')) by congruence. subst ok' r'.
    rewrite bool_decide_eq_true. destruct d; split; try done. intros [? ?]; done.
  - apply (erun_keys _ _ _ H), keys_new.
  - pose proof (keys_new window max now) as Hk. revert H Hk. generalize (eng_new window max now). intros e0 H Hk. induction H as [e|e o e1 r ok tr e2 Ho E HR IH]; [done|].
    intros o' r' Hne [Heq|Hin]; [|eapply IH; [by eapply estep_keys|done|done]]. assert (o = o') by congruence. assert (ok = false) by congruence. subst.
    pose proof (estep_keys _ _ _ _ _ Hk E) as Hk1. destruct o' as [p d t order|t extra|w m|t]; cbn in E.
    + destruct d as [|x d]; [apply Hne; eauto|]. destruct (coalesce e p (x :: d) t order) as [e3 r3] eqn:Ec. assert (Hf : bool_decide (is_Some r3) = false) by congruence.
      unfold coalesce in Ec. assert (r3 = Some (x :: d)) by (destruct (e_pend e !! p); congruence). subst r3. done.
    + destruct (cleanup_expired e t extra) as [e3 ok3] eqn:Ec. assert (e3 = e1) by congruence. assert (ok3 = false) by congruence. subst. unfold cleanup_expired in Ec. destruct (_ <? _)%N; [done|].
      pose proof (f_equal snd Ec) as E2. cbn [snd] in E2. pose proof (f_equal fst Ec) as E1. cbn [fst] in E1. rewrite E1 in E2. rewrite validate_keys in E2; done.
    + done.
    + done.
Qed.
Print Assumptions c18_latest.
Example c18_latest_ex : exists e, erun (eng_new 50 2 0)
    [(EWrite 1 [1] 10 [(1, 10)], Some [1], true); (EWrite 2 [2] 20 [(2, 20); (1, 10)], Some [2], true); (EWrite 1 [3; 4] 30 [(2, 20); (1, 30)], Some [3; 4], true);
     (EWrite 5 [] 31 [(5, 31); (1, 30); (2, 20)], None, false); (EWrite 3 [5] 40 [(3, 40); (1, 30); (2, 20)], Some [5], true); (EExpire 200 [], None, true)]%N e /\ e_pend e = ∅.
Proof.
  eexists. split.
  - repeat (eapply erun_step; [intros p d now order Heq; first [discriminate Heq|assert (order = order) by done; injection Heq; intros; subst; vm_compute; apply (bool_decide_unpack _); vm_compute; exact I]|vm_compute; reflexivity|]). apply erun_nil.
  - apply (bool_decide_unpack _). vm_compute. exact I.
Qed.

(** Unless the maximum is changed, the number of pending pages never exceeds it. *)
Theorem c18_bound_partial : forall window max now tr e, erun (eng_new window max now) tr e ->
  (forall o r ok, In (o, r, ok) tr -> match o with EConfig _ _ => False | _ => True end) -> size (e_pend e) <= max.
Proof.
  intros window max now tr e H Hc. assert (Hgen : forall e0, erun e0 tr e -> same_keys e0 -> size (e_pend e0) <= e_max e0 -> size (e_pend e) <= e_max e0).
  { clear H. intros e0 H. induction H as [e|e o e1 r ok tr e2 Ho E HR IH]; [done|]. intros Hk Hs.
    destruct (estep_size _ _ _ _ _ Hk (Hc o r ok (or_introl eq_refl)) Ho E Hs) as [Hs1 Hm]. rewrite <- Hm. apply IH; [|by eapply estep_keys|done].
    intros o' r' ok' Hin. apply (Hc o' r' ok'). by right. }
  apply (Hgen _ H (keys_new _ _ _)). cbn. rewrite map_size_empty. lia.
Qed.
Print Assumptions c18_bound_partial.
Example c18_bound_partial_ex : exists e, erun (eng_new 50 2 0)
    [(EWrite 1 [1] 10 [(1, 10)], Some [1], true); (EWrite 2 [2] 20 [(2, 20); (1, 10)], Some [2], true); (EWrite 3 [5] 40 [(3, 40); (1, 10); (2, 20)], Some [5], true)]%N e /\
    e_pend e = {[ 3%N := [5%N] ]}.
Proof.
  eexists. split.
  - repeat (eapply erun_step; [intros p d now order Heq; injection Heq; intros; subst; vm_compute; apply (bool_decide_unpack _); vm_compute; exact I|vm_compute; reflexivity|]). apply erun_nil.
  - apply (bool_decide_unpack _). vm_compute. exact I.
Qed.

(** After the maximum is lowered, writes to pages that are already pending succeed and leave more pages pending
    than the maximum allows. *)
Theorem c18_bound_refuted : exists tr e, erun (eng_new 50 4 0) tr e /\ (exists p d t order, last tr = Some (EWrite p d t order, Some d, true)) /\ e_max e = 1 /\ size (e_pend e) = 3.
Proof.
  exists [(EWrite 1 [1] 10 [(1, 10)], Some [1], true); (EWrite 2 [2] 20 [(2, 20); (1, 10)], Some [2], true); (EWrite 3 [5] 40 [(3, 40); (1, 10); (2, 20)], Some [5], true);
    (EConfig 50 1, None, true); (EWrite 3 [6] 41 [(3, 41); (1, 10); (2, 20)], Some [6], true)]%N. eexists. split.
  - repeat (eapply erun_step; [intros p d now order Heq; first [discriminate Heq|injection Heq; intros; subst; vm_compute; apply (bool_decide_unpack _); vm_compute; exact I]|vm_compute; reflexivity|]). apply erun_nil.
  - split; [by eexists _, _, _, _|]. vm_compute. done.
Qed.
Print Assumptions c18_bound_refuted.

(** The page just written is pending, when at least two pages may be and the clock has advanced past every
    earlier write. *)
Theorem c18_kept_partial : forall window max now tr e p d t order e1 r ok, erun (eng_new window max now) tr e ->
  2 <= e_max e -> d <> [] -> (forall q t', q <> p -> e_time e !! q = Some t' -> t' < t)%N ->
  order ≡ₚ map_to_list (<[p := t]> (e_time e)) -> estep e (EWrite p d t order) = (e1, r, ok) -> e_pend e1 !! p = Some d.
Proof.
  intros window max now tr e p d t order e1 r ok H Hm Hd Ht Ho E. cbn in E. destruct (coalesce e p d t order) as [e3 r3] eqn:Ec. assert (e3 = e1) by congruence. subst e3.
  exact (coalesce_kept e p d t order e1 r3 (erun_keys _ _ _ H (keys_new _ _ _)) Ho Hm Ht Hd Ec).
Qed.
Print Assumptions c18_kept_partial.
Example c18_kept_partial_ex : let e0 := fst (fst (estep (fst (fst (estep (eng_new 50 2 0) (EWrite 1 [1] 10 [(1, 10)])))) (EWrite 2 [2] 20 [(2, 20); (1, 10)])))%N in
  e_pend (fst (fst (estep e0 (EWrite 3 [3] 30 [(3, 30); (2, 20); (1, 10)]))))%N = {[ 3%N := [3%N] ]}.
Proof. apply (bool_decide_unpack _). vm_compute. exact I. Qed.
(** With equal clock readings the page just written can be the one dropped. *)
Theorem c18_kept_refuted : exists tr e, erun (eng_new 50 2 0) tr e /\ (exists t order, last tr = Some (EWrite 3 [3] t order, Some [3], true))%N /\ e_pend e !! 3%N = None /\ size (e_pend e) = 1.
Proof.
  exists [(EWrite 1 [1] 10 [(1, 10)], Some [1], true); (EWrite 2 [2] 10 [(2, 10); (1, 10)], Some [2], true); (EWrite 3 [3] 10 [(3, 10); (1, 10); (2, 10)], Some [3], true)]%N. eexists. split.
  - repeat (eapply erun_step; [intros p d now order Heq; injection Heq; intros; subst; vm_compute; apply (bool_decide_unpack _); vm_compute; exact I|vm_compute; reflexivity|]). apply erun_nil.
  - split; [by eexists _, _|]. vm_compute. done.
Qed.
Print Assumptions c18_kept_refuted.

(** The adjacent pages reported for a page are exactly the pending pages at most four away, in increasing
    order without repetition. *)
Theorem c18_adjacent : forall window max now tr e p, erun (eng_new window max now) tr e ->
  (p < 2 ^ 64)%N -> (forall o r ok, In (o, r, ok) tr -> match o with EWrite q _ _ _ => (q < 2 ^ 64)%N | _ => True end) ->
  StronglySorted N.lt (find_adjacent e p) /\
  forall q, q ∈ find_adjacent e p <-> is_Some (e_pend e !! q) /\ q <> p /\ (q <= p + 4)%N /\ (p <= q + 4)%N.
Proof.
  intros window max now tr e p H Hp Hq. split; [apply adjacent_sorted|]. intros q. apply adjacent_spec; [done|]. intros k [d Hd].
  pose proof (lookup_weaken _ _ _ _ Hd (erun_latest _ _ _ ∅ H (map_empty_subseteq _))) as Hs. clear - Hs Hq.
  assert (Hgen : forall m, (forall q d, m !! q = Some d -> q < 2 ^ 64)%N -> forall q d, fold_left last_write tr m !! q = Some d -> (q < 2 ^ 64)%N).
  { clear Hs. induction tr as [|[[o r] ok] tr IH]; intros m Hm; [exact Hm|]. cbn [fold_left]. apply IH; [intros; eapply Hq; by right|].
    pose proof (Hq o r ok (or_introl eq_refl)) as Ho. unfold last_write. cbn [fst]. destruct o as [p' d' t order| | |]; try exact Hm. destruct d' as [|x d']; [exact Hm|].
    intros q0 d0 [[-> _]|[_ H0]]%lookup_insert_Some; [done|by eapply Hm]. }
  eapply Hgen; [|exact Hs]. intros q0 d0 H0. by rewrite lookup_empty in H0.
Qed.
Print Assumptions c18_adjacent.
Example c18_adjacent_ex : let e0 := fold_left (fun e p => fst (fst (estep e (EWrite p [p] p [])))) [9; 1; 4; 7; 2; 5; 0]%N (eng_new 50 20 0) in
  find_adjacent e0 4%N = [0; 1; 2; 5; 7]%N.
Proof. vm_compute. done. Qed.

(** ** C19: ranges of pages *)
(** For every set of pages, the ranges cover exactly its pages, come in increasing order, and have at least one
    uncovered page between neighbours, so that they are disjoint and cannot be merged; each is not empty and its
    size is the number of its bytes. *)
Theorem c19_ranges : forall pages pend, NoDup pages ->
  let R := build_ranges pages pend in
  (forall p, In p pages <-> exists r, In r R /\ covers r p) /\
  StronglySorted apart R /\ Forall (fun r => (r_start r <= r_end r)%N) R /\ Forall (fun r => r_size r = bytes_in pend r) R /\ valid_ranges R = true.
Proof.
  intros pages pend Hnd R. destruct (build_spec pages pend Hnd) as (H1 & H2 & H3). split; [|split; [done|split; [done|split; [apply build_bytes|by apply valid_apart]]]].
  intros p. rewrite <- elem_of_list_In, <- H1. split; intros (r & Hr & Hc); exists r; (split; [by apply elem_of_list_In|done]).
Qed.
Print Assumptions c19_ranges.
Example c19_ranges_ex : build_ranges [7; 3; 12; 4; 5; 8]%N {[ 4%N := [1; 2]%N ]} = [mkRange 3 5 8194; mkRange 7 8 8192; mkRange 12 12 4096].
Proof. vm_compute. done. Qed.

(** The gaps reported for such ranges are one for each two neighbours, and together they are exactly the pages
    that lie between the first and the last page and are not in the set; the reported sizes are right when the
    pages are below 2^52. *)
Theorem c19_gaps : forall pages pend, NoDup pages ->
  let R := build_ranges pages pend in
  S (length (gaps R)) = max 1 (length R) /\
  (forall p, (exists a b s, In (a, b, s) (gaps R) /\ (a <= p <= b)%N) <-> ~ In p pages /\ (exists x, In x pages /\ (x < p)%N) /\ (exists y, In y pages /\ (p < y)%N)) /\
  (forall a b s, In (a, b, s) (gaps R) -> (a <= b)%N /\ (Forall (fun p => p < 2 ^ 52)%N pages -> s = ((b - a + 1) * 4096)%N)).
Proof.
  intros pages pend Hnd R. destruct (c19_ranges pages pend Hnd) as (H1 & H2 & H3 & _ & _). fold R in H1, H2, H3. clearbody R. destruct R as [|r l].
  - cbn. split; [done|]. split; [|intros a b s []]. intros p. split; [intros (a & b & s & [] & _)|]. intros (_ & (x & Hx & _) & _). apply H1 in Hx as (r & [] & _).
  - cbn [gaps]. destruct (gaps_spec r l H2 H3) as (G1 & G2 & G3). split; [cbn; lia|]. 
    pose proof H3 as H3'. apply Forall_cons in H3' as [Hr3 Hl3]. pose proof H2 as H2'. apply StronglySorted_inv in H2' as [Hsl Hrl]. rewrite Forall_forall in Hrl.
    assert (Hcov : forall s, In s (r :: l) -> In (r_start s) pages /\ In (r_end s) pages /\ (r_start s <= r_end s)%N).
    { intros s Hs. assert (r_start s <= r_end s)%N by (rewrite Forall_forall in H3; apply H3; by apply elem_of_list_In). split; [apply H1; exists s; split; [done|unfold covers; lia]|split; [apply H1; exists s; split; [done|unfold covers; lia]|done]]. }
    split.
    + intros p. specialize (G1 p). split.
      * intros (a & b & s & Hin & Hab). apply elem_of_list_In in Hin. destruct (proj1 G1) as (K1 & (s2 & K2 & K3) & K4); [eauto 10|]. split; [|split].
        -- intros Hp. apply H1 in Hp as (s3 & [<-|Hs3] & Hc); [unfold covers in Hc; lia|]. apply K4. exists s3. split; [by apply elem_of_list_In|done].
        -- exists (r_end r). split; [apply (Hcov r (or_introl eq_refl))|done].
        -- exists (r_start s2). split; [apply (Hcov s2); right; by apply elem_of_list_In|done].
      * intros (K1 & (x & Kx & Hx) & (y & Ky & Hy)). destruct (proj2 G1) as (a & b & s & Hin & Hab).
        { assert (Hrp : (r_end r < p)%N).
          { apply H1 in Kx as (s & Hs & Hc). unfold covers in Hc. destruct Hs as [<-|Hs].
            - destruct (decide (r_end r < p)%N); [done|]. exfalso. apply K1, H1. exists r. split; [by left|unfold covers; lia].
            - apply elem_of_list_In, Hrl in Hs. unfold apart in Hs. lia. }
          split; [done|]. apply H1 in Ky as (s & Hs & Hc). unfold covers in Hc. destruct Hs as [<-|Hs]; [lia|]. split.
          - exists s. split; [by apply elem_of_list_In|]. destruct (decide (p < r_start s)%N); [done|]. exfalso. apply K1, H1. exists s. split; [by right|unfold covers; lia].
          - intros (s3 & Hs3 & Hc3). apply K1, H1. exists s3. split; [right; by apply elem_of_list_In|done]. }
        exists a, b, s. split; [by apply elem_of_list_In|done].
    + intros a b s Hin. apply elem_of_list_In, elem_of_list_lookup in Hin as [k Hk]. apply G3 in Hk as (x & y & Hx & Hy & -> & Hb & Hab & ->). split; [done|]. intros Hf.
      rewrite N.mod_small; [done|]. apply elem_of_list_lookup_2, elem_of_list_In in Hy. rewrite Forall_forall in Hf.
      destruct (Hcov y (or_intror Hy)) as (Hys & _). apply elem_of_list_In, Hf in Hys. lia.
Qed.
Print Assumptions c19_gaps.
Example c19_gaps_ex : gaps (build_ranges [7; 3; 12; 4; 5; 8]%N ∅) = [(6, 6, 4096); (9, 11, 12288)]%N.
Proof. vm_compute. done. Qed.
(** The size of a gap of 2^52 pages is reported as 0. *)
Theorem c19_gap_size_refuted : gaps (build_ranges [0; 2 ^ 52 + 1]%N ∅) = [(1, 2 ^ 52, 0)]%N.
Proof. vm_compute. done. Qed.
Print Assumptions c19_gap_size_refuted.

(** When a page is listed twice it gets two ranges, which the validation refuses. *)
Theorem c19_duplicates_refuted : forall p pend, exists r, build_ranges [p; p] pend = [r; r] /\ covers r p /\ valid_ranges [r; r] = false.
Proof.
  intros p pend. exists (mkRange p p (page_bytes pend p)). assert (Hs : merge_sort N.le [p; p] = [p; p]).
  { pose proof (merge_sort_Permutation N.le [p; p]) as Hp. destruct (merge_sort N.le [p; p]) as [|a [|b [|c l]]]; try (apply Permutation_length in Hp; discriminate Hp).
    assert (a ∈ [p; p]) by (rewrite <- Hp; apply elem_of_cons; by left). assert (b ∈ [p; p]) by (rewrite <- Hp; apply elem_of_cons; right; apply elem_of_cons; by left).
    rewrite !elem_of_cons, elem_of_nil in *. naive_solver. }
  unfold build_ranges. rewrite Hs. cbn [ranges_from]. destruct (N.eqb_spec p (p + 1)); [lia|]. cbn [ranges_from]. rewrite (proj2 (N.leb_le p p)) by lia. split; [done|].
  split; [unfold covers; cbn; lia|]. cbn. rewrite (proj2 (N.leb_le p p)) by lia. done.
Qed.
Print Assumptions c19_duplicates_refuted.

(** Sizes are rounded up to the next multiple of the alignment. *)
Theorem c19_aligned : forall n k, (n <= aligned_size n k < n + 2 ^ k)%N /\ (aligned_size n k mod 2 ^ k = 0)%N /\ (n + padding n k = aligned_size n k)%N.
Proof. intros n k. destruct (aligned_spec n k) as (H1 & H2 & H3). split; [done|]. split; [done|]. unfold padding. lia. Qed.
Print Assumptions c19_aligned.
Example c19_aligned_ex : aligned_size 5000 12 = 8192%N /\ aligned_size 4096 12 = 4096%N /\ padding 5000 12 = 3192%N.
Proof. vm_compute. done. Qed.
