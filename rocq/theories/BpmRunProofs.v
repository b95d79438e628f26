From Coq Require Import NArith Lia.
From stdpp Require Import gmap list.
From Verif Require Import CacheSpec LrukSpec LrukModel LrukProofs ReplacerProofs BpmSpec BpmModel BpmProofs BpmStepProofs.

Lemma free_perm n : rev (N.of_nat <$> seq 0 n) ≡ₚ N.of_nat <$> seq 0 n.
Proof. symmetry. apply Permutation_rev. Qed.
Lemma elem_of_free n f : f ∈ rev (N.of_nat <$> seq 0 n) <-> N.to_nat f < n.
Proof.
  rewrite free_perm, elem_of_list_fmap. split.
  - intros (k & -> & Hk%elem_of_seq). lia.
  - intros H. exists (N.to_nat f). split; [lia|]. apply elem_of_seq. lia.
Qed.
Lemma inv_open n d : Inv (pool_open n d).
Proof.
  split; cbn; try (intros *; rewrite ?lookup_empty; done).
  - rewrite free_perm. apply NoDup_fmap_2; [intros ? ?; lia|apply NoDup_seq].
  - intros f Hf. by apply elem_of_free in Hf.
  - intros f. split; [by intros ?%ev_new|]. intros (l & o & Hl & _). by rewrite lookup_empty in Hl.
  - apply rinv_new.
Qed.

Lemma bstep_inv b o b1 x : Inv b -> nobatch o -> bstep b o = (b1, x) ->
  Inv b1 /\ stable b b1 /\ b_size b1 = b_size b /\ (b_next b <= b_next b1)%N.
Proof.
  intros HI Hnb H. destruct o; cbn in H, Hnb; try done.
  - destruct (new_page b t now wr) as [b2 r] eqn:E. assert (b2 = b1) by congruence. subst b2. pose proof (new_page_spec _ _ _ _ _ _ HI E) as Hs.
    destruct r as [[g p]|].
    + destruct Hs as (H1 & H2 & _ & _ & H3 & H4 & _). rewrite H3. split; [done|]. split; [done|]. split; [done|lia].
    + destruct Hs as [-> _]. split; [done|]. split; [apply same_maps_stable, same_maps_refl|]. split; [done|lia].
  - destruct (fetch_page b t pid now rd wr) as [b2 r] eqn:E. assert (b2 = b1) by congruence. subst b2.
    destruct (fetch_page_spec _ _ _ _ _ _ _ _ HI E) as (H1 & H2 & H3 & H4 & _). rewrite H4. done.
  - assert (b1 = b) by congruence. subst. split; [done|]. split; [apply same_maps_stable, same_maps_refl|]. split; [done|lia].
  - destruct (guard_write b g off bs) as [b2 r] eqn:E. assert (b2 = b1) by congruence. subst b2.
    destruct (guard_write_spec _ _ _ _ _ _ HI E) as (H1 & H2 & _). split; [done|]. split; [by apply same_maps_stable|].
    destruct H2 as (_ & _ & _ & -> & ->). done.
  - destruct (guard_drop b g now) as [b2 r] eqn:E. assert (b2 = b1) by congruence. subst b2.
    destruct (guard_drop_spec _ _ _ _ _ HI E) as (H1 & H2 & _). split; [done|]. split; [by apply same_maps_stable|].
    destruct H2 as (_ & _ & _ & -> & ->). done.
  - destruct (flush_page b pid wr) as [b2 r] eqn:E. assert (b2 = b1) by congruence. subst b2.
    destruct (flush_page_spec _ _ _ _ _ HI E) as (H1 & H2 & _). split; [done|]. split; [by apply same_maps_stable|].
    destruct H2 as (_ & _ & _ & -> & ->). done.
  - assert (flush_all b wr = b1) by congruence. subst b1. destruct (flush_all_spec b wr HI) as (H1 & H2 & _). split; [done|]. split; [by apply same_maps_stable|].
    destruct H2 as (_ & _ & _ & -> & ->). done.
  - destruct (flush_batch b max wr) as [b2 r] eqn:E. assert (b2 = b1) by congruence. subst b2.
    destruct (flush_batch_spec _ _ _ _ _ HI E) as (H1 & H2 & _). split; [done|]. split; [by apply same_maps_stable|].
    destruct H2 as (_ & _ & _ & -> & ->). done.
  - destruct (delete_page b pid) as [b2 r] eqn:E. assert (b2 = b1) by congruence. subst b2.
    destruct (delete_page_spec _ _ _ _ HI E) as (H1 & H2 & _ & H4 & H5 & _). rewrite H5. done.
  - assert (poke b pid bs = b1) by congruence. subst b1. destruct (poke_spec b pid bs HI) as (H1 & H2 & _). split; [done|]. split; [by apply same_maps_stable|].
    destruct H2 as (_ & _ & _ & -> & ->). done.
  - assert (b1 = set_next b (b_next b + 1)) by congruence. subst b1. split; [apply set_next_inv; [done|lia]|]. split; [done|]. split; [done|cbn; lia].
Qed.

(** ** What the user sees *)
Definition okp (c : bytes) (w : bool) (x : option (bytes * bool) * option bytes) : Prop :=
  match x.1 with
  | Some (c', dirty) => c' = c /\ (dirty = false -> x.2 = Some c \/ (w = false /\ x.2 = None))
  | None => x.2 = Some c \/ (w = false /\ x.2 = None)
  end.
Lemma okp_evict c w x : okp c w x -> okp c w (evicted true x).
Proof. destruct x as [[[c' []]|] d]; unfold okp; cbn; [intros [-> _]; by left|intros [_ ?]; auto|done]. Qed.
Lemma okp_evicts c w x y : okp c w x -> y = x \/ y = evicted true x -> okp c w y.
Proof. intros H [->| ->]; [done|by apply okp_evict]. Qed.
Lemma okp_frel c w x y : okp c w x -> frel x y -> okp c w y.
Proof.
  intros H [->|(c' & d & E & ->)]; [done|]. unfold okp in *. rewrite E in H. destruct H as [-> _]. cbn. split; [done|by left].
Qed.

Record CInv (b : pool) (v : view) : Prop := {
  c_on : forall g, v_on v !! g = g_pid <$> b_guards b !! g;
  c_page : forall p c w, v_page v !! p = Some (c, w) ->
     okp c w (pst b p) /\ (p < b_next b)%N /\ length c = page_size /\ is_Some (head c);
  c_disk : forall p d, b_disk b !! p = Some d -> (p < b_next b)%N }.

Lemma cinv_new n : CInv (pool_new n) view0.
Proof. split; cbn; intros *; rewrite ?lookup_empty; done. Qed.

Lemma pst_disk b p : (pst b p).2 = b_disk b !! p.
Proof. done. Qed.
Lemma pst_resident b p c d k : Inv b -> pst b p = (Some (c, d), k) -> (p < b_next b)%N.
Proof.
  intros HI E. unfold pst, resident in E. destruct (b_table b !! p) eqn:Et; [|done]. by eapply i_next.
Qed.
Lemma disk_evicts b b1 : Inv b -> b_next b1 = b_next b ->
  (forall p d, b_disk b !! p = Some d -> (p < b_next b)%N) ->
  forall p, (pst b1 p = pst b p \/ pst b1 p = evicted true (pst b p)) -> forall d, b_disk b1 !! p = Some d -> (p < b_next b)%N.
Proof.
  intros HI Hn Hd p [E|E] d Hp; rewrite <- pst_disk, E in Hp; [eauto|].
  destruct (pst b p) as [[[c []]|] k] eqn:Ep; cbn in Hp.
  - by eapply pst_resident.
  - apply (Hd p d). rewrite <- pst_disk, Ep. done.
  - apply (Hd p d). rewrite <- pst_disk, Ep. done.
Qed.
Lemma disk_frel b b1 : Inv b -> (forall p d, b_disk b !! p = Some d -> (p < b_next b)%N) ->
  forall p, frel (pst b p) (pst b1 p) -> forall d, b_disk b1 !! p = Some d -> (p < b_next b)%N.
Proof.
  intros HI Hd p [E|(c & d0 & E & E2)] d Hp.
  - rewrite <- pst_disk, E in Hp. eauto.
  - destruct (pst b p) as [r k] eqn:Ep. cbn in E. subst r. by eapply pst_resident.
Qed.

Lemma bstep_cinv b v o b1 x : Inv b -> CInv b v -> io_ok o -> polite v o -> bstep b o = (b1, x) -> CInv b1 (see v (o, x)).
Proof.
  intros HI HC Hio Hpo H. destruct o; cbn in H, Hio, Hpo; try done.
  - destruct (new_page b t now wr) as [b2 r] eqn:E. assert (b2 = b1) by congruence. assert (x = BGuard r) by congruence. subst b2 x.
    pose proof (new_page_spec _ _ _ _ _ _ HI E) as Hs. destruct r as [[g p]|].
    + destruct Hs as (H1 & H2 & _ & Hp & H3 & H4 & Hg0 & (l & Hg) & d1 & Hpp & Hd1 & Hq). subst wr. split; cbn.
      * intros g'. rewrite Hg. destruct (decide (g' = g)) as [->|Hne]; [by rewrite !lookup_insert|]. rewrite !lookup_insert_ne by done. apply HC.
      * intros q c w Hqv. apply lookup_insert_Some in Hqv as [[<- Hcw]|[Hne Hqv]].
        -- assert (c = fresh_page t) by congruence. assert (w = false) by congruence. subst c w. rewrite Hpp.
           destruct (fresh_page_tag t) as [F1 F2]. split; [|split; [lia|split; [done|eauto]]].
           unfold okp. cbn. split; [done|]. intros _. right. split; [done|]. rewrite Hd1.
           destruct (b_disk b !! p) eqn:Ed; [|done]. apply (c_disk _ _ HC) in Ed. lia.
        -- destruct (c_page _ _ HC _ _ _ Hqv) as (C1 & C2 & C3 & C4). split; [|split; [lia|done]]. eapply okp_evicts; [exact C1|]. auto.
      * intros q d Hqd. rewrite H3. destruct (decide (q = p)) as [->|Hne]; [lia|]. 
        assert ((q < b_next b)%N); [|lia]. rewrite <- pst_disk in Hqd. destruct (Hq q Hne) as [Eq|Eq]; rewrite Eq in Hqd.
        -- by apply (c_disk _ _ HC) in Hqd.
        -- destruct (pst b q) as [[[c []]|] k] eqn:Ep; cbn in Hqd.
           ++ by eapply pst_resident.
           ++ apply (c_disk _ _ HC q d). rewrite <- pst_disk, Ep. done.
           ++ apply (c_disk _ _ HC q d). rewrite <- pst_disk, Ep. done.
    + destruct Hs as [-> _]. done.
  - destruct (fetch_page b t pid now rd wr) as [b2 r] eqn:E. assert (b2 = b1) by congruence. assert (x = BGuard r) by congruence. subst b2 x.
    destruct Hio as [-> ->].
    destruct (fetch_page_spec _ _ _ _ _ _ _ _ HI E) as (H1 & H2 & H3 & H4 & Hs). destruct r as [[g p']|].
    + destruct Hs as (-> & _ & Hg0 & (l & Hg) & Hq & Hp). split; cbn.
      * intros g'. rewrite Hg. destruct (decide (g' = g)) as [->|Hne]; [by rewrite !lookup_insert|]. rewrite !lookup_insert_ne by done. apply HC.
      * intros q c w Hqv. destruct (c_page _ _ HC _ _ _ Hqv) as (C1 & C2 & C3 & C4). rewrite H4. split; [|done].
        destruct (decide (q = pid)) as [->|Hne]; [|eapply okp_evicts; [exact C1|]; auto].
        destruct Hp as [->|(d & E1 & E2 & _)]; [done|]. rewrite E1 in C1. unfold okp in C1. cbn in C1.
        destruct C1 as [Ed|[_ Ed]]; [|done]. assert (d = c) by congruence. subst d. rewrite E2. rewrite decide_True by done.
        unfold okp. cbn. split; [done|]. intros ?. done.
      * intros q d Hqd. rewrite H4. destruct (decide (q = pid)) as [->|Hne]; [|eapply (disk_evicts b b1); [done|done|apply HC|by apply Hq|done]].
        destruct Hp as [Ep|(d' & E1 & E2 & _)]; rewrite <- pst_disk in Hqd.
        -- rewrite Ep in Hqd. by apply (c_disk _ _ HC) in Hqd.
        -- apply (c_disk _ _ HC pid d'). rewrite <- pst_disk, E1. done.
    + destruct Hs as (Hg & Hq & _). split; cbn.
      * intros g'. rewrite Hg. apply HC.
      * intros q c w Hqv. destruct (c_page _ _ HC _ _ _ Hqv) as (C1 & C2 & C3 & C4). rewrite H4. split; [|done]. eapply okp_evicts; [exact C1|]; auto.
      * intros q d Hqd. rewrite H4. eapply (disk_evicts b b1); [done|done|apply HC|by apply Hq|done].
  - assert (b1 = b) by congruence. assert (x = BData (guard_read b g)) by congruence. subst. done.
  - destruct (guard_write b g off bs) as [b2 r] eqn:E. assert (b2 = b1) by congruence. assert (x = BOk r) by congruence. subst b2 x.
    destruct (guard_write_spec _ _ _ _ _ _ HI E) as (H1 & (_ & _ & _ & _ & Hn) & Hg & _ & Hp).
    assert (Hpd : forall q d, b_disk b1 !! q = Some d -> (q < b_next b1)%N).
    { intros q d Hqd. rewrite Hn. rewrite <- pst_disk in Hqd. specialize (Hp q). destruct (b_guards b !! g) as [G|].
      - case_decide; [destruct Hp as (c & k & _ & E2); rewrite E2 in Hqd; by apply (c_disk _ _ HC) in Hqd|].
        rewrite Hp in Hqd. by apply (c_disk _ _ HC) in Hqd.
      - destruct Hp as [Ep _]. rewrite Ep in Hqd. by apply (c_disk _ _ HC) in Hqd. }
    destruct (b_guards b !! g) as [G|] eqn:EG.
    + assert (Hvg : v_on v !! g = Some (g_pid G)) by (rewrite (c_on _ _ HC), EG; done).
      destruct r; cbn; [rewrite Hvg|].
      * split; cbn; [|intros q c w Hqv|done].
        { intros g'. rewrite Hg. apply HC. }
        rewrite Hn. specialize (Hp q). destruct (decide (q = g_pid G)) as [->|Hne].
        -- rewrite lookup_alter in Hqv. destruct (v_page v !! g_pid G) as [[c0 w0]|] eqn:Ev; [|done]. assert (Hq2 : Some (patch c0 off bs, true) = Some (c, w)) by exact Hqv. clear Hqv.
           destruct (c_page _ _ HC _ _ _ Ev) as (C1 & C2 & C3 & C4). assert (c = patch c0 off bs) by congruence. assert (w = true) by congruence. subst c w.
           rewrite patch_length, patch_head. split; [|done]. destruct Hp as (c' & k & E1 & ->). rewrite E1 in C1. destruct C1 as [-> _].
           unfold okp. cbn. done.
        -- rewrite lookup_alter_ne in Hqv by done. rewrite Hp. by apply HC.
      * split; cbn; [|intros q c w Hqv|done].
        { intros g'. rewrite Hg. apply HC. }
        rewrite Hn. specialize (Hp q). destruct (decide (q = g_pid G)) as [->|Hne].
        -- destruct (c_page _ _ HC _ _ _ Hqv) as (C1 & C2 & C3 & C4). split; [|done]. destruct Hp as (c' & k & E1 & ->). rewrite E1 in C1. destruct C1 as [-> _].
           unfold okp. cbn. done.
        -- rewrite Hp. by apply HC.
    + assert (r = false) as -> by (by destruct (Hp 0%N)). cbn. split; [|intros q c w Hqv|done].
      { intros g'. rewrite Hg. apply HC. }
      rewrite Hn. destruct (Hp q) as [-> _]. by apply HC.
  - destruct (guard_drop b g now) as [b2 r] eqn:E. assert (b2 = b1) by congruence. assert (x = BOk r) by congruence. subst b2 x.
    destruct (guard_drop_spec _ _ _ _ _ HI E) as (H1 & (_ & _ & _ & _ & Hn) & Hg & Hp). split; cbn.
    + intros g'. rewrite Hg. destruct (decide (g' = g)) as [->|Hne]; [by rewrite !lookup_delete|]. rewrite !lookup_delete_ne by done. apply HC.
    + intros q c w Hqv. rewrite Hn. destruct (c_page _ _ HC _ _ _ Hqv) as (C1 & C2). split; [|done].
      destruct (Hp q) as [->|(c' & k & E1 & ->)]; [done|]. rewrite E1 in C1. destruct C1 as [-> _]. unfold okp. cbn. done.
    + intros q d Hqd. rewrite Hn. rewrite <- pst_disk in Hqd. destruct (Hp q) as [Eq|(c' & k & E1 & Eq)]; rewrite Eq in Hqd; by apply (c_disk _ _ HC) in Hqd.
  - destruct (flush_page b pid wr) as [b2 r] eqn:E. assert (b2 = b1) by congruence. assert (x = BOk r) by congruence. subst b2 x.
    destruct (flush_page_spec _ _ _ _ _ HI E) as (H1 & (_ & _ & _ & _ & Hn) & Hg & Hp & Hok).
    assert (Hon : forall g, v_on v !! g = g_pid <$> b_guards b1 !! g) by (intros g; rewrite Hg; apply HC).
    assert (Hdk : forall q d, b_disk b1 !! q = Some d -> (q < b_next b1)%N).
    { intros q d Hqd. rewrite Hn. eapply (disk_frel b b1); [done|apply HC|apply Hp|done]. }
    assert (Hold : forall q c w, v_page v !! q = Some (c, w) -> okp c w (pst b1 q) /\ (q < b_next b1)%N /\ length c = page_size /\ is_Some (head c)).
    { intros q c w Hqv. rewrite Hn. destruct (c_page _ _ HC _ _ _ Hqv) as (C1 & C2). split; [|done]. by eapply okp_frel. }
    destruct r; cbn; [|by split]. split; cbn; [done| |done]. intros q c w Hqv. destruct (decide (q = pid)) as [->|Hne].
    + rewrite lookup_alter in Hqv. destruct (v_page v !! pid) as [[c0 w0]|] eqn:Ev; [|done]. cbn in Hqv.
      assert (c = c0) by congruence. assert (w = true) by congruence. subst c w. destruct (Hold _ _ _ Ev) as (C1 & C2). split; [|done].
      destruct (Hok eq_refl) as (_ & c & d & E1 & E2). rewrite E2 in *. destruct C1 as [-> _]. unfold okp. cbn. split; [done|by left].
    + rewrite lookup_alter_ne in Hqv by done. auto.
  - assert (flush_all b wr = b1) by congruence. assert (x = BOk true) by congruence. subst b1 x.
    destruct (flush_all_spec b wr HI) as (H1 & (_ & _ & _ & _ & Hn) & Hg & Hp). split; cbn.
    + intros g. rewrite Hg. apply HC.
    + intros q c w Hqv. rewrite Hn. destruct (c_page _ _ HC _ _ _ Hqv) as (C1 & C2). split; [|done]. by eapply okp_frel.
    + intros q d Hqd. rewrite Hn. eapply (disk_frel b); [done|apply HC|apply Hp|done].
  - destruct (flush_batch b max wr) as [b2 r] eqn:E. assert (b2 = b1) by congruence. subst b2.
    assert (Hv : see v (BFlushBatch max wr, x) = v) by (by destruct x as [ | |[]| | ]). rewrite Hv.
    destruct (flush_batch_spec _ _ _ _ _ HI E) as (H1 & (_ & _ & _ & _ & Hn) & Hg & Hp). split; cbn.
    + intros g. rewrite Hg. apply HC.
    + intros q c w Hqv. rewrite Hn. destruct (c_page _ _ HC _ _ _ Hqv) as (C1 & C2). split; [|done]. by eapply okp_frel.
    + intros q d Hqd. rewrite Hn. eapply (disk_frel b b1); [done|apply HC|apply Hp|done].
  - destruct (delete_page b pid) as [b2 r] eqn:E. assert (b2 = b1) by congruence. assert (x = BOk r) by congruence. subst b2 x.
    destruct (delete_page_spec _ _ _ _ HI E) as (H1 & _ & _ & _ & Hn & Hg & Hd & Hp & Hno & _).
    destruct r; cbn.
    + split; cbn.
      * intros g. rewrite Hg. apply HC.
      * intros q c w [Hne Hqv]%lookup_delete_Some. rewrite Hn, Hp by done. by apply HC.
      * intros q d. rewrite Hd, Hn. apply HC.
    + by rewrite Hno.
  - assert (poke b pid bs = b1) by congruence. assert (x = BOk true) by congruence. subst b1 x.
    destruct Hpo as [[g Hg] Hlen]. rewrite (c_on _ _ HC) in Hg. destruct (b_guards b !! g) as [G|] eqn:EG; [|done]. cbn in Hg. assert (g_pid G = pid) by congruence. subst pid.
    pose proof (resident_guard _ _ _ HI EG) as Hr.
    destruct (poke_spec b (g_pid G) bs HI) as (H1 & (_ & _ & _ & _ & Hn) & Hgs & Hne & Hp). destruct (Hp Hlen _ Hr) as (c0 & k & E1 & E2). split; cbn.
    + intros g'. rewrite Hgs. apply HC.
    + intros q c w Hqv. rewrite Hn. destruct (decide (q = g_pid G)) as [->|Hq].
      * rewrite lookup_alter in Hqv. destruct (v_page v !! g_pid G) as [[c1 w1]|] eqn:Ev; [|done]. assert (Hq2 : Some (patch c1 0 bs, true) = Some (c, w)) by exact Hqv. clear Hqv.
        destruct (c_page _ _ HC _ _ _ Ev) as (C1 & C2 & C3 & C4). assert (c = patch c1 0 bs) by congruence. assert (w = true) by congruence. subst c w.
        rewrite patch_length, patch_head. split; [|done]. rewrite E1 in C1. destruct C1 as [-> _]. rewrite E2. unfold okp. cbn. done.
      * rewrite lookup_alter_ne in Hqv by done. rewrite Hne by done. by apply HC.
    + intros q d Hqd. rewrite Hn. rewrite <- pst_disk in Hqd. destruct (decide (q = g_pid G)) as [->|Hq].
      * rewrite E2 in Hqd. by apply (c_disk _ _ HC) in Hqd.
      * rewrite Hne in Hqd by done. by apply (c_disk _ _ HC) in Hqd.
  - assert (b1 = set_next b (b_next b + 1)) by congruence. assert (x = BNum (b_next b)) by congruence. subst. cbn. destruct HC as [C1 C2 C3]. split; cbn.
    + done.
    + intros q c w Hqv. destruct (C2 _ _ _ Hqv) as (D1 & D2 & D3). split; [done|]. split; [lia|done].
    + intros q d Hqd. apply C3 in Hqd. lia.
Qed.

Lemma io_polite_nobatch v o : polite v o -> nobatch o.
Proof. by destruct o. Qed.

(** ** Frames *)
Definition covered (b : pool) : Prop := forall f, N.to_nat f < b_size b -> held b f.
Lemma covered_new n : covered (pool_new n).
Proof. intros f Hf. left. by apply elem_of_free. Qed.
Lemma covered_holds b b1 : b_size b1 = b_size b -> holds_on b b1 -> covered b -> covered b1.
Proof. intros Hs Hh Hc f Hf. rewrite Hs in Hf. auto. Qed.

Lemma stored_fetch b v t p now rd wr b1 r : Inv b -> CInv b v -> stored v t p -> rd = true -> fetch_page b t p now rd wr = (b1, r) ->
  r = None -> b1 = b /\ b_free b = [] /\ (b_size b = 0 \/ all_pinned b).
Proof.
  intros HI HC (Hinv & c & Hv & Hh) Hrd E Er. destruct (c_page _ _ HC _ _ _ Hv) as (C1 & C2 & C3 & _).
  destruct (fetch_page_spec _ _ _ _ _ _ _ _ HI E) as (_ & _ & _ & _ & Hs). subst r. destruct Hs as (_ & _ & _ & Hs).
  destruct (pst b p) as [res k] eqn:Ep. assert (Hk : k = b_disk b !! p) by (rewrite <- pst_disk, Ep; done).
  destruct (Hs C2 Hinv c (match res with Some (_, d) => d | None => false end)) as (Hs1 & Hs2).
  destruct res as [[c' d]|].
  - destruct C1 as [-> _]. exfalso. apply Hs1. split; [congruence|done].
  - destruct C1 as [C1|[? _]]; [|done]. cbn in C1. subst. apply Hs2; try done.
Qed.

Lemma bstep_covered b v o b1 x : Inv b -> CInv b v -> io_ok o -> polite v o -> good_fetch v o -> bstep b o = (b1, x) ->
  covered b -> covered b1.
Proof.
  intros HI HC Hio Hpo Hgf H Hcov. destruct (bstep_inv _ _ _ _ HI (io_polite_nobatch _ _ Hpo) H) as (_ & _ & Hsz & _).
  destruct o; cbn in H, Hio, Hpo, Hgf; try done.
  - destruct (new_page b t now wr) as [b2 r] eqn:E. assert (b2 = b1) by congruence. subst b2.
    pose proof (new_page_spec _ _ _ _ _ _ HI E) as Hs. destruct r as [[g p]|].
    + apply (covered_holds b); [done|apply Hs|done].
    + by destruct Hs as [-> _].
  - destruct (fetch_page b t pid now rd wr) as [b2 r] eqn:E. assert (b2 = b1) by congruence. subst b2.
    destruct r as [[g p]|].
    + destruct (fetch_page_spec _ _ _ _ _ _ _ _ HI E) as (_ & _ & _ & _ & _ & Hs & _). by apply (covered_holds b).
    + destruct (stored_fetch _ _ _ _ _ _ _ _ _ HI HC Hgf (proj1 Hio) E eq_refl) as [-> _]. done.
  - by assert (b1 = b) as -> by congruence.
  - destruct (guard_write b g off bs) as [b2 r] eqn:E. assert (b2 = b1) by congruence. subst b2.
    apply (covered_holds b); [done| |done]. apply same_maps_held. by destruct (guard_write_spec _ _ _ _ _ _ HI E) as (_ & ? & _).
  - destruct (guard_drop b g now) as [b2 r] eqn:E. assert (b2 = b1) by congruence. subst b2.
    apply (covered_holds b); [done| |done]. apply same_maps_held. by destruct (guard_drop_spec _ _ _ _ _ HI E) as (_ & ? & _).
  - destruct (flush_page b pid wr) as [b2 r] eqn:E. assert (b2 = b1) by congruence. subst b2.
    apply (covered_holds b); [done| |done]. apply same_maps_held. by destruct (flush_page_spec _ _ _ _ _ HI E) as (_ & ? & _).
  - assert (flush_all b wr = b1) by congruence. subst b1. apply (covered_holds b); [done| |done]. apply same_maps_held. by destruct (flush_all_spec b wr HI) as (_ & ? & _).
  - destruct (flush_batch b max wr) as [b2 r] eqn:E. assert (b2 = b1) by congruence. subst b2.
    apply (covered_holds b); [done| |done]. apply same_maps_held. by destruct (flush_batch_spec _ _ _ _ _ HI E) as (_ & ? & _).
  - destruct (delete_page b pid) as [b2 r] eqn:E. assert (b2 = b1) by congruence. subst b2.
    apply (covered_holds b); [done| |done]. by destruct (delete_page_spec _ _ _ _ HI E) as (_ & _ & ? & _).
  - assert (poke b pid bs = b1) by congruence. subst b1. apply (covered_holds b); [done| |done]. apply same_maps_held. by destruct (poke_spec b pid bs HI) as (_ & ? & _).
  - assert (b1 = set_next b (b_next b + 1)) by congruence. subst. done.
Qed.

(** A covered pool in which every resident page is pinned and no frame is free has as many
    open pages as frames. *)
Definition seen_on (b : pool) (v : view) : Prop := forall g, v_on v !! g = g_pid <$> b_guards b !! g.
Lemma pinned_frames b v : Inv b -> seen_on b v -> covered b -> b_free b = [] -> all_pinned b ->
  b_size b <= size (open_pages v).
Proof.
  intros HI HC Hcov Hfr Hall.
  set (fs := list_to_set (N.of_nat <$> seq 0 (b_size b)) : gset N).
  assert (Hsz : size fs = b_size b).
  { unfold fs. rewrite size_list_to_set by (apply NoDup_fmap_2; [intros ? ?; lia|apply NoDup_seq]). by rewrite fmap_length, seq_length. }
  set (of := fun f => match b_frames b !! f with Some l => match b_heap b !! l with Some o => o_pid o | None => 0%N end | None => 0%N end).
  rewrite <- Hsz.
  assert (Hall2 : forall f, f ∈ fs -> exists l o g, b_frames b !! f = Some l /\ b_heap b !! l = Some o /\ b_table b !! o_pid o = Some f /\ v_on v !! g = Some (o_pid o)).
  { intros f Hf. unfold fs in Hf. apply elem_of_list_to_set, elem_of_list_fmap in Hf as (k & -> & Hk%elem_of_seq).
    destruct (Hcov (N.of_nat k)) as [Hin|[l Hl]]; [lia|rewrite Hfr in Hin; by apply elem_of_nil in Hin|].
    destruct (i_ft _ HI _ _ Hl) as (o & Ho & Ht). pose proof (Hall _ _ _ Hl Ho) as Hp. rewrite (i_pin _ HI _ _ _ Hl Ho) in Hp.
    assert (exists g G, b_guards b !! g = Some G /\ g_loc G = l) as (g & G & HG & HGl).
    { unfold pins in Hp. destruct (decide (filter (fun e : N * pguard => g_loc e.2 = l) (b_guards b) = ∅)) as [E|E].
      - rewrite E in Hp. by rewrite map_size_empty in Hp.
      - apply map_choose in E as (g & G & E). apply map_filter_lookup_Some in E as [E1 E2]. eauto. }
    exists l, o, g. split; [done|]. split; [done|]. split; [done|]. rewrite (HC g), HG. cbn. f_equal.
    pose proof (resident_guard _ _ _ HI HG) as Hr. destruct (resident_spec _ _ _ HI Hr) as (f' & o' & _ & _ & Ho' & Hp'). congruence. }
  assert (Himg : set_map of fs ⊆ (open_pages v : gset N)).
  { intros p Hp. apply elem_of_map in Hp as (f & -> & Hf). destruct (Hall2 _ Hf) as (l & o & g & Hl & Ho & _ & Hg).
    unfold of. rewrite Hl, Ho. unfold open_pages. apply elem_of_list_to_set, elem_of_list_fmap. exists (g, o_pid o). split; [done|]. by apply elem_of_map_to_list. }
  apply subseteq_size in Himg. etransitivity; [|exact Himg].
  assert (Hinj : forall f f', f ∈ fs -> f' ∈ fs -> of f = of f' -> f = f').
  { intros f f' Hf Hf'. destruct (Hall2 _ Hf) as (l & o & g & Hl & Ho & Ht & _). destruct (Hall2 _ Hf') as (l' & o' & g' & Hl' & Ho' & Ht' & _).
    unfold of. rewrite Hl, Ho, Hl', Ho'. intros E. congruence. }
  clearbody fs. clear -Hinj. revert Hinj. induction fs as [|f fs Hf IH] using set_ind_L; intros Hinj.
  - rewrite size_empty. lia.
  - rewrite set_map_union_L, set_map_singleton_L. rewrite !size_union_alt_L || idtac.
    rewrite size_union by set_solver. rewrite size_union.
    + rewrite !size_singleton. assert (size fs <= size (set_map of fs : gset N)); [|lia]. apply IH. intros; apply Hinj; set_solver.
    + intros p Hp1 Hp2. apply elem_of_singleton in Hp1. apply elem_of_map in Hp2 as (f' & -> & Hf'). 
      assert (f = f'); [|subst; done]. apply Hinj; [set_solver|set_solver|done].
Qed.

(** ** Runs *)
Lemma brun_app b o1 o2 : brun b (o1 ++ o2) = let '(b1, t1) := brun b o1 in let '(b2, t2) := brun b1 o2 in (b2, t1 ++ t2).
Proof.
  revert b. induction o1 as [|o o1 IH]; intros b; cbn.
  - by destruct (brun b o2).
  - destruct (bstep b o) as [b1 x]. rewrite IH. destruct (brun b1 o1). by destruct (brun _ o2).
Qed.
Lemma brun_inv b ops b1 tr : Inv b -> Forall nobatch ops -> brun b ops = (b1, tr) -> Inv b1 /\ b_size b1 = b_size b.
Proof.
  revert b b1 tr. induction ops as [|o ops IH]; intros b b1 tr HI Hn H; cbn in H.
  - by assert (b1 = b) as -> by congruence.
  - apply Forall_cons in Hn as [Hn1 Hn2]. destruct (bstep b o) as [b2 x] eqn:E. destruct (brun b2 ops) as [b3 tr3] eqn:E2. assert (b3 = b1) by congruence. subst.
    destruct (bstep_inv _ _ _ _ HI Hn1 E) as (H1 & _ & H2 & _). destruct (IH _ _ _ H1 Hn2 E2) as [? Hs]. split; [done|congruence].
Qed.
Lemma brun_cinv b v ops b1 tr : Inv b -> CInv b v -> brun b ops = (b1, tr) ->
  always (fun v o => io_ok o /\ polite v o) v tr -> Inv b1 /\ CInv b1 (fold_left see tr v) /\ b_size b1 = b_size b.
Proof.
  revert b b1 tr v. induction ops as [|o ops IH]; intros b b1 tr v HI HC H Hal; cbn in H.
  - assert (b1 = b) by congruence. assert (tr = []) by congruence. by subst.
  - destruct (bstep b o) as [b2 x] eqn:E. destruct (brun b2 ops) as [b3 tr3] eqn:E2. assert (b3 = b1) by congruence. assert (tr = (o, x) :: tr3) by congruence. subst.
    cbn in Hal. destruct Hal as [[Hio Hpo] Hal]. destruct (bstep_inv _ _ _ _ HI (io_polite_nobatch _ _ Hpo) E) as (H1 & _ & H2 & _).
    destruct (IH _ _ _ _ H1 (bstep_cinv _ _ _ _ _ HI HC Hio Hpo E) E2 Hal) as (? & ? & ?). split; [done|]. split; [done|congruence].
Qed.
Lemma always_impl (P Q : view -> bop -> Prop) v tr : (forall v o, P v o -> Q v o) -> always P v tr -> always Q v tr.
Proof. intros H. revert v. induction tr as [|[o x] tr IH]; intros v; cbn; [done|]. intros [H1 H2]. auto. Qed.
Lemma brun_covered b v ops b1 tr : Inv b -> CInv b v -> covered b -> brun b ops = (b1, tr) ->
  always (fun v o => io_ok o /\ polite v o /\ good_fetch v o) v tr -> covered b1.
Proof.
  revert b b1 tr v. induction ops as [|o ops IH]; intros b b1 tr v HI HC Hc H Hal; cbn in H.
  - by assert (b1 = b) as -> by congruence.
  - destruct (bstep b o) as [b2 x] eqn:E. destruct (brun b2 ops) as [b3 tr3] eqn:E2. assert (b3 = b1) by congruence. assert (tr = (o, x) :: tr3) by congruence. subst.
    cbn in Hal. destruct Hal as [(Hio & Hpo & Hgf) Hal]. destruct (bstep_inv _ _ _ _ HI (io_polite_nobatch _ _ Hpo) E) as (H1 & _ & H2 & _).
    eapply IH; [exact H1|exact (bstep_cinv _ _ _ _ _ HI HC Hio Hpo E)|exact (bstep_covered _ _ _ _ _ HI HC Hio Hpo Hgf E Hc)|exact E2|exact Hal].
Qed.

(** Histories with any I/O results. *)
Lemma bstep_on b v o b1 x : Inv b -> nobatch o -> seen_on b v -> bstep b o = (b1, x) -> seen_on b1 (see v (o, x)).
Proof.
  intros HI Hnb HC H g'. destruct o; cbn in H, Hnb; try done.
  - destruct (new_page b t now wr) as [b2 r] eqn:E. assert (b2 = b1) by congruence. assert (x = BGuard r) by congruence. subst b2 x.
    pose proof (new_page_spec _ _ _ _ _ _ HI E) as Hs. destruct r as [[g p]|]; [|destruct Hs as [-> _]; apply HC].
    destruct Hs as (_ & _ & _ & _ & _ & _ & _ & (l & Hg) & _). cbn. rewrite Hg.
    destruct (decide (g' = g)) as [->|Hne]; [by rewrite !lookup_insert|]. rewrite !lookup_insert_ne by done. apply HC.
  - destruct (fetch_page b t pid now rd wr) as [b2 r] eqn:E. assert (b2 = b1) by congruence. assert (x = BGuard r) by congruence. subst b2 x.
    destruct (fetch_page_spec _ _ _ _ _ _ _ _ HI E) as (_ & _ & _ & _ & Hs). destruct r as [[g p']|].
    + destruct Hs as (-> & _ & _ & (l & Hg) & _). cbn. rewrite Hg.
      destruct (decide (g' = g)) as [->|Hne]; [by rewrite !lookup_insert|]. rewrite !lookup_insert_ne by done. apply HC.
    + destruct Hs as (Hg & _). cbn. rewrite Hg. apply HC.
  - assert (b1 = b) by congruence. assert (x = BData (guard_read b g)) by congruence. subst. apply HC.
  - destruct (guard_write b g off bs) as [b2 r] eqn:E. assert (b2 = b1) by congruence. assert (x = BOk r) by congruence. subst b2 x.
    destruct (guard_write_spec _ _ _ _ _ _ HI E) as (_ & _ & Hg & _). rewrite Hg, <- HC. cbn. destruct r; [|done]. by destruct (v_on v !! g).
  - destruct (guard_drop b g now) as [b2 r] eqn:E. assert (b2 = b1) by congruence. assert (x = BOk r) by congruence. subst b2 x.
    destruct (guard_drop_spec _ _ _ _ _ HI E) as (_ & _ & Hg & _). cbn. rewrite Hg.
    destruct (decide (g' = g)) as [->|Hne]; [by rewrite !lookup_delete|]. rewrite !lookup_delete_ne by done. apply HC.
  - destruct (flush_page b pid wr) as [b2 r] eqn:E. assert (b2 = b1) by congruence. assert (x = BOk r) by congruence. subst b2 x.
    destruct (flush_page_spec _ _ _ _ _ HI E) as (_ & _ & Hg & _). rewrite Hg. destruct r; apply HC.
  - assert (flush_all b wr = b1) by congruence. assert (x = BOk true) by congruence. subst b1 x.
    destruct (flush_all_spec b wr HI) as (_ & _ & Hg & _). rewrite Hg. apply HC.
  - destruct (flush_batch b max wr) as [b2 r] eqn:E. assert (b2 = b1) by congruence. subst b2.
    assert (Hv : see v (BFlushBatch max wr, x) = v) by (by destruct x as [ | |[]| | ]). rewrite Hv.
    destruct (flush_batch_spec _ _ _ _ _ HI E) as (_ & _ & Hg & _). rewrite Hg. apply HC.
  - destruct (delete_page b pid) as [b2 r] eqn:E. assert (b2 = b1) by congruence. assert (x = BOk r) by congruence. subst b2 x.
    destruct (delete_page_spec _ _ _ _ HI E) as (_ & _ & _ & _ & _ & Hg & _). rewrite Hg. destruct r; apply HC.
  - assert (poke b pid bs = b1) by congruence. assert (x = BOk true) by congruence. subst b1 x.
    destruct (poke_spec b pid bs HI) as (_ & _ & Hg & _). rewrite Hg. apply HC.
  - assert (b1 = set_next b (b_next b + 1)) by congruence. assert (x = BNum (b_next b)) by congruence. subst. apply HC.
Qed.

(** A page with an open guard keeps its frame, its object and, if nobody writes it, its bytes. *)
Lemma evicted_stays wr x c d : evicted wr x = (Some (c, d), x.2) -> x.1 = Some (c, d).
Proof. destruct x as [[[? []]|] ?]; done. Qed.
Lemma pst_res b p l o : Inv b -> resident b p = Some l -> b_heap b !! l = Some o -> (pst b p).1 = Some (o_data o, o_dirty o).
Proof. intros HI Hr Ho. unfold pst. rewrite Hr. cbn. by rewrite Ho. Qed.
Lemma bstep_steady b v o b1 x g p : Inv b -> nobatch o -> seen_on b v -> v_on v !! g = Some p -> leaves v p o -> bstep b o = (b1, x) ->
  fst <$> (pst b1 p).1 = fst <$> (pst b p).1.
Proof.
  intros HI Hnb HC Hg Hlv H. destruct (bstep_inv _ _ _ _ HI Hnb H) as (HI1 & Hst & _).
  pose proof Hg as Hg0. rewrite (HC g) in Hg0. destruct (b_guards b !! g) as [G|] eqn:EG; [|done]. cbn in Hg0. assert (g_pid G = p) by congruence. subst p. clear Hg0.
  destruct (i_guard _ HI _ _ EG) as (f & Ht & Hf). destruct (Hst _ _ _ EG Ht) as [Ht1 Hf1].
  assert (Hr1 : is_Some (pst b1 (g_pid G)).1).
  { rewrite Hf in Hf1. destruct (i_ft _ HI1 _ _ Hf1) as (o1 & Ho1 & _). erewrite pst_res; [eauto|done| |exact Ho1]. unfold resident. rewrite Ht1. exact Hf1. }
  assert (Hev : forall wr, pst b1 (g_pid G) = pst b (g_pid G) \/ pst b1 (g_pid G) = evicted wr (pst b (g_pid G)) -> fst <$> (pst b1 (g_pid G)).1 = fst <$> (pst b (g_pid G)).1).
  { intros wr [->|E]; [done|]. rewrite E in Hr1. destruct Hr1 as [y Hy]. destruct (pst b (g_pid G)) as [[[c []]|] k]; cbn in Hy; [by destruct wr|done|done]. }
  assert (Hfr : frel (pst b (g_pid G)) (pst b1 (g_pid G)) -> fst <$> (pst b1 (g_pid G)).1 = fst <$> (pst b (g_pid G)).1).
  { intros [->|(c' & d & E & ->)]; [done|]. by rewrite E. }
  destruct o; cbn in H, Hnb, Hlv; try done.
  - destruct (new_page b t now wr) as [b2 r] eqn:E. assert (b2 = b1) by congruence. subst b2.
    pose proof (new_page_spec _ _ _ _ _ _ HI E) as Hs. destruct r as [[g1 p]|]; [|by destruct Hs as [-> _]].
    destruct Hs as (_ & _ & _ & -> & _ & _ & _ & _ & d1 & _ & _ & Hq). apply (Hev wr), Hq. intros E2. apply (i_next _ HI) in Ht. lia.
  - destruct (fetch_page b t pid now rd wr) as [b2 r] eqn:E. assert (b2 = b1) by congruence. subst b2.
    destruct (fetch_page_spec _ _ _ _ _ _ _ _ HI E) as (_ & _ & _ & _ & Hs). destruct r as [[g1 p']|].
    + destruct Hs as (_ & _ & _ & _ & Hq & Hp). destruct (decide (g_pid G = pid)) as [<-|Hne]; [|apply (Hev wr), Hq; done].
      destruct Hp as [->|(d & E1 & _)]; [done|]. exfalso. pose proof (resident_guard _ _ _ HI EG) as Hr. unfold pst in E1. rewrite Hr in E1. cbn in E1.
      destruct (i_ft _ HI _ _ Hf) as (o1 & Ho1 & _). assert (Hl : resident b (g_pid G) = Some (g_loc G)) by done. rewrite Ho1 in E1. done.
    + destruct Hs as (_ & Hq & _). apply (Hev wr), Hq.
  - by assert (b1 = b) as -> by congruence.
  - destruct (guard_write b g0 off bs) as [b2 r] eqn:E. assert (b2 = b1) by congruence. subst b2.
    destruct (guard_write_spec _ _ _ _ _ _ HI E) as (_ & _ & _ & _ & Hp). specialize (Hp (g_pid G)). rewrite (HC g0) in Hlv.
    destruct (b_guards b !! g0) as [G0|]; [|by destruct Hp as [-> _]]. rewrite decide_False in Hp by (cbn in Hlv; congruence). by rewrite Hp.
  - destruct (guard_drop b g0 now) as [b2 r] eqn:E. assert (b2 = b1) by congruence. subst b2.
    destruct (guard_drop_spec _ _ _ _ _ HI E) as (_ & _ & _ & Hp). destruct (Hp (g_pid G)) as [->|(c & k & -> & ->)]; done.
  - destruct (flush_page b pid wr) as [b2 r] eqn:E. assert (b2 = b1) by congruence. subst b2.
    destruct (flush_page_spec _ _ _ _ _ HI E) as (_ & _ & _ & Hp & _). apply Hfr, Hp.
  - assert (flush_all b wr = b1) by congruence. subst b1. destruct (flush_all_spec b wr HI) as (_ & _ & _ & Hp). apply Hfr, Hp.
  - destruct (flush_batch b max wr) as [b2 r] eqn:E. assert (b2 = b1) by congruence. subst b2.
    destruct (flush_batch_spec _ _ _ _ _ HI E) as (_ & _ & _ & Hp). apply Hfr, Hp.
  - destruct (delete_page b pid) as [b2 r] eqn:E. assert (b2 = b1) by congruence. subst b2.
    destruct (delete_page_spec _ _ _ _ HI E) as (_ & _ & _ & _ & _ & _ & _ & Hp & Hno & Hyes). destruct r; [|by rewrite Hno].
    rewrite Hp; [done|]. by apply (Hyes eq_refl g).
  - assert (poke b pid bs = b1) by congruence. subst b1. destruct (poke_spec b pid bs HI) as (_ & _ & _ & Hp & _). by rewrite Hp by done.
  - assert (b1 = set_next b (b_next b + 1)) by congruence. by subst.
Qed.
Lemma read_pst b g p : Inv b -> g_pid <$> b_guards b !! g = Some p -> guard_read b g = fst <$> (pst b p).1.
Proof.
  intros HI Hg. destruct (b_guards b !! g) as [G|] eqn:EG; [|done]. cbn in Hg. assert (g_pid G = p) by congruence. subst p.
  pose proof (resident_guard _ _ _ HI EG) as Hr. destruct (resident_spec _ _ _ HI Hr) as (f & o & _ & _ & Ho & _).
  rewrite (pst_res _ _ _ _ HI Hr Ho). unfold guard_read. rewrite EG. cbn. by rewrite Ho.
Qed.
Lemma guard_resident b g p : Inv b -> g_pid <$> b_guards b !! g = Some p -> exists f l o, b_table b !! p = Some f /\ b_frames b !! f = Some l /\ b_heap b !! l = Some o.
Proof.
  intros HI Hg. destruct (b_guards b !! g) as [G|] eqn:EG; [|done]. cbn in Hg. assert (g_pid G = p) by congruence. subst p.
  pose proof (resident_guard _ _ _ HI EG) as Hr. destruct (resident_spec _ _ _ HI Hr) as (f & o & ? & ? & Ho & _). eauto 10.
Qed.

(** The fetches of a history all gave a guard. *)
Lemma bstep_got b o b1 x : Inv b -> nobatch o -> got (o, x) -> bstep b o = (b1, x) -> covered b -> covered b1.
Proof.
  intros HI Hnb Hgot H Hcov. destruct (bstep_inv _ _ _ _ HI Hnb H) as (_ & _ & Hsz & _).
  destruct o; cbn in H, Hnb, Hgot; try done.
  - destruct (new_page b t now wr) as [b2 r] eqn:E. assert (b2 = b1) by congruence. subst b2.
    pose proof (new_page_spec _ _ _ _ _ _ HI E) as Hs. destruct r as [[g p]|].
    + apply (covered_holds b); [done|apply Hs|done].
    + by destruct Hs as [-> _].
  - destruct (fetch_page b t pid now rd wr) as [b2 r] eqn:E. assert (b2 = b1) by congruence. assert (x = BGuard r) by congruence. subst b2 x.
    destruct r as [[g p]|]; [|done].
    destruct (fetch_page_spec _ _ _ _ _ _ _ _ HI E) as (_ & _ & _ & _ & _ & Hs & _). by apply (covered_holds b).
  - by assert (b1 = b) as -> by congruence.
  - destruct (guard_write b g off bs) as [b2 r] eqn:E. assert (b2 = b1) by congruence. subst b2.
    apply (covered_holds b); [done| |done]. apply same_maps_held. by destruct (guard_write_spec _ _ _ _ _ _ HI E) as (_ & ? & _).
  - destruct (guard_drop b g now) as [b2 r] eqn:E. assert (b2 = b1) by congruence. subst b2.
    apply (covered_holds b); [done| |done]. apply same_maps_held. by destruct (guard_drop_spec _ _ _ _ _ HI E) as (_ & ? & _).
  - destruct (flush_page b pid wr) as [b2 r] eqn:E. assert (b2 = b1) by congruence. subst b2.
    apply (covered_holds b); [done| |done]. apply same_maps_held. by destruct (flush_page_spec _ _ _ _ _ HI E) as (_ & ? & _).
  - assert (flush_all b wr = b1) by congruence. subst b1. apply (covered_holds b); [done| |done]. apply same_maps_held. by destruct (flush_all_spec b wr HI) as (_ & ? & _).
  - destruct (flush_batch b max wr) as [b2 r] eqn:E. assert (b2 = b1) by congruence. subst b2.
    apply (covered_holds b); [done| |done]. apply same_maps_held. by destruct (flush_batch_spec _ _ _ _ _ HI E) as (_ & ? & _).
  - destruct (delete_page b pid) as [b2 r] eqn:E. assert (b2 = b1) by congruence. subst b2.
    apply (covered_holds b); [done| |done]. by destruct (delete_page_spec _ _ _ _ HI E) as (_ & _ & ? & _).
  - assert (poke b pid bs = b1) by congruence. subst b1. apply (covered_holds b); [done| |done]. apply same_maps_held. by destruct (poke_spec b pid bs HI) as (_ & ? & _).
  - assert (b1 = set_next b (b_next b + 1)) by congruence. subst. done.
Qed.
Lemma brun_any b v ops b1 tr : Inv b -> seen_on b v -> Forall nobatch ops -> brun b ops = (b1, tr) ->
  Inv b1 /\ seen_on b1 (fold_left see tr v) /\ b_size b1 = b_size b /\ (Forall got tr -> covered b -> covered b1).
Proof.
  revert b b1 tr v. induction ops as [|o ops IH]; intros b b1 tr v HI HC Hn H; cbn in H.
  - assert (b1 = b) by congruence. assert (tr = []) by congruence. by subst.
  - apply Forall_cons in Hn as [Hn1 Hn2]. destruct (bstep b o) as [b2 x] eqn:E. destruct (brun b2 ops) as [b3 tr3] eqn:E2. assert (b3 = b1) by congruence. assert (tr = (o, x) :: tr3) by congruence. subst.
    destruct (bstep_inv _ _ _ _ HI Hn1 E) as (H1 & _ & H2 & _).
    destruct (IH _ _ _ _ H1 (bstep_on _ _ _ _ _ HI Hn1 HC E) Hn2 E2) as (? & ? & ? & Hc). split; [done|]. split; [done|]. split; [congruence|].
    intros [Hg1 Hg2]%Forall_cons Hcov. apply Hc; [done|]. exact (bstep_got _ _ _ _ HI Hn1 Hg1 E Hcov).
Qed.
(** A guard that is not dropped stays open. *)
Lemma brun_open b v ops b1 tr g p : Inv b -> seen_on b v -> Forall nobatch ops -> brun b ops = (b1, tr) -> v_on v !! g = Some p ->
  Forall (keeps g) ops ->
  v_on (fold_left see tr v) !! g = Some p /\ b_table b1 !! p = b_table b !! p /\
  (forall f, b_table b !! p = Some f -> b_frames b1 !! f = b_frames b !! f) /\
  (always (fun v o => leaves v p o) v tr -> fst <$> (pst b1 p).1 = fst <$> (pst b p).1).
Proof.
  revert b b1 tr v. induction ops as [|o ops IH]; intros b b1 tr v HI HC Hn H Hg Hd; cbn in H.
  - assert (b1 = b) by congruence. assert (tr = []) by congruence. by subst.
  - apply Forall_cons in Hn as [Hn1 Hn2]. apply Forall_cons in Hd as [Hd1 Hd2]. destruct (bstep b o) as [b2 x] eqn:E. destruct (brun b2 ops) as [b3 tr3] eqn:E2. assert (b3 = b1) by congruence. assert (tr = (o, x) :: tr3) by congruence. subst.
    destruct (bstep_inv _ _ _ _ HI Hn1 E) as (H1 & Hst & H2 & _). pose proof (bstep_on _ _ _ _ _ HI Hn1 HC E) as HC2.
    pose proof Hg as Hg0. rewrite (HC g) in Hg0. destruct (b_guards b !! g) as [G|] eqn:EG; [|done]. cbn in Hg0. assert (g_pid G = p) by congruence. subst p. clear Hg0.
    destruct (i_guard _ HI _ _ EG) as (f & Ht & Hf). destruct (Hst _ _ _ EG Ht) as [Ht1 Hf1].
    assert (Hg2 : v_on (see v (o, x)) !! g = Some (g_pid G)).
    { destruct o; cbn; try done.
      - destruct x as [[[g1 p1]|]| | | |]; try done. cbn. destruct (decide (g1 = g)) as [->|Hne]; [|by rewrite lookup_insert_ne].
        exfalso. cbn in E. destruct (new_page b t now wr) as [b4 r] eqn:Ep. assert (r = Some (g, p1)) by congruence. subst r.
        destruct (new_page_spec _ _ _ _ _ _ HI Ep) as (_ & _ & _ & _ & _ & _ & Hno & _). congruence.
      - destruct x as [[[g1 p1]|]| | | |]; try done. cbn. destruct (decide (g1 = g)) as [->|Hne]; [|by rewrite lookup_insert_ne].
        exfalso. cbn in E. destruct (fetch_page b t pid now rd wr) as [b4 r] eqn:Ep. assert (r = Some (g, p1)) by congruence. subst r.
        destruct (fetch_page_spec _ _ _ _ _ _ _ _ HI Ep) as (_ & _ & _ & _ & _ & _ & Hno & _). congruence.
      - destruct x as [ | |[]| | ]; try done. by destruct (v_on v !! g0).
      - cbn. by rewrite lookup_delete_ne.
      - destruct x as [ | |[]| | ]; done.
      - destruct x as [ | |[]| | ]; done. }
    destruct (IH _ _ _ _ H1 HC2 Hn2 E2 Hg2 Hd2) as (I1 & I2 & I3 & I4). cbn [fold_left]. split; [exact I1|]. split; [congruence|]. split.
    + intros f' Hf'. assert (f' = f) by congruence. subst f'. rewrite I3 by done. done.
    + cbn [always]. intros [Hl1 Hl2]. rewrite I4 by done. exact (bstep_steady _ _ _ _ _ _ _ HI Hn1 HC Hg Hl1 E).
Qed.

(** ** The page id counter, for every call and every interleaving *)
Lemma wo_next b p l wr : b_next (write_out b p l wr).1 = b_next b.
Proof. unfold write_out. destruct (b_heap b !! l); [by destruct wr|done]. Qed.
Lemma eo_next b f p wr : b_next (evict_old b f p wr) = b_next b.
Proof. unfold evict_old. cbn. destruct (b_frames b !! f); [|done]. destruct (b_heap b !! n); [|done]. destruct (o_dirty p0); [apply wo_next|done]. Qed.
Lemma ein_next b f wr : b_next (evict_if_necessary b f wr) = b_next b.
Proof. unfold evict_if_necessary. destruct (b_frames b !! f); [|done]. destruct (b_heap b !! n); [|done]. case_decide; [apply eo_next|done]. Qed.
Lemma al_next n b wr : b_next (avail_loop n b wr).1 = b_next b.
Proof.
  revert b. induction n as [|n IH]; intros b; [done|]. cbn [avail_loop]. destruct (rep_evict (b_rep b)) as [r [f|]].
  - cbn [fst]. destruct (page_in _ f); [by rewrite eo_next|done].
  - by rewrite IH.
Qed.
Lemma gaf_next b wr : b_next (get_available_frame b wr).1 = b_next b.
Proof. unfold get_available_frame. destruct (b_free b); [apply al_next|done]. Qed.
Lemma lb_next b p rd wr : b_next (load_begin b p rd wr).1 = b_next b.
Proof. unfold load_begin. pose proof (gaf_next b wr) as H. destruct (get_available_frame b wr) as [b1 [f|]]; cbn in *; [by rewrite ein_next|done]. Qed.
Lemma le_next b t p f d now : b_next (load_end b t p f d now).1 = b_next b.
Proof. unfold load_end. by destruct (page_from_data p t d). Qed.
Lemma fp_next b l p now : b_next (fetch_pin b l p now).1 = b_next b.
Proof. unfold fetch_pin. cbn. by destruct (b_table b !! p). Qed.
Lemma b1_next b t p d now wr : b_next (batch_load1 b t p d now wr).1 = b_next b.
Proof.
  unfold batch_load1. destruct (d ≫= page_from_data p t); [|done]. cbn.
  match goal with |- context [get_available_frame ?b ?w] => pose proof (gaf_next b w) as H; destruct (get_available_frame b w) as [b3 [f|]] end; cbn in *; [by rewrite ein_next|done].
Qed.
Lemma bstep_next b o b1 x : bstep b o = (b1, x) ->
  b_next b1 = match handed_out (o, x) with Some p => (b_next b + 1)%N | None => b_next b end /\
  match handed_out (o, x) with Some p => p = b_next b | None => True end.
Proof.
  intros H. destruct o; cbn in H.
  - destruct (new_page b t now wr) as [b2 r] eqn:E. assert (b2 = b1) by congruence. assert (x = BGuard r) by congruence. subst b2 x.
    unfold new_page in E. pose proof (gaf_next b wr) as Hn. destruct (get_available_frame b wr) as [b2 [f|]]; cbn in Hn, E.
    + pose proof (ein_next b2 f wr) as Hn2. set (b3 := evict_if_necessary b2 f wr) in *. clearbody b3.
      assert (b_next b1 = (b_next b3 + 1)%N) by (pose proof (f_equal fst E) as E1; cbn in E1; subst b1; done).
      destruct r as [[g p]|]; [|done]. cbn. assert (p = b_next b3) by congruence. split; congruence.
    + assert (r = None) by congruence. assert (b1 = b2) by congruence. subst. done.
  - destruct (fetch_page b t pid now rd wr) as [b2 r] eqn:E. assert (b2 = b1) by congruence. assert (x = BGuard r) by congruence. subst b2 x. cbn. split; [|done].
    unfold fetch_page in E. case_decide; [congruence|]. destruct (resident b pid).
    + destruct (tag_ok b n t); [|congruence]. pose proof (fp_next b n pid now). destruct (fetch_pin b n pid now). cbn in *. congruence.
    + pose proof (lb_next b pid rd wr). destruct (load_begin b pid rd wr) as [b3 [[f d]|]]; cbn in *; [|congruence].
      pose proof (le_next b3 t pid f d now). rewrite E in *. cbn in *. congruence.
  - assert (b1 = b) by congruence. subst. done.
  - destruct (guard_write b g off bs) as [b2 r] eqn:E. assert (b2 = b1) by congruence. subst b2. cbn. split; [|done].
    unfold guard_write in E. destruct (b_guards b !! g); [|congruence]. destruct (b_heap b !! g_loc p); [|congruence].
    destruct (set_data _ _ _). pose proof (f_equal fst E) as E1. cbn [fst] in E1. by subst b1.
  - destruct (guard_drop b g now) as [b2 r] eqn:E. assert (b2 = b1) by congruence. subst b2. cbn. split; [|done].
    unfold guard_drop in E. destruct (b_guards b !! g); [|congruence]. unfold unpin_page in E. cbn in E.
    destruct (b_table b !! g_pid p); [|assert (b1 = set_guards b (delete g (b_guards b))) by congruence; by subst].
    destruct (b_frames b !! n); [|assert (b1 = set_guards b (delete g (b_guards b))) by congruence; by subst].
    destruct (b_heap b !! n0) as [o|]; [|assert (b1 = set_guards b (delete g (b_guards b))) by congruence; by subst].
    pose proof (f_equal fst E) as E1. destruct (o_pin o) as [|[|k]]; cbn [fst] in E1; by subst b1.
  - destruct (flush_page b pid wr) as [b2 r] eqn:E. assert (b2 = b1) by congruence. subst b2. cbn. split; [|done].
    unfold flush_page in E. destruct (resident b pid); [|congruence]. pose proof (wo_next b pid n wr) as Hw. by rewrite E in Hw.
  - assert (flush_all b wr = b1) by congruence. subst b1. cbn. split; [|done]. unfold flush_all. generalize (map_to_list (b_table b)). intros L. clear H. revert b.
    induction L as [|e L IH]; intros b; [done|]. cbn. rewrite IH. unfold flush_page. destruct (resident b e.1); [apply wo_next|done].
  - destruct (flush_batch b max wr) as [b2 r] eqn:E. assert (b2 = b1) by congruence. subst b2. cbn. split; [|done].
    unfold flush_batch in E. destruct (dirty_pages b max) as [|e L]; [congruence|]. destruct wr; [|congruence].
    pose proof (f_equal fst E) as E1. cbn [fst] in E1. subst b1. generalize (e :: L) at 2. intros L0.
    match goal with |- b_next (fold_left _ ?l ?b0) = _ => assert (Hb : b_next b0 = b_next b) by done; rewrite <- Hb; generalize b0 end. clear. intros b.
    generalize (e :: L). clear. intros L. revert b. induction L as [|x L IH]; intros b; [done|]. cbn. rewrite IH. by destruct (resident b x.1).
  - destruct (delete_page b pid) as [b2 r] eqn:E. assert (b2 = b1) by congruence. subst b2. cbn. split; [|done].
    unfold delete_page in E. destruct (b_table b !! pid); [|congruence]. pose proof (f_equal fst E) as E1.
    match type of E1 with fst (if ?c then _ else _) = _ => destruct c end; cbn [fst] in E1; by subst b1.
  - assert (poke b pid bs = b1) by congruence. subst b1. cbn. split; [|done]. unfold poke. destruct (head _) as [[l o]|]; done.
  - assert (b1 = set_next b (b_next b + 1)) by congruence. assert (x = BNum (b_next b)) by congruence. subst. done.
  - destruct (load_batch b t pids now rd wr) as [b2 r] eqn:E. assert (b2 = b1) by congruence. subst b2. cbn. split; [|done].
    unfold load_batch in E.
    match type of E with context [fold_left ?f pids (b, [])] => 
      assert (H1 : forall L b0 (h : list (N * option N)), b_next (fold_left f L (b0, h)).1 = b_next b0);
      [|specialize (H1 pids b []); destruct (fold_left f pids (b, [])) as [b3 hits]] end.
    { induction L as [|p L IH]; intros b0 h; [done|]. cbn [fold_left]. destruct (resident b0 p) as [l|]; [|apply IH]. destruct (tag_ok b0 l t); [|apply IH].
      pose proof (fp_next b0 l p now). destruct (fetch_pin b0 l p now). cbn in *. rewrite IH. done. }
    cbn in H1.
    match type of E with context [fold_left ?f ?L0 (b3, hits)] => 
      assert (H2 : forall L b0 (h : list (N * option N)), b_next (fold_left f L (b0, h)).1 = b_next b0);
      [|specialize (H2 L0 b3 hits); destruct (fold_left f L0 (b3, hits)) as [b4 all]] end.
    { induction L as [|e L IH]; intros b0 h; [done|]. cbn [fold_left]. 
      pose proof (b1_next b0 t e.1 e.2 now wr). destruct (batch_load1 b0 t e.1 e.2 now wr). cbn in *. rewrite IH. done. }
    cbn in H2. congruence.
Qed.
Lemma cstep_next c o c1 x : cstep c o = (c1, x) ->
  b_next (c_pool c1) = match c_handed (o, x) with Some p => (b_next (c_pool c) + 1)%N | None => b_next (c_pool c) end /\
  match c_handed (o, x) with Some p => p = b_next (c_pool c) | None => True end.
Proof.
  intros H. destruct o as [o|t pid|now|pid rd wr|t now]; cbn [cstep] in H.
  - destruct (bstep (c_pool c) o) as [b1 y] eqn:E. assert (x = y) by congruence. assert (c1 = mkC b1 (c_found c) (c_loads c)) by congruence. subst. cbn [c_pool c_handed]. by apply bstep_next.
  - cbn. split; [|done]. destruct (resident _ pid); [|congruence]. destruct (tag_ok _ _ _); [|congruence]. pose proof (f_equal fst H) as E1. cbn in E1. subst c1; cbn in *; done.
  - cbn. split; [|done]. destruct (c_found c) as [|[l pid] rest]; [congruence|]. pose proof (fp_next (c_pool c) l pid now). destruct (fetch_pin _ _ _ _) as [b1 g]. pose proof (f_equal fst H) as E1. cbn in E1. subst c1; cbn in *; done.
  - cbn. split; [|done]. pose proof (lb_next (c_pool c) pid rd wr). destruct (load_begin _ _ _ _) as [b1 [[f d]|]]; pose proof (f_equal fst H) as E1; cbn in E1; subst c1; cbn in *; done.
  - cbn. split; [|done]. destruct (c_loads c) as [|[[pid f] d] rest]; [congruence|]. pose proof (le_next (c_pool c) t pid f d now). destruct (load_end _ _ _ _ _ _) as [b1 r]. pose proof (f_equal fst H) as E1. cbn in E1. subst c1; cbn in *; done.
Qed.
Lemma crun_next c ops c1 xs : crun c ops = (c1, xs) ->
  (b_next (c_pool c) <= b_next (c_pool c1))%N /\ NoDup (omap c_handed (zip ops xs)) /\ forall p, p ∈ omap c_handed (zip ops xs) -> (b_next (c_pool c) <= p < b_next (c_pool c1))%N.
Proof.
  revert c c1 xs. induction ops as [|o ops IH]; intros c c1 xs H; cbn in H.
  - assert (c1 = c) by congruence. assert (xs = []) by congruence. subst. split; [lia|]. split; [constructor|]. intros p Hp. by apply elem_of_nil in Hp.
  - destruct (cstep c o) as [c2 x] eqn:E. destruct (crun c2 ops) as [c3 xs3] eqn:E2. assert (c3 = c1) by congruence. assert (xs = x :: xs3) by congruence. subst.
    destruct (IH _ _ _ E2) as (I1 & I2 & I3). destruct (cstep_next _ _ _ _ E) as (H1 & H2). cbn [zip zip_with]. 
    cbn [omap list_omap]. change (list_omap _ _ c_handed (zip_with pair ops xs3)) with (omap c_handed (zip ops xs3)). destruct (c_handed (o, x)) as [p|].
    + split; [lia|]. split.
      * apply NoDup_cons. split; [|done]. intros Hin. apply I3 in Hin. lia.
      * intros q Hq. apply elem_of_cons in Hq as [->|Hq]; [lia|]. apply I3 in Hq. lia.
    + split; [lia|]. split; [done|]. intros q Hq. apply I3 in Hq. lia.
Qed.
