From Coq Require Import NArith Lia.
From stdpp Require Import gmap list.
From Verif Require Import CacheSpec LrukSpec LrukModel LrukProofs ReplacerProofs BpmSpec BpmModel.

(** ** The replacer as a set of evictable frames *)
Definition rinv (r : replacer) : Prop := exists s, rabs r s.
Definition ev (r : replacer) (f : N) : Prop := exists h, r_store r !! f = Some (h, true).

Lemma ev_rabs r s f : rabs r s -> ev r f <-> evictable s f.
Proof.
  intros Ha. unfold ev, evictable. rewrite (ra_lookup _ _ _ Ha). split.
  - intros [h H]. destruct (s !! f) as [[h' b']|]; [|done]. unfold rtrunc in H; cbn in H. injection H as _ ->. eauto.
  - intros [h ->]. cbn. eauto.
Qed.
Lemma rinv_new k : rinv (rep_new k).
Proof. exists ∅. apply rabs_new. Qed.
Lemma ev_new k f : ~ ev (rep_new k) f.
Proof. intros [h H]. cbn in H. by rewrite lookup_empty in H. Qed.

Lemma rep_access_ev r f now : rinv r ->
  rinv (rep_access r f now) /\ (forall g, ev (rep_access r f now) g <-> ev r g) /\ is_Some (r_store (rep_access r f now) !! f).
Proof.
  intros [s Ha]. destruct (rep_step_spec r s (RAccess f now) _ _ Ha eq_refl) as (s1 & Ha1 & _ & Hs).
  split; [by exists s1|]. unfold rep_access, ev. destruct (r_store r !! f) as [[h b]|] eqn:E; cbn.
  - split; [|rewrite lookup_insert; eauto]. intros g. destruct (decide (g = f)) as [->|Hn].
    + rewrite lookup_insert, E. split; intros [h' H']; assert (b = true) by congruence; subst; eauto.
    + by rewrite lookup_insert_ne.
  - split; [|rewrite lookup_insert; eauto]. intros g. destruct (decide (g = f)) as [->|Hn].
    + rewrite lookup_insert, E. split; intros [h' H']; congruence.
    + by rewrite lookup_insert_ne.
Qed.

Lemma rep_set_ev r f b : rinv r -> is_Some (r_store r !! f) ->
  rinv (rep_set r f b).1 /\ forall g, ev (rep_set r f b).1 g <-> (g = f /\ b = true) \/ (g <> f /\ ev r g).
Proof.
  intros [s Ha] [[h b0] Hst]. destruct (rep_set r f b) as [r1 x] eqn:E.
  assert (Hstep : rep_step r (RSet f b) = (r1, RBool x)) by (cbn; by rewrite E).
  destruct (rep_step_spec r s (RSet f b) _ _ Ha Hstep) as (s1 & Ha1 & _ & Hs). cbn.
  split; [by exists s1|]. intros g. rewrite (ev_rabs _ _ _ Ha1), (ev_rabs _ _ _ Ha).
  rewrite (ra_lookup _ _ _ Ha) in Hst.
  inversion Hs; subst.
  - apply evictable_insert.
  - destruct (s1 !! f) as [[h' b']|] eqn:Ef; [|done]. unfold rtrunc in Hst; cbn in Hst.
    assert (b' = b) as ->. { destruct b', b; try done; exfalso; match goal with H : forall h, _ |- _ => eapply H end; reflexivity. }
    unfold evictable. destruct (decide (g = f)) as [->|Hn]; [|naive_solver].
    rewrite Ef. split; [intros [? ?]; left; split; congruence|]. intros [[_ ->]|[? _]]; [eauto|done].
Qed.

Lemma rep_evict_ev r r1 x : rinv r -> rep_evict r = (r1, x) ->
  match x with
  | Some f => rinv r1 /\ ev r f /\ forall g, ev r1 g <-> g <> f /\ ev r g
  | None => r1 = r /\ forall g, ~ ev r g
  end.
Proof.
  intros [s Ha] E. assert (Hstep : rep_step r REvict = (r1, RFrame x)) by (cbn; by rewrite E).
  destruct (rep_step_spec r s REvict _ _ Ha Hstep) as (s1 & Ha1 & _ & Hs).
  destruct x as [f|].
  - split; [by exists s1|]. inversion Hs; subst. rewrite (ev_rabs _ _ _ Ha). split; [eexists; eassumption|].
    intros g. rewrite (ev_rabs _ _ _ Ha1), (ev_rabs _ _ _ Ha), evictable_insert. naive_solver.
  - inversion Hs; subst. split; [|intros g; rewrite (ev_rabs _ _ _ Ha); auto].
    unfold rep_evict in E. pose proof (evict_scan _ _ Ha) as Hsc.
    destruct (r_queue r); [congruence|]. destruct (scan _ _) as [f|]; [|congruence].
    destruct Hsc as (_ & h & Hf & _). rewrite (ra_lookup _ _ _ Ha), Hf in E. cbn in E. congruence.
Qed.

Lemma rep_remove_ev r f : rinv r -> rinv (rep_remove r f) /\ forall g, ev (rep_remove r f) g <-> g <> f /\ ev r g.
Proof.
  intros [s Ha]. destruct (rep_step_spec r s (RRemove f) _ _ Ha eq_refl) as (s1 & Ha1 & _ & Hs).
  split; [by exists s1|]. intros g. rewrite (ev_rabs _ _ _ Ha1), (ev_rabs _ _ _ Ha). inversion Hs; subst.
  - unfold evictable. destruct (decide (g = f)) as [->|Hn]; [rewrite lookup_delete|rewrite lookup_delete_ne by done]; naive_solver.
  - naive_solver.
Qed.

(** ** Pins *)
Definition pins (gs : gmap N pguard) (l : N) : nat := size (filter (fun e : N * pguard => g_loc e.2 = l) gs).
Lemma pins_insert_new gs g G l : gs !! g = None ->
  pins (<[g := G]> gs) l = (if decide (g_loc G = l) then 1 else 0) + pins gs l.
Proof.
  intros H. unfold pins. destruct (decide (g_loc G = l)) as [E|E].
  - rewrite map_filter_insert_True by done. rewrite map_size_insert_None; [done|]. apply map_filter_lookup_None. by left.
  - rewrite map_filter_insert_False by done. by rewrite delete_notin.
Qed.
Lemma pins_delete gs g G l : gs !! g = Some G ->
  pins gs l = (if decide (g_loc G = l) then 1 else 0) + pins (delete g gs) l.
Proof.
  intros H. rewrite <- (insert_delete gs g G H) at 1. apply pins_insert_new. apply lookup_delete.
Qed.
Lemma pins_same gs g G G' l : gs !! g = Some G -> g_loc G' = g_loc G -> pins (<[g := G']> gs) l = pins gs l.
Proof.
  intros H E. rewrite <- (insert_delete_insert gs). rewrite pins_insert_new by apply lookup_delete.
  rewrite (pins_delete _ _ _ l H). by rewrite E.
Qed.
Lemma pins_pos gs g G : gs !! g = Some G -> 0 < pins gs (g_loc G).
Proof. intros H. rewrite (pins_delete _ _ _ _ H). rewrite decide_True by done. lia. Qed.
Lemma pins_none gs l : (forall g G, gs !! g = Some G -> g_loc G <> l) -> pins gs l = 0.
Proof.
  intros H. unfold pins. apply map_size_empty_iff, map_filter_empty_iff. intros g G HG. by apply (H g).
Qed.

(** ** The structural invariant *)
Record Inv (b : pool) : Prop := {
  i_tf : forall p f, b_table b !! p = Some f -> exists l o, b_frames b !! f = Some l /\ b_heap b !! l = Some o /\ o_pid o = p;
  i_ft : forall f l, b_frames b !! f = Some l -> exists o, b_heap b !! l = Some o /\ b_table b !! o_pid o = Some f;
  i_lt : forall f l, b_frames b !! f = Some l -> N.to_nat f < b_size b;
  i_nd : NoDup (b_free b);
  i_free : forall f, f ∈ b_free b -> b_frames b !! f = None /\ N.to_nat f < b_size b;
  i_guard : forall g G, b_guards b !! g = Some G -> exists f, b_table b !! g_pid G = Some f /\ b_frames b !! f = Some (g_loc G);
  i_pin : forall f l o, b_frames b !! f = Some l -> b_heap b !! l = Some o -> o_pin o = pins (b_guards b) l;
  i_ev : forall f, ev (b_rep b) f <-> exists l o, b_frames b !! f = Some l /\ b_heap b !! l = Some o /\ o_pin o = 0;
  i_rep : rinv (b_rep b);
  i_fh : forall l o, b_heap b !! l = Some o -> (l < b_fresh b)%N;
  i_fg : forall g G, b_guards b !! g = Some G -> (g < b_fresh b)%N;
  i_next : forall p f, b_table b !! p = Some f -> (p < b_next b)%N;
  i_tag : forall f l o, b_frames b !! f = Some l -> b_heap b !! l = Some o ->
     head (o_data o) = Some (o_type o) /\ length (o_data o) = page_size }.

Lemma i_inj b f1 f2 l : Inv b -> b_frames b !! f1 = Some l -> b_frames b !! f2 = Some l -> f1 = f2.
Proof.
  intros HI H1 H2. destruct (i_ft _ HI _ _ H1) as (o & Ho & Ht). destruct (i_ft _ HI _ _ H2) as (o' & Ho' & Ht'). congruence.
Qed.
Lemma i_tinj b p1 p2 f : Inv b -> b_table b !! p1 = Some f -> b_table b !! p2 = Some f -> p1 = p2.
Proof.
  intros HI H1 H2. destruct (i_tf _ HI _ _ H1) as (l & o & Hl & Ho & Hp). destruct (i_tf _ HI _ _ H2) as (l' & o' & Hl' & Ho' & Hp'). congruence.
Qed.

Lemma page_in_spec b p f : Inv b -> b_table b !! p = Some f -> page_in (b_table b) f = Some p.
Proof.
  intros HI H. unfold page_in.
  assert (Hall : forall q, q ∈ omap (fun e : N * N => if decide (e.2 = f) then Some e.1 else None) (map_to_list (b_table b)) <-> q = p).
  { intros q. rewrite elem_of_list_omap. split.
    - intros ([q' f'] & Hin & E). apply elem_of_map_to_list in Hin. cbn in E. case_decide; [|done]. subst.
      assert (q' = q) by congruence. subst. by eapply i_tinj.
    - intros ->. exists (p, f). split; [by apply elem_of_map_to_list|]. cbn. by rewrite decide_True. }
  destruct (omap _ _) as [|x t].
  - exfalso. assert (Hp : p ∈ ([] : list N)) by (apply Hall; done). by apply elem_of_nil in Hp.
  - cbn. f_equal. apply Hall. apply elem_of_cons. by left.
Qed.

(** ** What a page looks like: its resident bytes and dirty bit, and its bytes on disk *)
Definition pst (b : pool) (p : N) : option (bytes * bool) * option bytes :=
  (l ← resident b p; o ← b_heap b !! l; Some (o_data o, o_dirty o), b_disk b !! p).
Definition evicted (wr : bool) (x : option (bytes * bool) * option bytes) : option (bytes * bool) * option bytes :=
  match x with
  | (Some (c, true), d) => (None, if wr then Some c else d)
  | (_, d) => (None, d)
  end.
Definition held (b : pool) (f : N) : Prop := f ∈ b_free b \/ is_Some (b_frames b !! f).

Record taken (b b1 : pool) (f : N) (wr : bool) : Prop := {
  t_inv : Inv b1; t_f : b_frames b1 !! f = None; t_lt : N.to_nat f < b_size b; t_free : f ∉ b_free b1;
  t_nev : ~ ev (b_rep b1) f;
  t_size : b_size b1 = b_size b; t_next : b_next b1 = b_next b; t_guards : b_guards b1 = b_guards b; t_fresh : b_fresh b1 = b_fresh b;
  t_sub : forall p f', b_table b1 !! p = Some f' -> b_table b !! p = Some f';
  t_pin : forall g G f', b_guards b !! g = Some G -> b_table b !! g_pid G = Some f' ->
     b_table b1 !! g_pid G = Some f' /\ b_frames b1 !! f' = b_frames b !! f' /\ b_heap b1 !! g_loc G = b_heap b !! g_loc G;
  t_pst : forall p, pst b1 p = pst b p \/ pst b1 p = evicted wr (pst b p);
  t_cov : forall f', held b f' -> f' = f \/ held b1 f' }.

Lemma evict_taken b r f l o wr : Inv b -> b_frames b !! f = Some l -> b_heap b !! l = Some o -> o_pin o = 0 ->
  rinv r -> (forall g, ev r g <-> g <> f /\ ev (b_rep b) g) ->
  taken b (evict_old (set_rep b r) f (o_pid o) wr) f wr.
Proof.
  intros HI Hf Hl Hp Hr Hev. destruct (i_ft _ HI _ _ Hf) as (o' & Ho' & Ht). assert (o' = o) by congruence. subst o'.
  set (hp := if o_dirty o && wr then <[l := with_dirty o false]> (b_heap b) else b_heap b).
  set (dk := if o_dirty o && wr then <[o_pid o := o_data o]> (b_disk b) else b_disk b).
  assert (E : evict_old (set_rep b r) f (o_pid o) wr =
    mkPool (b_size b) (b_next b) (delete f (b_frames b)) (delete (o_pid o) (b_table b)) r (b_free b) dk hp (b_guards b) (b_fresh b)).
  { unfold evict_old, write_out, drop_page, set_maps, set_rep, hp, dk. cbn. rewrite Hf, Hl. destruct (o_dirty o), wr; cbn; try rewrite Hl; reflexivity. }
  rewrite E. clear E.
  assert (Hng : forall g G, b_guards b !! g = Some G -> g_loc G <> l).
  { intros g G HG El. pose proof (pins_pos _ _ _ HG) as Hpos. rewrite El in Hpos. rewrite (i_pin _ HI _ _ _ Hf Hl) in Hp. lia. }
  assert (Hfl : forall f' l', f' <> f -> b_frames b !! f' = Some l' -> l' <> l).
  { intros f' l' Hne Hf' ->. apply Hne. by eapply i_inj. }
  assert (Hhp : forall l', l' <> l -> hp !! l' = b_heap b !! l').
  { intros l' Hne. unfold hp. destruct (o_dirty o && wr); [by rewrite lookup_insert_ne|done]. }
  assert (Htp : forall p f', b_table b !! p = Some f' -> p <> o_pid o -> f' <> f).
  { intros p f' Hpf Hne ->. apply Hne. by eapply i_tinj. }
  split; cbn.
  - split; cbn.
    + intros p f' [Hne Hpf]%lookup_delete_Some. destruct (i_tf _ HI _ _ Hpf) as (l' & o' & Hl' & Ho'' & Hpid).
      assert (f' <> f) by (eapply Htp; eauto). exists l', o'. rewrite lookup_delete_ne by done. split; [done|].
      rewrite Hhp by (eapply Hfl; eauto). done.
    + intros f' l' [Hne Hf']%lookup_delete_Some. destruct (i_ft _ HI _ _ Hf') as (o' & Ho'' & Ht').
      exists o'. rewrite Hhp by (eapply Hfl; eauto). split; [done|]. rewrite lookup_delete_ne; [done|]. congruence.
    + intros f' l' [_ Hf']%lookup_delete_Some. by eapply i_lt.
    + apply HI.
    + intros f' Hin. destruct (i_free _ HI _ Hin) as [Hn Hlt]. split; [|done]. apply lookup_delete_None. by right.
    + intros g G HG. destruct (i_guard _ HI _ _ HG) as (f' & Htf & Hff). exists f'.
      assert (f' <> f) by (intros ->; apply (Hng _ _ HG); congruence).
      rewrite !lookup_delete_ne; [done|done|congruence].
    + intros f' l' o' [Hne Hf']%lookup_delete_Some Ho''. rewrite Hhp in Ho'' by (eapply Hfl; eauto). by eapply i_pin.
    + intros f'. rewrite Hev, (i_ev _ HI). split.
      * intros (Hne & l' & o' & Hf' & Ho'' & Hp'). exists l', o'. rewrite lookup_delete_ne by done.
        rewrite Hhp by (eapply Hfl; eauto). done.
      * intros (l' & o' & [Hne Hf']%lookup_delete_Some & Ho'' & Hp'). split; [done|]. exists l', o'.
        rewrite Hhp in Ho'' by (eapply Hfl; eauto). done.
    + done.
    + intros l' o' Ho''. destruct (decide (l' = l)) as [->|Hne]; [by eapply i_fh|]. rewrite Hhp in Ho'' by done. by eapply i_fh.
    + apply HI.
    + intros p f' [_ Hpf]%lookup_delete_Some. by eapply i_next.
    + intros f' l' o' [Hne Hf']%lookup_delete_Some Ho''. rewrite Hhp in Ho'' by (eapply Hfl; eauto). by eapply i_tag.
  - apply lookup_delete.
  - by eapply i_lt.
  - intros Hin. destruct (i_free _ HI _ Hin). congruence.
  - rewrite Hev. tauto.
  - done.
  - done.
  - done.
  - done.
  - intros p f' [_ ?]%lookup_delete_Some. done.
  - intros g G f' HG Htf. destruct (i_guard _ HI _ _ HG) as (f'' & Htf' & Hff). assert (f'' = f') by congruence. subst.
    assert (f' <> f) by (intros ->; apply (Hng _ _ HG); congruence).
    rewrite !lookup_delete_ne; [|done|congruence]. rewrite Hhp by (by eapply Hng). done.
  - intros p. unfold pst, resident. cbn. destruct (decide (p = o_pid o)) as [->|Hne].
    + right. rewrite lookup_delete, Ht. cbn. rewrite Hf. cbn. rewrite Hl. cbn. unfold dk.
      destruct (o_dirty o), wr; cbn; [by rewrite lookup_insert| | |]; reflexivity.
    + left. rewrite lookup_delete_ne by done. f_equal.
      * destruct (b_table b !! p) as [f'|] eqn:Ep; [|done]. cbn. assert (f' <> f) by (by eapply Htp).
        rewrite lookup_delete_ne by done. destruct (b_frames b !! f') as [l'|] eqn:Ef'; [|done]. cbn.
        by rewrite Hhp by (by eapply Hfl).
      * unfold dk. destruct (o_dirty o && wr); [by rewrite lookup_insert_ne|done].
  - intros f' [Hin|Hs]; [right; left; done|]. destruct (decide (f' = f)) as [->|Hne]; [by left|].
    right; right. cbn. by rewrite lookup_delete_ne.
Qed.

Lemma no_evictable_mark b : (forall f l o, b_frames b !! f = Some l -> b_heap b !! l = Some o -> o_pin o <> 0) -> mark_unpinned b = b_rep b.
Proof.
  intros H. unfold mark_unpinned. generalize (b_rep b) as r. induction (N.of_nat <$> seq 0 (b_size b)) as [|f t IH]; [done|].
  intros r. cbn [fold_left]. destruct (b_frames b !! f) as [l|] eqn:Ef; [|apply IH].
  destruct (b_heap b !! l) as [o|] eqn:Eo; [|apply IH]. rewrite decide_False by eauto. apply IH.
Qed.

Lemma set_rep_id b : set_rep b (b_rep b) = b.
Proof. by destruct b. Qed.

Definition all_pinned (b : pool) : Prop := forall f l o, b_frames b !! f = Some l -> b_heap b !! l = Some o -> o_pin o <> 0.

Lemma avail_spec b wr b1 r : Inv b -> get_available_frame b wr = (b1, r) ->
  match r with
  | Some f => taken b b1 f wr
  | None => b1 = b /\ b_free b = [] /\ (b_size b = 0 \/ all_pinned b)
  end.
Proof.
  intros HI H. unfold get_available_frame in H. destruct (b_free b) as [|f rest] eqn:Efr.
  - assert (Hloop : forall n, avail_loop n b wr = (b1, r) -> match r with
       | Some f => taken b b1 f wr | None => b1 = b /\ (n = 0 \/ all_pinned b) end).
    { induction n as [|n IH]; cbn [avail_loop]; intros E.
      - assert (r = None) by congruence. subst. split; [congruence|by left].
      - destruct (rep_evict (b_rep b)) as [r1 [f|]] eqn:Er.
        + destruct (rep_evict_ev _ _ _ (i_rep _ HI) Er) as (Hr1 & Hf & Hev).
          assert (r = Some f) by congruence. subst r.
          apply (i_ev _ HI) in Hf as (l & o & Hfl & Hlo & Hp).
          destruct (i_ft _ HI _ _ Hfl) as (o' & Ho' & Ht). assert (o' = o) by congruence. subst o'.
          cbn [b_table set_rep] in E. rewrite (page_in_spec _ _ _ HI Ht) in E.
          assert (b1 = evict_old (set_rep b r1) f (o_pid o) wr) by congruence. subst b1.
          by apply (evict_taken b r1 f l o wr).
        + destruct (rep_evict_ev _ _ _ (i_rep _ HI) Er) as (-> & Hno).
          assert (Hall : all_pinned b). { intros f l o Hf Hl Hp. apply (Hno f). apply (i_ev _ HI). eauto. }
          cbn zeta in E. rewrite set_rep_id in E. rewrite no_evictable_mark in E by exact Hall. rewrite set_rep_id in E.
          apply IH in E. destruct r; [done|]. split; [tauto|by right]. }
    apply Hloop in H. destruct r; tauto.
  - assert (r = Some f) by congruence. assert (b1 = set_free b rest) by congruence. subst.
    assert (Hnd : NoDup (f :: rest)) by (rewrite <- Efr; apply HI).
    apply NoDup_cons in Hnd as [Hnf Hnd].
    destruct (i_free _ HI f) as [Hfn Hflt]; [rewrite Efr; apply elem_of_cons; by left|].
    split; cbn; try done.
    + destruct HI. split; cbn; try done. intros f' Hin. apply i_free0. rewrite Efr. apply elem_of_cons. by right.
    + rewrite (i_ev _ HI). intros (l & o & ? & _). congruence.
    + intros p. left. done.
    + intros f' [Hin|Hs]; [|right; right; done]. rewrite Efr in Hin. apply elem_of_cons in Hin as [->|Hin]; [by left|right; by left].
Qed.

Lemma evict_nothing b f wr : b_frames b !! f = None -> evict_if_necessary b f wr = b.
Proof. intros H. unfold evict_if_necessary. by rewrite H. Qed.

(** ** Steps *)
Definition stable (b b1 : pool) : Prop := forall g G f, b_guards b !! g = Some G -> b_table b !! g_pid G = Some f ->
  b_table b1 !! g_pid G = Some f /\ b_frames b1 !! f = b_frames b !! f.
Definition holds_on (b b1 : pool) : Prop := forall f, held b f -> held b1 f.

Definition install (b : pool) (f p : N) (o : pobj) (now : N) : pool * N :=
  let '(b4, l) := alloc_obj b o in add_guard (update_metadata b4 f p l now) l p.

Lemma install_spec b f p o now : Inv b -> b_frames b !! f = None -> f ∉ b_free b -> N.to_nat f < b_size b ->
  b_table b !! p = None -> (p < b_next b)%N -> o_pin o = 1 -> o_pid o = p ->
  head (o_data o) = Some (o_type o) -> length (o_data o) = page_size ->
  exists b1 g, install b f p o now = (b1, g) /\ Inv b1 /\ b_guards b !! g = None /\
    b_guards b1 = <[g := mkGuard (b_fresh b) p false]> (b_guards b) /\ b_next b1 = b_next b /\ b_size b1 = b_size b /\
    b_disk b1 = b_disk b /\ b_free b1 = b_free b /\
    b_table b1 = <[p := f]> (b_table b) /\ b_frames b1 = <[f := b_fresh b]> (b_frames b) /\
    (forall q, pst b1 q = if decide (q = p) then (Some (o_data o, o_dirty o), b_disk b !! p) else pst b q) /\
    (forall f', held b1 f' <-> f' = f \/ held b f').
Proof.
  intros HI Hf Hnf Hlt Htp Hpn Hpin Hpid Hhd Hlen.
  assert (Hnl : b_heap b !! b_fresh b = None).
  { destruct (b_heap b !! b_fresh b) eqn:E; [|done]. apply (i_fh _ HI) in E. lia. }
  assert (Hng : forall g, (b_fresh b <= g)%N -> b_guards b !! g = None).
  { intros g Hg. destruct (b_guards b !! g) eqn:E; [|done]. apply (i_fg _ HI) in E. lia. }
  assert (Hfl : forall f' l', b_frames b !! f' = Some l' -> l' <> b_fresh b).
  { intros f' l' Hf' ->. destruct (i_ft _ HI _ _ Hf') as (o' & Ho' & _). congruence. }
  assert (Hgl : forall g G, b_guards b !! g = Some G -> g_loc G <> b_fresh b).
  { intros g G HG. destruct (i_guard _ HI _ _ HG) as (f' & _ & Hf'). by eapply Hfl. }
  destruct (rep_access_ev (b_rep b) f now (i_rep _ HI)) as (Hr1 & Hev1 & Hin1).
  destruct (rep_set_ev _ f false Hr1 Hin1) as (Hr2 & Hev2).
  eexists _, _. split; [reflexivity|]. cbn.
  split; [|split; [apply Hng; lia|]; split; [done|]; split; [done|]; split; [done|]; split; [done|]; split; [done|]; split; [done|]; split; [done|]; split].
  - split; cbn.
    + intros q f' Hq. apply lookup_insert_Some in Hq as [[<- <-]|[Hne Hq]].
      * exists (b_fresh b), o. by rewrite !lookup_insert.
      * destruct (i_tf _ HI _ _ Hq) as (l' & o' & Hf' & Ho' & Hp'). exists l', o'.
        rewrite !lookup_insert_ne; [done| |congruence]. intros <-. by apply (Hfl _ _ Hf').
    + intros f' l' Hf'. apply lookup_insert_Some in Hf' as [[<- <-]|[Hne Hf']].
      * exists o. by rewrite lookup_insert, Hpid, lookup_insert.
      * destruct (i_ft _ HI _ _ Hf') as (o' & Ho' & Ht'). exists o'.
        rewrite !lookup_insert_ne; [done|congruence|]. intros <-. by apply (Hfl _ _ Hf').
    + intros f' l' Hf'. apply lookup_insert_Some in Hf' as [[<- _]|[Hne Hf']]; [done|]. by eapply i_lt.
    + apply HI.
    + intros f' Hin. destruct (i_free _ HI _ Hin). split; [|done]. rewrite lookup_insert_ne; [done|]. intros <-. done.
    + intros g G HG. apply lookup_insert_Some in HG as [[<- <-]|[Hne HG]].
      * exists f. cbn. by rewrite !lookup_insert.
      * destruct (i_guard _ HI _ _ HG) as (f' & Ht' & Hf'). exists f'. rewrite !lookup_insert_ne; [done| |]; congruence.
    + intros f' l' o' Hf' Ho'. rewrite pins_insert_new by (apply Hng; lia). cbn [g_loc].
      apply lookup_insert_Some in Hf' as [[<- <-]|[Hne Hf']].
      * rewrite lookup_insert in Ho'. assert (o' = o) by congruence. subst o'. rewrite decide_True by done.
        rewrite pins_none; [done|]. intros g G HG. by eapply Hgl.
      * pose proof (Hfl _ _ Hf') as Hn. rewrite lookup_insert_ne in Ho' by done. rewrite decide_False by done. by eapply i_pin.
    + intros f'. rewrite Hev2, Hev1, (i_ev _ HI). split.
      * intros [[_ ?]|(Hne & l' & o' & Hf' & Ho' & Hp')]; [done|]. exists l', o'.
        rewrite lookup_insert_ne by done. rewrite lookup_insert_ne; [done|]. intros <-. by apply (Hfl _ _ Hf').
      * intros (l' & o' & Hf' & Ho' & Hp'). right. apply lookup_insert_Some in Hf' as [[<- <-]|[Hne Hf']].
        { rewrite lookup_insert in Ho'. congruence. }
        split; [done|]. exists l', o'. rewrite lookup_insert_ne in Ho'; [done|]. intros <-. by apply (Hfl _ _ Hf').
    + done.
    + intros l' o' Ho'. apply lookup_insert_Some in Ho' as [[<- _]|[_ Ho']]; [lia|]. apply (i_fh _ HI) in Ho'. lia.
    + intros g G HG. apply lookup_insert_Some in HG as [[<- _]|[_ HG]]; [lia|]. apply (i_fg _ HI) in HG. lia.
    + intros q f' Hq. apply lookup_insert_Some in Hq as [[<- _]|[_ Hq]]; [done|]. by eapply i_next.
    + intros f' l' o' Hf' Ho'. apply lookup_insert_Some in Hf' as [[<- <-]|[Hne Hf']].
      * rewrite lookup_insert in Ho'. by assert (o' = o) as -> by congruence.
      * rewrite lookup_insert_ne in Ho'; [by eapply i_tag|]. intros <-. by apply (Hfl _ _ Hf').
  - intros q. unfold pst, resident. cbn. case_decide as Hq.
    + subst q. rewrite lookup_insert. cbn. rewrite lookup_insert. cbn. by rewrite lookup_insert.
    + rewrite lookup_insert_ne by done. f_equal. destruct (b_table b !! q) as [f'|] eqn:Eq; [|done]. cbn.
      destruct (i_tf _ HI _ _ Eq) as (l' & o' & Hf' & Ho' & _). rewrite lookup_insert_ne by congruence.
      rewrite Hf'. cbn. rewrite lookup_insert_ne; [done|]. intros <-. by apply (Hfl _ _ Hf').
  - intros f'. unfold held. cbn. destruct (decide (f' = f)) as [->|Hne].
    + rewrite lookup_insert. split; [by left|]. intros _. right. eauto.
    + rewrite lookup_insert_ne by done. naive_solver.
Qed.

Lemma new_page_eq b t now wr b1 f : get_available_frame b wr = (b1, Some f) -> b_frames b1 !! f = None ->
  new_page b t now wr = (let '(b2, g) := install (set_next b1 (b_next b1 + 1)) f (b_next b1) (typed_page (b_next b1) t) now in
                         (b2, Some (g, b_next b1))).
Proof. intros E Hf. unfold new_page. rewrite E. rewrite evict_nothing by done. reflexivity. Qed.
Lemma load_end_eq b t pid f d now o : page_from_data pid t d = Some o ->
  load_end b t pid f d now = (let '(b2, g) := install b f pid o now in (b2, Some (g, pid))).
Proof. intros E. unfold load_end. rewrite E. reflexivity. Qed.

Lemma set_next_inv b n : Inv b -> (b_next b <= n)%N -> Inv (set_next b n).
Proof. intros [] H. split; cbn; try done. intros p f Hp. apply i_next0 in Hp. lia. Qed.
Lemma set_disk_inv b d : Inv b -> Inv (set_disk b d).
Proof. intros []. by split. Qed.

(** Changing bytes and dirty bit of one object. *)
Lemma heap_upd_inv b l o o' : Inv b -> b_heap b !! l = Some o -> o_pid o' = o_pid o -> o_pin o' = o_pin o ->
  (head (o_data o) = Some (o_type o) -> length (o_data o) = page_size -> head (o_data o') = Some (o_type o') /\ length (o_data o') = page_size) ->
  Inv (set_heap b (<[l := o']> (b_heap b))).
Proof.
  intros HI Hl Hpid Hpin Htag. split; cbn; try apply HI.
  - intros p f Hp. destruct (i_tf _ HI _ _ Hp) as (l' & o1 & Hf & Ho & Hq). destruct (decide (l' = l)) as [->|Hne].
    + exists l, o'. rewrite lookup_insert. split; [done|]. split; [done|]. congruence.
    + exists l', o1. by rewrite lookup_insert_ne.
  - intros f l' Hf. destruct (i_ft _ HI _ _ Hf) as (o1 & Ho & Ht). destruct (decide (l' = l)) as [->|Hne].
    + exists o'. rewrite lookup_insert. split; [done|]. congruence.
    + exists o1. by rewrite lookup_insert_ne.
  - intros f l' o1 Hf Ho. destruct (decide (l' = l)) as [->|Hne].
    + rewrite lookup_insert in Ho. assert (o1 = o') by congruence. subst. rewrite Hpin. by eapply i_pin.
    + rewrite lookup_insert_ne in Ho by done. by eapply i_pin.
  - intros f. rewrite (i_ev _ HI). split; intros (l' & o1 & Hf & Ho & Hp).
    + destruct (decide (l' = l)) as [->|Hne].
      * exists l, o'. rewrite lookup_insert. split; [done|]. split; [done|]. congruence.
      * exists l', o1. by rewrite lookup_insert_ne.
    + destruct (decide (l' = l)) as [->|Hne].
      * rewrite lookup_insert in Ho. exists l, o. split; [done|]. split; [done|]. congruence.
      * rewrite lookup_insert_ne in Ho by done. eauto.
  - intros l' o1 Ho. destruct (decide (l' = l)) as [->|Hne]; [by eapply i_fh|]. rewrite lookup_insert_ne in Ho by done. by eapply i_fh.
  - intros f l' o1 Hf Ho. destruct (decide (l' = l)) as [->|Hne].
    + rewrite lookup_insert in Ho. assert (o1 = o') by congruence. subst. destruct (i_tag _ HI _ _ _ Hf Hl). auto.
    + rewrite lookup_insert_ne in Ho by done. by eapply i_tag.
Qed.
Lemma heap_upd_pst b l o' p : pst (set_heap b (<[l := o']> (b_heap b))) p =
  if decide (resident b p = Some l) then (Some (o_data o', o_dirty o'), b_disk b !! p) else pst b p.
Proof.
  unfold pst. cbn [b_disk set_heap b_heap]. change (resident (set_heap b (<[l := o']> (b_heap b))) p) with (resident b p).
  case_decide as H.
  - rewrite H. cbn. by rewrite lookup_insert.
  - f_equal. destruct (resident b p) as [l'|]; [|done]. cbn. rewrite lookup_insert_ne; [done|]. congruence.
Qed.
Lemma resident_spec b p l : Inv b -> resident b p = Some l ->
  exists f o, b_table b !! p = Some f /\ b_frames b !! f = Some l /\ b_heap b !! l = Some o /\ o_pid o = p.
Proof.
  intros HI H. unfold resident in H. destruct (b_table b !! p) as [f|] eqn:E; [|done]. cbn in H.
  destruct (i_tf _ HI _ _ E) as (l' & o & Hf & Ho & Hp). exists f, o. split; [done|]. split; [done|]. split; [|done]. congruence.
Qed.
Lemma resident_guard b g G : Inv b -> b_guards b !! g = Some G -> resident b (g_pid G) = Some (g_loc G).
Proof. intros HI H. destruct (i_guard _ HI _ _ H) as (f & Ht & Hf). unfold resident. by rewrite Ht. Qed.
Lemma resident_inj b p q l : Inv b -> resident b p = Some l -> resident b q = Some l -> p = q.
Proof.
  intros HI H1 H2. destruct (resident_spec _ _ _ HI H1) as (f & o & _ & _ & Ho & Hp).
  destruct (resident_spec _ _ _ HI H2) as (f' & o' & _ & _ & Ho' & Hp'). congruence.
Qed.

(** ** Bytes *)
Lemma patch_length d off bs : length (patch d off bs) = length d.
Proof. apply imap_length. Qed.
Lemma patch_head d off bs : head (patch d off bs) = head d.
Proof. destruct d; [done|]. unfold patch. cbn. by rewrite decide_True by (by left). Qed.
Lemma set_data_patch o off bs o1 : head (o_data o) = Some (o_type o) -> length (o_data o) = page_size ->
  set_data o off bs = (o1, true) ->
  o1 = mkObj (o_pid o) (o_type o) (patch (o_data o) off bs) (o_pin o) true.
Proof.
  intros Hh Hlen H. unfold set_data in H. case_decide as Hle; [congruence|].
  match type of H with (mkObj _ _ ?d _ _, _) = _ => assert (Hd : d = patch (o_data o) off bs) end; [|rewrite <- Hd; congruence].
  clear H. generalize dependent Hle. generalize (o_data o) Hh. clear. intros d Hh Hle.
  assert (HL : length (take off d ++ bs ++ drop (off + length bs) d) = length d).
  { rewrite !app_length, take_length, drop_length. lia. }
  apply list_eq. intros i. unfold patch. rewrite list_lookup_imap.
  assert (Hpt : (if decide (off = 0 /\ bs <> []) then <[0 := o_type o]> (take off d ++ bs ++ drop (off + length bs) d)
                 else take off d ++ bs ++ drop (off + length bs) d) !! i =
    if decide (i = 0) then d !! 0 else (take off d ++ bs ++ drop (off + length bs) d) !! i).
  { destruct (decide (i = 0)) as [->|Hi].
    - case_decide as Hz.
      + rewrite list_lookup_insert; [by destruct d|]. rewrite HL. destruct d; [done|cbn; lia].
      + destruct off as [|off].
        * assert (bs = []) as -> by (destruct bs; [done|exfalso; apply Hz; done]). cbn. by rewrite drop_0.
        * by destruct d.
    - case_decide; [by rewrite list_lookup_insert_ne|done]. }
  etransitivity; [exact Hpt|]. clear Hpt HL.
  destruct (decide (i = 0)) as [->|Hi]; [destruct d; [done|]; cbn; by rewrite decide_True by (by left)|].
  destruct (decide (i < off)) as [Hio|Hio].
  - rewrite lookup_app_l by (rewrite take_length; lia). rewrite lookup_take by done.
    destruct (d !! i); [|done]. cbn. by rewrite decide_True by (by right).
  - rewrite lookup_app_r by (rewrite take_length; lia). rewrite take_length_le by lia.
    destruct (decide (i - off < length bs)) as [Hb|Hb].
    + rewrite lookup_app_l by done. destruct (lookup_lt_is_Some_2 bs (i - off) Hb) as [x Hx]. rewrite Hx.
      destruct (lookup_lt_is_Some_2 d i) as [y Hy]; [lia|]. rewrite Hy. cbn. by rewrite decide_False by lia.
    + rewrite lookup_app_r by lia. rewrite lookup_drop. replace (off + length bs + (i - off - length bs)) with i by lia.
      destruct (d !! i) as [y|]; [|done]. cbn. rewrite decide_False by lia. by rewrite lookup_ge_None_2 by lia.
Qed.
Lemma set_data_fail o off bs o1 : set_data o off bs = (o1, false) -> o1 = o.
Proof. unfold set_data. case_decide; congruence. Qed.
