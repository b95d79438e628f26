From Coq Require Import NArith Lia.
From stdpp Require Import gmap list.
From Verif Require Import CacheSpec LrukSpec LrukModel LrukProofs ReplacerProofs BpmSpec BpmModel BpmProofs.

(** Frames, page table, guards and counters untouched. *)
Definition same_maps (b b1 : pool) : Prop :=
  b_frames b1 = b_frames b /\ b_table b1 = b_table b /\ b_free b1 = b_free b /\ b_size b1 = b_size b /\ b_next b1 = b_next b.
Lemma same_maps_refl b : same_maps b b.
Proof. by unfold same_maps. Qed.
Lemma same_maps_trans b b1 b2 : same_maps b b1 -> same_maps b1 b2 -> same_maps b b2.
Proof. unfold same_maps. intros (?&?&?&?&?) (?&?&?&?&?). repeat split; congruence. Qed.
Lemma same_maps_stable b b1 : same_maps b b1 -> stable b b1.
Proof. intros (Hf & Ht & _) g G f HG HT. by rewrite Hf, Ht. Qed.
Lemma same_maps_held b b1 : same_maps b b1 -> holds_on b b1.
Proof. intros (Hf & Ht & Hfr & _) f. unfold held. by rewrite Hf, Hfr. Qed.

Lemma guard_write_spec b g off bs b1 ok : Inv b -> guard_write b g off bs = (b1, ok) ->
  Inv b1 /\ same_maps b b1 /\ (forall g', g_pid <$> b_guards b1 !! g' = g_pid <$> b_guards b !! g') /\
  (forall g', g_loc <$> b_guards b1 !! g' = g_loc <$> b_guards b !! g') /\
  (forall p, match b_guards b !! g with
     | Some G => if decide (p = g_pid G) then exists c k, pst b p = (Some (c, k), b_disk b !! p) /\
                    pst b1 p = (Some (if ok then patch c off bs else c, true), b_disk b !! p)
                 else pst b1 p = pst b p
     | None => pst b1 p = pst b p /\ ok = false
     end).
Proof.
  intros HI H. unfold guard_write in H. destruct (b_guards b !! g) as [G|] eqn:EG.
  2:{ assert (b1 = b) by congruence. assert (ok = false) by congruence. subst. split; [done|]. split; [apply same_maps_refl|]. auto. }
  destruct (i_guard _ HI _ _ EG) as (f & Ht & Hf). destruct (i_tf _ HI _ _ Ht) as (l & o & Hf' & Ho & Hpid).
  assert (l = g_loc G) by congruence. subst l. rewrite Ho in H.
  destruct (i_tag _ HI _ _ _ Hf Ho) as [Hhd Hlen].
  destruct (set_data (with_dirty o true) off bs) as [o1 ok1] eqn:Es.
  assert (ok1 = ok) by congruence. subst ok1.
  assert (Ho1 : o_pid o1 = o_pid o /\ o_pin o1 = o_pin o /\ o_type o1 = o_type o /\ o_data o1 = (if ok then patch (o_data o) off bs else o_data o) /\ o_dirty o1 = true).
  { destruct ok; [apply set_data_patch in Es; [|done..]|apply set_data_fail in Es]; subst o1; done. }
  destruct Ho1 as (Hp1 & Hn1 & Ht1 & Hd1 & Hy1).
  set (b0 := set_guards b (<[g := mkGuard (g_loc G) (g_pid G) true]> (b_guards b))) in *.
  assert (HI0 : Inv b0).
  { destruct HI. unfold b0. split; cbn; try done.
    - intros g' G' HG'. apply lookup_insert_Some in HG' as [[<- <-]|[_ HG']]; [|eauto]. cbn. eauto.
    - intros f' l' o' Hf1 Ho'. rewrite (pins_same _ _ G); [by eapply i_pin|done|done].
    - intros g' G' HG'. apply lookup_insert_Some in HG' as [[<- <-]|[_ HG']]; eauto. }
  assert (Hb1 : b1 = set_heap b0 (<[g_loc G := o1]> (b_heap b0))) by congruence.
  assert (HG' : forall A (fn : pguard -> A), fn (mkGuard (g_loc G) (g_pid G) true) = fn G ->
     forall g', fn <$> <[g := mkGuard (g_loc G) (g_pid G) true]> (b_guards b) !! g' = fn <$> b_guards b !! g').
  { intros A fn Hfn g'. destruct (decide (g' = g)) as [->|Hne]; [|by rewrite lookup_insert_ne]. rewrite lookup_insert, EG. cbn. by rewrite Hfn. }
  split; [|split; [|split; [|split]]].
  - rewrite Hb1. apply (heap_upd_inv b0 _ o); [done|done|done|done|]. intros _ _. rewrite Hd1, Ht1.
    destruct ok; [|done]. by rewrite patch_head, patch_length.
  - rewrite Hb1. by unfold same_maps.
  - rewrite Hb1. cbn. by apply HG'.
  - rewrite Hb1. cbn. by apply HG'.
  - intros p. rewrite Hb1. rewrite heap_upd_pst. change (resident b0 p) with (resident b p).
    change (b_disk b0) with (b_disk b). change (pst b0 p) with (pst b p).
    pose proof (resident_guard _ _ _ HI EG) as Hr. destruct (decide (p = g_pid G)) as [->|Hne].
    + rewrite decide_True by done. exists (o_data o), (o_dirty o). split; [|by rewrite Hd1, Hy1].
      unfold pst. rewrite Hr. cbn. by rewrite Ho.
    + rewrite decide_False; [done|]. intros Hr'. apply Hne. by eapply resident_inj.
Qed.

Lemma poke_spec b p bs : Inv b -> Inv (poke b p bs) /\ same_maps b (poke b p bs) /\ b_guards (poke b p bs) = b_guards b /\
  (forall q, q <> p -> pst (poke b p bs) q = pst b q) /\
  (length bs = page_size -> forall l, resident b p = Some l -> exists c k, pst b p = (Some (c, k), b_disk b !! p) /\
     pst (poke b p bs) p = (Some (patch c 0 bs, true), b_disk b !! p)).
Proof.
  intros HI. unfold poke.
  destruct (head (omap _ _)) as [[l o]|] eqn:E.
  - assert (Hin : (l, o) ∈ omap (fun f => l ← b_frames b !! f; o ← b_heap b !! l;
                if decide (o_pid o = p) then Some (l, o) else None) (N.of_nat <$> seq 0 (b_size b))).
    { destruct (omap _ _); [done|]. cbn in E. assert (p0 = (l, o)) by congruence. subst. apply elem_of_cons; by left. }
    apply elem_of_list_omap in Hin as (f & _ & Hf).
    destruct (b_frames b !! f) as [l'|] eqn:Ef; [|done]. cbn in Hf. destruct (b_heap b !! l') as [o'|] eqn:Eo; [|done]. cbn in Hf.
    case_decide as Hp; [|done]. assert (l' = l) by congruence. assert (o' = o) by congruence. subst.
    destruct (i_tag _ HI _ _ _ Ef Eo) as [Hhd Hlen].
    destruct (i_ft _ HI _ _ Ef) as (o' & Ho' & Ht). assert (o' = o) by congruence. subst o'.
    destruct (set_data o 0 bs) as [o1 ok] eqn:Es.
    assert (Ho1 : o_pid o1 = o_pid o /\ o_pin o1 = o_pin o /\ o_type o1 = o_type o /\ o_data o1 = (if ok then patch (o_data o) 0 bs else o_data o)).
    { destruct ok; [apply set_data_patch in Es; [|done..]|apply set_data_fail in Es]; subst o1; done. }
    destruct Ho1 as (Hp1 & Hn1 & Ht1 & Hd1).
    assert (Hr : resident b (o_pid o) = Some l) by (unfold resident; by rewrite Ht).
    split; [|split; [by unfold same_maps|split; [done|split]]].
    + apply (heap_upd_inv _ _ o); [done|done|done|done|]. intros _ _. cbn. rewrite Hd1, Ht1. destruct ok; [|done]. by rewrite patch_head, patch_length.
    + intros q Hq. rewrite heap_upd_pst. rewrite decide_False; [done|]. intros Hr'. apply Hq. by eapply resident_inj.
    + intros Hbs l' Hl'. assert (l' = l) by congruence. subst l'. exists (o_data o), (o_dirty o).
      split; [unfold pst; rewrite Hr; cbn; by rewrite Eo|]. rewrite heap_upd_pst, decide_True by done. cbn.
      rewrite Hd1. assert (ok = true) as ->; [|done]. unfold set_data in Es. rewrite decide_False in Es by lia. congruence.
  - split; [done|]. split; [apply same_maps_refl|]. split; [done|]. split; [done|].
    intros _ l Hl. exfalso. destruct (resident_spec _ _ _ HI Hl) as (f & o & Ht & Hf & Ho & Hp).
    assert (Hin : (l, o) ∈ omap (fun f => l ← b_frames b !! f; o ← b_heap b !! l;
                if decide (o_pid o = p) then Some (l, o) else None) (N.of_nat <$> seq 0 (b_size b))).
    { apply elem_of_list_omap. exists f. split.
      - apply elem_of_list_fmap. exists (N.to_nat f). split; [lia|]. apply elem_of_seq. pose proof (i_lt _ HI _ _ Hf). lia.
      - rewrite Hf. cbn. rewrite Ho. cbn. by rewrite decide_True. }
    destruct (omap _ _); [by apply elem_of_nil in Hin|done].
Qed.

Lemma fetch_pin_spec b p l now b1 g : Inv b -> resident b p = Some l -> fetch_pin b l p now = (b1, g) ->
  Inv b1 /\ same_maps b b1 /\ b_guards b !! g = None /\ b_guards b1 = <[g := mkGuard l p false]> (b_guards b) /\
  (forall q, pst b1 q = pst b q).
Proof.
  intros HI Hr H. destruct (resident_spec _ _ _ HI Hr) as (f & o & Ht & Hf & Ho & Hp).
  unfold fetch_pin in H. rewrite Ht in H.
  destruct (rep_access_ev (b_rep b) f now (i_rep _ HI)) as (Hr1 & Hev1 & Hin1).
  destruct (rep_set_ev _ f false Hr1 Hin1) as (Hr2 & Hev2).
  set (r' := (rep_set (rep_access (b_rep b) f now) f false).1) in *.
  assert (Hng : forall g, (b_fresh b <= g)%N -> b_guards b !! g = None).
  { intros g' Hg. destruct (b_guards b !! g') eqn:E; [|done]. apply (i_fg _ HI) in E. lia. }
  assert (Hh : alter (fun o => with_pin o (S (o_pin o))) l (b_heap b) = <[l := with_pin o (S (o_pin o))]> (b_heap b)).
  { apply map_eq. intros l'. destruct (decide (l' = l)) as [->|Hne].
    - rewrite lookup_alter, lookup_insert, Ho. done.
    - by rewrite lookup_alter_ne, lookup_insert_ne. }
  unfold add_guard in H. cbn in H. rewrite Hh in H.
  assert (g = b_fresh b) by congruence. subst g.
  match type of H with (?x, _) = _ => assert (Hb1 : b1 = x) by congruence end. clear H. subst b1. cbn.
  split; [|split; [by unfold same_maps|split; [apply Hng; lia|split; [done|]]]].
  - split; cbn.
    + intros q f' Hq. destruct (i_tf _ HI _ _ Hq) as (l' & o' & Hf' & Ho' & Hp'). destruct (decide (l' = l)) as [->|Hne].
      * eexists l, _. rewrite lookup_insert. split; [done|]. split; [done|]. cbn. congruence.
      * exists l', o'. by rewrite lookup_insert_ne.
    + intros f' l' Hf'. destruct (i_ft _ HI _ _ Hf') as (o' & Ho' & Ht'). destruct (decide (l' = l)) as [->|Hne].
      * eexists. rewrite lookup_insert. split; [done|]. cbn. congruence.
      * exists o'. by rewrite lookup_insert_ne.
    + apply HI.
    + apply HI.
    + apply HI.
    + intros g G HG. apply lookup_insert_Some in HG as [[<- <-]|[_ HG]]; [|by eapply i_guard]. cbn. eauto.
    + intros f' l' o' Hf' Ho'. rewrite pins_insert_new by (apply Hng; lia). cbn [g_loc].
      apply lookup_insert_Some in Ho' as [[<- <-]|[Hne Ho']].
      * rewrite decide_True by done. cbn. by rewrite (i_pin _ HI _ _ _ Hf Ho).
      * rewrite decide_False by done. by eapply i_pin.
    + intros f'. rewrite Hev2, Hev1, (i_ev _ HI). split.
      * intros [[_ ?]|(Hne & l' & o' & Hf' & Ho' & Hp')]; [done|]. exists l', o'. split; [done|]. split; [|done].
        rewrite lookup_insert_ne; [done|]. intros <-. apply Hne. by eapply i_inj.
      * intros (l' & o' & Hf' & Ho' & Hp'). right. apply lookup_insert_Some in Ho' as [[<- <-]|[Hne Ho']]; [done|].
        split; [congruence|eauto].
    + done.
    + intros l' o' Ho'. apply lookup_insert_Some in Ho' as [[<- _]|[_ Ho']]; [apply (i_fh _ HI) in Ho|apply (i_fh _ HI) in Ho']; lia.
    + intros g G HG. apply lookup_insert_Some in HG as [[<- _]|[_ HG]]; [lia|]. apply (i_fg _ HI) in HG. lia.
    + apply HI.
    + intros f' l' o' Hf' Ho'. apply lookup_insert_Some in Ho' as [[<- <-]|[Hne Ho']]; [cbn|]; by eapply i_tag.
  - intros q. unfold pst. cbn. f_equal. change (resident _ q) with (resident b q).
    destruct (resident b q) as [l'|] eqn:Eq; [|done]. cbn. destruct (decide (l' = l)) as [->|Hne].
    + by rewrite lookup_insert, Ho.
    + by rewrite lookup_insert_ne.
Qed.

Lemma guard_drop_spec b g now b1 ok : Inv b -> guard_drop b g now = (b1, ok) ->
  Inv b1 /\ same_maps b b1 /\ b_guards b1 = delete g (b_guards b) /\
  (forall q, pst b1 q = pst b q \/ exists c k, pst b q = (Some (c, k), b_disk b !! q) /\ pst b1 q = (Some (c, true), b_disk b !! q)).
Proof.
  intros HI H. unfold guard_drop in H. destruct (b_guards b !! g) as [G|] eqn:EG.
  2:{ assert (b1 = b) by congruence. subst. split; [done|]. split; [apply same_maps_refl|]. split; [by rewrite delete_notin|]. by left. }
  destruct (i_guard _ HI _ _ EG) as (f & Ht & Hf). destruct (i_tf _ HI _ _ Ht) as (l & o & Hf' & Ho & Hpid).
  assert (l = g_loc G) by congruence. subst l.
  pose proof (i_pin _ HI _ _ _ Hf Ho) as Hpin. rewrite (pins_delete _ _ _ _ EG), decide_True in Hpin by done. cbn in Hpin.
  unfold unpin_page in H. cbn [b_table b_frames b_heap set_guards] in H. rewrite Ht, Hf, Ho, Hpin in H.
  set (n := pins (delete g (b_guards b)) (g_loc G)) in *.
  set (o2 := with_pin (if g_dirty G then with_dirty o true else o) n) in *.
  set (r' := if decide (n = 0) then (rep_set (rep_access (b_rep b) f now) f true).1 else b_rep b).
  assert (Hb1 : b1 = mkPool (b_size b) (b_next b) (b_frames b) (b_table b) r' (b_free b) (b_disk b) (<[g_loc G := o2]> (b_heap b)) (delete g (b_guards b)) (b_fresh b)).
  { unfold r'. destruct n; [rewrite decide_True by done|rewrite decide_False by done];
      (match type of H with (?x, _) = _ => transitivity x; [congruence|reflexivity] end). }
  assert (Hop : o_pid o2 = o_pid o /\ o_pin o2 = n /\ o_type o2 = o_type o /\ o_data o2 = o_data o /\ o_dirty o2 = (g_dirty G || o_dirty o)).
  { unfold o2. by destruct (g_dirty G). }
  destruct Hop as (Hp2 & Hn2 & Ht2 & Hd2 & Hy2). clearbody o2.
  destruct (rep_access_ev (b_rep b) f now (i_rep _ HI)) as (Hr1 & Hev1 & Hin1).
  destruct (rep_set_ev _ f true Hr1 Hin1) as (Hr2 & Hev2).
  clear H. subst b1. cbn.
  split; [|split; [by unfold same_maps|split; [done|]]].
  - split; cbn.
    + intros q f' Hq. destruct (i_tf _ HI _ _ Hq) as (l' & o' & Hf1 & Ho' & Hp'). destruct (decide (l' = g_loc G)) as [->|Hne].
      * exists (g_loc G), o2. rewrite lookup_insert. split; [done|]. split; [done|]. congruence.
      * exists l', o'. by rewrite lookup_insert_ne.
    + intros f' l' Hf1. destruct (i_ft _ HI _ _ Hf1) as (o' & Ho' & Ht'). destruct (decide (l' = g_loc G)) as [->|Hne].
      * exists o2. rewrite lookup_insert. split; [done|]. congruence.
      * exists o'. by rewrite lookup_insert_ne.
    + apply HI.
    + apply HI.
    + apply HI.
    + intros g' G' [_ HG']%lookup_delete_Some. by eapply i_guard.
    + intros f' l' o' Hf1 Ho'. apply lookup_insert_Some in Ho' as [[<- <-]|[Hne Ho']]; [done|].
      rewrite (i_pin _ HI _ _ _ Hf1 Ho'), (pins_delete _ _ _ l' EG). by rewrite decide_False.
    + intros f'. unfold r'. destruct (decide (n = 0)) as [Hz|Hz].
      * rewrite Hev2, Hev1, (i_ev _ HI). split.
        -- intros [[-> _]|(Hne & l' & o' & Hf1 & Ho' & Hp')].
           ++ exists (g_loc G), o2. rewrite lookup_insert. split; [done|]. split; [done|]. congruence.
           ++ exists l', o'. split; [done|]. rewrite lookup_insert_ne; [done|]. intros <-. apply Hne. by eapply i_inj.
        -- intros (l' & o' & Hf1 & Ho' & Hp'). destruct (decide (f' = f)) as [->|Hne]; [by left|]. right. split; [done|].
           exists l', o'. split; [done|]. rewrite lookup_insert_ne in Ho'; [done|]. intros <-. apply Hne. by eapply i_inj.
      * rewrite (i_ev _ HI). split; intros (l' & o' & Hf1 & Ho' & Hp'); exists l', o'; (split; [done|]).
        -- rewrite lookup_insert_ne; [done|]. intros <-. assert (o' = o) by congruence. subst. lia.
        -- rewrite lookup_insert_ne in Ho'; [done|]. intros <-. rewrite lookup_insert in Ho'. congruence.
    + unfold r'. destruct (decide (n = 0)); [done|apply HI].
    + intros l' o' Ho'. apply lookup_insert_Some in Ho' as [[<- _]|[_ Ho']]; by eapply i_fh.
    + intros g' G' [_ HG']%lookup_delete_Some. by eapply i_fg.
    + apply HI.
    + intros f' l' o' Hf1 Ho'. apply lookup_insert_Some in Ho' as [[<- <-]|[Hne Ho']]; [|by eapply i_tag].
      rewrite Hd2, Ht2. by eapply i_tag.
  - intros q. unfold pst. cbn. change (resident _ q) with (resident b q).
    destruct (resident b q) as [l'|] eqn:Eq; [|by left]. cbn. destruct (decide (l' = g_loc G)) as [->|Hne].
    + rewrite lookup_insert, Ho. cbn. rewrite Hd2, Hy2. destruct (g_dirty G); [|by left]. right. eauto.
    + left. by rewrite lookup_insert_ne.
Qed.

(** ** Flushing *)
Definition frel (x y : option (bytes * bool) * option bytes) : Prop :=
  y = x \/ exists c d, x.1 = Some (c, d) /\ y = (Some (c, false), Some c).
Lemma frel_trans x y z : frel x y -> frel y z -> frel x z.
Proof.
  intros [->|(c & d & E & ->)]; [done|]. intros [->|(c' & d' & E' & ->)]; right; [eauto|].
  cbn in E'. assert (c' = c) by congruence. subst. eauto.
Qed.

Lemma write_out_spec b p l wr b1 ok : Inv b -> resident b p = Some l -> write_out b p l wr = (b1, ok) ->
  Inv b1 /\ same_maps b b1 /\ b_guards b1 = b_guards b /\ ok = wr /\
  (forall q, q <> p -> pst b1 q = pst b q) /\
  (if wr then exists c d, pst b p = (Some (c, d), b_disk b !! p) /\ pst b1 p = (Some (c, false), Some c) else b1 = b).
Proof.
  intros HI Hr H. destruct (resident_spec _ _ _ HI Hr) as (f & o & Ht & Hf & Ho & Hp).
  unfold write_out in H. rewrite Ho in H. destruct wr.
  - assert (ok = true) by congruence. subst ok.
    match type of H with (?x, _) = _ => assert (Hb1 : b1 = x) by congruence end. clear H.
    assert (HI0 : Inv (set_disk b (<[p := o_data o]> (b_disk b)))) by by apply set_disk_inv.
    split; [|split; [subst b1; by unfold same_maps|split; [by subst b1|split; [done|split]]]].
    + subst b1. by apply (heap_upd_inv (set_disk b _) _ o).
    + intros q Hq. subst b1.
      assert (E : pst (set_heap (set_disk b (<[p := o_data o]> (b_disk b))) (<[l := with_dirty o false]> (b_heap b))) q = pst (set_disk b (<[p := o_data o]> (b_disk b))) q).
      { etransitivity; [apply (heap_upd_pst (set_disk b _))|]. rewrite decide_False; [done|]. intros Hr'. apply Hq. by eapply resident_inj. }
      rewrite E. unfold pst. cbn. by rewrite lookup_insert_ne.
    + exists (o_data o), (o_dirty o). split; [unfold pst; rewrite Hr; cbn; by rewrite Ho|]. subst b1.
      etransitivity; [apply (heap_upd_pst (set_disk b _))|]. rewrite decide_True by done. cbn. by rewrite lookup_insert.
  - assert (b1 = b) by congruence. assert (ok = false) by congruence. subst. split; [done|]. split; [apply same_maps_refl|]. done.
Qed.
Lemma flush_page_spec b p wr b1 ok : Inv b -> flush_page b p wr = (b1, ok) ->
  Inv b1 /\ same_maps b b1 /\ b_guards b1 = b_guards b /\ (forall q, frel (pst b q) (pst b1 q)) /\
  (ok = true -> wr = true /\ exists c d, pst b p = (Some (c, d), b_disk b !! p) /\ pst b1 p = (Some (c, false), Some c)).
Proof.
  intros HI H. unfold flush_page in H. destruct (resident b p) as [l|] eqn:Er.
  - destruct (write_out_spec _ _ _ _ _ _ HI Er H) as (H1 & H2 & H3 & H4 & H5 & H6). split; [done|]. split; [done|]. split; [done|].
    destruct wr.
    + split; [|intros _; done]. intros q. destruct (decide (q = p)) as [->|Hne]; [|left; by apply H5].
      destruct H6 as (c & d & E1 & E2). right. exists c, d. rewrite E1. done.
    + subst. split; [by left|done].
  - assert (b1 = b) by congruence. assert (ok = false) by congruence. subst. split; [done|]. split; [apply same_maps_refl|]. split; [done|]. split; [by left|done].
Qed.
Lemma flush_all_spec b wr : Inv b -> Inv (flush_all b wr) /\ same_maps b (flush_all b wr) /\ b_guards (flush_all b wr) = b_guards b /\
  forall q, frel (pst b q) (pst (flush_all b wr) q).
Proof.
  unfold flush_all. generalize (map_to_list (b_table b)) as l. intros l HI. revert b HI.
  induction l as [|e l IH]; intros b HI; cbn [fold_left].
  - split; [done|]. split; [apply same_maps_refl|]. split; [done|by left].
  - destruct (flush_page b e.1 wr) as [b1 ok] eqn:E. destruct (flush_page_spec _ _ _ _ _ HI E) as (H1 & H2 & H3 & H4 & _). cbn.
    destruct (IH b1 H1) as (I1 & I2 & I3 & I4). split; [done|]. split; [by eapply same_maps_trans|]. split; [congruence|].
    intros q. eapply frel_trans; eauto.
Qed.

Definition unmark (b : pool) (p : N) : pool :=
  match resident b p with Some l => set_heap b (alter (fun o => with_dirty o false) l (b_heap b)) | None => b end.
Lemma unmark_spec b p : Inv b -> Inv (unmark b p) /\ same_maps b (unmark b p) /\ b_guards (unmark b p) = b_guards b /\ b_disk (unmark b p) = b_disk b /\
  (forall q, q <> p -> pst (unmark b p) q = pst b q) /\
  (forall c d k, pst b p = (Some (c, d), k) -> pst (unmark b p) p = (Some (c, false), k)).
Proof.
  intros HI. unfold unmark. destruct (resident b p) as [l|] eqn:Hr.
  - destruct (resident_spec _ _ _ HI Hr) as (f & o & Ht & Hf & Ho & Hp).
    assert (Hh : alter (fun o => with_dirty o false) l (b_heap b) = <[l := with_dirty o false]> (b_heap b)).
    { apply map_eq. intros l'. destruct (decide (l' = l)) as [->|Hne].
      - rewrite lookup_alter, lookup_insert, Ho. done.
      - by rewrite lookup_alter_ne, lookup_insert_ne. }
    rewrite Hh. split; [by apply (heap_upd_inv b _ o)|]. split; [by unfold same_maps|]. split; [done|]. split; [done|]. split.
    + intros q Hq. rewrite heap_upd_pst. rewrite decide_False; [done|]. intros Hr'. apply Hq. by eapply resident_inj.
    + intros c d k E. rewrite heap_upd_pst, decide_True by done. cbn. unfold pst in E. rewrite Hr in E. cbn in E. rewrite Ho in E. cbn in E. congruence.
  - split; [done|]. split; [apply same_maps_refl|]. split; [done|]. split; [done|]. split; [done|].
    intros c d k E. unfold pst in E. rewrite Hr in E. done.
Qed.
Lemma unmarks_spec (l : list (N * bytes)) b : Inv b ->
  let b1 := fold_left (fun b e => unmark b e.1) l b in
  Inv b1 /\ same_maps b b1 /\ b_guards b1 = b_guards b /\ b_disk b1 = b_disk b /\
  (forall q, q ∉ l.*1 -> pst b1 q = pst b q) /\
  (forall q c d k, q ∈ l.*1 -> pst b q = (Some (c, d), k) -> pst b1 q = (Some (c, false), k)).
Proof.
  revert b. induction l as [|e l IH]; intros b HI; cbn.
  - split; [done|]. split; [apply same_maps_refl|]. split; [done|]. split; [done|]. split; [done|]. intros q c d k Hq. by apply elem_of_nil in Hq.
  - destruct (unmark_spec b e.1 HI) as (H1 & H2 & H3 & H4 & H5 & H6). destruct (IH _ H1) as (I1 & I2 & I3 & I4 & I5 & I6).
    split; [done|]. split; [by eapply same_maps_trans|]. split; [congruence|]. split; [congruence|]. split.
    + intros q Hq. apply not_elem_of_cons in Hq as [Hq1 Hq2]. rewrite I5 by done. by apply H5.
    + intros q c d k Hq E. destruct (decide (q = e.1)) as [->|Hne].
      * apply H6 in E. destruct (decide (e.1 ∈ l.*1)) as [Hin|Hout]; [by eapply I6|]. by rewrite I5.
      * apply elem_of_cons in Hq as [->|Hq]; [done|]. eapply I6; [done|]. by rewrite H5.
Qed.
Lemma writes_lookup (l : list (N * bytes)) (d : gmap N bytes) p c : (forall c', (p, c') ∈ l -> c' = c) ->
  fold_left (fun d e => <[e.1 := e.2]> d) l d !! p = if decide (p ∈ l.*1) then Some c else d !! p.
Proof.
  revert d. induction l as [|[q c0] l IH]; intros d H; cbn [fold_left].
  - by rewrite decide_False by apply not_elem_of_nil.
  - rewrite IH by (intros c' Hin; apply H; apply elem_of_cons; by right). cbn. destruct (decide (p ∈ l.*1)) as [Hin|Hout].
    + rewrite decide_True; [done|]. apply elem_of_cons. by right.
    + destruct (decide (p = q)) as [->|Hne].
      * rewrite lookup_insert, decide_True by (apply elem_of_cons; by left). f_equal. apply H. apply elem_of_cons. by left.
      * rewrite lookup_insert_ne by done. rewrite decide_False; [done|]. intros Hin. apply elem_of_cons in Hin as [?|?]; done.
Qed.

Lemma dirty_pages_spec b max p c : Inv b -> (p, c) ∈ dirty_pages b max -> pst b p = (Some (c, true), b_disk b !! p).
Proof.
  intros HI Hin. unfold dirty_pages in Hin.
  assert (Hin2 : (p, c) ∈ omap (fun f => l ← b_frames b !! f; o ← b_heap b !! l;
    if o_dirty o then Some (o_pid o, o_data o) else None) (N.of_nat <$> seq 0 (b_size b))).
  { eapply elem_of_list_lookup in Hin as [i Hi]. apply lookup_take_Some in Hi as [Hi _]. by eapply elem_of_list_lookup_2. }
  apply elem_of_list_omap in Hin2 as (f & _ & Hf). destruct (b_frames b !! f) as [l|] eqn:Ef; [|done]. cbn in Hf.
  destruct (b_heap b !! l) as [o|] eqn:Eo; [|done]. cbn in Hf. destruct (o_dirty o) eqn:Ed; [|done].
  assert (p = o_pid o) by congruence. assert (c = o_data o) by congruence. subst.
  destruct (i_ft _ HI _ _ Ef) as (o' & Ho' & Ht). assert (o' = o) by congruence. subst o'.
  unfold pst, resident. rewrite Ht. cbn. rewrite Ef. cbn. rewrite Eo. cbn. by rewrite Ed.
Qed.
Lemma flush_batch_spec b max wr b1 r : Inv b -> flush_batch b max wr = (b1, r) ->
  Inv b1 /\ same_maps b b1 /\ b_guards b1 = b_guards b /\ forall q, frel (pst b q) (pst b1 q).
Proof.
  intros HI H. unfold flush_batch in H.
  pose proof (fun p c => dirty_pages_spec b max p c HI) as Hd. destruct (dirty_pages b max) as [|e l] eqn:El.
  { assert (b1 = b) by congruence. subst. split; [done|]. split; [apply same_maps_refl|]. split; [done|by left]. }
  destruct wr.
  2:{ assert (b1 = b) by congruence. subst. split; [done|]. split; [apply same_maps_refl|]. split; [done|by left]. }
  rewrite <- El in *. clear El e l.
  set (b0 := set_disk b (fold_left (fun d e => <[e.1 := e.2]> d) (dirty_pages b max) (b_disk b))) in *.
  assert (HI0 : Inv b0) by by apply set_disk_inv.
  destruct (unmarks_spec (dirty_pages b max) b0 HI0) as (H1 & H2 & H3 & H4 & H5 & H6).
  match type of H with (?x, _) = _ => assert (Hb1 : b1 = x) by congruence end. clear H.
  change (b1 = fold_left (fun b e => unmark b e.1) (dirty_pages b max) b0) in Hb1. rewrite <- Hb1 in *.
  split; [done|]. split; [done|]. split; [done|]. intros q.
  destruct (decide (q ∈ (dirty_pages b max).*1)) as [Hin|Hout].
  - apply elem_of_list_fmap in Hin as ([q' c] & Hq & Hin). cbn in Hq. subst q'.
    pose proof (Hd _ _ Hin) as E. right. exists c, true. rewrite E. split; [done|].
    eapply H6; [apply elem_of_list_fmap; by exists (q, c)|].
    assert (Hdk : b_disk b0 !! q = Some c).
    { unfold b0. cbn. rewrite (writes_lookup _ _ _ c). 
      - rewrite decide_True; [done|]. apply elem_of_list_fmap; by exists (q, c).
      - intros c' Hc'. apply Hd in Hc'. congruence. }
    unfold pst in *. rewrite Hdk. change (resident b0 q) with (resident b q). change (b_heap b0) with (b_heap b).
    f_equal. exact (f_equal fst E).
  - left. rewrite H5 by done. unfold pst. change (resident b0 q) with (resident b q). change (b_heap b0) with (b_heap b). f_equal.
    unfold b0. cbn. rewrite (writes_lookup _ _ _ []); [by rewrite decide_False|].
    intros c Hc. exfalso. apply Hout. apply elem_of_list_fmap. by exists (q, c).
Qed.

(** ** Deleting *)
Lemma delete_page_spec b p b1 ok : Inv b -> delete_page b p = (b1, ok) ->
  Inv b1 /\ stable b b1 /\ holds_on b b1 /\ b_size b1 = b_size b /\ b_next b1 = b_next b /\ b_guards b1 = b_guards b /\ b_disk b1 = b_disk b /\
  (forall q, q <> p -> pst b1 q = pst b q) /\ (ok = false -> b1 = b) /\
  (ok = true -> forall g G, b_guards b !! g = Some G -> g_pid G <> p).
Proof.
  intros HI H. unfold delete_page in H.
  assert (Hno : forall b', b' = b -> Inv b' /\ stable b b' /\ holds_on b b' /\ b_size b' = b_size b /\ b_next b' = b_next b /\ b_guards b' = b_guards b /\ b_disk b' = b_disk b /\
    (forall q, q <> p -> pst b' q = pst b q)).
  { intros b' ->. split; [done|]. split; [apply same_maps_stable, same_maps_refl|]. split; [apply same_maps_held, same_maps_refl|]. done. }
  destruct (b_table b !! p) as [f|] eqn:Ht.
  2:{ assert (E : b1 = b) by congruence. assert (ok = false) by congruence. subst ok. destruct (Hno _ E) as (?&?&?&?&?&?&?&?). auto 20. }
  destruct (i_tf _ HI _ _ Ht) as (l & o & Hf & Ho & Hpid).
  assert (Hr : resident b p = Some l) by (unfold resident; by rewrite Ht). rewrite Hr, Ho in H.
  destruct (Nat.eqb_spec (o_pin o) 0) as [Hz|Hz]; cbn [negb] in H.
  2:{ assert (E : b1 = b) by congruence. assert (ok = false) by congruence. subst ok. destruct (Hno _ E) as (?&?&?&?&?&?&?&?). auto 20. }
  clear Hno. match type of H with (?x, _) = _ => assert (Hb1 : b1 = x) by congruence end. assert (ok = true) by congruence. subst ok. clear H.
  destruct (rep_remove_ev (b_rep b) f (i_rep _ HI)) as (Hr1 & Hev).
  assert (Hng : forall g G, b_guards b !! g = Some G -> g_loc G <> l).
  { intros g G HG El. pose proof (pins_pos _ _ _ HG) as Hpos. rewrite El in Hpos. rewrite (i_pin _ HI _ _ _ Hf Ho) in Hz. lia. }
  assert (Hgp : forall g G, b_guards b !! g = Some G -> g_pid G <> p).
  { intros g G HG Hp. apply (Hng _ _ HG). pose proof (resident_guard _ _ _ HI HG). congruence. }
  assert (Htp : forall q f', b_table b !! q = Some f' -> q <> p -> f' <> f).
  { intros q f' Hq Hne ->. apply Hne. by eapply i_tinj. }
  subst b1. cbn. split; [|split; [|split; [|split; [done|split; [done|split; [done|split; [done|split; [|split; [done|]]]]]]]]].
  - split; cbn.
    + intros q f' [Hne Hq]%lookup_delete_Some. destruct (i_tf _ HI _ _ Hq) as (l' & o' & Hf' & Ho' & Hp').
      exists l', o'. rewrite lookup_delete_ne; [done|]. apply not_eq_sym. by eapply Htp.
    + intros f' l' [Hne Hf']%lookup_delete_Some. destruct (i_ft _ HI _ _ Hf') as (o' & Ho' & Ht'). exists o'. split; [done|].
      rewrite lookup_delete_ne; [done|]. congruence.
    + intros f' l' [_ Hf']%lookup_delete_Some. by eapply i_lt.
    + apply NoDup_cons. split; [|apply HI]. intros Hin. destruct (i_free _ HI _ Hin). congruence.
    + intros f' Hin. apply elem_of_cons in Hin as [->|Hin].
      * rewrite lookup_delete. split; [done|]. by eapply i_lt.
      * destruct (i_free _ HI _ Hin). split; [|done]. apply lookup_delete_None. by right.
    + intros g G HG. destruct (i_guard _ HI _ _ HG) as (f' & Ht' & Hf'). exists f'.
      pose proof (Hgp _ _ HG). rewrite !lookup_delete_ne; [done| |congruence]. apply not_eq_sym. by eapply Htp.
    + intros f' l' o' [_ Hf']%lookup_delete_Some Ho'. by eapply i_pin.
    + intros f'. rewrite Hev, (i_ev _ HI). split.
      * intros (Hne & l' & o' & Hf' & Ho'). exists l', o'. by rewrite lookup_delete_ne.
      * intros (l' & o' & [Hne Hf']%lookup_delete_Some & Ho'). split; [done|eauto].
    + done.
    + apply HI.
    + apply HI.
    + intros q f' [_ Hq]%lookup_delete_Some. by eapply i_next.
    + intros f' l' o' [_ Hf']%lookup_delete_Some Ho'. by eapply i_tag.
  - intros g G f' HG Ht'. cbn. pose proof (Hgp _ _ HG). rewrite !lookup_delete_ne; [done| |congruence]. apply not_eq_sym. by eapply Htp.
  - intros f' [Hin|Hs]; [left; cbn; apply elem_of_cons; by right|]. destruct (decide (f' = f)) as [->|Hne].
    + left. cbn. apply elem_of_cons. by left.
    + right. cbn. by rewrite lookup_delete_ne.
  - intros q Hq. unfold pst, resident. cbn. rewrite lookup_delete_ne by done. f_equal.
    destruct (b_table b !! q) as [f'|] eqn:Eq; [|done]. cbn. rewrite lookup_delete_ne; [done|]. apply not_eq_sym. by eapply Htp.
  - intros _. done.
Qed.

(** ** New pages and fetches *)
Lemma taken_stable b b1 f wr : taken b b1 f wr -> stable b b1.
Proof. intros HT g G f' HG Ht. destruct (t_pin _ _ _ _ HT _ _ _ HG Ht) as (H1 & H2 & _). done. Qed.

Lemma fresh_page_tag t : head (fresh_page t) = Some t /\ length (fresh_page t) = page_size.
Proof.
  split; [done|]. unfold fresh_page. cbn [length]. rewrite repeat_length.
  assert (0 < page_size) by (unfold page_size; lia). lia.
Qed.

Lemma new_page_spec b t now wr b1 r : Inv b -> new_page b t now wr = (b1, r) ->
  match r with
  | None => b1 = b /\ b_free b = [] /\ (b_size b = 0 \/ all_pinned b)
  | Some (g, p) => Inv b1 /\ stable b b1 /\ holds_on b b1 /\ p = b_next b /\ b_next b1 = (b_next b + 1)%N /\ b_size b1 = b_size b /\
      b_guards b !! g = None /\ (exists l, b_guards b1 = <[g := mkGuard l p false]> (b_guards b)) /\
      exists d1, pst b1 p = (Some (fresh_page t, false), d1) /\ d1 = b_disk b !! p /\
      forall q, q <> p -> pst b1 q = pst b q \/ pst b1 q = evicted wr (pst b q)
  end.
Proof.
  intros HI H. destruct (get_available_frame b wr) as [b2 [f|]] eqn:E.
  - pose proof (avail_spec _ _ _ _ HI E) as HT. pose proof (t_f _ _ _ _ HT) as Hf.
    rewrite (new_page_eq _ _ _ _ _ _ E Hf) in H. pose proof (t_next _ _ _ _ HT) as Hn.
    destruct (install_spec (set_next b2 (b_next b2 + 1)) f (b_next b2) (typed_page (b_next b2) t) now) as
      (b3 & g & Ei & HI3 & Hg0 & Hg & Hn3 & Hs3 & Hd3 & Hfr3 & Ht3 & Hf3 & Hp3 & Hh3).
    + apply set_next_inv; [apply HT|lia].
    + done.
    + apply HT.
    + cbn. rewrite (t_size _ _ _ _ HT). apply HT.
    + cbn. destruct (b_table b2 !! b_next b2) eqn:Eb; [|done]. apply (i_next _ (t_inv _ _ _ _ HT)) in Eb. lia.
    + cbn. lia.
    + done.
    + done.
    + apply fresh_page_tag.
    + apply fresh_page_tag.
    + rewrite Ei in H. assert (r = Some (g, b_next b2)) by congruence. assert (b3 = b1) by congruence. subst.
      cbn in Hn3, Hs3, Hd3, Hfr3, Ht3, Hf3, Hg, Hg0. rewrite (t_guards _ _ _ _ HT) in *. split; [done|]. split; [|split; [|split; [done|split; [congruence|split; [rewrite Hs3; apply HT|split; [done|split; [eauto|]]]]]]].
      * intros g' G' f' HG' Ht'. destruct (t_pin _ _ _ _ HT _ _ _ HG' Ht') as (T1 & T2 & _).
        destruct (i_guard _ HI _ _ HG') as (f'' & Ht'' & Hf''). assert (f'' = f') by congruence. subst f''.
        rewrite Ht3, Hf3. rewrite !lookup_insert_ne; [done|congruence|]. intros Eq. rewrite <- Eq in T1. apply (i_next _ (t_inv _ _ _ _ HT)) in T1. lia.
      * intros f' Hh. apply Hh3. destruct (t_cov _ _ _ _ HT _ Hh) as [->|?]; [by left|by right].
      * exists (b_disk b !! b_next b2). rewrite Hp3, decide_True by done. cbn. split.
        { f_equal. destruct (t_pst _ _ _ _ HT (b_next b2)) as [Eq|Eq]; [by injection Eq|].
          assert (Hres : resident b (b_next b2) = None).
          { unfold resident. destruct (b_table b !! b_next b2) eqn:Eb; [|done]. apply (i_next _ HI) in Eb. lia. }
          unfold pst in Eq. rewrite Hres in Eq. cbn in Eq. by injection Eq. }
        split; [done|]. intros q Hq. rewrite Hp3, decide_False by done. apply (t_pst _ _ _ _ HT).
  - pose proof (avail_spec _ _ _ _ HI E) as HT. unfold new_page in H. rewrite E in H.
    assert (r = None) by congruence. subst r. destruct HT as (-> & H1 & H2). assert (b1 = b) by congruence. done.
Qed.

Lemma page_from_data_spec pid t d o : page_from_data pid t d = Some o ->
  o_pid o = pid /\ o_pin o = 1 /\ o_type o = t /\ head (o_data o) = Some t /\ length (o_data o) = page_size /\
  o_dirty o = true /\ (length d = page_size -> o_data o = d).
Proof.
  unfold page_from_data. case_decide as Hlen; [done|]. case_decide as Hh; [|done]. intros E.
  assert (Ho : o = (set_data (typed_page pid t) 0 (take page_size d)).1) by congruence. clear E.
  destruct (fresh_page_tag t) as [Hft Hfl].
  assert (Htk : length (take page_size d) = page_size) by (rewrite take_length; lia).
  unfold set_data in Ho. rewrite decide_False in Ho by (cbn [o_data typed_page]; lia).
  cbn [o_data typed_page o_pid o_pin o_type fst] in Ho. rewrite Htk in Ho.
  rewrite drop_ge in Ho by lia. cbn [take app] in Ho. rewrite app_nil_r in Ho.
  assert (Hins : (if decide (0 = 0 /\ take page_size d <> []) then <[0 := t]> (take page_size d) else take page_size d) = take page_size d).
  { case_decide; [|done]. destruct d as [|x d]; [done|]. cbn in Hh. assert (x = t) by congruence. subst.
    destruct page_size; [done|]. done. }
  rewrite take_0 in Ho. cbn [app] in Ho. rewrite Hins in Ho. subst o. cbn.
  split; [done|]. split; [done|]. split; [done|]. split; [|split; [done|split; [done|]]].
  - destruct d as [|x d]; [done|]. cbn in Hh. assert (0 < page_size) by (unfold page_size; lia). by destruct page_size; [lia|].
  - intros Hl. apply take_ge. lia.
Qed.

(** A fetch: a hit pins the page, a miss evicts at most one page and reads. *)
Lemma fetch_page_spec b t p now rd wr b1 r : Inv b -> fetch_page b t p now rd wr = (b1, r) ->
  Inv b1 /\ stable b b1 /\ b_size b1 = b_size b /\ b_next b1 = b_next b /\
  match r with
  | Some (g, p') => p' = p /\ holds_on b b1 /\ b_guards b !! g = None /\ (exists l, b_guards b1 = <[g := mkGuard l p false]> (b_guards b)) /\
      (forall q, q <> p -> pst b1 q = pst b q \/ pst b1 q = evicted wr (pst b q)) /\
      (pst b1 p = pst b p \/ exists d, pst b p = (None, Some d) /\ pst b1 p = (Some (if decide (length d = page_size) then d else take page_size d, true), Some d) /\ page_size <= length d)
  | None => b_guards b1 = b_guards b /\ (forall q, pst b1 q = pst b q \/ pst b1 q = evicted wr (pst b q)) /\
      (b1 = b \/ (p < b_next b)%N /\ resident b p = None) /\
      ((p < b_next b)%N -> p <> (2^64-1)%N -> forall c d, (pst b p = (Some (c, d), b_disk b !! p) /\ head c = Some t -> False) /\
         (rd = true -> pst b p = (None, Some c) -> head c = Some t -> length c = page_size ->
            b1 = b /\ b_free b = [] /\ (b_size b = 0 \/ all_pinned b)))
  end.
Proof.
  intros HI H. unfold fetch_page in H. case_decide as Hc.
  { assert (b1 = b) by congruence. assert (r = None) by congruence. subst. split; [done|].
    split; [apply same_maps_stable, same_maps_refl|]. split; [done|]. split; [done|]. split; [done|]. split; [by left|]. split; [by left|]. intros; destruct Hc; [done|lia]. }
  apply Decidable.not_or in Hc as [Hinv Hnx]. assert (Hlt : (p < b_next b)%N) by lia.
  destruct (resident b p) as [l|] eqn:Er.
  - destruct (resident_spec _ _ _ HI Er) as (f & o & Ht & Hf & Ho & Hp).
    unfold tag_ok in H. rewrite Ho in H. case_bool_decide as Htag.
    + destruct (fetch_pin b l p now) as [b2 g] eqn:E. assert (b2 = b1) by congruence. assert (r = Some (g, p)) by congruence. subst b2 r.
      destruct (fetch_pin_spec _ _ _ _ _ _ HI Er E) as (H1 & H2 & H3 & H4 & H5).
      split; [done|]. split; [by apply same_maps_stable|]. pose proof (same_maps_held _ _ H2) as Hhd. destruct H2 as (S1 & S2 & S3 & S4 & S5). split; [done|]. split; [done|].
      split; [done|]. split; [done|]. split; [done|]. split; [eauto|]. split; [intros; left; auto|left; auto].
    + assert (b1 = b) by congruence. assert (r = None) by congruence. subst b1 r. split; [done|].
      split; [apply same_maps_stable, same_maps_refl|]. split; [done|]. split; [done|]. split; [done|]. split; [by left|]. split; [by left|].
      intros _ _ c d. unfold pst. rewrite Er. cbn. rewrite Ho. cbn. split; [intros [E E2]; apply Htag; congruence|]. intros _ E. congruence.
  - unfold load_begin in H. destruct (get_available_frame b wr) as [b2 [f|]] eqn:E.
    + pose proof (avail_spec _ _ _ _ HI E) as HT. rewrite (evict_nothing _ _ _ (t_f _ _ _ _ HT)) in H.
      assert (Hpst : pst b p = (None, b_disk b !! p)) by (unfold pst; by rewrite Er).
      assert (Hpst2 : pst b2 p = (None, b_disk b !! p)).
      { destruct (t_pst _ _ _ _ HT p) as [Eq|Eq]; rewrite Eq, Hpst; done. }
      assert (Htp2 : b_table b2 !! p = None).
      { destruct (b_table b2 !! p) as [f'|] eqn:Eb; [|done]. apply (t_sub _ _ _ _ HT) in Eb.
        destruct (i_tf _ HI _ _ Eb) as (l' & o' & Hf' & _). unfold resident in Er. rewrite Eb in Er. cbn in Er. congruence. }
      assert (Hdk : b_disk b2 !! p = b_disk b !! p) by (unfold pst in Hpst2; by injection Hpst2).
      assert (Hfail : b1 = b2 -> r = None -> ~ (rd = true /\ exists c, b_disk b !! p = Some c /\ head c = Some t /\ length c = page_size) ->
        Inv b1 /\ stable b b1 /\ b_size b1 = b_size b /\ b_next b1 = b_next b /\ b_guards b1 = b_guards b /\ (forall q, pst b1 q = pst b q \/ pst b1 q = evicted wr (pst b q)) /\
        (b1 = b \/ (p < b_next b)%N /\ resident b p = None) /\
        ((p < b_next b)%N -> p <> (2^64-1)%N -> forall c d, (pst b p = (Some (c, d), b_disk b !! p) /\ head c = Some t -> False) /\
         (rd = true -> pst b p = (None, Some c) -> head c = Some t -> length c = page_size ->
            b1 = b /\ b_free b = [] /\ (b_size b = 0 \/ all_pinned b)))).
      { intros -> -> Hno. split; [apply HT|]. split; [exact (taken_stable _ _ _ _ HT)|]. split; [apply HT|]. split; [apply HT|]. split; [apply HT|]. split; [apply HT|]. split; [by right|].
        intros _ _ c d. rewrite Hpst. split; [intros [? _]; congruence|]. intros Hrd Ec Hh Hl. exfalso. apply Hno. split; [done|]. exists c. split; [congruence|done]. }
      destruct rd; cbn [fmap option_fmap option_map] in H.
      2:{ apply proj1 with (B := True). rewrite Er in Hfail. assert (b1 = b2) by congruence. assert (r = None) by congruence.
          split; [|done]. subst r. apply Hfail; [done|done|]. intros [? _]. done. }
      destruct (b_disk b2 !! p) as [d|] eqn:Ed; cbn in H.
      2:{ rewrite Er in Hfail. assert (b1 = b2) by congruence. assert (r = None) by congruence. subst r. apply Hfail; [done|done|]. intros (_ & c & Hc & _). congruence. }
      destruct (page_from_data p t d) as [o|] eqn:Ep.
      2:{ unfold load_end in H. rewrite Ep in H. rewrite Er in Hfail. assert (b1 = b2) by congruence. assert (r = None) by congruence. subst r. apply Hfail; [done|done|].
          intros (_ & c & Hc & Hh & Hl). assert (c = d) by congruence. subst c. unfold page_from_data in Ep.
          rewrite decide_False in Ep by lia. rewrite decide_True in Ep by done. done. }
      rewrite (load_end_eq _ _ _ _ _ _ _ Ep) in H.
      pose proof (page_from_data_spec _ _ _ _ Ep) as (P1 & P2 & P3 & P4 & P5 & P6 & P7).
      destruct (install_spec b2 f p o now) as
        (b3 & g & Ei & HI3 & Hg0 & Hg & Hn3 & Hs3 & Hd3 & Hfr3 & Ht3 & Hf3 & Hp3 & Hh3).
      * exact (t_inv _ _ _ _ HT).
      * exact (t_f _ _ _ _ HT).
      * exact (t_free _ _ _ _ HT).
      * rewrite (t_size _ _ _ _ HT). exact (t_lt _ _ _ _ HT).
      * done.
      * rewrite (t_next _ _ _ _ HT). done.
      * done.
      * done.
      * congruence.
      * done.
      * rewrite Ei in H. assert (r = Some (g, p)) by congruence. assert (b3 = b1) by congruence. subst r b3.
        rewrite (t_guards _ _ _ _ HT) in *. split; [done|]. split; [|split; [rewrite Hs3; apply HT|split; [rewrite Hn3; apply HT|split; [done|split; [|split; [done|split; [eauto|split]]]]]]].
        -- intros g' G' f' HG' Ht'. destruct (t_pin _ _ _ _ HT _ _ _ HG' Ht') as (T1 & T2 & _).
           destruct (i_guard _ HI _ _ HG') as (f'' & Ht'' & Hf''). assert (f'' = f') by congruence. subst f''.
           pose proof (t_f _ _ _ _ HT). rewrite Ht3, Hf3. rewrite !lookup_insert_ne; [done|congruence|congruence].
        -- intros f' Hh. apply Hh3. destruct (t_cov _ _ _ _ HT _ Hh) as [->|?]; [by left|by right].
        -- intros q Hq. rewrite Hp3, decide_False by done. apply (t_pst _ _ _ _ HT).
        -- right. exists d. rewrite Hpst, Hp3, decide_True by done. split; [congruence|].
           assert (Hod : o_data o = (if decide (length d = page_size) then d else take page_size d)).
           { case_decide; [auto|]. clear -Ep P5. unfold page_from_data in Ep. case_decide as Hlen; [done|]. case_decide as Hh; [|done].
             assert (Ho : o = (set_data (typed_page p t) 0 (take page_size d)).1) by congruence.
             assert (Ep' : page_from_data p t (take page_size d) = Some o).
             { unfold page_from_data. rewrite take_length. rewrite decide_False by lia. rewrite take_take, Nat.min_id.
               rewrite decide_True; [by rewrite Ho|]. destruct d; [done|]. cbn in Hh. assert (0 < page_size) by (unfold page_size; lia). by destruct page_size; [lia|]. }
             apply page_from_data_spec in Ep' as (_&_&_&_&_&_&E7). apply E7. rewrite take_length. lia. }
           rewrite Hod, P6, Ed. split; [done|]. clear Hod. unfold page_from_data in Ep. case_decide; [done|lia].
    + pose proof (avail_spec _ _ _ _ HI E) as (-> & A1 & A2). assert (b1 = b) by congruence. assert (r = None) by congruence. subst b1 r.
      split; [done|]. split; [apply same_maps_stable, same_maps_refl|]. split; [done|]. split; [done|]. split; [done|]. split; [by left|]. split; [by left|].
      intros _ _ c d. split; [|done]. intros [Ec _]. unfold pst in Ec. rewrite Er in Ec. done.
Qed.
