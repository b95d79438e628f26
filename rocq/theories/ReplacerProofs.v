From stdpp Require Import gmap list.
From Coq Require Import Lia ZifyBool ZifyNat ZifyN.
From Verif Require Import CacheSpec LrukSpec LrukModel LrukProofs.

Implicit Types (r : replacer) (s : gmap N (list N * bool)).

Definition rtrunc (k : nat) (e : list N * bool) : list N * bool := (lastn k e.1, e.2).
(** The replacer's table is the reference with histories cut to K; every evictable
    frame is queued; the counter is the queue length. *)
Record rabs r s : Prop := {
  ra_store : r_store r = rtrunc (r_k r) <$> s;
  ra_queue : forall f, evictable s f -> f ∈ r_queue r;
  ra_curr : r_curr r = Z.of_nat (length (r_queue r)) }.

Lemma rabs_new k : rabs (rep_new k) ∅.
Proof.
  split; simpl; [by rewrite fmap_empty| |done].
  intros f [h H]. by rewrite lookup_empty in H.
Qed.

Lemma ra_lookup r s f : rabs r s -> r_store r !! f = rtrunc (r_k r) <$> s !! f.
Proof. intros H. by rewrite (ra_store _ _ H), lookup_fmap. Qed.

Lemma remove_first_in f q : f ∈ q -> exists q1, remove_first f q = Some q1 /\ q ≡ₚ f :: q1.
Proof.
  induction q as [|x t IH]; [by intros H%elem_of_nil|]. simpl. intros Hin.
  destruct (N.eqb_spec x f) as [->|Hne]; [by exists t|].
  apply elem_of_cons in Hin as [->|Hin]; [done|]. destruct (IH Hin) as (q1 & -> & Hp).
  exists (x :: q1). split; [done|]. rewrite Hp. apply Permutation_swap.
Qed.

Lemma candidates_spec r s f h : rabs r s ->
  (f, h) ∈ rep_candidates r <-> f ∈ r_queue r /\ exists hf, s !! f = Some (hf, true) /\ h = lastn (r_k r) hf.
Proof.
  intros Ha. unfold rep_candidates. rewrite elem_of_list_omap. split.
  - intros (g & Hg & E). rewrite (ra_lookup _ _ _ Ha) in E.
    destruct (s !! g) as [[hf []]|] eqn:Es; simpl in E; try done.
    assert (g = f) by congruence. assert (h = lastn (r_k r) hf) by congruence. subst. eauto.
  - intros (Hq & hf & Es & ->). exists f. split; [done|]. by rewrite (ra_lookup _ _ _ Ha), Es.
Qed.

Lemma evict_scan r s : rabs r s ->
  match scan (r_k r) (rep_candidates r) with
  | None => forall f, ~ evictable s f
  | Some f => f ∈ r_queue r /\ exists h, s !! f = Some (h, true) /\
      forall f' h', s !! f' = Some (h', true) -> ~ goes_before (r_k r) h' h
  end.
Proof.
  intros Ha. pose proof (scan_spec (r_k r) (rep_candidates r)) as H.
  destruct (scan (r_k r) (rep_candidates r)) as [f|].
  - destruct H as (h & Hin & Hall). apply (candidates_spec _ _ _ _ Ha) in Hin as (Hq & hf & Es & ->).
    split; [done|]. exists hf. split; [done|]. intros f' h' Hf'. rewrite <- goes_before_lastn.
    apply (Hall f'). apply (candidates_spec _ _ _ _ Ha). split; [|eauto].
    apply (ra_queue _ _ Ha). by exists h'.
  - intros f [hf Hf]. assert (Hin : (f, lastn (r_k r) hf) ∈ rep_candidates r).
    { apply (candidates_spec _ _ _ _ Ha). split; [apply (ra_queue _ _ Ha); by exists hf|eauto]. }
    rewrite H in Hin. by apply elem_of_nil in Hin.
Qed.

Lemma evictable_insert s f h b g : evictable (<[f := (h, b)]> s) g <-> (g = f /\ b = true) \/ (g <> f /\ evictable s g).
Proof.
  unfold evictable. destruct (decide (g = f)) as [->|Hne].
  - rewrite lookup_insert. split; [intros [h' E]; left; split; congruence|].
    intros [[_ ->]|[? _]]; [eauto|done].
  - rewrite lookup_insert_ne by done. naive_solver.
Qed.

Lemma filter_size (P : N * (list N * bool) -> Prop) `{forall x, Decision (P x)} (m : gmap N (list N * bool)) :
  length (filter P (map_to_list m)) = size (filter P m).
Proof.
  induction m as [|k e m Hk IH] using map_ind.
  - rewrite map_to_list_empty. rewrite map_filter_empty. by rewrite map_size_empty.
  - rewrite (filter_Permutation _ _ _ (map_to_list_insert m k e Hk)). rewrite filter_cons.
    destruct (decide (P (k, e))) as [HP|HP].
    + rewrite map_filter_insert_True by done. rewrite map_size_insert_None; [simpl; by rewrite IH|].
      apply map_filter_lookup_None. by left.
    + rewrite map_filter_insert_False by done. rewrite delete_notin by done. done.
Qed.

Lemma rep_size_spec r s : rabs r s -> rep_size r = size (evictable_set s).
Proof.
  intros Ha. unfold rep_size, evictable_set. rewrite size_dom, filter_size.
  rewrite (ra_store _ _ Ha). rewrite map_filter_fmap. rewrite map_size_fmap. f_equal.
Qed.

Lemma rep_step_spec r s o r1 x : rabs r s -> rep_step r o = (r1, x) ->
  exists s1, rabs r1 s1 /\ r_k r1 = r_k r /\ rep_spec (r_k r) s o s1 x.
Proof.
  intros Ha H. destruct o; simpl in H.
  - injection H as <- <-. unfold rep_access. rewrite (ra_lookup _ _ _ Ha).
    destruct (s !! f) as [[h b]|] eqn:Es; simpl.
    + rewrite push_access_lastn. exists (<[f := (h ++ [now], b)]> s). split; [|split; [done|by constructor]].
      split; simpl; [by rewrite fmap_insert, (ra_store _ _ Ha)| |apply Ha].
      intros g [[-> ->]|[Hne Hg]]%evictable_insert; apply (ra_queue _ _ Ha); [by exists h|done].
    + exists (<[f := ([now], false)]> s). split; [|split; [done|by constructor]].
      split; simpl; [|intros g [[_ ?]|[Hne Hg]]%evictable_insert; [done|by apply (ra_queue _ _ Ha)]|apply Ha].
      rewrite fmap_insert, (ra_store _ _ Ha). do 2 f_equal.
      change [] with (lastn (r_k r) ([] : list N)) at 1. by rewrite push_access_lastn.
  - unfold rep_set in H. rewrite (ra_lookup _ _ _ Ha) in H.
    destruct (s !! f) as [[h b0]|] eqn:Es; simpl in H.
    + destruct (Bool.eqb b0 b) eqn:Eb.
      { injection H as <- <-. exists s. split; [done|]. split; [done|]. constructor.
        apply eqb_prop in Eb. subst. intros h' E. rewrite Es in E. injection E as _ E. by destruct b. }
      assert (b0 = negb b) by (destruct b0, b; done). subst b0. destruct b.
      * injection H as <- <-. exists (<[f := (h, true)]> s). split; [|split; [done|by constructor]].
        split; simpl.
        -- by rewrite fmap_insert, (ra_store _ _ Ha).
        -- intros g [[-> _]|[Hne Hg]]%evictable_insert; apply elem_of_app; [right; by constructor|].
           left. by apply (ra_queue _ _ Ha).
        -- rewrite app_length, (ra_curr _ _ Ha). simpl. lia.
      * simpl in Es. assert (Hin : f ∈ r_queue r) by (apply (ra_queue _ _ Ha); by exists h).
        destruct (remove_first_in _ _ Hin) as (q1 & Eq & Hp). rewrite Eq in H. injection H as <- <-.
        exists (<[f := (h, false)]> s). split; [|split; [done|by constructor]]. split; simpl.
        -- by rewrite fmap_insert, (ra_store _ _ Ha).
        -- intros g [[_ ?]|[Hne Hg]]%evictable_insert; [done|]. apply (ra_queue _ _ Ha) in Hg.
           rewrite Hp in Hg. by apply elem_of_cons in Hg as [->|?].
        -- rewrite (ra_curr _ _ Ha), Hp. simpl. lia.
    + injection H as <- <-. exists s. split; [done|]. split; [done|]. constructor. intros h. by rewrite Es.
  - destruct (rep_evict r) as [r' fo] eqn:Ee. assert (r' = r1) by congruence. assert (x = RFrame fo) by congruence. subst.
    clear H. unfold rep_evict in Ee. pose proof (evict_scan r s Ha) as Hs.
    destruct (r_queue r) as [|y t] eqn:Eq.
    + injection Ee as <- <-. exists s. split; [done|]. split; [done|]. constructor.
      intros f Hf. apply (ra_queue _ _ Ha) in Hf. rewrite Eq in Hf. by apply elem_of_nil in Hf.
    + rewrite <- Eq in *. destruct (scan (r_k r) (rep_candidates r)) as [f|].
      * destruct Hs as (Hin & h & Es & Hall). destruct (remove_first_in _ _ Hin) as (q1 & Er & Hp).
        rewrite (ra_lookup _ _ _ Ha), Es, Er in Ee. simpl in Ee. injection Ee as <- <-.
        exists (<[f := (h, false)]> s). split; [|split; [done|by constructor]]. split; simpl.
        -- by rewrite fmap_insert, (ra_store _ _ Ha).
        -- intros g [[_ ?]|[Hne Hg]]%evictable_insert; [done|]. apply (ra_queue _ _ Ha) in Hg.
           rewrite Hp in Hg. by apply elem_of_cons in Hg as [->|?].
        -- rewrite (ra_curr _ _ Ha), Hp. simpl. lia.
      * injection Ee as <- <-. exists s. split; [done|]. split; [done|]. by constructor.
  - injection H as <- <-. unfold rep_remove. rewrite (ra_lookup _ _ _ Ha).
    destruct (s !! f) as [[h []]|] eqn:Es; simpl.
    + exists (delete f s). split; [|split; [done|constructor; by exists h]]. split; simpl.
      * by rewrite fmap_delete, (ra_store _ _ Ha).
      * intros g [h' [_ Hg]%lookup_delete_Some]. apply (ra_queue _ _ Ha). by exists h'.
      * apply Ha.
    + exists s. split; [done|]. split; [done|]. apply rs_remove_not. intros [h' E]. congruence.
    + exists s. split; [done|]. split; [done|]. apply rs_remove_not. intros [h' E]. congruence.
  - injection H as <- <-. exists s. split; [done|]. split; [done|]. rewrite (rep_size_spec _ _ Ha). constructor.
  - injection H as <- <-. exists s. split; [done|]. split; [done|].
    rewrite (ra_store _ _ Ha), map_size_fmap. constructor.
Qed.

(** Runs of the model: calls with the answers they get. *)
Fixpoint rep_run r (ops : list rep_op) : replacer * list (rep_op * rep_out) :=
  match ops with
  | [] => (r, [])
  | o :: t => let '(r1, x) := rep_step r o in let '(r2, tr) := rep_run r1 t in (r2, (o, x) :: tr)
  end.

Lemma rep_run_hist r s ops r2 tr : rabs r s -> rep_run r ops = (r2, tr) ->
  exists s2, rabs r2 s2 /\ r_k r2 = r_k r /\ rep_hist (r_k r) s tr s2.
Proof.
  revert r s r2 tr. induction ops as [|o t IH]; intros r s r2 tr Ha H; simpl in H.
  - injection H as <- <-. exists s. split; [done|]. split; [done|constructor].
  - destruct (rep_step r o) as [r1 x] eqn:Es. destruct (rep_run r1 t) as [r' tr'] eqn:Er. injection H as <- <-.
    destruct (rep_step_spec _ _ _ _ _ Ha Es) as (s1 & Ha1 & Ek & Hsp).
    destruct (IH _ _ _ _ Ha1 Er) as (s2 & Ha2 & Ek2 & Hh). exists s2. split; [done|]. split; [congruence|].
    econstructor; [done|]. by rewrite <- Ek.
Qed.

Lemma rep_spec_marked K s o s1 x f b : rep_spec K s o s1 x ->
  (b = true <-> evictable s f) -> (ev_event f b (o, x) = true <-> evictable s1 f).
Proof.
  intros Hsp Hb. destruct Hsp; simpl;
    try (destruct (N.eqb_spec f f0) as [->|Hne]); rewrite ?evictable_insert; try done.
  - rewrite Hb. split; [intros [h E]; congruence|]. intros [[_ ?]|[? _]]; done.
  - naive_solver.
  - rewrite Hb. split; [intros [h' E]; left; split; [done|congruence]|]. intros [[_ ->]|[? _]]; [by exists h|done].
  - naive_solver.
  - naive_solver.
  - naive_solver.
  - naive_solver.
  - naive_solver.
  - split; [done|]. intros [h E]. by rewrite lookup_delete in E.
  - rewrite Hb. unfold evictable. by rewrite lookup_delete_ne by done.
Qed.

Lemma rep_hist_marked K s tr s2 : rep_hist K s tr s2 -> forall f b, (b = true <-> evictable s f) ->
  (fold_left (ev_event f) tr b = true <-> evictable s2 f).
Proof.
  induction 1 as [|s o x s1 tr s2 Hsp Hh IH]; intros f b Hb; [done|]. simpl. apply IH. by eapply rep_spec_marked.
Qed.

(** Splitting a run. *)
Lemma rep_run_app r o1 o2 : rep_run r (o1 ++ o2) =
  let '(r1, t1) := rep_run r o1 in let '(r2, t2) := rep_run r1 o2 in (r2, t1 ++ t2).
Proof.
  revert r. induction o1 as [|o t IH]; intros r; simpl; [by destruct (rep_run r o2)|].
  destruct (rep_step r o) as [r1 x]. rewrite IH. destruct (rep_run r1 t) as [r2 t1].
  by destruct (rep_run r2 o2).
Qed.

(** Recorded accesses read off the trace agree with the reference. *)
Lemma rep_spec_accesses K s o s1 x f h b : rep_spec K s o s1 x ->
  (b = true <-> evictable s f) -> h = default [] (fst <$> s !! f) ->
  acc_event f (h, b) (o, x) = (default [] (fst <$> s1 !! f), ev_event f b (o, x)).
Proof.
  intros Hsp Hb Hh. unfold acc_event. f_equal. destruct Hsp; simpl;
    try (destruct (N.eqb_spec f f0) as [->|Hne]); rewrite ?lookup_insert, ?lookup_insert_ne by done; try done;
    try (by subst h; repeat match goal with H : s !! _ = _ |- _ => rewrite H end).
  - rewrite lookup_delete. by rewrite (proj2 Hb).
  - by rewrite lookup_delete_ne by done.
  - destruct b; [|done]. naive_solver.
Qed.

Lemma rep_hist_accesses K s tr s2 : rep_hist K s tr s2 -> forall f b h, (b = true <-> evictable s f) ->
  h = default [] (fst <$> s !! f) ->
  fold_left (acc_event f) tr (h, b) = (default [] (fst <$> s2 !! f), fold_left (ev_event f) tr b).
Proof.
  induction 1 as [|s o x s1 tr s2 Hsp Hh IH]; intros f b h Hb E; [by subst|].
  cbn [fold_left]. rewrite (rep_spec_accesses _ _ _ _ _ _ _ _ Hsp Hb E).
  apply IH; [by eapply rep_spec_marked|done].
Qed.

Section facts.
  Context (K : nat) (ops : list rep_op) (r : replacer) (tr : list (rep_op * rep_out)).
  Hypothesis Hrun : rep_run (rep_new K) ops = (r, tr).

  Lemma run_ref : exists s, rabs r s /\ r_k r = K /\
    (forall f, marked_evictable tr f = true <-> evictable s f) /\
    (forall f, accesses tr f = default [] (fst <$> s !! f)).
  Proof.
    destruct (rep_run_hist _ ∅ _ _ _ (rabs_new K) Hrun) as (s & Ha & Ek & Hh). exists s.
    assert (He : forall f, false = true <-> evictable ∅ f).
    { intros f. split; [done|]. intros [h E]. by rewrite lookup_empty in E. }
    split; [done|]. split; [done|]. split.
    - intros f. apply (rep_hist_marked _ _ _ _ Hh f false). apply He.
    - intros f. unfold accesses. rewrite (rep_hist_accesses _ _ _ _ Hh f false []); [done|apply He|].
      by rewrite lookup_empty.
  Qed.

  Lemma evict_cases s : rabs r s -> forall r' g, rep_evict r = (r', g) ->
    exists s', rabs r' s' /\ rep_spec (r_k r) s REvict s' (RFrame g).
  Proof.
    intros Ha r' g He. destruct (rep_step_spec r s REvict r' (RFrame g) Ha) as (s' & Ha' & _ & Hsp).
    { simpl. by rewrite He. }
    eauto.
  Qed.

  Lemma evict_only_marked r' f : rep_evict r = (r', Some f) -> marked_evictable tr f = true.
  Proof.
    intros He. destruct run_ref as (s & Ha & _ & Hm & _).
    destruct (evict_cases s Ha _ _ He) as (s' & _ & Hsp). inversion Hsp; subst. apply Hm. by exists h.
  Qed.
  Lemma evict_finds f : marked_evictable tr f = true -> exists r' g, rep_evict r = (r', Some g).
  Proof.
    intros Hf. destruct run_ref as (s & Ha & _ & Hm & _). apply Hm in Hf.
    destruct (rep_evict r) as [r' [g|]] eqn:He; [eauto|].
    destruct (evict_cases s Ha _ _ He) as (s' & _ & Hsp). inversion Hsp; subst. naive_solver.
  Qed.
  Lemma elem_evictable_set s f : f ∈ evictable_set s <-> evictable s f.
  Proof.
    unfold evictable_set, evictable. rewrite elem_of_dom. split.
    - intros [[h b] E]. apply map_filter_lookup_Some in E as [E Hb]. simpl in Hb. subst. eauto.
    - intros [h E]. exists (h, true). by apply map_filter_lookup_Some.
  Qed.
  Lemma size_marked : exists fs : gset N, (forall f, f ∈ fs <-> marked_evictable tr f = true) /\ rep_size r = size fs.
  Proof.
    destruct run_ref as (s & Ha & _ & Hm & _). exists (evictable_set s). split; [|by apply rep_size_spec].
    intros f. by rewrite Hm, elem_evictable_set.
  Qed.
  Lemma size_evictions r' g : rep_evict r = (r', g) ->
    match g with Some _ => rep_size r = S (rep_size r') | None => rep_size r = 0 /\ r' = r end.
  Proof.
    intros He. destruct run_ref as (s & Ha & _ & Hm & _).
    destruct (evict_cases s Ha _ _ He) as (s' & Ha' & Hsp).
    destruct g as [f|]; inversion Hsp; subst.
    - rewrite (rep_size_spec _ _ Ha), (rep_size_spec _ _ Ha').
      assert (E : evictable_set s = {[ f ]} ∪ evictable_set (<[f:=(h, false)]> s)).
      { apply set_eq. intros g. rewrite elem_of_union, elem_of_singleton, !elem_evictable_set, evictable_insert.
        split; [|intros [->|[[_ ?]|[_ ?]]]; [by exists h|done|done]].
        intros Hg. destruct (decide (g = f)); [by left|]. right. right. done. }
      rewrite E, size_union, size_singleton; [done|].
      intros g. rewrite elem_of_singleton, elem_evictable_set, evictable_insert. intros -> [[_ ?]|[? _]]; done.
    - split.
      + rewrite (rep_size_spec _ _ Ha). apply size_empty_iff. intros f. rewrite elem_evictable_set.
        split; [intros Hf; by destruct (H f)|intros Hf; by apply elem_of_empty in Hf].
      + unfold rep_evict in He. destruct (r_queue r); [by injection He|].
        destruct (scan (r_k r) (rep_candidates r)) as [f|] eqn:Es; [|by injection He].
        pose proof (evict_scan _ _ Ha) as Hs. rewrite Es in Hs. destruct Hs as (_ & h & Hf & _).
        rewrite (ra_lookup _ _ _ Ha), Hf in He. done.
  Qed.
  Lemma curr_nonneg : (0 <= r_curr r)%Z.
  Proof. destruct run_ref as (s & Ha & _). rewrite (ra_curr _ _ Ha). lia. Qed.
  Lemma evict_victim r' f : rep_evict r = (r', Some f) ->
    forall g, marked_evictable tr g = true -> ~ goes_before K (accesses tr g) (accesses tr f).
  Proof.
    intros He g Hg. destruct run_ref as (s & Ha & Ek & Hm & Hacc).
    destruct (evict_cases s Ha _ _ He) as (s' & _ & Hsp). inversion Hsp; subst.
    destruct (proj1 (Hm g) Hg) as [hg Eg]. rewrite !Hacc, Eg. simpl.
    match goal with H : s !! f = _ |- _ => rewrite H end. simpl. eauto.
  Qed.
End facts.
