From stdpp Require Import gmap list.
From Verif Require Import CacheSpec FifoModel.

Section assoc_facts.
  Context {V : Type}.
  Implicit Types l : list (N * V).

  Lemma assoc_list_to_map k l : list_to_map (M := gmap N V) l !! k = assoc k l.
  Proof.
    induction l as [|[k' v] l IH]; simpl; [apply lookup_empty|].
    destruct (N.eqb_spec k k') as [->|Hne]; [apply lookup_insert|].
    rewrite lookup_insert_ne by congruence. exact IH.
  Qed.

  Lemma assoc_None k l : assoc k l = None <-> k ∉ l.*1.
  Proof.
    rewrite <- assoc_list_to_map. symmetry. apply not_elem_of_list_to_map.
  Qed.

  Lemma replace_fst k v l : (replace k v l).*1 = l.*1.
  Proof.
    induction l as [|[k' v'] l IH]; simpl; [done|].
    destruct (N.eqb_spec k k'); simpl; [done|]. by f_equal.
  Qed.

  Lemma replace_map k v l old : assoc k l = Some old ->
    list_to_map (M := gmap N V) (replace k v l) = <[k := v]> (list_to_map l).
  Proof.
    induction l as [|[k' v'] l IH]; simpl; [done|].
    destruct (N.eqb_spec k k') as [->|Hne]; simpl; intros H.
    - by rewrite insert_insert.
    - rewrite IH by done. by rewrite insert_commute by congruence.
  Qed.

  Lemma size_list_to_map l : NoDup l.*1 -> size (list_to_map (M := gmap N V) l) = length l.
  Proof.
    induction l as [|[k v] l IH]; simpl; intros Hnd; [by rewrite map_size_empty|].
    apply NoDup_cons in Hnd as [Hk Hnd].
    rewrite map_size_insert_None; [by rewrite IH|]. by apply not_elem_of_list_to_map_1.
  Qed.
End assoc_facts.

Section proofs.
  Context {V : Type}.
  Implicit Types c : fifo V.
  Implicit Types l : list (N * V).

  (** The map and the queue hold exactly the entries of the reference list. *)
  Definition frep c (l : list (N * V)) : Prop :=
    NoDup l.*1 /\ f_map c = list_to_map l /\ f_order c = l.*1.

  Lemma frep_new cap : frep (fifo_new cap) [].
  Proof. split_and!; [constructor|done|done]. Qed.

  Lemma del_head (k : N) (v : V) l : NoDup (k :: l.*1) ->
    delete k (<[k := v]> (list_to_map l : gmap N V)) = list_to_map l.
  Proof.
    intros Hnd. apply NoDup_cons in Hnd as [Hk _]. apply delete_insert.
    by apply not_elem_of_list_to_map_1.
  Qed.

  Lemma evict_rep l : NoDup l.*1 ->
    evict_oldest (list_to_map l : gmap N V) l.*1 = (list_to_map (tl l), (tl l).*1).
  Proof.
    destruct l as [|[k v] l]; simpl; intros Hnd; [done|].
    by rewrite lookup_insert, del_head.
  Qed.

  Lemma pop_rep c l : frep c l ->
    exists c', fifo_pop c = (c', hd_error l) /\ frep c' (tl l) /\ f_cap c' = f_cap c.
  Proof.
    intros (Hnd & Hm & Ho). unfold fifo_pop. rewrite Hm, Ho.
    destruct l as [|[k v] l]; simpl.
    - eexists; split; [done|]. split; [by split_and!|done].
    - rewrite lookup_insert, del_head by done. eexists; split; [done|]. split; [|done].
      simpl in Hnd. apply NoDup_cons in Hnd as [_ Hnd]. by split_and!.
  Qed.

  Lemma batch_rep n : forall c l, frep c l ->
    exists c', fifo_pop_batch c n = (c', firstn n l) /\ frep c' (skipn n l) /\ f_cap c' = f_cap c.
  Proof.
    induction n as [|n IH]; intros c l Hr; simpl.
    - exists c. by rewrite skipn_O.
    - destruct (pop_rep c l Hr) as (c1 & E & Hr1 & Hc1). rewrite E.
      destruct l as [|e l]; simpl in *; [by exists c1|].
      destruct (IH c1 l Hr1) as (c2 & E2 & Hr2 & Hc2). rewrite E2.
      exists c2. split_and!; [done|done|congruence].
  Qed.

  Lemma rank_shift (m : gmap N V) l k r :
    (forall x, x ∈ l.*1 -> is_Some (m !! x)) ->
    age_rank_loop m l.*1 k r = option_map (fun i => r + i) (position k l).
  Proof.
    revert r. induction l as [|[k' v] l IH]; intros r Hm; simpl; [done|].
    destruct (Hm k') as [v' Hv']; [by left|]. rewrite Hv'.
    rewrite N.eqb_sym. destruct (N.eqb_spec k k'); simpl; [f_equal; lia|].
    rewrite IH by (intros x Hx; apply Hm; by right).
    destruct (position k l); simpl; [f_equal; lia|done].
  Qed.

  Lemma step_rep c l o : frep c l ->
    exists c', fifo_step c o = (c', snd (fifo_spec (f_cap c) l o)) /\
      frep c' (fst (fifo_spec (f_cap c) l o)) /\ f_cap c' = f_cap c.
  Proof.
    intros Hr. pose proof Hr as (Hnd & Hm & Ho). destruct o as [k v|k|k| | | | |n|k]; simpl.
    - unfold fifo_insert. destruct (Nat.eqb (f_cap c) 0); simpl; [by exists c|].
      rewrite Hm, assoc_list_to_map. destruct (assoc k l) as [old|] eqn:Ek; simpl.
      + eexists; split; [done|]. split; [|done]. split_and!; simpl.
        * by rewrite replace_fst.
        * symmetry. by eapply replace_map.
        * by rewrite replace_fst.
      + rewrite size_list_to_map by done.
        apply assoc_None in Ek.
        assert (G : forall l', NoDup l'.*1 -> k ∉ l'.*1 ->
          frep (mkFifo (f_cap c) (<[k:=v]> (list_to_map l')) (l'.*1 ++ [k])) (l' ++ [(k, v)])).
        { intros l' Hnd' Hk'. split_and!; simpl.
          - rewrite fmap_app. apply NoDup_app. split_and!; [done| |apply NoDup_singleton].
            intros x Hx ->%elem_of_list_singleton. done.
          - rewrite list_to_map_snoc; done.
          - by rewrite fmap_app. }
        destruct (Nat.leb (f_cap c) (length l)) eqn:El.
        * rewrite Ho, evict_rep by done. eexists; split; [done|]. split; [|done].
          apply G; destruct l as [|[k' v'] l]; simpl in *; try done.
          -- by apply NoDup_cons in Hnd as [_ ?].
          -- set_solver.
        * rewrite Ho. eexists; split; [done|]. split; [|done]. by apply G.
    - exists c. unfold fifo_get. by rewrite Hm, assoc_list_to_map.
    - exists c. unfold fifo_contains. by rewrite Hm, assoc_list_to_map.
    - exists c. unfold fifo_len. by rewrite Hm, size_list_to_map.
    - exists (fifo_clear c). split; [done|]. split; [|done]. split_and!; [constructor|done|done].
    - destruct (pop_rep c l Hr) as (c1 & E & Hr1 & Hc1). rewrite E. by exists c1.
    - exists c. split; [|done]. do 2 f_equal. unfold fifo_peek. rewrite Hm, Ho.
      destruct l as [|[k v] l]; simpl; [done|]. by rewrite lookup_insert.
    - destruct (batch_rep n c l Hr) as (c1 & E & Hr1 & Hc1). rewrite E. by exists c1.
    - exists c. split; [|done]. unfold fifo_rank. rewrite Hm, Ho, rank_shift.
      + by destruct (position k l).
      + intros x Hx. apply elem_of_list_fmap in Hx as ([k' v'] & -> & Hx). exists v'.
        by apply elem_of_list_to_map.
  Qed.

  Lemma run_rep ops : forall c l, frep c l ->
    exists c', run_ops fifo_step c ops = (c', snd (run_ops (fifo_spec (f_cap c)) l ops)) /\
      frep c' (fst (run_ops (fifo_spec (f_cap c)) l ops)).
  Proof.
    induction ops as [|o ops IH]; intros c l Hr; simpl; [by exists c|].
    destruct (step_rep c l o Hr) as (c1 & E & Hr1 & Hc1). rewrite E.
    destruct (fifo_spec (f_cap c) l o) as [l1 r1]; simpl in *.
    destruct (IH c1 l1 Hr1) as (c2 & E2 & Hr2). rewrite E2. rewrite Hc1 in *.
    destruct (run_ops (fifo_spec (f_cap c)) l1 ops) as [l2 rs]; simpl in *. by exists c2.
  Qed.

  Lemma fifo_refines cap (ops : list (fifo_op V)) :
    snd (run_ops fifo_step (fifo_new cap) ops) = snd (run_ops (fifo_spec cap) [] ops).
  Proof.
    destruct (run_rep ops (fifo_new cap) [] (frep_new cap)) as (c & E & _). by rewrite E.
  Qed.

  (** The stored keys are exactly those of the reference list. *)
  Lemma fifo_bounded cap (ops : list (fifo_op V)) :
    fifo_len (fst (run_ops fifo_step (fifo_new cap) ops)) <= cap.
  Proof.
    destruct (run_rep ops (fifo_new cap) [] (frep_new cap)) as (c & E & Hr). rewrite E. simpl.
    destruct Hr as (Hnd & Hm & _). unfold fifo_len. rewrite Hm, size_list_to_map by done. simpl.
    assert (G : forall (l : list (N * V)), length l <= cap -> length (fst (run_ops (fifo_spec cap) l ops)) <= cap).
    2: { apply G. simpl. lia. }
    clear. induction ops as [|o ops IH]; intros l Hl; simpl; [done|].
    destruct (fifo_spec cap l o) as [l1 r] eqn:Es.
    assert (length l1 <= cap).
    { destruct o as [k v|k|k| | | | |n|k]; simpl in Es; try (injection Es as <- _; simpl; lia).
      - destruct (Nat.eqb_spec cap 0); [injection Es as <- _; lia|].
        destruct (assoc k l); injection Es as <- _.
        + rewrite <- (fmap_length fst), replace_fst, fmap_length. done.
        + rewrite app_length. simpl. destruct (Nat.leb_spec cap (length l)).
          * destruct l; simpl in *; lia.
          * lia.
      - injection Es as <- _. destruct l; simpl in *; lia.
      - injection Es as <- _. rewrite skipn_length. lia. }
    specialize (IH l1 H). destruct (run_ops (fifo_spec cap) l1 ops). done.
  Qed.
End proofs.
