(** * Proofs about the hash block page *)
From Coq Require Import NArith Lia Bool.
From stdpp Require Import list.
From Verif Require Import HblkSpec HblkModel.

(** ** Flags *)
Lemma land_pow2 b j : negb (N.land b (N.shiftl 1 j) =? 0)%N = N.testbit b j.
Proof.
  assert (He : forall m, N.testbit (N.land b (N.shiftl 1 j)) m = N.testbit b m && (m =? j)%N).
  { intro m. rewrite N.land_spec, N.shiftl_1_l. rewrite N.pow2_bits_eqb. f_equal. apply N.eqb_sym. }
  destruct (N.testbit b j) eqn:Hb.
  - apply negb_true_iff, N.eqb_neq. intro H0. specialize (He j). rewrite H0, Hb, N.bits_0, N.eqb_refl in He. discriminate.
  - apply negb_false_iff, N.eqb_eq, N.bits_inj_iff. intro m. rewrite N.bits_0, (He m).
    destruct (m =? j)%N eqn:Hm; [apply N.eqb_eq in Hm; subst; rewrite Hb; easy | apply andb_false_r].
Qed.
Lemma bit_spec l i : bit l i = N.testbit (nth (i / 8) l 0%N) (N.of_nat (i mod 8)).
Proof. apply land_pow2. Qed.
Lemma nth_alter_eq (f : N -> N) l i : i < length l -> nth i (alter f i l) 0%N = f (nth i l 0%N).
Proof. revert i. induction l as [|x l IH]; intros [|i] Hi; cbn in *; [lia.. | apply IH; lia]. Qed.
Lemma nth_alter_ne (f : N -> N) l i j : i <> j -> nth j (alter f i l) 0%N = nth j l 0%N.
Proof.
  revert i j. induction l as [|x l IH]; intros [|i] [|j] Hi; cbn in *; try easy. apply IH. lia.
Qed.
Lemma div_mod_eq i j : i / 8 = j / 8 -> i mod 8 = j mod 8 -> i = j.
Proof. intros H1 H2. rewrite (Nat.div_mod i 8), (Nat.div_mod j 8) by lia. lia. Qed.
Lemma bit_set l i j : i / 8 < length l -> bit (set_bit l i) j = (j =? i) || bit l j.
Proof.
  intro Hi. rewrite !bit_spec. unfold set_bit. destruct (decide (i / 8 = j / 8)) as [He | He].
  - rewrite <- He, nth_alter_eq by easy. rewrite N.lor_spec, N.shiftl_1_l, N.pow2_bits_eqb.
    destruct (Nat.eqb_spec j i) as [-> | Hn]; [rewrite N.eqb_refl, orb_true_r; easy|].
    destruct (N.of_nat (i mod 8) =? N.of_nat (j mod 8))%N eqn:Hm; [|rewrite orb_false_r; easy].
    apply N.eqb_eq in Hm. exfalso. apply Hn. symmetry. apply div_mod_eq; [easy | lia].
  - rewrite nth_alter_ne by easy. destruct (Nat.eqb_spec j i) as [-> | Hn]; [easy|easy].
Qed.
Lemma testbit_255 m : (m < 8)%N -> N.testbit 255 m = true.
Proof.
  intro Hm. assert (m = 0 \/ m = 1 \/ m = 2 \/ m = 3 \/ m = 4 \/ m = 5 \/ m = 6 \/ m = 7)%N as H by lia.
  destruct H as [-> | [-> | [-> | [-> | [-> | [-> | [-> | ->]]]]]]]; reflexivity.
Qed.
Lemma bit_clear l i j : bit (clear_bit l i) j = negb (j =? i) && bit l j.
Proof.
  rewrite !bit_spec. unfold clear_bit. destruct (decide (i / 8 = j / 8)) as [He | He].
  - rewrite <- He. destruct (decide (i / 8 < length l)) as [Hl | Hl].
    + rewrite nth_alter_eq by easy. rewrite N.land_spec, N.lxor_spec, N.shiftl_1_l, N.pow2_bits_eqb.
      pose proof (Nat.mod_upper_bound j 8 ltac:(lia)) as Hj.
      rewrite (testbit_255 (N.of_nat (j mod 8))) by lia. rewrite xorb_true_l.
      destruct (Nat.eqb_spec j i) as [-> | Hn]; [rewrite N.eqb_refl; cbn; apply andb_false_r|].
      destruct (N.of_nat (i mod 8) =? N.of_nat (j mod 8))%N eqn:Hm; [|cbn; apply andb_true_r].
      apply N.eqb_eq in Hm. exfalso. apply Hn. symmetry. apply div_mod_eq; [easy | lia].
    + rewrite (nth_overflow _ 0%N) by (rewrite alter_length; lia).
      rewrite (nth_overflow _ 0%N) by lia. rewrite N.bits_0, andb_false_r. easy.
  - rewrite nth_alter_ne by easy. destruct (Nat.eqb_spec j i) as [-> | Hn]; [easy|easy].
Qed.
Lemma bit_zeros n i : bit (repeat 0%N n) i = false.
Proof.
  rewrite bit_spec. replace (nth (i / 8) (repeat 0%N n) 0%N) with 0%N; [apply N.bits_0|].
  generalize (i / 8). induction n as [|n IH]; intros [|j]; cbn; try easy; apply IH.
Qed.
Lemma set_bit_length l i : length (set_bit l i) = length l.
Proof. apply alter_length. Qed.
Lemma clear_bit_length l i : length (clear_bit l i) = length l.
Proof. apply alter_length. Qed.

(** ** One thread *)
Section One.
Context {K V : Type} (cmp : K -> K -> bool) (veq : V -> V -> bool) (dflt : K * V).
Notation page := (page K V).
Notation slot := (slot dflt).
Notation step := (step cmp veq dflt).
Notation serve := (serve cmp veq dflt).

(** The flags cover the array, the slots in use come first, and only those are readable. *)
Record wf (p : page) (m : nat) : Prop := {
  wf_occl : cap p <= 8 * length (p_occ p);
  wf_real : cap p <= 8 * length (p_rea p);
  wf_m : m <= cap p;
  wf_occ : forall i, i < cap p -> bit (p_occ p) i = (i <? m);
  wf_rea : forall i, i < cap p -> bit (p_rea p) i = true -> i < m;
  wf_poison : p_poison p = false }.

(** The pairs of the page. *)
Definition live (p : page) : list (K * V) := map (slot p) (List.filter (bit (p_rea p)) (seq 0 (cap p))).

Lemma in_flags (l : list N) i n : n <= 8 * length l -> i < n -> i / 8 < length l.
Proof. intros H1 H2. apply Nat.div_lt_upper_bound; lia. Qed.

Lemma new_wf n p : page_new dflt n = Some p -> wf p 0 /\ cap p = n /\ live p = [].
Proof.
  destruct n as [|m]; cbn [page_new]; [discriminate|]. intro H.
  assert (p = Page (repeat 0%N (m / 8 + 1)) (repeat 0%N (m / 8 + 1)) (repeat dflt (S m)) false) as -> by congruence. clear H.
  assert (Hl : S m <= 8 * (m / 8 + 1)) by (pose proof (Nat.mod_upper_bound m 8 ltac:(lia)); rewrite (Nat.div_mod m 8) at 1 by lia; lia).
  assert (Hc : cap (Page (repeat 0%N (m / 8 + 1)) (repeat 0%N (m / 8 + 1)) (repeat dflt (S m)) false) = S m)
    by (unfold cap; cbn [p_arr]; apply repeat_length).
  split; [|split; [easy|]].
  - split; try rewrite Hc; cbn [p_occ p_rea p_poison]; rewrite ?repeat_length; try lia; try easy.
    + intros i Hi. rewrite bit_zeros. easy.
    + intros i Hi. rewrite bit_zeros. discriminate.
  - unfold live. rewrite Hc. cbn [p_rea].
    assert (He : forall l : list nat, List.filter (bit (repeat 0%N (m / 8 + 1))) l = [])
      by (induction l as [|x l IH]; cbn [List.filter]; rewrite ?bit_zeros; easy).
    rewrite He. easy.
Qed.

Lemma not_locked p m : wf p m -> locked_out p = false.
Proof. intro H. unfold locked_out. rewrite (wf_poison _ _ H). easy. Qed.

Lemma filter_andb {A} (f g : A -> bool) l : List.filter (fun x => f x && g x) l = List.filter g (List.filter f l).
Proof. induction l as [|x l IH]; cbn; [easy|]. destruct (f x); cbn; destruct (g x); rewrite IH; easy. Qed.
Lemma filter_map {A B} (f : A -> B) (g : B -> bool) l : List.filter g (map f l) = map f (List.filter (fun x => g (f x)) l).
Proof. induction l as [|x l IH]; cbn; [easy|]. destruct (g (f x)); cbn; rewrite IH; easy. Qed.
Lemma existsb_map {A B} (f : A -> B) (g : B -> bool) l : existsb g (map f l) = existsb (fun x => g (f x)) l.
Proof. induction l as [|x l IH]; cbn; [easy|]. rewrite IH. easy. Qed.
Lemma existsb_filter {A} (f g : A -> bool) l : existsb g (List.filter f l) = existsb (fun x => f x && g x) l.
Proof. induction l as [|x l IH]; cbn; [easy|]. destruct (f x); cbn; rewrite IH; easy. Qed.

Lemma get_live k p m : wf p m -> get_value cmp dflt k p = Ret (values_of cmp k (live p)).
Proof.
  intro H. unfold get_value. rewrite (not_locked _ _ H). f_equal. unfold values_of, live, key_here.
  rewrite filter_andb, filter_map, map_map. easy.
Qed.
Lemma has_key_live k p : existsb (key_here cmp dflt k p) (seq 0 (cap p)) = has_key cmp k (live p).
Proof. unfold has_key, live, key_here. rewrite existsb_map, existsb_filter. easy. Qed.
Lemma count_live p : num_readable p = length (live p).
Proof. unfold num_readable, live. rewrite map_length. easy. Qed.
Lemma filter_length_le {A} (f : A -> bool) l : length (List.filter f l) <= length l.
Proof. induction l as [|x l IH]; cbn; [lia|]. destruct (f x); cbn; lia. Qed.
Lemma filter_nil {A} (f : A -> bool) l : (forall x, In x l -> f x = false) -> List.filter f l = [].
Proof.
  induction l as [|x l IH]; intro H; cbn; [easy|]. rewrite (H x) by (left; easy). apply IH. intros y Hy. apply H. right. easy.
Qed.
Lemma filter_ext_in2 {A} (f g : A -> bool) l : (forall x, In x l -> f x = g x) -> List.filter f l = List.filter g l.
Proof.
  induction l as [|x l IH]; intro H; cbn; [easy|]. rewrite (H x) by (left; easy).
  rewrite IH; [easy|]. intros y Hy. apply H. right. easy.
Qed.
Lemma seq_split m n : m <= n -> seq 0 n = seq 0 m ++ seq m (n - m).
Proof. intro H. rewrite <- seq_app. f_equal. lia. Qed.
Lemma live_prefix p m : wf p m -> live p = map (slot p) (List.filter (bit (p_rea p)) (seq 0 m)).
Proof.
  intro H. unfold live. rewrite (seq_split m (cap p) (wf_m _ _ H)), List.filter_app.
  rewrite (filter_nil _ (seq m (cap p - m))); [rewrite app_nil_r; easy|].
  intros x Hx. apply in_seq in Hx. destruct (bit (p_rea p) x) eqn:Hb; [|easy].
  exfalso. pose proof (wf_rea _ _ H x ltac:(lia) Hb). lia.
Qed.
Lemma live_le p m : wf p m -> length (live p) <= m.
Proof. intro H. rewrite (live_prefix _ _ H), map_length. pose proof (filter_length_le (bit (p_rea p)) (seq 0 m)). rewrite seq_length in *. lia. Qed.

Lemma find_seq (f : nat -> bool) m s n : s <= m -> m < s + n -> (forall i, s <= i < m -> f i = false) -> f m = true -> find f (seq s n) = Some m.
Proof.
  revert s. induction n as [|n IH]; intros s H1 H2 Hf Hm; [lia|]. cbn [seq find].
  destruct (decide (s = m)) as [-> | Hn]; [rewrite Hm; easy|].
  rewrite (Hf s) by lia. apply IH; [lia | lia | intros i Hi; apply Hf; lia | easy].
Qed.
Lemma find_seq_none (f : nat -> bool) s n : (forall i, s <= i < s + n -> f i = false) -> find f (seq s n) = None.
Proof.
  revert s. induction n as [|n IH]; intros s Hf; [easy|]. cbn [seq find]. rewrite (Hf s) by lia. apply IH. intros i Hi. apply Hf. lia.
Qed.

(** What an insertion does. *)
Lemma insert_spec k v p m :
  wf p m ->
  exists p2, insert cmp dflt k v p = (Ret (negb (has_key cmp k (live p)) && (m <? cap p)), p2) /\ cap p2 = cap p
             /\ (if negb (has_key cmp k (live p)) && (m <? cap p) then wf p2 (S m) /\ live p2 = live p ++ [(k, v)] else p2 = p).
Proof.
  intro H. unfold insert. rewrite (not_locked _ _ H), has_key_live.
  unfold is_full. rewrite count_live. pose proof (live_le _ _ H) as Hle. pose proof (wf_m _ _ H) as Hm.
  destruct (Nat.eqb_spec (length (live p)) (cap p)) as [Hf | Hf].
  - replace (m <? cap p) with false by (symmetry; apply Nat.ltb_ge; lia). rewrite andb_false_r. eauto.
  - destruct (has_key cmp k (live p)); cbn [negb andb]; [eauto|].
    destruct (m <? cap p) eqn:Hmc; [apply Nat.ltb_lt in Hmc | apply Nat.ltb_ge in Hmc].
    + rewrite (find_seq _ m) with (s := 0); [|lia | lia | intros i Hi; rewrite (wf_occ _ _ H) by lia; apply negb_false_iff, Nat.ltb_lt; lia
                                            | rewrite (wf_occ _ _ H) by lia; apply negb_true_iff, Nat.ltb_ge; lia].
      unfold insert_at. pose proof (in_flags (p_occ p) m _ (wf_occl _ _ H) Hmc) as Ho. pose proof (in_flags (p_rea p) m _ (wf_real _ _ H) Hmc) as Hr.
      replace (length (p_occ p) <=? m / 8) with false by (symmetry; apply Nat.leb_gt; lia).
      rewrite (wf_occ _ _ H) by lia. replace (m <? m) with false by (symmetry; apply Nat.ltb_ge; lia).
      rewrite (wf_poison _ _ H). replace (cap p <=? m) with false by (symmetry; apply Nat.leb_gt; lia).
      eexists; split; [reflexivity|].
      assert (Hc : cap (Page (set_bit (p_occ p) m) (set_bit (p_rea p) m) (<[m:=(k, v)]> (p_arr p)) false) = cap p)
        by (unfold cap; cbn [p_arr]; apply insert_length).
      split; [easy|].
      assert (Hw : wf (Page (set_bit (p_occ p) m) (set_bit (p_rea p) m) (<[m:=(k, v)]> (p_arr p)) false) (S m)).
      { split; try rewrite Hc; cbn [p_occ p_rea p_poison]; rewrite ?set_bit_length; try easy.
        - apply (wf_occl _ _ H).
        - apply (wf_real _ _ H).
        - intros i Hi. rewrite bit_set by easy. rewrite (wf_occ _ _ H) by easy.
          destruct (Nat.eqb_spec i m) as [-> | Hn]; cbn [orb]; [symmetry; apply Nat.ltb_lt; lia|].
          destruct (i <? m) eqn:Hi2; symmetry; [apply Nat.ltb_lt in Hi2; apply Nat.ltb_lt; lia | apply Nat.ltb_ge in Hi2; apply Nat.ltb_ge; lia].
        - intros i Hi. rewrite bit_set by easy. intros [->%Nat.eqb_eq | Hb]%orb_true_iff; [lia|].
          pose proof (wf_rea _ _ H i Hi Hb). lia. }
      split; [exact Hw|].
      rewrite (live_prefix _ _ Hw), (live_prefix _ _ H). rewrite seq_S, List.filter_app. cbn [p_rea plus].
      rewrite map_app. f_equal.
      * rewrite (filter_ext_in2 (bit (set_bit (p_rea p) m)) (bit (p_rea p))).
        2:{ intros x Hx. apply in_seq in Hx. rewrite bit_set by easy. destruct (Nat.eqb_spec x m); [lia | easy]. }
        apply map_ext_in. intros x Hx. apply filter_In in Hx as [Hx _]. apply in_seq in Hx.
        unfold HblkModel.slot. cbn [p_arr]. clear -Hx Hmc. unfold cap in Hmc.
        rewrite !nth_lookup, list_lookup_insert_ne by lia. easy.
      * cbn [List.filter]. rewrite bit_set, Nat.eqb_refl by easy. cbn [orb map]. f_equal.
        unfold HblkModel.slot. cbn [p_arr]. rewrite nth_lookup, list_lookup_insert by (unfold cap in Hmc; lia). easy.
    + rewrite find_seq_none; [eauto|]. intros i Hi. rewrite (wf_occ _ _ H) by lia. apply negb_false_iff, Nat.ltb_lt. lia.
Qed.

Lemma find_some_split {A} (f : A -> bool) l x : find f l = Some x -> exists l1 l2, l = l1 ++ x :: l2 /\ (forall y, In y l1 -> f y = false) /\ f x = true.
Proof.
  induction l as [|y l IH]; cbn; [discriminate|]. destruct (f y) eqn:Hy.
  - intro H. injection H as ->. exists [], l. easy.
  - intro H. destruct (IH H) as (l1 & l2 & -> & H1 & H2). exists (y :: l1), l2. split; [easy|]. split; [|easy].
    intros z [<- | Hz]; [easy | auto].
Qed.
Lemma find_none_all {A} (f : A -> bool) l : find f l = None -> forall y, In y l -> f y = false.
Proof. apply find_none. Qed.
Lemma drop_pair_app k v l1 e l2 :
  (forall y, In y l1 -> cmp y.1 k && veq y.2 v = false) -> cmp e.1 k && veq e.2 v = true ->
  drop_pair cmp veq k v (l1 ++ e :: l2) = l1 ++ l2.
Proof.
  intros H1 H2. induction l1 as [|y l1 IH]; cbn [app drop_pair]; [rewrite H2; easy|].
  rewrite (H1 y) by (left; easy). f_equal. apply IH. intros z Hz. apply H1. right. easy.
Qed.

(** What a removal does. *)
Lemma remove_spec k v p m :
  wf p m ->
  exists p2, remove cmp veq dflt k v p = (Ret (has_pair cmp veq k v (live p)), p2) /\ cap p2 = cap p /\ wf p2 m
             /\ (if has_pair cmp veq k v (live p) then live p2 = drop_pair cmp veq k v (live p) else p2 = p).
Proof.
  intro H. unfold remove. rewrite (not_locked _ _ H).
  assert (Hhp : has_pair cmp veq k v (live p) = existsb (fun i => key_here cmp dflt k p i && veq (slot p i).2 v) (seq 0 (cap p))).
  { unfold has_pair, live, key_here. rewrite existsb_map, existsb_filter.
    generalize (seq 0 (cap p)). intro l. induction l as [|x l IH]; cbn [existsb]; [easy|]. rewrite IH, andb_assoc. easy. }
  rewrite Hhp.
  destruct (find _ (seq 0 (cap p))) as [i|] eqn:Hf.
  - destruct (find_some_split _ _ _ Hf) as (l1 & l2 & Hs & H1 & H2).
    replace (existsb _ (seq 0 (cap p))) with true.
    2:{ symmetry. apply existsb_exists. exists i. split; [rewrite Hs; apply in_or_app; right; left; easy | easy]. }
    assert (Hi : i < cap p) by (assert (In i (seq 0 (cap p))) as Hin by (rewrite Hs; apply in_or_app; right; left; easy); apply in_seq in Hin; lia).
    unfold remove_at. pose proof (in_flags (p_rea p) i _ (wf_real _ _ H) Hi) as Hr.
    replace (length (p_rea p) <=? i / 8) with false by (symmetry; apply Nat.leb_gt; lia).
    cbn [snd]. eexists; split; [reflexivity|]. split; [easy|]. split.
    + destruct H as [Ha Hb Hc Hd He Hp]. split; try easy; cbn [p_rea p_occ p_arr].
      * rewrite clear_bit_length. easy.
      * intros j Hj. rewrite bit_clear. intros [_ Hb2]%andb_true_iff. apply (He j Hj Hb2).
    + unfold live. cbn [p_rea]. change (cap (Page (p_occ p) (clear_bit (p_rea p) i) (p_arr p) (p_poison p))) with (cap p).
      change (HblkModel.slot dflt (Page (p_occ p) (clear_bit (p_rea p) i) (p_arr p) (p_poison p))) with (slot p).
      rewrite Hs. rewrite !List.filter_app, !map_app. cbn [List.filter]. rewrite bit_clear, Nat.eqb_refl. cbn [negb andb].
      unfold key_here in H2. apply andb_true_iff in H2 as [[Hb2 Hk2]%andb_true_iff Hv2]. rewrite Hb2. cbn [map].
      assert (Hnd : List.NoDup (l1 ++ i :: l2)) by (rewrite <- Hs; apply seq_NoDup).
      pose proof (NoDup_remove_2 _ _ _ Hnd) as Hni.
      rewrite drop_pair_app.
      * f_equal; f_equal; apply filter_ext_in2; intros x Hx; rewrite bit_clear;
          (destruct (Nat.eqb_spec x i) as [-> | Hn]; [exfalso; apply Hni; apply in_or_app; auto | easy]).
      * intros y Hy. apply in_map_iff in Hy as (x & <- & Hx). apply filter_In in Hx as [Hx Hbx].
        specialize (H1 x Hx). unfold key_here in H1. rewrite Hbx in H1. exact H1.
      * apply andb_true_iff. easy.
  - replace (existsb _ (seq 0 (cap p))) with false; [eauto|].
    symmetry. apply not_true_iff_false. intros (x & Hx & Hb)%existsb_exists. pose proof (find_none_all _ _ Hf x Hx) as Hn. cbn beta in Hn. rewrite Hb in Hn. discriminate.
Qed.

(** ** Histories *)
Definition tail_held (b : list (K * V)) (h : list (op K V * ans V)) := fold_left (after cmp veq) h b.

Lemma step_spec o p m :
  wf p m ->
  exists a p2, step o p = (Ret a, p2) /\ cap p2 = cap p
    /\ live p2 = after cmp veq (live p) (o, a)
    /\ wf p2 (m + accepted [(o, a)])
    /\ a = (match o with
            | Insert k v => ABool (negb (has_key cmp k (live p)) && (m <? cap p))
            | Remove k v => ABool (has_pair cmp veq k v (live p))
            | Get k => AVals (values_of cmp k (live p))
            | Count => ANum (length (live p))
            end).
Proof.
  intro H. destruct o as [k v | k v | k |]; cbn [HblkModel.step].
  - destruct (insert_spec k v p m H) as (p2 & -> & Hc & Hd). eexists _, p2. split; [reflexivity|]. split; [easy|].
    destruct (negb (has_key cmp k (live p)) && (m <? cap p)); unfold accepted; cbn [after List.filter length].
    + destruct Hd as [Hw Hl]. rewrite Nat.add_1_r. easy.
    + subst. rewrite Nat.add_0_r. easy.
  - destruct (remove_spec k v p m H) as (p2 & -> & Hc & Hw & Hd). eexists _, p2. split; [reflexivity|]. split; [easy|].
    unfold accepted; cbn [List.filter length]. rewrite Nat.add_0_r.
    destruct (has_pair cmp veq k v (live p)); cbn [after]; [easy|]. subst. easy.
  - rewrite (get_live _ _ _ H). eexists _, p. unfold accepted; cbn [after List.filter length]. rewrite Nat.add_0_r. easy.
  - rewrite count_live. eexists _, p. unfold accepted; cbn [after List.filter length]. rewrite Nat.add_0_r. easy.
Qed.

Lemma accepted_cons e (h : list (op K V * ans V)) : accepted (e :: h) = accepted [e] + accepted h.
Proof. unfold accepted. cbn [List.filter]. destruct e as [[] [[]| |]]; cbn; easy. Qed.
Lemma accepted_app (h1 h2 : list (op K V * ans V)) : accepted (h1 ++ h2) = accepted h1 + accepted h2.
Proof. unfold accepted. rewrite List.filter_app, app_length. easy. Qed.

Lemma serve_spec l p m :
  wf p m ->
  exists h p2, serve l p = Some (h, p2) /\ cap p2 = cap p /\ map fst h = l
    /\ live p2 = tail_held (live p) h /\ wf p2 (m + accepted h).
Proof.
  revert p m. induction l as [|o l IH]; intros p m H; cbn [HblkModel.serve].
  - exists [], p. unfold accepted; cbn. rewrite Nat.add_0_r. easy.
  - destruct (step_spec o p m H) as (a & p2 & -> & Hc & Hl & Hw & _).
    destruct (IH p2 _ Hw) as (h & p3 & -> & Hc3 & Hm3 & Hl3 & Hw3).
    exists ((o, a) :: h), p3. split; [easy|]. split; [lia|]. split; [cbn; rewrite Hm3; easy|].
    split; [unfold tail_held in *; cbn [fold_left]; rewrite Hl3, Hl; easy|].
    rewrite accepted_cons. rewrite Nat.add_assoc. easy.
Qed.

(** A page with its history. *)
Definition page_of (n : nat) (h : list (op K V * ans V)) (p : page) : Prop :=
  exists p0, page_new dflt n = Some p0 /\ serve (map fst h) p0 = Some (h, p).
Lemma page_of_wf n h p : page_of n h p -> wf p (accepted h) /\ cap p = n /\ live p = held cmp veq h.
Proof.
  intros (p0 & Hn & Hs). destruct (new_wf _ _ Hn) as (Hw & Hc & Hl).
  destruct (serve_spec (map fst h) p0 0 Hw) as (h2 & p2 & Hs2 & Hc2 & _ & Hl2 & Hw2).
  rewrite Hs in Hs2. assert (h2 = h) by congruence. assert (p2 = p) by congruence. subst h2 p2.
  split; [easy|]. split; [lia|]. rewrite Hl2, Hl. easy.
Qed.
End One.

(** ** Several threads *)
Section Many.
Context {K V : Type} (cmp : K -> K -> bool) (dflt : K * V).
Notation page := (page K V).
Notation slot := (slot dflt).
Notation thread := (K * V * pc)%type.
Notation tstep := (tstep cmp dflt).
Notation sched1 := (sched1 cmp dflt).
Notation sched := (sched cmp dflt).

(** The flags cover the array. *)
Definition sized (n : nat) (p : page) : Prop := cap p = n /\ n <= 8 * length (p_occ p) /\ n <= 8 * length (p_rea p).
(** The slot at which a thread may write or has written. *)
Definition writes (c : pc) : option nat := match c with PAt i | PWrite i | POcc i | PRea i => Some i | _ => None end.
Definition pc_ok (n : nat) (c : pc) : Prop := match writes c with Some i => i < n | None => True end.

Lemma slot_set n i j e (p : page) o r x : cap p = n -> i < n -> HblkModel.slot dflt (Page o r (<[i := e]> (p_arr p)) x) j = if decide (j = i) then e else slot p j.
Proof.
  intros Hc Hi. unfold HblkModel.slot. cbn [p_arr]. unfold cap in Hc. rewrite !nth_lookup.
  destruct (decide (j = i)) as [-> | Hn]; [rewrite list_lookup_insert by lia; easy | rewrite list_lookup_insert_ne by congruence; easy].
Qed.

Lemma tstep_sized n k v c (p : page) : sized n p -> pc_ok n c -> sized n (tstep k v c p).2 /\ pc_ok n (tstep k v c p).1.
Proof.
  intros (Hc & Ho & Hr) Hk. destruct c; cbn [HblkModel.tstep fst snd]; rewrite ?Hc.
  - destruct (i <? n); [cbn; easy|]. destruct (c =? n); cbn; easy.
  - destruct (Nat.ltb_spec i n); [|cbn; easy]. destruct (bit _ i); cbn; easy.
  - destruct (cmp _ k); cbn; easy.
  - destruct (Nat.ltb_spec i n); [|cbn; easy]. destruct (bit _ i); cbn; easy.
  - destruct (bit _ i); cbn; easy.
  - split; [|exact Hk]. unfold sized, cap. cbn [p_arr p_occ p_rea]. rewrite insert_length. easy.
  - split; [|exact Hk]. unfold sized, cap. cbn [p_arr p_occ p_rea]. rewrite set_bit_length. easy.
  - split; [|easy]. unfold sized, cap. cbn [p_arr p_occ p_rea]. rewrite set_bit_length. easy.
  - easy.
Qed.

(** An invariant of the threads and the page is kept by every schedule. *)
Lemma sched_ind (I : list thread * page -> Prop) l s : (forall s t, I s -> I (sched1 t s)) -> I s -> I (sched l s).
Proof. intros Hs. revert s. induction l as [|t l IH]; intros s H; [easy|]. cbn [HblkModel.sched fold_left]. apply IH. auto. Qed.
Lemma sched_app l1 l2 s : sched (l1 ++ l2) s = sched l2 (sched l1 s).
Proof. apply fold_left_app. Qed.

(** *** What was there before stays, and nothing is invented *)
(** [old] are the slots in use at the start, [p0] the page then, [es] the pairs to be inserted. *)
Definition kept (p0 : page) (n : nat) (es : list (K * V)) (s : list thread * page) : Prop :=
  sized n s.2 /\ map fst s.1 = es
  /\ (forall i, i < n -> bit (p_occ p0) i = true -> bit (p_occ s.2) i = true /\ slot s.2 i = slot p0 i)
  /\ (forall i, i < n -> bit (p_rea p0) i = true -> bit (p_rea s.2) i = true)
  /\ (forall i, i < n -> bit (p_rea s.2) i = true -> bit (p_rea p0) i = true \/ (bit (p_occ p0) i = false /\ In (slot s.2 i) es))
  /\ (forall t e c, s.1 !! t = Some (e, c) -> pc_ok n c
        /\ (forall i, writes c = Some i -> bit (p_occ p0) i = true -> c = PAt i)
        /\ (forall i, c = POcc i \/ c = PRea i -> In (slot s.2 i) es)).

Lemma kept_step p0 n es s t : kept p0 n es s -> kept p0 n es (sched1 t s).
Proof.
  intros (Hz & He & Hold & Hrea & Hnew & Hth). unfold HblkModel.sched1.
  destruct (s.1 !! t) as [[e c]|] eqn:Ht; [|easy].
  destruct (Hth t e c Ht) as (Hk & Hw & Hs).
  pose proof (tstep_sized n e.1 e.2 c s.2 Hz Hk) as [Hz2 Hk2].
  destruct (tstep e.1 e.2 c s.2) as [c2 p2] eqn:Hst. cbn [fst snd] in *.
  assert (Hmap : map fst (<[t := (e, c2)]> s.1) = es).
  { rewrite <- He. clear -Ht. change (map fst) with (fmap (M := list) (@fst (K * V) pc)).
    rewrite list_fmap_insert. apply list_insert_id. rewrite list_lookup_fmap, Ht. easy. }
  assert (Hin : In e es).
  { rewrite <- He. apply in_map_iff. exists (e, c). split; [easy|]. apply elem_of_list_In, elem_of_list_lookup. eauto. }
  assert (Hlen : t < length s.1) by (apply lookup_lt_is_Some; eauto).
  assert (Hframe : p2 = s.2 -> (forall i, writes c2 = Some i -> bit (p_occ p0) i = true -> c2 = PAt i) ->
                   (forall i, c2 = POcc i \/ c2 = PRea i -> In (slot p2 i) es) -> kept p0 n es (<[t := (e, c2)]> s.1, p2)).
  { intros -> Hwc Hsc. split; [easy|]. split; [easy|]. split; [easy|]. split; [easy|]. split; [easy|]. cbn [fst snd].
    intros u e3 c3 Hu. destruct (decide (u = t)) as [-> | Hn].
    - rewrite list_lookup_insert in Hu by easy. assert (e3 = e) by congruence. assert (c3 = c2) by congruence. subst e3 c3. easy.
    - rewrite list_lookup_insert_ne in Hu by congruence. apply (Hth u e3 c3 Hu). }
  destruct c as [i q|i|i|i|i|i|i|i|b]; cbn [HblkModel.tstep] in Hst.
  - destruct (i <? cap s.2); [|destruct (q =? cap s.2)]; injection Hst as <- <-; apply Hframe; try easy; intros ? [|]; discriminate.
  - destruct (i <? cap s.2); [destruct (bit _ i)|]; injection Hst as <- <-; apply Hframe; try easy; intros ? [|]; discriminate.
  - destruct (cmp _ _); injection Hst as <- <-; apply Hframe; try easy; intros ? [|]; discriminate.
  - destruct (i <? cap s.2); [destruct (bit _ i)|]; injection Hst as <- <-; apply Hframe; try easy; try (intros ? [|]; discriminate).
    intros j Hj _. injection Hj as ->. easy.
  - destruct (bit (p_occ s.2) i) eqn:Hb; injection Hst as <- <-; apply Hframe; try easy; try (intros ? [|]; discriminate).
    intros j Hj Ho. injection Hj as ->. exfalso. destruct (Hold j Hk Ho) as [Ho2 _]. rewrite Ho2 in Hb. discriminate.
  - (* the assignment *)
    injection Hst as <- <-. assert (Hi : i < n) by exact Hk. destruct Hz as (Hc & Hzo & Hzr).
    assert (Hfree : bit (p_occ p0) i = false).
    { destruct (bit (p_occ p0) i) eqn:Hb; [|easy]. specialize (Hw i eq_refl Hb). discriminate. }
    split; [easy|]. split; [easy|]. cbn [fst snd p_occ p_rea]. split; [|split; [easy | split]].
    + intros j Hj Ho. rewrite (slot_set n) by easy. destruct (decide (j = i)) as [-> | Hn]; [congruence|]. apply Hold; easy.
    + intros j Hj Hr. rewrite (slot_set n) by easy. destruct (decide (j = i)) as [-> | Hn].
      * right. split; [easy|]. destruct e; exact Hin.
      * apply Hnew; easy.
    + intros u e3 c3 Hu. destruct (decide (u = t)) as [-> | Hn].
      * rewrite list_lookup_insert in Hu by easy. assert (e3 = e) by congruence. assert (c3 = POcc i) by congruence. subst e3 c3.
        split; [easy|]. split.
        -- intros j Hj Ho. injection Hj as ->. congruence.
        -- intros j [Hj | Hj]; [injection Hj as -> | discriminate]. rewrite (slot_set n) by easy. rewrite decide_True by easy. destruct e; exact Hin.
      * rewrite list_lookup_insert_ne in Hu by congruence. destruct (Hth u e3 c3 Hu) as (Ha & Hb & Hd). split; [easy|]. split; [easy|].
        intros j Hj. rewrite (slot_set n) by easy. destruct (decide (j = i)); [destruct e; exact Hin | auto].
  - (* the first flag *)
    injection Hst as <- <-. assert (Hi : i < n) by exact Hk. destruct Hz as (Hc & Hzo & Hzr).
    assert (Hf : i / 8 < length (p_occ s.2)) by (apply (in_flags _ _ n); easy).
    split; [easy|]. split; [easy|]. cbn [fst snd p_occ p_rea]. split; [|split; [easy | split; [easy|]]].
    + intros j Hj Ho. rewrite bit_set by easy. destruct (Hold j Hj Ho) as [-> Hs2]. rewrite orb_true_r. easy.
    + intros u e3 c3 Hu. destruct (decide (u = t)) as [-> | Hn].
      * rewrite list_lookup_insert in Hu by easy. assert (e3 = e) by congruence. assert (c3 = PRea i) by congruence. subst e3 c3.
        split; [easy|]. split.
        -- intros j Hj Ho. injection Hj as ->. specialize (Hw j eq_refl Ho). discriminate.
        -- intros j [Hj | Hj]; [discriminate | injection Hj as ->]. exact (Hs j ltac:(auto)).
      * rewrite list_lookup_insert_ne in Hu by congruence. apply (Hth u e3 c3 Hu).
  - (* the second flag *)
    injection Hst as <- <-. assert (Hi : i < n) by exact Hk. destruct Hz as (Hc & Hzo & Hzr).
    assert (Hf : i / 8 < length (p_rea s.2)) by (apply (in_flags _ _ n); easy).
    assert (Hfree : bit (p_occ p0) i = false).
    { destruct (bit (p_occ p0) i) eqn:Hb; [|easy]. specialize (Hw i eq_refl Hb). discriminate. }
    split; [easy|]. split; [easy|]. cbn [fst snd p_occ p_rea]. split; [easy | split; [|split]].
    + intros j Hj Ho. rewrite bit_set by easy. rewrite (Hrea j Hj Ho), orb_true_r. easy.
    + intros j Hj. rewrite bit_set by easy. intros [->%Nat.eqb_eq | Hb]%orb_true_iff; [|apply Hnew; easy].
      right. split; [easy|]. exact (Hs i ltac:(auto)).
    + intros u e3 c3 Hu. destruct (decide (u = t)) as [-> | Hn].
      * rewrite list_lookup_insert in Hu by easy. assert (c3 = PDone true) by congruence. subst c3.
        split; [easy|]. split; [easy | intros ? [|]; discriminate].
      * rewrite list_lookup_insert_ne in Hu by congruence. apply (Hth u e3 c3 Hu).
  - injection Hst as <- <-. apply Hframe; try easy; intros ? [|]; discriminate.
Qed.

Lemma kept_start p0 n es : sized n p0 -> kept p0 n es (map starting es, p0).
Proof.
  intro Hz. split; [easy|]. cbn [fst snd].
  split; [rewrite map_map; cbn; apply map_id|]. split; [easy|]. split; [easy|]. split; [intros; left; easy|].
  intros t e c Ht. change (map starting) with (fmap (M := list) (@starting K V)) in Ht. rewrite list_lookup_fmap in Ht.
  destruct (es !! t); [|discriminate]. cbn in Ht. injection Ht as <- <-.
  split; [easy|]. split; [easy | intros ? [|]; discriminate].
Qed.

(** *** Distinct slots *)
(** Thread [t] inserts at slot [f t]. *)
Definition apart (n : nat) (p0 : page) (f : nat -> nat) (s : list thread * page) : Prop :=
  sized n s.2
  /\ (forall i, i < n -> (forall t, t < length s.1 -> f t <> i) ->
        bit (p_occ s.2) i = bit (p_occ p0) i /\ bit (p_rea s.2) i = bit (p_rea p0) i /\ slot s.2 i = slot p0 i)
  /\ (forall t e c, s.1 !! t = Some (e, c) -> f t < n /\
       match c with
       | PAt i | PWrite i => i = f t /\ bit (p_occ s.2) i = false
       | POcc i => i = f t /\ slot s.2 i = e
       | PRea i => i = f t /\ slot s.2 i = e /\ bit (p_occ s.2) i = true
       | PDone b => b = true /\ slot s.2 (f t) = e /\ bit (p_occ s.2) (f t) = true /\ bit (p_rea s.2) (f t) = true
       | _ => False
       end).

Lemma apart_step n p0 f s t :
  (forall a b, a < length s.1 -> b < length s.1 -> f a = f b -> a = b) -> apart n p0 f s -> apart n p0 f (sched1 t s) /\ length (sched1 t s).1 = length s.1.
Proof.
  intros Hinj (Hz & Hout & Hth). unfold HblkModel.sched1.
  destruct (s.1 !! t) as [[e c]|] eqn:Ht; [|easy].
  assert (Hlen : t < length s.1) by (apply lookup_lt_is_Some; eauto).
  destruct (Hth t e c Ht) as [Hf Hc].
  assert (Hothers : forall c2 p2, sized n p2 ->
            (forall i, i <> f t -> bit (p_occ p2) i = bit (p_occ s.2) i /\ bit (p_rea p2) i = bit (p_rea s.2) i /\ slot p2 i = slot s.2 i) ->
            match c2 with
            | PAt i | PWrite i => i = f t /\ bit (p_occ p2) i = false
            | POcc i => i = f t /\ slot p2 i = e
            | PRea i => i = f t /\ slot p2 i = e /\ bit (p_occ p2) i = true
            | PDone b => b = true /\ slot p2 (f t) = e /\ bit (p_occ p2) (f t) = true /\ bit (p_rea p2) (f t) = true
            | _ => False
            end -> apart n p0 f (<[t := (e, c2)]> s.1, p2) /\ length (<[t := (e, c2)]> s.1) = length s.1).
  { intros c2 p2 Hz2 Hsame Hc2. split; [|apply insert_length]. split; [easy|]. cbn [fst snd]. rewrite insert_length. split.
    - intros i Hi Hno. specialize (Hout i Hi Hno). destruct (Hsame i ltac:(intros ->; apply (Hno t Hlen); easy)) as (-> & -> & ->). easy.
    - intros u e3 c3 Hu. destruct (decide (u = t)) as [-> | Hn].
      + rewrite list_lookup_insert in Hu by easy. assert (e3 = e) by congruence. assert (c3 = c2) by congruence. subst e3 c3. easy.
      + rewrite list_lookup_insert_ne in Hu by congruence.
        assert (Hul : u < length s.1) by (apply lookup_lt_is_Some; eauto).
        assert (Hfu : f u <> f t) by (intro; apply Hn, Hinj; easy).
        destruct (Hth u e3 c3 Hu) as [Hfn Hc3]. split; [easy|]. destruct (Hsame (f u) Hfu) as (E1 & E2 & E3).
        destruct c3; try easy.
        * destruct Hc3 as [-> Hc3]. rewrite E1. easy.
        * destruct Hc3 as [-> Hc3]. rewrite E1. easy.
        * destruct Hc3 as [-> Hc3]. rewrite E3. easy.
        * destruct Hc3 as [-> Hc3]. rewrite E3, E1. easy.
        * rewrite E1, E2, E3. easy. }
  pose proof (tstep_sized n e.1 e.2 c s.2 Hz) as Hsz.
  destruct c as [i q|i|i|i|i|i|i|i|b]; try contradiction.
  - destruct Hc as [-> Hb]. cbn [HblkModel.tstep]. rewrite Hb. cbn beta iota. apply Hothers; easy.
  - destruct Hc as [-> Hb]. cbn [HblkModel.tstep] in *. destruct (Hsz Hf) as [Hz2 _]. apply Hothers; [easy | | ].
    + intros i Hi. destruct Hz as (Hcap & _). rewrite (slot_set n) by easy. rewrite decide_False by easy. easy.
    + split; [easy|]. destruct Hz as (Hcap & _). rewrite (slot_set n) by easy. rewrite decide_True by easy. destruct e; easy.
  - destruct Hc as [-> Hb]. cbn [HblkModel.tstep] in *. destruct (Hsz Hf) as [Hz2 _].
    assert (Hfl : f t / 8 < length (p_occ s.2)) by (apply (in_flags _ _ n); [apply Hz | easy]).
    apply Hothers; [easy | | ]; cbn [p_occ p_rea].
    + intros i Hi. rewrite bit_set by easy. apply Nat.eqb_neq in Hi. rewrite Hi. easy.
    + rewrite bit_set, Nat.eqb_refl by easy. easy.
  - destruct Hc as [-> [Hb Ho]]. cbn [HblkModel.tstep] in *. destruct (Hsz Hf) as [Hz2 _].
    assert (Hfl : f t / 8 < length (p_rea s.2)) by (apply (in_flags _ _ n); [apply Hz | easy]).
    apply Hothers; [easy | | ]; cbn [p_occ p_rea].
    + intros i Hi. rewrite bit_set by easy. apply Nat.eqb_neq in Hi. rewrite Hi. easy.
    + rewrite bit_set, Nat.eqb_refl by easy. easy.
  - cbn [HblkModel.tstep]. apply Hothers; easy.
Qed.

(** *** A thread alone *)
(** [n] accesses of one thread. *)
Fixpoint alone (n : nat) (k : K) (v : V) (c : pc) (p : page) : pc * page :=
  match n with O => (c, p) | S n => let '(c, p) := tstep k v c p in alone n k v c p end.
Lemma alone_add a b k v c p : alone (a + b) k v c p = let '(c2, p2) := alone a k v c p in alone b k v c2 p2.
Proof. revert c p. induction a as [|a IH]; intros c p; cbn [alone plus]; [easy|]. destruct (tstep k v c p) as [c2 p2]. apply IH. Qed.
Lemma sched_repeat n t e c (ts : list thread) p :
  ts !! t = Some (e, c) -> sched (repeat t n) (ts, p) = let '(c2, p2) := alone n e.1 e.2 c p in (<[t := (e, c2)]> ts, p2).
Proof.
  revert c ts p. induction n as [|n IH]; intros c ts p Ht; cbn [repeat alone HblkModel.sched fold_left].
  - rewrite list_insert_id by easy. easy.
  - unfold HblkModel.sched1 at 2. cbn [fst snd]. rewrite Ht. destruct (tstep e.1 e.2 c p) as [c2 p2].
    assert (Hlen : t < length ts) by (apply lookup_lt_is_Some; eauto).
    change (fold_left (fun s t0 => sched1 t0 s) (repeat t n) (<[t:=(e, c2)]> ts, p2)) with (sched (repeat t n) (<[t:=(e, c2)]> ts, p2)).
    rewrite (IH c2) by (apply list_lookup_insert; easy). destruct (alone n e.1 e.2 c2 p2) as [c3 p3].
    rewrite list_insert_insert. easy.
Qed.

(** The four loops, run to their end. *)
Lemma alone_full p k v n i c :
  i + n = cap p -> alone n k v (PFull i c) p = (PFull (cap p) (c + length (List.filter (bit (p_rea p)) (seq i n))), p).
Proof.
  revert i c. induction n as [|n IH]; intros i c Hi; cbn [alone seq List.filter length].
  - rewrite Nat.add_0_r in *. subst. easy.
  - cbn [HblkModel.tstep]. replace (i <? cap p) with true by (symmetry; apply Nat.ltb_lt; lia).
    rewrite IH by lia. destruct (bit (p_rea p) i); cbn [length]; [|easy]. f_equal. f_equal. lia.
Qed.
Lemma alone_dup p k v n i :
  i + n = cap p ->
  exists a, alone a k v (PDup i) p = (if existsb (key_here cmp dflt k p) (seq i n) then PDone false else PDup (cap p), p).
Proof.
  revert i. induction n as [|n IH]; intros i Hi; cbn [seq existsb].
  - exists 0. cbn. rewrite Nat.add_0_r in Hi. subst. easy.
  - destruct (IH (S i) ltac:(lia)) as [a Ha].
    assert (Hlt : (i <? cap p) = true) by (apply Nat.ltb_lt; lia).
    unfold key_here at 1. destruct (bit (p_rea p) i) eqn:Hb; cbn [andb].
    + destruct (cmp (slot p i).1 k) eqn:Hk; cbn [orb].
      * exists 2. cbn [alone HblkModel.tstep]. rewrite Hlt, Hb. cbn [alone HblkModel.tstep]. rewrite Hk. easy.
      * exists (2 + a). rewrite alone_add. cbn [alone HblkModel.tstep]. rewrite Hlt, Hb. cbn [alone HblkModel.tstep]. rewrite Hk. exact Ha.
    + cbn [orb]. exists (1 + a). rewrite alone_add. cbn [alone HblkModel.tstep]. rewrite Hlt, Hb. exact Ha.
Qed.
Lemma alone_find p k v n i :
  i + n = cap p ->
  exists a, alone a k v (PFind i) p = (match find (fun j => negb (bit (p_occ p) j)) (seq i n) with Some j => PAt j | None => PFind (cap p) end, p).
Proof.
  revert i. induction n as [|n IH]; intros i Hi; cbn [seq find].
  - exists 0. cbn. rewrite Nat.add_0_r in Hi. subst. easy.
  - destruct (IH (S i) ltac:(lia)) as [a Ha].
    assert (Hlt : (i <? cap p) = true) by (apply Nat.ltb_lt; lia).
    destruct (bit (p_occ p) i) eqn:Hb; cbn [negb].
    + exists (1 + a). rewrite alone_add. cbn [alone HblkModel.tstep]. rewrite Hlt, Hb. exact Ha.
    + exists 1. cbn [alone HblkModel.tstep]. rewrite Hlt, Hb. easy.
Qed.

(** Up to the point before the assignment. *)
Lemma alone_until k v p i :
  0 < cap p ->
  is_full p = false -> existsb (key_here cmp dflt k p) (seq 0 (cap p)) = false ->
  find (fun j => negb (bit (p_occ p) j)) (seq 0 (cap p)) = Some i ->
  exists a, alone a k v (PFull 0 0) p = (PWrite i, p).
Proof.
  intros Hn Hfull Hdup Hfind.
  destruct (alone_dup p k v (cap p) 0 eq_refl) as [a Ha]. rewrite Hdup in Ha.
  destruct (alone_find p k v (cap p) 0 eq_refl) as [b Hb]. rewrite Hfind in Hb.
  assert (Htr : forall x y c1 c2 c3, alone x k v c1 p = (c2, p) -> alone y k v c2 p = (c3, p) -> alone (x + y) k v c1 p = (c3, p)).
  { intros x y c1 c2 c3 H1 H2. rewrite alone_add, H1. exact H2. }
  assert (Hnn : (cap p <? cap p) = false) by (apply Nat.ltb_ge; lia).
  exists (cap p + (1 + (a + (1 + (b + 1))))).
  eapply Htr; [apply (alone_full p k v (cap p) 0 0 eq_refl)|].
  eapply Htr; [cbn [alone HblkModel.tstep]; rewrite Hnn; unfold is_full, num_readable in Hfull; cbn [plus]; rewrite Hfull; reflexivity|].
  eapply Htr; [exact Ha|].
  eapply Htr; [cbn [alone HblkModel.tstep]; rewrite Hnn; reflexivity|].
  eapply Htr; [exact Hb|].
  cbn [alone HblkModel.tstep].
  destruct (find_some_split _ _ _ Hfind) as (_ & _ & _ & _ & Hbi). apply negb_true_iff in Hbi. rewrite Hbi. easy.
Qed.

Lemma alone_to_find k v p :
  0 < cap p -> is_full p = false -> existsb (key_here cmp dflt k p) (seq 0 (cap p)) = false ->
  exists a, alone a k v (PFull 0 0) p = (PFind 0, p).
Proof.
  intros Hn Hfull Hdup.
  destruct (alone_dup p k v (cap p) 0 eq_refl) as [a Ha]. rewrite Hdup in Ha.
  assert (Htr : forall x y c1 c2 c3, alone x k v c1 p = (c2, p) -> alone y k v c2 p = (c3, p) -> alone (x + y) k v c1 p = (c3, p)).
  { intros x y c1 c2 c3 H1 H2. rewrite alone_add, H1. exact H2. }
  assert (Hnn : (cap p <? cap p) = false) by (apply Nat.ltb_ge; lia).
  exists (cap p + (1 + (a + 1))).
  eapply Htr; [apply (alone_full p k v (cap p) 0 0 eq_refl)|].
  eapply Htr; [cbn [alone HblkModel.tstep]; rewrite Hnn; unfold is_full, num_readable in Hfull; cbn [plus]; rewrite Hfull; reflexivity|].
  eapply Htr; [exact Ha|]. cbn [alone HblkModel.tstep]. rewrite Hnn. easy.
Qed.
Lemma alone_from_find k v p m :
  wf p m -> m < cap p -> exists a, alone a k v (PFind 0) p = (PDone true, Page (set_bit (p_occ p) m) (set_bit (p_rea p) m) (<[m := (k, v)]> (p_arr p)) false).
Proof.
  intros Hw Hm.
  assert (Hfind : find (fun i => negb (bit (p_occ p) i)) (seq 0 (cap p)) = Some m).
  { apply (find_seq _ m 0); [lia | lia | intros i Hi; rewrite (wf_occ _ _ Hw) by lia; apply negb_false_iff, Nat.ltb_lt; lia
      | rewrite (wf_occ _ _ Hw) by lia; apply negb_true_iff, Nat.ltb_ge; lia]. }
  destruct (alone_find p k v (cap p) 0 eq_refl) as [b Hb]. rewrite Hfind in Hb.
  exists (b + 4). rewrite alone_add, Hb. cbn [alone HblkModel.tstep].
  rewrite (wf_occ _ _ Hw) by lia. replace (m <? m) with false by (symmetry; apply Nat.ltb_ge; lia).
  cbn [alone HblkModel.tstep p_occ p_rea p_arr p_poison]. rewrite (wf_poison _ _ Hw). easy.
Qed.
(** A thread alone does what [insert] does. *)
Lemma alone_insert k v p b p2 :
  0 < cap p -> p_poison p = false -> cap p <= 8 * length (p_occ p) -> insert cmp dflt k v p = (Ret b, p2) ->
  exists a, alone a k v (PFull 0 0) p = (PDone b, p2).
Proof.
  intros Hn Hpo Hocc. unfold insert.
  assert (Hnn : (cap p <? cap p) = false) by (apply Nat.ltb_ge; lia).
  assert (Htr : forall x y c1 c2 c3 p3, alone x k v c1 p = (c2, p) -> alone y k v c2 p = (c3, p3) -> alone (x + y) k v c1 p = (c3, p3)).
  { intros x y c1 c2 c3 p3 H1 H2. rewrite alone_add, H1. exact H2. }
  destruct (is_full p) eqn:Hfull.
  - intro H. assert (b = false) by congruence. assert (p2 = p) by congruence. subst b p2.
    exists (cap p + 1). eapply Htr; [apply (alone_full p k v (cap p) 0 0 eq_refl)|].
    cbn [alone HblkModel.tstep]. rewrite Hnn. unfold is_full, num_readable in Hfull. cbn [plus]. rewrite Hfull. easy.
  - unfold locked_out. rewrite Hpo. cbn [andb].
    destruct (existsb (key_here cmp dflt k p) (seq 0 (cap p))) eqn:Hdup.
    + intro H. assert (b = false) by congruence. assert (p2 = p) by congruence. subst b p2.
      destruct (alone_dup p k v (cap p) 0 eq_refl) as [a Ha]. rewrite Hdup in Ha.
      exists (cap p + (1 + a)). eapply Htr; [apply (alone_full p k v (cap p) 0 0 eq_refl)|].
      eapply Htr; [cbn [alone HblkModel.tstep]; rewrite Hnn; unfold is_full, num_readable in Hfull; cbn [plus]; rewrite Hfull; reflexivity|].
      exact Ha.
    + destruct (find (fun i => negb (bit (p_occ p) i)) (seq 0 (cap p))) as [i|] eqn:Hfind.
      * destruct (alone_until k v p i Hn Hfull Hdup Hfind) as [a Ha].
        destruct (find_some_split _ _ _ Hfind) as (l1 & l2 & Hs & _ & Hbi). apply negb_true_iff in Hbi.
        assert (Hi : i < cap p) by (assert (In i (seq 0 (cap p))) as Hin by (rewrite Hs; apply in_or_app; right; left; easy); apply in_seq in Hin; lia).
        unfold insert_at. pose proof (in_flags (p_occ p) i _ Hocc Hi) as Hl.
        replace (length (p_occ p) <=? i / 8) with false by (symmetry; apply Nat.leb_gt; lia).
        rewrite Hbi, Hpo. replace (cap p <=? i) with false by (symmetry; apply Nat.leb_gt; lia).
        intro H. exists (a + 3). eapply Htr; [exact Ha|]. cbn [alone HblkModel.tstep p_occ p_rea p_arr p_poison]. rewrite Hpo.
        congruence.
      * intro H. assert (b = false) by congruence. assert (p2 = p) by congruence. subst b p2.
        destruct (alone_dup p k v (cap p) 0 eq_refl) as [a Ha]. rewrite Hdup in Ha.
        destruct (alone_find p k v (cap p) 0 eq_refl) as [c Hc]. rewrite Hfind in Hc.
        exists (cap p + (1 + (a + (1 + (c + 1))))). eapply Htr; [apply (alone_full p k v (cap p) 0 0 eq_refl)|].
        eapply Htr; [cbn [alone HblkModel.tstep]; rewrite Hnn; unfold is_full, num_readable in Hfull; cbn [plus]; rewrite Hfull; reflexivity|].
        eapply Htr; [exact Ha|]. eapply Htr; [cbn [alone HblkModel.tstep]; rewrite Hnn; reflexivity|].
        eapply Htr; [exact Hc|]. cbn [alone HblkModel.tstep]. rewrite Hnn. easy.
Qed.
End Many.
