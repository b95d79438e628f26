(** * Proofs about the in-memory B+-tree: deleting *)
From Coq Require Import ZArith Lia Sorting.Permutation Sorting.Sorted.
From stdpp Require Import list.
From Verif Require Import ExprModel ExecProofs BtreeModel BtreeSpec BtreeProofs BtreeRunProofs.
Open Scope nat_scope.

(** ** The shape every delete keeps *)

(** Leaves of a list of trees. *)
Fixpoint many (P : tree -> list nat -> Prop) (cs : list tree) (ls : list nat) : Prop :=
  match cs with
  | [] => ls = []
  | c :: cs => exists l l', ls = l ++ l' /\ P c l /\ many P cs l'
  end.

(** A tree of height [n] with the leaves [ls]; keys may be missing. *)
Fixpoint sh (n : nat) (t : tree) (ls : list nat) : Prop :=
  match n, t with
  | 0, TLeaf a => ls = [a]
  | S n, TNode ks cs => length ks < length cs /\ many (sh n) cs ls
  | _, _ => False
  end.

Lemma many_split P i : forall cs ls c, many P cs ls -> cs !! i = Some c ->
  exists cs1 cs2 l1 l l2, cs = cs1 ++ c :: cs2 /\ length cs1 = i /\ ls = l1 ++ l ++ l2 /\ many P cs1 l1 /\ P c l /\ many P cs2 l2.
Proof.
  induction i as [|i IH]; intros [|c0 cs] ls c M E; try discriminate; cbn in E; destruct M as (l & l' & -> & Pc & M).
  - injection E as ->. exists [], cs, [], l, l'. cbn. auto 10.
  - destruct (IH cs l' c M E) as (cs1 & cs2 & l1 & lc & l2 & -> & <- & -> & M1 & Pc' & M2).
    exists (c0 :: cs1), cs2, (l ++ l1), lc, l2. cbn [length app many]. split; [reflexivity|]. split; [reflexivity|]. split; [rewrite <- app_assoc; reflexivity|].
    split; [exists l, l1; auto|]. auto.
Qed.
Lemma many_app P : forall cs1 cs2 l1 l2, many P cs1 l1 -> many P cs2 l2 -> many P (cs1 ++ cs2) (l1 ++ l2).
Proof.
  induction cs1 as [|c cs1 IH]; intros cs2 l1 l2 M1 M2; cbn in M1; [subst; exact M2|].
  destruct M1 as (l & l' & -> & Pc & M1). cbn. exists l, (l' ++ l2). rewrite <- app_assoc. auto.
Qed.
Lemma many_app_inv P : forall cs1 cs2 ls, many P (cs1 ++ cs2) ls -> exists l1 l2, ls = l1 ++ l2 /\ many P cs1 l1 /\ many P cs2 l2.
Proof.
  induction cs1 as [|c cs1 IH]; intros cs2 ls M; cbn in M; [exists [], ls; cbn; auto|].
  destruct M as (l & l' & -> & Pc & M). destruct (IH _ _ M) as (l1 & l2 & -> & M1 & M2).
  exists (l ++ l1), l2. rewrite <- app_assoc. cbn. split; [reflexivity|]. split; [|exact M2]. exists l, l1. auto.
Qed.
Lemma many_one (P : tree -> list nat -> Prop) c l : P c l -> many P [c] l.
Proof. intros H. cbn. exists l, []. rewrite app_nil_r. auto. Qed.

Lemma sh_nonempty n : forall t ls, sh n t ls -> ls <> [].
Proof.
  induction n as [|n IH]; intros [a|ks cs] ls S; try contradiction; cbn in S; [subst; congruence|].
  destruct S as [L M]. destruct cs as [|c cs]; [cbn in L; lia|]. destruct M as (l & l' & -> & Sc & _). apply IH in Sc. destruct l; [congruence|discriminate].
Qed.
Lemma sh_depth n : forall t ls, sh n t ls -> depth t = n.
Proof.
  induction n as [|n IH]; intros [a|ks cs] ls S; try contradiction; [reflexivity|].
  destruct S as [L M]. cbn [depth]. f_equal. destruct cs as [|c cs]; [cbn in L; lia|]. destruct M as (l & l' & _ & Sc & M). rewrite (IH _ _ Sc).
  assert (H : forall cs l', many (sh n) cs l' -> (fix go cs := match cs with [] => 0 | c :: cs => Nat.max (depth c) (go cs) end) cs <= n).
  { clear - IH. induction cs as [|c cs IHc]; intros ls M; [lia|]. destruct M as (l & l' & _ & Sc & M). rewrite (IH _ _ Sc). specialize (IHc _ M). lia. }
  specialize (H _ _ M). lia.
Qed.
Lemma sh_leftmost n : forall fuel t ls, n < fuel -> sh n t ls -> leftmost fuel t = head ls.
Proof.
  induction n as [|n IH]; intros fuel [a|ks cs] ls Hf S; try contradiction; (destruct fuel as [|fuel]; [lia|]); cbn in S; [subst; reflexivity|].
  destruct S as [L M]. destruct cs as [|c cs]; [cbn in L; lia|]. destruct M as (l & l' & -> & Sc & _).
  cbn [leftmost]. rewrite (IH fuel _ _ ltac:(lia) Sc). apply sh_nonempty in Sc. destruct l; [congruence|reflexivity].
Qed.

(** ** Moving entries between neighbours *)
Definition moved (st : list leaf) (l : list nat) (st' : list leaf) (l' : list nat) : Prop :=
  (forall nx, change nx st l st' l') /\ flat st' l' = flat st l /\ length st' = length st.

Lemma moved_refl st l : moved st l st l.
Proof. split; [intros nx; apply change_refl|auto]. Qed.
Lemma moved_trans st1 l1 st2 l2 st3 l3 : moved st1 l1 st2 l2 -> moved st2 l2 st3 l3 -> moved st1 l1 st3 l3.
Proof. intros (C1 & F1 & L1) (C2 & F2 & L2). split; [intros nx; eapply change_trans; [apply C1|apply C2]|]. split; congruence. Qed.
Lemma moved_around st l st' l' l1 l2 : moved st l st' l' -> l <> [] -> NoDup (l1 ++ l ++ l2) -> Forall (fun a => a < length st) (l1 ++ l ++ l2) ->
  moved st (l1 ++ l ++ l2) st' (l1 ++ l' ++ l2).
Proof.
  intros (C & F & L) Hne HN HB. split; [intros nx; apply around; auto|]. split; [|exact L].
  rewrite (around_flat None st st' l1 l l' l2) by auto. rewrite F, !flat_app. reflexivity.
Qed.

Lemma pair_moved st a b ea na eb nb ea' eb' : st !! a = Some (Leaf ea na) -> st !! b = Some (Leaf eb nb) -> a <> b ->
  ea' ++ eb' = ea ++ eb -> moved st [a; b] (<[b := Leaf eb' nb]> (<[a := Leaf ea' na]> st)) [a; b].
Proof.
  intros Ea Eb Hab He. set (st' := <[b := Leaf eb' nb]> (<[a := Leaf ea' na]> st)).
  pose proof (lookup_lt_Some _ _ _ Ea) as La. pose proof (lookup_lt_Some _ _ _ Eb) as Lb.
  assert (Ea' : st' !! a = Some (Leaf ea' na)).
  { unfold st'. rewrite list_lookup_insert_ne by congruence. apply list_lookup_insert, La. }
  assert (Eb' : st' !! b = Some (Leaf eb' nb)) by (apply list_lookup_insert; rewrite insert_length; exact Lb).
  assert (LL : length st' = length st) by (unfold st'; rewrite !insert_length; reflexivity).
  split; [|split; [|exact LL]].
  - intros nx. split; auto.
    + lia.
    + intros c Hc Hn. unfold st'. rewrite !list_lookup_insert_ne; [reflexivity| |]; intros ->; apply Hn; rewrite !elem_of_cons; auto.
    + intros [[ea2 C1] [[eb2 C2] _]] _. rewrite Ea in C1. rewrite Eb in C2. injection C1 as -> ->. injection C2 as -> ->.
      cbn. split; [eexists; exact Ea'|]. split; [eexists; exact Eb'|exact I].
  - unfold flat. cbn. unfold ents. rewrite Ea, Eb, Ea', Eb'. cbn. rewrite !app_nil_r. exact He.
Qed.

Lemma pair_merged st a b ea na eb nb : st !! a = Some (Leaf ea na) -> st !! b = Some (Leaf eb nb) -> a <> b ->
  moved st [a; b] (<[b := Leaf [] None]> (<[a := Leaf (ea ++ eb) nb]> st)) [a].
Proof.
  intros Ea Eb Hab. set (st' := <[b := Leaf [] None]> (<[a := Leaf (ea ++ eb) nb]> st)).
  pose proof (lookup_lt_Some _ _ _ Ea) as La. pose proof (lookup_lt_Some _ _ _ Eb) as Lb.
  assert (Ea' : st' !! a = Some (Leaf (ea ++ eb) nb)).
  { unfold st'. rewrite list_lookup_insert_ne by congruence. apply list_lookup_insert, La. }
  assert (LL : length st' = length st) by (unfold st'; rewrite !insert_length; reflexivity).
  split; [|split; [|exact LL]].
  - intros nx. split.
    + lia.
    + intros c Hc Hn. unfold st'. rewrite !list_lookup_insert_ne; [reflexivity| |]; intros ->; apply Hn; rewrite !elem_of_cons; auto.
    + intros _. constructor; [apply not_elem_of_nil|constructor].
    + intros c Hc. left. apply elem_of_list_singleton in Hc. subst. apply elem_of_cons. auto.
    + intros [[ea2 C1] [[eb2 C2] _]] _. rewrite Eb in C2. injection C2 as -> ->.
      cbn. split; [eexists; exact Ea'|exact I].
    + reflexivity.
  - unfold flat. cbn. unfold ents. rewrite Ea, Eb, Ea'. cbn. rewrite !app_nil_r. reflexivity.
Qed.

Lemma many_split2 P i : forall cs ls c d, many P cs ls -> cs !! i = Some c -> cs !! S i = Some d ->
  exists cs1 cs2 l1 la lb l2, cs = cs1 ++ c :: d :: cs2 /\ length cs1 = i /\ ls = l1 ++ (la ++ lb) ++ l2 /\ many P cs1 l1 /\ P c la /\ P d lb /\ many P cs2 l2.
Proof.
  intros cs ls c d M Ec Ed. destruct (many_split P i cs ls c M Ec) as (cs1 & cs2 & l1 & l & l2 & -> & <- & -> & M1 & Pc & M2).
  rewrite lookup_app_r in Ed by lia. replace (S (length cs1) - length cs1) with 1 in Ed by lia. cbn in Ed.
  destruct cs2 as [|d' cs2]; [discriminate|]. cbn in Ed. injection Ed as ->. destruct M2 as (ld & l2' & -> & Pd & M2).
  exists cs1, cs2, l1, l, ld, l2'. rewrite <- !app_assoc. auto 10.
Qed.

Lemma last_split {A} (l : list A) x : last l = Some x -> l = removelast l ++ [x].
Proof.
  induction l as [|y l IH]; intros H; [discriminate|]. destruct l as [|z l]; [cbn in *; congruence|].
  change (removelast (y :: z :: l)) with (y :: removelast (z :: l)). cbn [app]. f_equal. apply IH, H.
Qed.
Lemma removelast_length {A} (l : list A) x : last l = Some x -> length l = S (length (removelast l)).
Proof. intros H. apply last_split in H. rewrite H at 1. rewrite app_length. cbn. lia. Qed.

Lemma insert_mid {A} (l1 l2 : list A) x y i : i = length l1 -> <[i := y]> (l1 ++ x :: l2) = l1 ++ y :: l2.
Proof. intros ->. rewrite insert_app_r_alt by lia. rewrite Nat.sub_diag. reflexivity. Qed.

(** What a step on a list of children of height [n] may do. *)
Definition redone (n : nat) (st : list leaf) (l : list nat) (p : node) (st' : list leaf) : Prop :=
  let (ks, cs) := p in exists l', length ks < length cs /\ many (sh n) cs l' /\ moved st l st' l'.

Section steps.
  Context (n : nat) (ks : list val) (cs : list tree) (st : list leaf) (l : list nat).
  Context (HL : length ks < length cs) (HM : many (sh n) cs l) (HN : NoDup l) (HB : Forall (fun a => a < length st) l).

  Lemma borrow_left_ok ci p st' : 0 < ci -> borrow_left (ks, cs) ci st = Some (p, st') -> redone n st l p st'.
  Proof using All.
    intros Hci E. unfold borrow_left in E. destruct (cs !! (ci - 1)) as [c|] eqn:Ec; [|discriminate].
    destruct (cs !! ci) as [d|] eqn:Ed; [|destruct c; discriminate].
    assert (Ed' : cs !! S (ci - 1) = Some d) by (replace (S (ci - 1)) with ci by lia; exact Ed).
    destruct (many_split2 _ _ _ _ _ _ HM Ec Ed') as (cs1 & cs2 & l1 & la & lb & l2 & Ecs & L1 & -> & M1 & Pc & Pd & M2).
    destruct c as [a|ka ca], d as [b|kb cb]; try discriminate.
    - destruct n as [|n']; [|contradiction]. cbn in Pc, Pd. subst la lb.
      destruct (st !! a) as [[ea na]|] eqn:Ea; [|discriminate]. destruct (st !! b) as [[eb nb]|] eqn:Eb; [|discriminate].
      destruct (last ea) as [x|] eqn:Ex; [|discriminate]. unfold set_at in E. destruct (ci - 1 <? length ks) eqn:Ei; [|discriminate].
      injection E as <- <-. exists (l1 ++ [a; b] ++ l2). rewrite insert_length. split; [exact HL|]. split; [exact HM|].
      apply moved_around; [|discriminate|exact HN|exact HB]. apply pair_moved with (ea := ea) (eb := eb); auto.
      + apply NoDup_app in HN as (_ & _ & HN'). apply NoDup_app in HN' as (HN' & _). apply NoDup_cons in HN' as [HN' _].
        intros ->. apply HN', elem_of_list_singleton. reflexivity.
      + rewrite (last_split _ _ Ex) at 2. rewrite <- app_assoc. reflexivity.
    - destruct n as [|n']; [contradiction|]. destruct Pc as [Lca Mca]. destruct Pd as [Lcb Mcb].
      destruct (ks !! (ci - 1)) as [s|] eqn:Es; [|discriminate]. destruct (last ka) as [k|] eqn:Ek; [|discriminate].
      destruct (last ca) as [x|] eqn:Ex.
      + injection E as <- <-. exists (l1 ++ (la ++ lb) ++ l2).
        rewrite !insert_length. split; [exact HL|]. split; [|apply moved_refl].
        pose proof (last_split _ _ Ex) as Eca. pose proof (removelast_length _ _ Ex) as Lr. pose proof (removelast_length _ _ Ek) as Lk.
        rewrite Eca in Mca. apply many_app_inv in Mca as (lx & ly & -> & Mx & My). cbn in My. destruct My as (lz & ? & -> & Sx & ->). rewrite app_nil_r in *.
        rewrite Ecs. rewrite (insert_mid cs1) by lia.
        replace (cs1 ++ TNode (removelast ka) (removelast ca) :: TNode kb cb :: cs2) with ((cs1 ++ [TNode (removelast ka) (removelast ca)]) ++ TNode kb cb :: cs2)
          by (rewrite <- app_assoc; reflexivity).
        rewrite insert_mid by (rewrite app_length; cbn; lia). rewrite <- app_assoc. cbn [app].
        apply many_app; [exact M1|]. cbn [many]. exists lx, ((lz ++ lb) ++ l2). split; [rewrite <- !app_assoc; reflexivity|].
        split; [split; [lia|exact Mx]|]. exists (lz ++ lb), l2. split; [reflexivity|]. split; [|exact M2].
        split; [cbn; lia|]. exists lz, lb. auto.
      + destruct ca; [|apply last_None in Ex; discriminate]. cbn in Lca. lia.
  Qed.

  Lemma borrow_right_ok ci p st' : borrow_right (ks, cs) ci st = Some (p, st') -> redone n st l p st'.
  Proof using All.
    intros E. unfold borrow_right in E. destruct (cs !! ci) as [c|] eqn:Ec; [|discriminate].
    destruct (cs !! S ci) as [d|] eqn:Ed; [|destruct c; discriminate].
    destruct (many_split2 _ _ _ _ _ _ HM Ec Ed) as (cs1 & cs2 & l1 & la & lb & l2 & Ecs & L1 & -> & M1 & Pc & Pd & M2).
    destruct c as [a|ka ca], d as [b|kb cb]; try discriminate.
    - destruct n as [|n']; [|contradiction]. cbn in Pc, Pd. subst la lb.
      destruct (st !! a) as [[ea na]|] eqn:Ea; [|discriminate]. destruct (st !! b) as [[eb nb]|] eqn:Eb; [|discriminate].
      destruct eb as [|x [|y eb]]; try discriminate. unfold set_at in E. destruct (ci <? length ks) eqn:Ei; [|discriminate].
      injection E as <- <-. exists (l1 ++ [a; b] ++ l2). rewrite insert_length. split; [exact HL|]. split; [exact HM|].
      apply moved_around; [|discriminate|exact HN|exact HB]. eapply pair_moved; [exact Ea|exact Eb| |rewrite <- app_assoc; reflexivity].
      apply NoDup_app in HN as (_ & _ & HN'). apply NoDup_app in HN' as (HN' & _). apply NoDup_cons in HN' as [HN' _].
      intros ->. apply HN', elem_of_list_singleton. reflexivity.
    - destruct n as [|n']; [contradiction|]. destruct Pc as [Lca Mca]. destruct Pd as [Lcb Mcb].
      destruct (ks !! ci) as [s|] eqn:Es; [|discriminate]. destruct kb as [|k kb]; [discriminate|]. cbn in Lcb.
      destruct cb as [|x cb]; [cbn in Lcb; lia|]. injection E as <- <-. exists (l1 ++ (la ++ lb) ++ l2).
      rewrite !insert_length. split; [exact HL|]. split; [|apply moved_refl].
      destruct Mcb as (lx & ly & -> & Sx & My). cbn in Lcb.
      rewrite Ecs. rewrite (insert_mid cs1) by lia.
      replace (cs1 ++ TNode (ka ++ [s]) (ca ++ [x]) :: TNode (k :: kb) (x :: cb) :: cs2) with ((cs1 ++ [TNode (ka ++ [s]) (ca ++ [x])]) ++ TNode (k :: kb) (x :: cb) :: cs2)
        by (rewrite <- app_assoc; reflexivity).
      rewrite insert_mid by (rewrite app_length; cbn; lia). rewrite <- app_assoc. cbn [app].
      apply many_app; [exact M1|]. cbn [many]. exists (la ++ lx), (ly ++ l2). split; [rewrite <- !app_assoc; reflexivity|].
      split; [split; [rewrite !app_length; cbn; lia|apply many_app; [exact Mca|apply many_one, Sx]]|].
      exists ly, l2. split; [reflexivity|]. split; [|exact M2]. split; [lia|exact My].
  Qed.

  Lemma merge_ok i p st' : merge (ks, cs) i st = Some (p, st') -> redone n st l p st'.
  Proof using All.
    intros E. unfold merge in E. destruct (cs !! i) as [c|] eqn:Ec; [|discriminate].
    destruct (cs !! S i) as [d|] eqn:Ed; [|destruct c; discriminate].
    destruct (many_split2 _ _ _ _ _ _ HM Ec Ed) as (cs1 & cs2 & l1 & la & lb & l2 & Ecs & L1 & -> & M1 & Pc & Pd & M2).
    assert (LC : length cs = i + 2 + length cs2) by (rewrite Ecs, app_length; cbn; lia).
    destruct c as [a|ka ca], d as [b|kb cb]; try discriminate.
    - destruct n as [|n']; [|contradiction]. cbn in Pc, Pd. subst la lb.
      destruct (st !! a) as [[ea na]|] eqn:Ea; [|discriminate]. destruct (st !! b) as [[eb nb]|] eqn:Eb; [|discriminate].
      injection E as <- <-. exists (l1 ++ [a] ++ l2).
      assert (Etd : take (S i) cs ++ drop (S (S i)) cs = cs1 ++ TLeaf a :: cs2).
      { rewrite Ecs. replace (cs1 ++ TLeaf a :: TLeaf b :: cs2) with ((cs1 ++ [TLeaf a]) ++ TLeaf b :: cs2) by (rewrite <- app_assoc; reflexivity).
        rewrite take_app_alt by (rewrite app_length; cbn; lia).
        replace ((cs1 ++ [TLeaf a]) ++ TLeaf b :: cs2) with (((cs1 ++ [TLeaf a]) ++ [TLeaf b]) ++ cs2) by (rewrite <- !app_assoc; reflexivity).
        rewrite drop_app_alt by (rewrite !app_length; cbn; lia). rewrite <- app_assoc. reflexivity. }
      rewrite Etd. split; [|split].
      + rewrite app_length. cbn [length]. destruct (Nat.ltb_spec i (length ks)); [rewrite app_length, take_length, drop_length; lia|lia].
      + apply many_app; [exact M1|]. cbn. exists [a], l2. auto.
      + apply moved_around; [|discriminate|exact HN|exact HB]. eapply pair_merged with (na := na); [exact Ea|exact Eb|].
        apply NoDup_app in HN as (_ & _ & HN'). apply NoDup_app in HN' as (HN' & _). apply NoDup_cons in HN' as [HN' _].
        intros ->. apply HN', elem_of_list_singleton. reflexivity.
    - destruct n as [|n']; [contradiction|]. destruct Pc as [Lca Mca]. destruct Pd as [Lcb Mcb].
      unfold remove_at in E. destruct (ks !! i) as [s|] eqn:Es; [|discriminate]. apply lookup_lt_Some in Es. injection E as <- <-.
      exists (l1 ++ (la ++ lb) ++ l2).
      assert (Et : take i cs = cs1) by (rewrite Ecs; apply take_app_alt; lia).
      assert (Ed2 : drop (S (S i)) cs = cs2).
      { rewrite Ecs. replace (cs1 ++ TNode ka ca :: TNode kb cb :: cs2) with ((cs1 ++ [TNode ka ca; TNode kb cb]) ++ cs2) by (rewrite <- app_assoc; reflexivity).
        apply drop_app_alt. rewrite app_length. cbn. lia. }
      rewrite Et, Ed2. split; [|split; [|apply moved_refl]].
      + set (q := take i ks ++ drop (S i) ks).
        assert (Lq : length q = length ks - 1) by (unfold q; rewrite app_length, take_length, drop_length; lia).
        rewrite (app_length cs1). cbn [length]. destruct (Nat.ltb_spec i (length q)); [rewrite app_length, take_length, drop_length; lia|lia].
      + apply many_app; [exact M1|]. cbn [many]. exists (la ++ lb), l2. split; [reflexivity|]. split; [|exact M2].
        split; [rewrite !app_length; cbn [length]; lia|]. apply many_app; assumption.
  Qed.
End steps.

(** What rebalancing may do to a tree of height [n]. *)
Definition rebalanced (is_root : bool) (n : nat) (st : list leaf) (l : list nat) (t' : tree) (st' : list leaf) : Prop :=
  exists n' l' extra, sh n' t' l' /\ moved st l st' (l' ++ extra) /\ (is_root = false -> n' = n /\ extra = []).

Lemma redone_step is_root n st l ks cs st' : redone n st l (ks, cs) st' -> rebalanced is_root (S n) st l (TNode ks cs) st'.
Proof. intros (l' & L & M & V). exists (S n), l', []. rewrite app_nil_r. split; [split; assumption|]. split; [exact V|auto]. Qed.

Lemma step_ok m is_root n ks cs ci st l t' st' b : length ks < length cs -> many (sh n) cs l -> NoDup l -> Forall (fun a => a < length st) l ->
  rebalance_step m is_root (ks, cs) ci st = Some (t', st', b) -> rebalanced is_root (S n) st l t' st'.
Proof.
  intros HL HM HN HB E. unfold rebalance_step in E. destruct (cs !! ci) as [c|] eqn:Ec; [|discriminate].
  destruct ((m - 1) / 2 <=? keylen st c).
  { assert (t' = TNode ks cs /\ st' = st) as [-> ->] by (split; congruence). apply redone_step. exists l. split; [exact HL|]. split; [exact HM|apply moved_refl]. }
  match type of E with (if ?X then _ else _) = _ => destruct X eqn:E1 end.
  { apply andb_true_iff in E1 as [E1 _]. apply Nat.ltb_lt in E1. destruct (borrow_left (ks, cs) ci st) as [[[ks2 cs2] st2]|] eqn:EB; [|discriminate].
    assert (t' = TNode ks2 cs2 /\ st' = st2) as [-> ->] by (split; congruence). apply redone_step. eapply borrow_left_ok; eassumption. }
  match type of E with (if ?X then _ else _) = _ => destruct X eqn:E2 end.
  { destruct (borrow_right (ks, cs) ci st) as [[[ks2 cs2] st2]|] eqn:EB; [|discriminate].
    assert (t' = TNode ks2 cs2 /\ st' = st2) as [-> ->] by (split; congruence). apply redone_step. eapply borrow_right_ok; eassumption. }
  match type of E with match ?X with _ => _ end = _ => destruct X as [[[ks2 cs2] st2]|] eqn:EM end; [|discriminate].
  assert (HR : redone n st l (ks2, cs2) st2).
  { destruct (0 <? ci); [eapply merge_ok; eassumption|]. destruct (ci <? length cs - 1); [eapply merge_ok; eassumption|].
    assert (ks2 = ks /\ cs2 = cs /\ st2 = st) as (-> & -> & ->) by (do 2 (split; [congruence|]); congruence). exists l. split; [exact HL|]. split; [exact HM|apply moved_refl]. }
  destruct (is_root && (length ks2 =? 0)) eqn:E3.
  - apply andb_true_iff in E3 as [-> _]. destruct HR as (l' & L & M & V). destruct cs2 as [|c2 cs2]; [cbn in L; lia|].
    assert (t' = c2 /\ st' = st2) as [-> ->] by (split; congruence). destruct M as (lc & lr & -> & Sc & _).
    exists n, lc, lr. split; [exact Sc|]. split; [exact V|discriminate].
  - assert (t' = TNode ks2 cs2 /\ st' = st2) as [-> ->] by (split; congruence). apply redone_step, HR.
Qed.

Lemma rebalance_ok m : forall path is_root t n st l t' st' b, sh n t l -> NoDup l -> Forall (fun a => a < length st) l ->
  rebalance m is_root t path st = Some (t', st', b) -> rebalanced is_root n st l t' st'.
Proof.
  assert (Hsame : forall is_root t n st l, sh n t l -> rebalanced is_root n st l t st).
  { intros is_root t n st l S. exists n, l, []. rewrite app_nil_r. split; [exact S|]. split; [apply moved_refl|auto]. }
  induction path as [|ci path IH]; intros is_root t n st l t' st' b S HN HB E.
  { assert (t' = t /\ st' = st) as [-> ->] by (destruct t; cbn in E; split; congruence). apply Hsame, S. }
  destruct t as [a|ks cs].
  { assert (t' = TLeaf a /\ st' = st) as [-> ->] by (destruct path; cbn in E; split; congruence). apply Hsame, S. }
  destruct n as [|n]; [contradiction|]. destruct S as [HL HM].
  destruct path as [|ci2 path].
  { cbn [rebalance] in E. eapply step_ok; eassumption. }
  cbn [rebalance] in E. fold (rebalance m false) in E. destruct (cs !! ci) as [c|] eqn:Ec; [|discriminate].
  change (match rebalance m false c (ci2 :: path) st with
          | None => None
          | Some (c, st, true) => rebalance_step m is_root (ks, <[ci := c]> cs) ci st
          | Some (c, st, false) => Some (TNode ks (<[ci := c]> cs), st, false)
          end = Some (t', st', b)) in E.
  destruct (rebalance m false c (ci2 :: path) st) as [[[c' st1] go]|] eqn:ER; [|discriminate].
  destruct (many_split _ _ _ _ _ HM Ec) as (cs1 & cs2 & l1 & lc & l2 & -> & L1 & -> & M1 & Sc & M2).
  pose proof HN as HN'. apply NoDup_app in HN' as (_ & _ & HN'). apply NoDup_app in HN' as (HNc & _ & _).
  pose proof HB as HB'. apply Forall_app in HB' as [_ HB']. apply Forall_app in HB' as [HBc _].
  destruct (IH false c n st lc c' st1 go Sc HNc HBc ER) as (n' & lc' & extra & Sc' & V & Hf). destruct (Hf eq_refl) as [-> ->]. rewrite app_nil_r in V.
  pose proof (moved_around st lc st1 lc' l1 l2 V (sh_nonempty _ _ _ Sc) HN HB) as V'.
  assert (HM1 : many (sh n) (cs1 ++ c' :: cs2) (l1 ++ lc' ++ l2)).
  { apply many_app; [exact M1|]. cbn. exists lc', l2. auto. }
  rewrite insert_mid in E by lia.
  assert (HL1 : length ks < length (cs1 ++ c' :: cs2)) by (rewrite app_length in *; exact HL).
  destruct go.
  - destruct V' as (C' & F' & LL). assert (R2 : rebalanced is_root (S n) st1 (l1 ++ lc' ++ l2) t' st').
    { eapply step_ok; [exact HL1|exact HM1| | |exact E].
      - apply (ch_nodup _ _ _ _ _ (C' None)), HN.
      - apply Forall_forall. intros a Ha. apply (ch_new _ _ _ _ _ (C' None)) in Ha as [Ha|Ha]; [|lia]. rewrite LL. rewrite Forall_forall in HB. apply HB, Ha. }
    destruct R2 as (n2 & l' & extra & S2 & V2 & Hf2). exists n2, l', extra. split; [exact S2|]. split; [|exact Hf2].
    eapply moved_trans; [|exact V2]. split; [exact C'|]. split; assumption.
  - assert (t' = TNode ks (cs1 ++ c' :: cs2) /\ st' = st1) as [-> ->] by (split; congruence).
    exists (S n), (l1 ++ lc' ++ l2), []. rewrite app_nil_r. split; [split; assumption|]. split; [exact V'|auto].
Qed.

(** ** Whole deletes *)

(** The index holds the entries [F], in this order; some leaves may be missing from the tree. *)
Definition holding (ix : index) (F : list entry) : Prop :=
  exists n ls extra, sh n (root ix) ls /\ NoDup (ls ++ extra) /\ Forall (fun a => a < length (store ix)) (ls ++ extra) /\
    chain (store ix) (ls ++ extra) None /\ flat (store ix) (ls ++ extra) = F.

Lemma holding_scan ix F : holding ix F -> scan_full ix = Some F.
Proof.
  intros (n & ls & extra & S & HN & HB & C & <-). unfold scan_full. rewrite (sh_leftmost n _ _ ls); [| |exact S].
  2: { rewrite (sh_depth _ _ _ S). lia. }
  pose proof (nodup_bound _ _ HN HB) as L. destruct ls as [|a ls]; [destruct (sh_nonempty _ _ _ S eq_refl)|].
  cbn [head app] in *. apply walk_chain; [cbn in L; lia|exact C].
Qed.

Lemma find_pair_at T k r es i : of_type T k -> Forall (of_type T) (keys es) -> find_pair k r es = Some i -> es !! i = Some (k, r).
Proof.
  intros Tk. revert i. induction es as [|[k' r'] es IH]; intros i HT E; [discriminate|]. cbn in HT. apply Forall_cons_1 in HT as [Tk' HT]. cbn [find_pair] in E.
  destruct (holds Eq k' k && bool_decide (r' = r)) eqn:EH.
  - injection E as <-. apply andb_true_iff in EH as [EH Er]. apply bool_decide_eq_true in Er. apply (holds_eq T) in EH; [|assumption|assumption]. subst. reflexivity.
  - destruct (find_pair k r es) as [j|] eqn:EF; [|discriminate]. cbn in E. injection E as <-. cbn. apply IH; auto.
Qed.

Lemma search_found n : forall fuel t ls k r st p a i, sh n t ls -> search fuel t k r st = Found p a i -> a ∈ ls /\ find_pair k r (ents st a) = Some i.
Proof.
  induction n as [|n IH]; intros fuel [b|ks cs] ls k r st p a i S E; try contradiction; (destruct fuel as [|fuel]; [discriminate|]); cbn [search] in E.
  - cbn in S. subst. destruct (find_pair k r (ents st b)) as [j|] eqn:EF; [|discriminate].
    assert (a = b /\ i = j) as [-> ->] by (split; congruence). split; [apply elem_of_list_singleton; reflexivity|exact EF].
  - destruct S as [_ M]. revert E. generalize (reverse (to_visit ks (length cs) k)). intros l.
    induction l as [|ci l IHl]; intros E; [discriminate|].
    destruct (cs !! ci) as [c|] eqn:Ec; [|discriminate].
    destruct (search fuel c k r st) as [| |p' a' i'] eqn:ES; [discriminate|exact (IHl E)|].
    assert (a' = a /\ i' = i) as [-> ->] by (split; congruence).
    destruct (many_split _ _ _ _ _ M Ec) as (cs1 & cs2 & l1 & lc & l2 & -> & _ & -> & _ & Sc & _).
    destruct (IH _ _ _ _ _ _ _ _ _ Sc ES) as [Ha Hf]. split; [|exact Hf]. rewrite !elem_of_app. auto.
Qed.

Lemma remove_one st ls a es nx i x : NoDup ls -> a ∈ ls -> st !! a = Some (Leaf es nx) -> es !! i = Some x ->
  let st' := <[a := Leaf (take i es ++ drop (S i) es) nx]> st in
  (exists F1 F2, flat st ls = F1 ++ x :: F2 /\ flat st' ls = F1 ++ F2) /\
  (forall nx0, chain st ls nx0 -> chain st' ls nx0).
Proof.
  intros HN Ha E Ex st'. apply elem_of_list_split in Ha as (l1 & l2 & ->).
  assert (E' : st' !! a = Some (Leaf (take i es ++ drop (S i) es) nx)) by (apply list_lookup_insert, (lookup_lt_Some _ _ _ E)).
  apply NoDup_app in HN as (_ & H1 & H2). apply NoDup_cons in H2 as [H2 _].
  assert (Fo : forall b, b <> a -> st' !! b = st !! b) by (intros b Hb; apply list_lookup_insert_ne; congruence).
  assert (F1 : flat st' l1 = flat st l1).
  { apply flat_frame. intros b Hb. apply Fo. intros ->. apply (H1 a Hb), elem_of_cons. auto. }
  assert (F2 : flat st' l2 = flat st l2).
  { apply flat_frame. intros b Hb. apply Fo. intros ->. contradiction. }
  split.
  - exists (flat st l1 ++ take i es), (drop (S i) es ++ flat st l2).
    assert (FC : forall s, flat s (l1 ++ a :: l2) = flat s l1 ++ ents s a ++ flat s l2) by (intros s; rewrite flat_app; reflexivity).
    rewrite !FC, F1, F2. unfold ents. rewrite E, E'. cbn [lents].
    split; [|rewrite <- !app_assoc; reflexivity].
    rewrite <- (take_drop_middle _ _ _ Ex) at 1. rewrite <- !app_assoc. reflexivity.
  - intros nx0 C. clear F1 F2 Ex H1 H2. induction (l1 ++ a :: l2) as [|b l IH]; [exact I|].
    cbn [chain] in C |- *. destruct C as [[eb C1] C2]. split; [|apply IH, C2].
    destruct (decide (b = a)) as [->|Hb]; [rewrite E in C1; injection C1 as _ ->; eexists; exact E'|]. exists eb. rewrite Fo by exact Hb. exact C1.
Qed.

Lemma delete_ok T m ix F k r b ix' : holding ix F -> Forall (of_type T) (keys F) -> of_type T k ->
  delete m ix k r = Some (b, ix') ->
  exists F', holding ix' F' /\ if b then exists F1 F2, F = F1 ++ (k, r) :: F2 /\ F' = F1 ++ F2 else F' = F /\ ix' = ix.
Proof.
  intros (n & ls & extra & S & HN & HB & C & <-) HT Tk E. unfold delete in E.
  destruct (search (Datatypes.S (depth (root ix))) (root ix) k r (store ix)) as [| |path a i] eqn:ES; [discriminate| |].
  { assert (b = false /\ ix' = ix) as [-> ->] by (split; congruence). eexists. split; [|split; reflexivity]. exists n, ls, extra. auto. }
  destruct (search_found _ _ _ _ _ _ _ _ _ _ S ES) as [Ha Hp].
  destruct (store ix !! a) as [[es nx]|] eqn:Ea; [|discriminate].
  assert (Ha' : a ∈ ls ++ extra) by (apply elem_of_app; auto).
  assert (Hi : es !! i = Some (k, r)).
  { apply (find_pair_at T); auto.
    - apply elem_of_list_split in Ha' as (x1 & x2 & Ex). rewrite Ex, flat_app, keys_app in HT. apply Forall_app in HT as [_ HT].
      change (a :: x2) with ([a] ++ x2) in HT. rewrite flat_app, keys_app in HT. apply Forall_app in HT as [HT _].
      unfold flat in HT. cbn in HT. unfold ents in HT. rewrite Ea, app_nil_r in HT. exact HT.
    - unfold ents in Hp. rewrite Ea in Hp. exact Hp. }
  destruct (remove_one (store ix) (ls ++ extra) a es nx i (k, r) HN Ha' Ea Hi) as [(F1 & F2 & EF & EF') HC].
  set (st1 := <[a := Leaf (take i es ++ drop (Datatypes.S i) es) nx]> (store ix)) in *.
  assert (LL : length st1 = length (store ix)) by apply insert_length.
  match type of E with (if ?X then _ else _) = _ => destruct X eqn:EX end.
  - destruct (rebalance m true (root ix) path st1) as [[[t' st'] go]|] eqn:ER; [|discriminate].
    assert (b = true /\ ix' = Index t' st') as [-> ->] by (split; congruence).
    pose proof HN as HN'. apply NoDup_app in HN' as (HNl & _ & _).
    pose proof HB as HB'. rewrite <- LL in HB'. apply Forall_app in HB' as [HBl _].
    destruct (rebalance_ok m path true (root ix) n st1 ls t' st' go S HNl HBl ER) as (n' & l' & ex2 & S' & V & _).
    pose proof (moved_around st1 ls st' (l' ++ ex2) [] extra V (sh_nonempty _ _ _ S)) as V'. cbn [app] in V'.
    rewrite <- LL in HB. specialize (V' HN HB). destruct V' as (C' & F' & LL').
    exists (flat st1 (ls ++ extra)). split; [|exists F1, F2; auto].
    exists n', l', (ex2 ++ extra). cbn [root store]. rewrite app_assoc. split; [exact S'|].
    split; [apply (ch_nodup _ _ _ _ _ (C' None)), HN|]. split; [|split; [|exact F']].
    + apply Forall_forall. intros c Hc. apply (ch_new _ _ _ _ _ (C' None)) in Hc as [Hc|Hc]; [|lia]. rewrite Forall_forall in HB. rewrite LL'. apply HB, Hc.
    + apply (ch_chain _ _ _ _ _ (C' None)); [apply HC, C|exact HN].
  - assert (b = true /\ ix' = Index (root ix) st1) as [-> ->] by (split; congruence).
    exists (flat st1 (ls ++ extra)). split; [|exists F1, F2; auto].
    exists n, ls, extra. cbn [root store]. split; [exact S|]. split; [exact HN|]. split; [rewrite LL; exact HB|]. split; [apply HC, C|reflexivity].
Qed.

(** ** Deletes on a tree built by inserts *)

(** Every inner node has one child more than keys. *)
Fixpoint full (n : nat) (t : tree) : Prop :=
  match n, t with
  | 0, TLeaf _ => True
  | S n, TNode ks cs => length cs = S (length ks) /\ Forall (full n) cs
  | _, _ => False
  end.

Lemma many_in P cs : forall ls c, many P cs ls -> c ∈ cs -> exists l, P c l /\ forall a, a ∈ l -> a ∈ ls.
Proof.
  intros ls c M Hc. apply elem_of_list_lookup in Hc as [i Hc]. destruct (many_split _ _ _ _ _ M Hc) as (cs1 & cs2 & l1 & l & l2 & _ & _ & -> & _ & Pc & _).
  exists l. split; [exact Pc|]. intros a Ha. rewrite !elem_of_app. auto.
Qed.

Lemma leaf_there st l a ls n : sh n (TLeaf a) l -> (forall b, b ∈ l -> b ∈ ls) -> Forall (fun b => b < length st) ls -> exists es nx, st !! a = Some (Leaf es nx).
Proof.
  intros S Hs HB. destruct n; [|contradiction]. cbn in S. subst. specialize (Hs a ltac:(apply elem_of_list_singleton; reflexivity)).
  rewrite Forall_forall in HB. specialize (HB a Hs). cbn in HB. destruct (lookup_lt_is_Some_2 st a HB) as [[es nx] E]. eauto.
Qed.

Lemma two_kinds n l l' c d : sh n c l -> sh n d l' -> (exists a b, c = TLeaf a /\ d = TLeaf b) \/
  exists ka ca kb cb, c = TNode ka ca /\ d = TNode kb cb /\ length ka < length ca /\ length kb < length cb.
Proof.
  intros S S'. destruct n; destruct c, d; try contradiction; [eauto|]. right. destruct S as [L _], S' as [L' _]. eauto 10.
Qed.

Lemma min_pos m : 3 <= m -> 1 <= (m - 1) / 2.
Proof. intros Hm. apply Nat.div_le_lower_bound; lia. Qed.

Section total.
  Context (m n : nat) (ks : list val) (cs : list tree) (st : list leaf) (l : list nat).
  Context (Hm : 3 <= m) (HL : length cs = S (length ks)) (HM : many (sh n) cs l) (HB : Forall (fun a => a < length st) l).

  Lemma merge_total i : S i < length cs -> merge (ks, cs) i st <> None.
  Proof using All.
    intros Hi. unfold merge. destruct (lookup_lt_is_Some_2 cs i) as [c Ec]; [lia|]. destruct (lookup_lt_is_Some_2 cs (S i)) as [d Ed]; [lia|]. rewrite Ec, Ed.
    destruct (many_in _ _ _ _ HM (elem_of_list_lookup_2 _ _ _ Ec)) as (lc & Sc & Ic). destruct (many_in _ _ _ _ HM (elem_of_list_lookup_2 _ _ _ Ed)) as (ld & Sd & Id).
    destruct (two_kinds _ _ _ _ _ Sc Sd) as [(a & b & -> & ->)|(ka & ca & kb & cb & -> & -> & _ & _)].
    - destruct (leaf_there _ _ _ _ _ Sc Ic HB) as (ea & na & Ea). destruct (leaf_there _ _ _ _ _ Sd Id HB) as (eb & nb & Eb). rewrite Ea, Eb. discriminate.
    - unfold remove_at. destruct (lookup_lt_is_Some_2 ks i) as [s Es]; [lia|]. rewrite Es. discriminate.
  Qed.

  Lemma step_total is_root ci : ci < length cs -> rebalance_step m is_root (ks, cs) ci st <> None.
  Proof using All.
    intros Hci. pose proof (min_pos m Hm) as Hmin. unfold rebalance_step. destruct (lookup_lt_is_Some_2 cs ci Hci) as [c Ec]. rewrite Ec.
    destruct (many_in _ _ _ _ HM (elem_of_list_lookup_2 _ _ _ Ec)) as (lc & Sc & Ic).
    destruct ((m - 1) / 2 <=? keylen st c); [discriminate|].
    match goal with |- (if ?X then _ else _) <> _ => destruct X eqn:E1 end.
    { apply andb_true_iff in E1 as [E1 E2]. apply Nat.ltb_lt in E1. destruct (cs !! (ci - 1)) as [d|] eqn:Ed; [|discriminate]. apply Nat.ltb_lt in E2.
      destruct (many_in _ _ _ _ HM (elem_of_list_lookup_2 _ _ _ Ed)) as (ld & Sd & Id).
      cut (borrow_left (ks, cs) ci st <> None); [intros H; destruct (borrow_left (ks, cs) ci st) as [[[? ?] ?]|]; [discriminate|congruence]|].
      unfold borrow_left. rewrite Ec, Ed. destruct (two_kinds _ _ _ _ _ Sd Sc) as [(a & b & -> & ->)|(ka & ca & kb & cb & -> & -> & L1 & L2)].
      - destruct (leaf_there _ _ _ _ _ Sd Id HB) as (ea & na & Ea). destruct (leaf_there _ _ _ _ _ Sc Ic HB) as (eb & nb & Eb). rewrite Ea, Eb.
        cbn [keylen] in E2. unfold ents in E2. rewrite Ea in E2. cbn [lents length] in E2.
        destruct (last ea) eqn:El; [|apply last_None in El; subst; cbn [lents length] in E2; lia]. unfold set_at. destruct (Nat.ltb_spec (ci - 1) (length ks)); [discriminate|lia].
      - destruct (lookup_lt_is_Some_2 ks (ci - 1)) as [s Es]; [lia|]. rewrite Es. cbn [keylen] in E2.
        destruct (last ka) eqn:El; [|apply last_None in El; subst; cbn [lents length] in E2; lia]. destruct (last ca); discriminate. }
    match goal with |- (if ?X then _ else _) <> _ => destruct X eqn:E2 end.
    { apply andb_true_iff in E2 as [E2 E3]. apply Nat.ltb_lt in E2. destruct (cs !! S ci) as [d|] eqn:Ed; [|discriminate]. apply Nat.ltb_lt in E3.
      destruct (many_in _ _ _ _ HM (elem_of_list_lookup_2 _ _ _ Ed)) as (ld & Sd & Id).
      cut (borrow_right (ks, cs) ci st <> None); [intros H; destruct (borrow_right (ks, cs) ci st) as [[[? ?] ?]|]; [discriminate|congruence]|].
      unfold borrow_right. rewrite Ec, Ed. destruct (two_kinds _ _ _ _ _ Sc Sd) as [(a & b & -> & ->)|(ka & ca & kb & cb & -> & -> & L1 & L2)].
      - destruct (leaf_there _ _ _ _ _ Sc Ic HB) as (ea & na & Ea). destruct (leaf_there _ _ _ _ _ Sd Id HB) as (eb & nb & Eb). rewrite Ea, Eb.
        cbn [keylen] in E3. unfold ents in E3. rewrite Eb in E3. cbn [lents length] in E3.
        destruct eb as [|x [|y eb]]; [cbn [lents length] in E3; lia|cbn [lents length] in E3; lia|]. unfold set_at. destruct (Nat.ltb_spec ci (length ks)); [discriminate|lia].
      - destruct (lookup_lt_is_Some_2 ks ci) as [s Es]; [lia|]. rewrite Es. cbn [keylen] in E3. destruct kb as [|k kb]; [cbn [lents length] in E3; lia|].
        destruct cb; discriminate. }
    match goal with |- match ?X with _ => _ end <> _ => cut (X <> None); [intros H; destruct X as [[[? ?] ?]|]; [|congruence]|] end.
    { match goal with |- (if ?X then _ else _) <> _ => destruct X end; discriminate. }
    destruct (Nat.ltb_spec 0 ci); [apply merge_total; lia|]. destruct (Nat.ltb_spec ci (length cs - 1)); [apply merge_total; lia|discriminate].
  Qed.
End total.

Fixpoint goes (t : tree) (p : list nat) (a : nat) : Prop :=
  match p, t with
  | [], TLeaf b => a = b
  | ci :: p, TNode ks cs => exists c, cs !! ci = Some c /\ goes c p a
  | _, _ => False
  end.

Lemma rebalance_total m : 3 <= m -> forall path is_root t n st l a, sh n t l -> full n t -> NoDup l -> Forall (fun a => a < length st) l -> goes t path a ->
  rebalance m is_root t path st <> None.
Proof.
  intros Hm. induction path as [|ci path IH]; intros is_root t n st l a S HF HN HB G; [destruct t; discriminate|].
  destruct t as [b|ks cs]; [contradiction|]. destruct n as [|n]; [contradiction|]. destruct S as [_ HM]. destruct HF as [HL HF]. destruct G as (c & Ec & G).
  pose proof (lookup_lt_Some _ _ _ Ec) as Hci.
  destruct path as [|ci2 path]; [cbn [rebalance]; eapply step_total; eassumption|].
  cbn [rebalance]. rewrite Ec.
  change (match rebalance m false c (ci2 :: path) st with
          | None => None
          | Some (c, st, true) => rebalance_step m is_root (ks, <[ci := c]> cs) ci st
          | Some (c, st, false) => Some (TNode ks (<[ci := c]> cs), st, false)
          end <> None).
  destruct (many_split _ _ _ _ _ HM Ec) as (cs1 & cs2 & l1 & lc & l2 & -> & L1 & -> & M1 & Sc & M2).
  pose proof HN as HN'. apply NoDup_app in HN' as (_ & _ & HN'). apply NoDup_app in HN' as (HNc & _ & _).
  pose proof HB as HB'. apply Forall_app in HB' as [_ HB']. apply Forall_app in HB' as [HBc _].
  pose proof HF as HF'. apply Forall_app in HF' as [_ HF']. apply Forall_cons_1 in HF' as [HFc _].
  pose proof (IH false c n st lc a Sc HFc HNc HBc G) as HT.
  destruct (rebalance m false c (ci2 :: path) st) as [[[c' st1] go]|] eqn:ER; [|congruence].
  destruct go; [|discriminate].
  destruct (rebalance_ok m _ _ _ _ _ _ _ _ _ Sc HNc HBc ER) as (n' & lc' & extra & Sc' & V & Hf). destruct (Hf eq_refl) as [-> ->]. rewrite app_nil_r in V.
  destruct (moved_around st lc st1 lc' l1 l2 V (sh_nonempty _ _ _ Sc) HN HB) as (C' & _ & LL).
  rewrite insert_mid by lia. apply (step_total m n ks (cs1 ++ c' :: cs2) st1 (l1 ++ lc' ++ l2)); auto.
  - rewrite app_length in *. exact HL.
  - apply many_app; [exact M1|]. cbn. exists lc', l2. auto.
  - apply Forall_forall. intros b Hb. apply (ch_new _ _ _ _ _ (C' None)) in Hb as [Hb|Hb]; [|lia]. rewrite LL. rewrite Forall_forall in HB. apply HB, Hb.
  - rewrite app_length in *. exact Hci.
Qed.

Lemma search_goes n : forall fuel t ls k r st p a i, sh n t ls -> search fuel t k r st = Found p a i -> goes t p a.
Proof.
  induction n as [|n IH]; intros fuel [b|ks cs] ls k r st p a i S E; try contradiction; (destruct fuel as [|fuel]; [discriminate|]); cbn [search] in E.
  - destruct (find_pair k r (ents st b)) as [j|]; [|discriminate]. assert (p = [] /\ a = b) as [-> ->] by (split; congruence). reflexivity.
  - destruct S as [_ M]. revert E. generalize (reverse (to_visit ks (length cs) k)). intros l.
    induction l as [|ci l IHl]; intros E; [discriminate|].
    destruct (cs !! ci) as [c|] eqn:Ec; [|discriminate].
    destruct (search fuel c k r st) as [| |p' a' i'] eqn:ES; [discriminate|exact (IHl E)|].
    assert (p = ci :: p' /\ a' = a) as [-> ->] by (split; congruence). exists c. split; [exact Ec|].
    destruct (many_split _ _ _ _ _ M Ec) as (cs1 & cs2 & l1 & lc & l2 & -> & _ & -> & _ & Sc & _). eapply IH; eassumption.
Qed.

Lemma child_indices_bound k : forall ks i j, j ∈ child_indices i ks k -> j <= i + length ks.
Proof.
  induction ks as [|x ks IH]; intros i j H; cbn [child_indices] in H; [apply elem_of_nil in H; contradiction|]. cbn [length].
  destruct (holds Gt x k); [|destruct (holds Eq x k)]; rewrite ?elem_of_cons in H.
  - destruct H as [->|H]; [lia|]. apply IH in H. lia.
  - destruct H as [->|[->|H]]; [lia|lia|]. apply IH in H. lia.
  - apply IH in H. lia.
Qed.
Lemma child_indices_in k x ks2 : holds Gt x k = true \/ holds Eq x k = true -> forall ks1 i, i + length ks1 ∈ child_indices i (ks1 ++ x :: ks2) k.
Proof.
  intros Hx. induction ks1 as [|y ks1 IH]; intros i; cbn [app child_indices length].
  - rewrite Nat.add_0_r. destruct (holds Gt x k); [apply elem_of_cons; auto|]. destruct Hx as [Hx|Hx]; [discriminate|]. rewrite Hx. apply elem_of_cons. auto.
  - replace (i + S (length ks1)) with (S i + length ks1) by lia. specialize (IH (S i)).
    destruct (holds Gt y k); [apply elem_of_cons; auto|]. destruct (holds Eq y k); [rewrite !elem_of_cons; auto|exact IH].
Qed.
Lemma to_visit_bound ks n k j : n = S (length ks) -> j ∈ to_visit ks n k -> j < n.
Proof.
  intros Hn H. unfold to_visit in H. destruct (bool_decide _); [|apply elem_of_app in H as [H|H]]; try (apply child_indices_bound in H; lia).
  apply elem_of_list_singleton in H. lia.
Qed.
Lemma to_visit_last ks n k : n - 1 ∈ to_visit ks n k.
Proof. unfold to_visit. case_bool_decide as H; [exact H|]. apply elem_of_app. right. apply elem_of_list_singleton. reflexivity. Qed.
Lemma to_visit_in ks n k j : j ∈ child_indices 0 ks k -> j ∈ to_visit ks n k.
Proof. intros H. unfold to_visit. destruct (bool_decide _); [exact H|]. apply elem_of_app. auto. Qed.

Lemma find_pair_in T k r es : of_type T k -> (k, r) ∈ es -> exists i, find_pair k r es = Some i.
Proof.
  intros Tk. induction es as [|[k' r'] es IH]; intros H; [apply elem_of_nil in H; contradiction|]. cbn [find_pair].
  destruct (holds Eq k' k && bool_decide (r' = r)) eqn:EH; [eauto|]. apply elem_of_cons in H as [H|H].
  - assert (k' = k /\ r' = r) as [-> ->] by (split; congruence). rewrite bool_decide_eq_true_2 in EH by reflexivity.
    assert (EE : holds Eq k k = true) by (apply (holds_eq T); auto). rewrite EE in EH. discriminate.
  - destruct (IH H) as [i ->]. cbn. eauto.
Qed.

Section built.
  Context (T : tid) (m e : nat) (R : val -> val -> Prop).
  Local Notation ok := (ok T m e R).

  Lemma all_many st n (IH : forall lo hi t ls, ok st n lo hi t ls -> sh n t ls /\ full n t) lo hi ks cs ls :
    all (ok st n) lo hi ks cs ls -> many (sh n) cs ls /\ Forall (full n) cs.
  Proof.
    assert (A : forall ks cs ls, after (ok st n) hi ks cs ls -> many (sh n) cs ls /\ Forall (full n) cs).
    { induction ks0 as [|k ks0 IHk]; intros [|c cs0] ls0 A; try contradiction; [split; [exact A|constructor]|].
      destruct A as (l & l' & -> & O & A). apply IH in O as [O1 O2]. apply IHk in A as [A1 A2]. split; [exists l, l'; auto|constructor; assumption]. }
    destruct cs as [|c cs]; [contradiction|]. intros (l & l' & -> & O & H). apply IH in O as [O1 O2]. apply A in H as [A1 A2].
    split; [exists l, l'; auto|constructor; assumption].
  Qed.
  Lemma ok_sh st n : forall lo hi t ls, ok st n lo hi t ls -> sh n t ls /\ full n t.
  Proof.
    induction n as [|n IH]; intros lo hi [a|ks cs] ls O; try contradiction.
    - destruct O as [-> _]. split; [reflexivity|exact I].
    - destruct O as [_ A]. pose proof (all_length _ _ _ _ _ _ A) as L. apply all_many in A as [M F]; [|exact IH].
      split; [split; [lia|exact M]|split; assumption].
  Qed.

  Lemma search_ok st k r (Tk : of_type T k) n : forall fuel lo hi t ls, n < fuel -> ok st n lo hi t ls ->
    search fuel t k r st <> Panicked /\ ((k, r) ∈ flat st ls -> search fuel t k r st <> NotFound).
  Proof.
    induction n as [|n IH]; intros fuel lo hi [a|ks cs] ls Hf O; try contradiction; (destruct fuel as [|fuel]; [lia|]); cbn [search].
    - destruct O as [-> _]. split; [destruct (find_pair k r (ents st a)); discriminate|].
      unfold flat. cbn. rewrite app_nil_r. intros H. destruct (find_pair_in T k r _ Tk H) as [i ->]. discriminate.
    - destruct O as [G A]. pose proof (all_length _ _ _ _ _ _ A) as L.
      match goal with |- ?g _ <> _ /\ _ => set (go := g) end.
      assert (HG : forall l, Forall (fun j => j < length cs) l -> go l <> Panicked /\
                     ((exists j c, j ∈ l /\ cs !! j = Some c /\ search fuel c k r st <> NotFound) -> go l <> NotFound)).
      { induction l as [|j l IHl]; intros HB; [split; [discriminate|intros (j & c & H & _); apply elem_of_nil in H; contradiction]|].
        apply Forall_cons_1 in HB as [Hj HB]. destruct (IHl HB) as [I1 I2]. cbn. destruct (lookup_lt_is_Some_2 cs j Hj) as [c Ec]. rewrite Ec.
        destruct (all_split _ _ _ _ _ _ _ _ A Ec) as (ks1 & ks2 & cs1 & cs2 & l1 & lc & l2 & _ & _ & _ & _ & _ & _ & Oc & _).
        destruct (IH fuel _ _ c lc ltac:(lia) Oc) as [J1 _].
        destruct (search fuel c k r st) eqn:ES; [congruence| |split; discriminate]. split; [exact I1|]. intros (j' & c' & Hj' & Ec' & Hs).
        apply elem_of_cons in Hj' as [->|Hj']; [congruence|]. apply I2. eauto. }
      destruct (HG (reverse (to_visit ks (length cs) k))) as [H1 H2].
      { apply Forall_forall. intros j Hj. rewrite elem_of_reverse in Hj. eapply to_visit_bound; eassumption. }
      split; [exact H1|]. intros Hin. apply H2. clear H1 H2 HG go.
      (* the child that holds the pair *)
      assert (HC : exists j c ks1 ks2 lc, cs !! j = Some c /\ ks = ks1 ++ ks2 /\ length ks1 = j /\ ok st n (last_key ks1 lo) (first_key ks2 hi) c lc /\ (k, r) ∈ flat st lc).
      { destruct (all_many st n (ok_sh st n) _ _ _ _ _ A) as [M _].
        assert (X : exists j c, cs !! j = Some c /\ forall l, sh n c l -> True) by (destruct cs as [|c cs]; [discriminate|exists 0, c; auto]). clear X.
        assert (Y : exists a, a ∈ ls /\ (k, r) ∈ ents st a).
        { unfold flat in Hin. apply elem_of_list_In, in_concat in Hin as (x & Hx & Hk). apply in_map_iff in Hx as (a & <- & Ha). exists a. rewrite !elem_of_list_In. auto. }
        destruct Y as (a & Ha & Hk). clear Hin.
        assert (Z : exists j c l1 lc l2, cs !! j = Some c /\ ls = l1 ++ lc ++ l2 /\ sh n c lc /\ a ∈ lc).
        { clear A L IH G. revert ls M Ha. induction cs as [|c cs0 IHc]; intros ls M Ha; [cbn in M; subst; apply elem_of_nil in Ha; contradiction|].
          destruct M as (l & l' & -> & Sc & M). apply elem_of_app in Ha as [Ha|Ha]; [exists 0, c, [], l, l'; auto|].
          destruct (IHc l' M Ha) as (j & c' & l1 & lc & l2 & E & -> & S' & H'). exists (S j), c', (l ++ l1), lc, l2. rewrite <- app_assoc. auto. }
        destruct Z as (j & c & la & lc & lb & Ec & _ & Sc & Hac).
        destruct (all_split _ _ _ _ _ _ _ _ A Ec) as (ks1 & ks2 & cs1 & cs2 & l1 & lc' & l2 & E1 & _ & E3 & _ & _ & _ & Oc & _).
        exists j, c, ks1, ks2, lc'. split; [exact Ec|]. split; [exact E1|]. split; [exact E3|]. split; [exact Oc|].
        assert (lc' = lc) as ->.
        { destruct (ok_sh _ _ _ _ _ _ Oc) as [Sc' _]. clear - Sc Sc'. revert c lc lc' Sc Sc'. induction n as [|n IHn]; intros [a|ks cs] lc lc' S S'; try contradiction; [cbn in *; congruence|].
          destruct S as [_ M], S' as [_ M']. revert lc lc' M M'. induction cs as [|c cs IHc]; intros lc lc' M M'; [cbn in *; congruence|].
          destruct M as (x & y & -> & X & Y), M' as (x' & y' & -> & X' & Y'). f_equal; [eapply IHn; eassumption|eapply IHc; eassumption]. }
        unfold flat. apply elem_of_list_In, in_concat. exists (ents st a). split; [apply in_map, elem_of_list_In, Hac|apply elem_of_list_In, Hk]. }
      destruct HC as (j & c & ks1 & ks2 & lc & Ec & -> & <- & Oc & Hc).
      exists (length ks1), c. split; [|split; [exact Ec|apply (IH fuel _ _ c lc ltac:(lia) Oc), Hc]].
      rewrite elem_of_reverse. destruct ks2 as [|x ks2].
      + rewrite app_nil_r in L |- *. replace (length ks1) with (length cs - 1) by lia. apply to_visit_last.
      + apply to_visit_in. change (length ks1) with (0 + length ks1). apply child_indices_in.
        apply ok_within in Oc. rewrite Forall_forall in Oc. destruct (Oc k) as (_ & _ & Hu).
        { unfold keys. change k with (fst (k, r)). apply elem_of_list_In, in_map, elem_of_list_In, Hc. }
        assert (Tx : of_type T x). { pose proof (g_type _ _ _ _ _ _ _ G) as GT. apply Forall_app in GT as [_ GT]. apply Forall_cons_1 in GT as [GT _]. exact GT. }
        cbn in Hu. apply kle_cases in Hu as [Hu| ->]; [left; apply (holds_gt T); auto|right; apply (holds_eq T); auto].
  Qed.

  Lemma inv_holding ix F : inv T m e R ix F -> holding ix F.
  Proof.
    intros (n & ls & O & HN & HB & C & HF). exists n, ls, []. rewrite app_nil_r. destruct (ok_sh _ _ _ _ _ _ O) as [S _]. auto.
  Qed.

  Lemma delete_answers ix F k r : 3 <= m -> inv T m e R ix F -> of_type T k ->
    exists b ix', delete m ix k r = Some (b, ix') /\ (b = true <-> (k, r) ∈ F).
  Proof.
    intros Hm (n & ls & O & HN & HB & C & <-) Tk. unfold delete. destruct (ok_sh _ _ _ _ _ _ O) as [S HF].
    destruct (search_ok (store ix) k r Tk n (Datatypes.S (depth (root ix))) None None (root ix) ls) as [H1 H2]; [rewrite (sh_depth _ _ _ S); lia|exact O|].
    destruct (search _ (root ix) k r (store ix)) as [| |path a i] eqn:ES; [congruence| |].
    { exists false, ix. split; [reflexivity|]. split; [discriminate|]. intros H. destruct (H2 H eq_refl). }
    destruct (search_found _ _ _ _ _ _ _ _ _ _ S ES) as [Ha Hp].
    pose proof HB as HB'. rewrite Forall_forall in HB'. specialize (HB' a Ha). cbn in HB'. destruct (lookup_lt_is_Some_2 _ _ HB') as [[es nx] Ea]. rewrite Ea.
    assert (Hin : (k, r) ∈ flat (store ix) ls).
    { unfold flat. apply elem_of_list_In, in_concat. exists (ents (store ix) a). split; [apply in_map, elem_of_list_In, Ha|].
      apply elem_of_list_In. eapply elem_of_list_lookup_2. apply (find_pair_at T); [exact Tk| |exact Hp].
      apply ok_within in O. clear - O Ha. apply Forall_forall. intros x Hx. rewrite Forall_forall in O. apply O.
      apply elem_of_list_In in Hx, Ha. apply elem_of_list_In. unfold keys in *. apply in_map_iff in Hx as (y & <- & Hy). apply in_map.
      unfold flat. apply in_concat. exists (ents (store ix) a). split; [apply in_map, Ha|exact Hy]. }
    match goal with |- context [if ?X then _ else _] => destruct X end.
    - pose proof (rebalance_total m Hm path true (root ix) n (<[a := Leaf (take i es ++ drop (Datatypes.S i) es) nx]> (store ix)) ls a S HF HN) as HT.
      rewrite insert_length in HT. specialize (HT HB (search_goes _ _ _ _ _ _ _ _ _ _ S ES)).
      destruct (rebalance m true (root ix) path _) as [[[t' st'] go]|]; [|congruence]. exists true. eexists. split; [reflexivity|]. split; auto.
    - exists true. eexists. split; [reflexivity|]. split; auto.
  Qed.
End built.
