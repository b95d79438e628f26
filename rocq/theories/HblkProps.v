(** * C115: a hash block page holds the pairs that were put in *)
From Coq Require Import NArith Lia Bool.
From stdpp Require Import list.
From Verif Require Import HblkSpec HblkModel HblkProofs.

Section Props.
Context {K V : Type} (cmp : K -> K -> bool) (veq : V -> V -> bool) (dflt : K * V).
Notation page := (HblkModel.page K V).
Notation serve := (HblkModel.serve cmp veq dflt).
Notation held := (HblkSpec.held cmp veq).
Notation get_value := (HblkModel.get_value cmp dflt).
Notation insert := (HblkModel.insert cmp dflt).
Notation page_of := (HblkProofs.page_of cmp veq dflt).
Notation sched := (HblkModel.sched cmp dflt).

(** A page of [n] slots is never stuck: every history of requests is answered. A lookup returns the values of the pairs held,
    oldest first; the count is their number; a removal finds the pair if it is there; an insertion is accepted if the key is
    not there and fewer than [n] insertions were accepted before. *)
Theorem c115_answers n l :
  0 < n ->
  exists h p, page_of n h p /\ map fst h = l
    /\ forall h1 o a h2, h = h1 ++ (o, a) :: h2 ->
         a = match o with
             | Get k => AVals (values_of cmp k (held h1))
             | Count => ANum (length (held h1))
             | Remove k v => ABool (has_pair cmp veq k v (held h1))
             | Insert k v => ABool (negb (has_key cmp k (held h1)) && (accepted h1 <? n))
             end.
Proof.
  intro Hn. destruct n as [|m]; [lia|]. destruct (page_new dflt (S m)) as [p0|] eqn:Hnew; [|discriminate].
  destruct (new_wf dflt _ _ Hnew) as (Hw & Hc & Hl).
  destruct (serve_spec cmp veq dflt l p0 0 Hw) as (h & p & Hs & Hc2 & Hm & _ & _).
  exists h, p. split; [exists p0; rewrite Hm; easy|]. split; [easy|].
  clear Hn. rewrite <- Hc. clear Hc Hc2 Hnew.
  assert (Hgen : forall l p0 m0 b h p, wf p0 m0 -> live dflt p0 = b -> serve l p0 = Some (h, p) ->
    forall h1 o a h2, h = h1 ++ (o, a) :: h2 ->
      a = match o with
          | Get k => AVals (values_of cmp k (fold_left (after cmp veq) h1 b))
          | Count => ANum (length (fold_left (after cmp veq) h1 b))
          | Remove k v => ABool (has_pair cmp veq k v (fold_left (after cmp veq) h1 b))
          | Insert k v => ABool (negb (has_key cmp k (fold_left (after cmp veq) h1 b)) && (m0 + accepted h1 <? cap p0))
          end).
  { clear. induction l as [|o l IH]; intros p0 m0 b h p Hw Hb Hs h1 o1 a h2 Hh; cbn [HblkModel.serve] in Hs.
    - assert (h = []) by congruence. subst. destruct h1; discriminate.
    - destruct (step_spec cmp veq dflt o p0 m0 Hw) as (a0 & p2 & Hst & Hc & Hl & Hw2 & Ha0). rewrite Hst in Hs.
      destruct (serve l p2) as [[h3 p3]|] eqn:Hs3; [|discriminate]. assert (Hhh : h = (o, a0) :: h3) by congruence. rewrite Hhh in Hh. clear Hhh.
      destruct h1 as [|e h1]; cbn [app] in Hh.
      + assert (o1 = o) by congruence. assert (a = a0) by congruence. subst o1 a. cbn [fold_left]. unfold accepted; cbn [List.filter length].
        rewrite Nat.add_0_r, <- Hb. exact Ha0.
      + assert (e = (o, a0)) by congruence. assert (h3 = h1 ++ (o1, a) :: h2) by congruence. subst e.
        cbn [fold_left]. rewrite accepted_cons, Nat.add_assoc, <- Hc. rewrite <- Hb, <- Hl. eapply IH; eauto. }
  intros h1 o a h2 Hh. exact (Hgen l p0 0 [] h p Hw Hl Hs h1 o a h2 Hh).
Qed.

(** As long as nothing was removed: an insertion is accepted exactly if the key is not there and a slot is left. *)
Theorem c115_insert_partial n h p k v :
  page_of n h p -> forallb (fun e => negb (is_remove e.1)) h = true ->
  (insert k v p).1 = Ret (negb (has_key cmp k (held h)) && (length (held h) <? n)).
Proof.
  intros Hp Hno. destruct (page_of_wf cmp veq dflt n h p Hp) as (Hw & Hc & Hl).
  destruct (insert_spec cmp dflt k v p _ Hw) as (p2 & -> & _ & _). cbn [fst]. rewrite Hl, Hc. do 3 f_equal.
  assert (Hg : forall b, length (fold_left (after cmp veq) h b) = length b + accepted h).
  { clear -Hno. induction h as [|[o a] h IH]; intro b; cbn [fold_left]; [unfold accepted; cbn; lia|].
    cbn [forallb fst] in Hno. apply andb_true_iff in Hno as [Ho Hno]. rewrite (IH Hno), accepted_cons.
    destruct o as [k v|k v|k|]; [|discriminate | |]; unfold accepted; destruct a as [[]| |]; cbn [after List.filter length]; rewrite ?app_length; cbn [length]; lia. }
  unfold HblkSpec.held. rewrite Hg. easy.
Qed.

(** A slot is never used again: a pair put in and taken out [n] times leaves an empty page that accepts nothing. *)
Fixpoint put_take (n : nat) (k : K) (v : V) : list (op K V * ans V) :=
  match n with O => [] | S n => (Insert k v, ABool true) :: (Remove k v, ABool true) :: put_take n k v end.
Theorem c115_reuse_refuted n k v :
  0 < n -> cmp k k = true -> veq v v = true ->
  exists p, page_of n (put_take n k v) p /\ held (put_take n k v) = [] /\ num_readable p = 0
    /\ (forall k2 v2, insert k2 v2 p = (Ret false, p)).
Proof.
  intros Hn Hk Hv.
  assert (Hrun : forall a p m, wf p m -> live dflt p = [] -> m + a <= cap p ->
            exists p2, serve (map fst (put_take a k v)) p = Some (put_take a k v, p2) /\ wf p2 (m + a) /\ live dflt p2 = [] /\ cap p2 = cap p).
  { clear Hn. induction a as [|a IH]; intros p m Hw Hl Hm; cbn [put_take map HblkModel.serve fst].
    - exists p. rewrite Nat.add_0_r. easy.
    - destruct (step_spec cmp veq dflt (Insert k v) p m Hw) as (a1 & p1 & -> & Hc1 & Hl1 & Hw1 & Ha1).
      rewrite Hl in Ha1. replace (m <? cap p) with true in Ha1 by (symmetry; apply Nat.ltb_lt; lia). cbn in Ha1. subst a1.
      rewrite Hl in Hl1. cbn [after app] in Hl1.
      destruct (step_spec cmp veq dflt (Remove k v) p1 _ Hw1) as (a2 & p2 & -> & Hc2 & Hl2 & Hw2 & Ha2).
      rewrite Hl1 in Ha2, Hl2. unfold has_pair in Ha2. cbn [existsb fst snd] in Ha2. rewrite Hk, Hv in Ha2. cbn in Ha2. subst a2.
      cbn [after drop_pair fst snd] in Hl2. rewrite Hk, Hv in Hl2. cbn in Hl2.
      unfold accepted in Hw2; cbn in Hw2. rewrite Nat.add_0_r in Hw2.
      destruct (IH p2 _ Hw2 Hl2 ltac:(lia)) as (p3 & -> & Hw3 & Hl3 & Hc3).
      exists p3. replace (m + S a) with (m + 1 + a) by lia. split; [easy|]. split; [easy|]. split; [easy | lia]. }
  destruct n as [|n]; [lia|]. destruct (page_new dflt (S n)) as [p0|] eqn:Hnew; [|discriminate].
  destruct (new_wf dflt _ _ Hnew) as (Hw & Hc & Hl).
  destruct (Hrun (S n) p0 0 Hw Hl ltac:(lia)) as (p & Hs & Hwp & Hlp & Hcp).
  exists p. split; [exists p0; easy|]. split.
  - clear -Hk Hv. unfold HblkSpec.held. generalize (S n). clear n. intro n. induction n as [|n IH]; [easy|].
    cbn [put_take fold_left after app drop_pair fst snd]. rewrite Hk, Hv. cbn [andb]. exact IH.
  - split; [rewrite (count_live dflt), Hlp; easy|].
    intros k2 v2. destruct (insert_spec cmp dflt k2 v2 p _ Hwp) as (p2 & -> & _ & Hd).
    replace (0 + S n <? cap p) with false in * by (symmetry; apply Nat.ltb_ge; lia). rewrite andb_false_r in *. subst. easy.
Qed.

(** The page is described as supporting non-unique keys: a second value for a key is refused, although there is room. *)
Theorem c115_nonunique_refuted n k v w :
  1 < n -> cmp k k = true ->
  exists p, page_of n [(Insert k v, ABool true); (Insert k w, ABool false); (Get k, AVals [v]); (Count, ANum 1)] p.
Proof.
  intros Hn Hk. destruct (c115_answers n [Insert k v; Insert k w; Get k; Count] ltac:(lia)) as (h & p & Hp & Hm & Ha).
  destruct h as [|[o1 a1] [|[o2 a2] [|[o3 a3] [|[o4 a4] [|]]]]]; try discriminate. cbn in Hm. injection Hm as -> -> -> ->.
  pose proof (Ha [] _ _ _ eq_refl) as E1. unfold accepted in E1; cbn in E1.
  destruct n as [|n]; [lia|]. subst a1.
  pose proof (Ha [_] _ _ _ eq_refl) as E2. unfold HblkSpec.held, has_key in E2. cbn in E2. rewrite Hk in E2. cbn in E2. subst a2.
  pose proof (Ha [_; _] _ _ _ eq_refl) as E3. unfold HblkSpec.held, values_of in E3. cbn in E3. rewrite Hk in E3. cbn in E3. subst a3.
  pose proof (Ha [_; _; _] _ _ _ eq_refl) as E4. unfold HblkSpec.held in E4. cbn in E4. subst a4.
  exists p. exact Hp.
Qed.

(** The flags past the last slot are never set. *)
Lemma past_end n h p i : page_of n h p -> n <= i -> bit (p_occ p) i = false.
Proof.
  intros (p0 & Hnew & Hs). destruct (new_wf dflt _ _ Hnew) as (Hw & Hc & _). intro Hi. rewrite <- Hc in Hi.
  assert (H0 : bit (p_occ p0) i = false).
  { destruct n as [|m]; [discriminate|]. cbn [page_new] in Hnew.
    assert (p0 = Page (repeat 0%N (m / 8 + 1)) (repeat 0%N (m / 8 + 1)) (repeat dflt (S m)) false) as -> by congruence. apply bit_zeros. }
  assert (Hgen : forall l p0 h p, cap p0 <= i -> bit (p_occ p0) i = false -> serve l p0 = Some (h, p) -> bit (p_occ p) i = false).
  { clear. induction l as [|o l IH]; intros p0 h p Hi H0 Hs; cbn [HblkModel.serve] in Hs; [congruence|].
    destruct (HblkModel.step cmp veq dflt o p0) as [[|a] p1] eqn:Hst; [discriminate|].
    destruct (serve l p1) as [[h3 p3]|] eqn:Hs3; [|discriminate]. assert (p3 = p) by congruence. subst p3.
    assert (H1 : cap p1 <= i /\ bit (p_occ p1) i = false); [|destruct H1; eapply IH; eauto].
    destruct o as [k v|k v|k|]; cbn [HblkModel.step] in Hst.
    - unfold HblkModel.insert in Hst. destruct (is_full p0); [split; congruence|]. destruct (locked_out p0); [discriminate|].
      destruct (existsb _ _); [split; congruence|]. destruct (find _ _) as [j|] eqn:Hf; [|split; congruence].
      destruct (find_some_split _ _ _ Hf) as (l1 & l2 & Hsq & _ & _).
      assert (Hj : j < cap p0) by (assert (In j (seq 0 (cap p0))) as Hin by (rewrite Hsq; apply in_or_app; right; left; easy); apply in_seq in Hin; lia).
      unfold insert_at in Hst. destruct (Nat.leb_spec (length (p_occ p0)) (j / 8)); [discriminate|].
      destruct (bit (p_occ p0) j); [split; congruence|]. destruct (p_poison p0); [discriminate|]. destruct (cap p0 <=? j); [discriminate|].
      assert (p1 = Page (set_bit (p_occ p0) j) (set_bit (p_rea p0) j) (<[j:=(k, v)]> (p_arr p0)) false) as -> by congruence.
      unfold cap in *. cbn [p_arr p_occ]. rewrite insert_length, bit_set by easy. split; [easy|].
      destruct (Nat.eqb_spec i j); [lia | easy].
    - unfold HblkModel.remove in Hst. destruct (locked_out p0); [discriminate|]. destruct (find _ _) as [j|]; [|split; congruence].
      assert (p1 = (remove_at j p0).2) as -> by congruence. unfold remove_at. destruct (length (p_rea p0) <=? j / 8); easy.
    - destruct (get_value k p0); [discriminate|]. split; congruence.
    - split; congruence. }
  eapply Hgen; eauto.
Qed.

(** Inserting at the slot just past the end of a page whose size is not a multiple of 8 panics, and if the page holds anything,
    every later lookup panics too. *)
Theorem c115_past_end_refuted n h p k v :
  page_of n h p -> n mod 8 <> 0 -> held h <> [] ->
  exists p2, insert_at n k v p = (Panic, p2) /\ forall k2, get_value k2 p2 = Panic.
Proof.
  intros Hp Hmod Hne. destruct (page_of_wf cmp veq dflt n h p Hp) as (Hw & Hc & Hl).
  unfold insert_at.
  assert (Hd : n / 8 < length (p_occ p)).
  { pose proof (wf_occl _ _ Hw). rewrite Hc in *. pose proof (Nat.div_mod n 8 ltac:(lia)). lia. }
  replace (length (p_occ p) <=? n / 8) with false by (symmetry; apply Nat.leb_gt; lia).
  rewrite (past_end n h p n Hp) by lia. rewrite (wf_poison _ _ Hw), Hc.
  replace (n <=? n) with true by (symmetry; apply Nat.leb_le; lia).
  eexists; split; [reflexivity|]. intro k2. unfold HblkModel.get_value, locked_out. cbn [p_poison p_rea andb].
  change (cap (Page (p_occ p) (p_rea p) (p_arr p) true)) with (cap p).
  destruct (existsb (bit (p_rea p)) (seq 0 (cap p))) eqn:He; [easy|]. exfalso. apply Hne. rewrite <- Hl. unfold live.
  rewrite filter_nil; [easy|]. intros x Hx. apply not_true_iff_false. intro Hb. apply not_true_iff_false in He. apply He.
  apply existsb_exists. eauto.
Qed.

(** ** Several threads *)

(** A thread alone does what [insert] does. *)
Theorem c115_alone n h p k v b p2 :
  page_of n h p -> insert k v p = (Ret b, p2) ->
  exists a, sched (repeat 0 a) ([starting (k, v)], p) = ([((k, v), PDone b)], p2).
Proof.
  intros Hp Hi. destruct (page_of_wf cmp veq dflt n h p Hp) as (Hw & Hc & Hl).
  assert (0 < cap p) by (destruct Hp as (p0 & Hnew & _); destruct n; [discriminate | lia]).
  destruct (alone_insert cmp dflt k v p b p2 ltac:(easy) (wf_poison _ _ Hw) (wf_occl _ _ Hw) Hi) as [a Ha].
  exists a. rewrite (sched_repeat cmp dflt a 0 (k, v) (PFull 0 0)) by easy. cbn [fst snd]. rewrite Ha. easy.
Qed.

Lemma wf_sized (p : page) m : wf p m -> sized (cap p) p.
Proof. intro H. split; [easy|]. split; [apply (wf_occl _ _ H) | apply (wf_real _ _ H)]. Qed.
Lemma sched_poison l s : p_poison (sched l s).2 = p_poison s.2.
Proof.
  apply (sched_ind cmp dflt (fun s' => p_poison s'.2 = p_poison s.2)); [|easy].
  intros s1 t <-. unfold sched1. destruct (s1.1 !! t) as [[e c]|]; [|easy].
  destruct c; cbn [tstep]; repeat case_match; cbn in *; try easy; congruence.
Qed.

(** Whatever the schedule of any number of insertions, at any moment a lookup still finds every value that was there before
    they began, and finds no value that was neither there nor among those being inserted. *)
Theorem c115_kept n h p es l k :
  page_of n h p ->
  let '(_, q) := sched l (map starting es, p) in
  exists vs, get_value k q = Ret vs
    /\ (forall v, In v (values_of cmp k (held h)) -> In v vs)
    /\ (forall v, In v vs -> In v (values_of cmp k (held h)) \/ exists k2, In (k2, v) es /\ cmp k2 k = true).
Proof.
  intro Hp. destruct (page_of_wf cmp veq dflt n h p Hp) as (Hw & Hc & Hl).
  pose proof (kept_start dflt p n es ltac:(rewrite <- Hc; eapply wf_sized; eauto)) as Hk0.
  pose proof (sched_ind cmp dflt (kept dflt p n es) l _ (fun s t => kept_step cmp dflt p n es s t) Hk0) as Hk.
  pose proof (sched_poison l (map starting es, p)) as Hpo. cbn [snd] in Hpo. rewrite (wf_poison _ _ Hw) in Hpo.
  destruct (sched l (map starting es, p)) as [ts q]. destruct Hk as ((Hcq & _) & _ & Hold & Hrea & Hnew & _). cbn [fst snd] in *.
  unfold HblkModel.get_value, locked_out. rewrite Hpo. cbn [andb]. eexists; split; [reflexivity|]. rewrite <- Hl. unfold values_of, live.
  split.
  - intros v (e & <- & He)%in_map_iff. apply filter_In in He as [He Hcmp]. apply in_map_iff in He as (i & <- & Hi).
    apply filter_In in Hi as [Hi Hb]. apply in_seq in Hi. rewrite Hc in Hi.
    assert (Hocc : bit (p_occ p) i = true).
    { rewrite (wf_occ _ _ Hw) by lia. apply Nat.ltb_lt. apply (wf_rea _ _ Hw); [lia | easy]. }
    destruct (Hold i ltac:(lia) Hocc) as [_ Hs]. apply in_map_iff. exists i. rewrite Hs. split; [easy|].
    apply filter_In. split; [apply in_seq; lia|]. unfold key_here. rewrite (Hrea i), Hs by (lia || easy). easy.
  - intros v (i & <- & Hi)%in_map_iff. apply filter_In in Hi as [Hi [Hb Hcmp]%andb_true_iff]. apply in_seq in Hi. rewrite Hcq in Hi.
    destruct (Hnew i ltac:(lia) Hb) as [Hr | [Hf Hin]].
    + left. assert (Hocc : bit (p_occ p) i = true).
      { rewrite (wf_occ _ _ Hw) by lia. apply Nat.ltb_lt. apply (wf_rea _ _ Hw); [lia | easy]. }
      destruct (Hold i ltac:(lia) Hocc) as [_ Hs]. rewrite Hs in *. apply in_map. apply filter_In. split; [|easy].
      apply in_map. apply filter_In. split; [apply in_seq; lia | easy].
    + right. destruct (slot dflt q i) as [k2 v2] eqn:Es. exists k2. split; easy.
Qed.

(** Insertions at different free slots are independent, whatever the schedule, although the slots share their flags' bytes:
    when all have returned, all have succeeded and every pair is readable at its slot. *)
Theorem c115_apart n h p (es : list (K * V)) (f : nat -> nat) l :
  page_of n h p ->
  (forall t, t < length es -> accepted h <= f t < n) -> (forall t u, t < length es -> u < length es -> f t = f u -> t = u) ->
  let '(ts, q) := sched l (imap (fun t e => (e, PAt (f t))) es, p) in
  forall t e c, ts !! t = Some (e, c) -> (exists b, c = PDone b) ->
    c = PDone true /\ es !! t = Some e /\ bit (p_rea q) (f t) = true /\ slot dflt q (f t) = e.
Proof.
  intros Hp Hfree Hinj. destruct (page_of_wf cmp veq dflt n h p Hp) as (Hw & Hc & Hl).
  set (I := fun s : list (K * V * pc) * page => apart dflt n p f s /\ length s.1 = length es /\ map fst s.1 = es).
  assert (HI : I (sched l (imap (fun t e => (e, PAt (f t))) es, p))).
  { apply sched_ind.
    - intros s t (Ha & Hlen & Hm). destruct (apart_step cmp dflt n p f s t) as [Ha2 Hlen2]; [rewrite Hlen; exact Hinj | exact Ha|].
      split; [easy|]. split; [lia|]. rewrite <- Hm. unfold sched1. destruct (s.1 !! t) as [[e c]|] eqn:Ht; [|easy].
      destruct (tstep cmp dflt e.1 e.2 c s.2) as [c2 p2]. cbn [fst]. change (map fst) with (fmap (M := list) (@fst (K * V) pc)).
      rewrite list_fmap_insert. apply list_insert_id. rewrite list_lookup_fmap, Ht. easy.
    - split; [|cbn [fst]; split; [apply imap_length|]].
      + split; [cbn [snd]; rewrite <- Hc; eapply wf_sized; eauto|]. split; [easy|]. cbn [fst snd].
        intros t e c Ht. rewrite list_lookup_imap in Ht. destruct (es !! t) as [e0|] eqn:He; [|discriminate]. cbn in Ht. injection Ht as <- <-.
        assert (t < length es) as Hlt by (apply lookup_lt_is_Some; eauto). specialize (Hfree t Hlt). split; [lia|]. split; [easy|].
        rewrite (wf_occ _ _ Hw) by lia. apply Nat.ltb_ge. lia.
      + change (map fst) with (fmap (M := list) (@fst (K * V) pc)). rewrite fmap_imap. apply list_eq. intro i. rewrite list_lookup_imap. destruct (es !! i); easy. }
  destruct (sched l (imap (fun t e => (e, PAt (f t))) es, p)) as [ts q]. destruct HI as ((_ & _ & Hth) & _ & Hm). cbn [fst snd] in *.
  intros t e c Ht [b ->]. destruct (Hth t e _ Ht) as [_ (-> & Hs & _ & Hr)]. split; [easy|]. split; [|easy].
  rewrite <- Hm. change (map fst) with (fmap (M := list) (@fst (K * V) pc)). rewrite list_lookup_fmap, Ht. easy.
Qed.

(** The page after the flags of one more slot are set. *)
Lemma after_insert p m k v :
  wf p m -> m < cap p ->
  let p2 := Page (set_bit (p_occ p) m) (set_bit (p_rea p) m) (<[m := (k, v)]> (p_arr p)) false in
  wf p2 (S m) /\ live dflt p2 = live dflt p ++ [(k, v)] /\ cap p2 = cap p.
Proof.
  intros Hw Hm. set (cmp0 := fun _ _ : K => false).
  destruct (insert_spec cmp0 dflt k v p m Hw) as (p2 & Hi & Hc & Hd).
  assert (Hnk : has_key cmp0 k (live dflt p) = false).
  { unfold has_key, cmp0. clear. induction (live dflt p) as [|x l IH]; cbn; easy. }
  rewrite Hnk in *. replace (m <? cap p) with true in * by (symmetry; apply Nat.ltb_lt; lia). cbn [negb andb] in *. destruct Hd as [Hw2 Hl2].
  assert (p2 = Page (set_bit (p_occ p) m) (set_bit (p_rea p) m) (<[m := (k, v)]> (p_arr p)) false) as <-; [|easy].
  unfold HblkModel.insert in Hi. destruct (is_full p); [congruence|]. destruct (locked_out p); [discriminate|].
  destruct (existsb _ _); [congruence|].
  rewrite (find_seq _ m) with (s := 0) in Hi; [|lia | lia | intros i Hi2; rewrite (wf_occ _ _ Hw) by lia; apply negb_false_iff, Nat.ltb_lt; lia
                                          | rewrite (wf_occ _ _ Hw) by lia; apply negb_true_iff, Nat.ltb_ge; lia].
  unfold insert_at in Hi. destruct (length (p_occ p) <=? m / 8); [discriminate|]. destruct (bit (p_occ p) m); [congruence|].
  destruct (p_poison p); [discriminate|]. destruct (cap p <=? m); [discriminate|]. congruence.
Qed.
Lemma get_after_insert p m k v k2 :
  wf p m -> m < cap p ->
  get_value k2 (Page (set_bit (p_occ p) m) (set_bit (p_rea p) m) (<[m := (k, v)]> (p_arr p)) false)
  = Ret (values_of cmp k2 (live dflt p ++ [(k, v)])).
Proof. intros Hw Hm. destruct (after_insert p m k v Hw Hm) as (Hw2 & Hl2 & _). rewrite (get_live cmp dflt k2 _ _ Hw2), Hl2. easy. Qed.

(** Two insertions of different keys into a page with room: there is a schedule after which both have returned success and the
    first pair is nowhere. *)
Theorem c115_race_refuted n h p k1 v1 k2 v2 :
  page_of n h p -> accepted h < n -> has_key cmp k1 (held h) = false -> has_key cmp k2 (held h) = false -> cmp k2 k1 = false ->
  exists l q, sched l (map starting [(k1, v1); (k2, v2)], p) = ([((k1, v1), PDone true); ((k2, v2), PDone true)], q)
    /\ get_value k1 q = Ret [] /\ get_value k2 q = Ret (values_of cmp k2 (held h ++ [(k2, v2)])).
Proof.
  intros Hp Hroom Hk1 Hk2 Hne. destruct (page_of_wf cmp veq dflt n h p Hp) as (Hw & Hc & Hl).
  set (m := accepted h) in *. clearbody m. rewrite <- Hl in *.
  assert (Hfull : is_full p = false).
  { unfold is_full. rewrite (count_live dflt). pose proof (live_le dflt p m Hw). apply Nat.eqb_neq. lia. }
  assert (Hfind : find (fun i => negb (bit (p_occ p) i)) (seq 0 (cap p)) = Some m).
  { apply (find_seq _ m 0); [lia | lia | intros i Hi; rewrite (wf_occ _ _ Hw) by lia; apply negb_false_iff, Nat.ltb_lt; lia
      | rewrite (wf_occ _ _ Hw) by lia; apply negb_true_iff, Nat.ltb_ge; lia]. }
  destruct (alone_until cmp dflt k1 v1 p m ltac:(lia) Hfull ltac:(rewrite has_key_live; easy) Hfind) as [a Ha].
  destruct (alone_until cmp dflt k2 v2 p m ltac:(lia) Hfull ltac:(rewrite has_key_live; easy) Hfind) as [b Hb].
  set (q := Page (set_bit (p_occ p) m) (set_bit (p_rea p) m) (<[m := (k2, v2)]> (p_arr p)) false).
  exists (repeat 0 a ++ repeat 1 b ++ repeat 0 1 ++ repeat 1 1 ++ repeat 0 2 ++ repeat 1 2), q. split.
  - rewrite !sched_app. rewrite (sched_repeat cmp dflt a 0 (k1, v1) (PFull 0 0)) by easy. cbn [fst snd]. rewrite Ha.
    rewrite (sched_repeat cmp dflt b 1 (k2, v2) (PFull 0 0)) by easy. cbn [fst snd]. rewrite Hb.
    assert (Ho : m / 8 < length (p_occ p)) by (apply (in_flags _ _ (cap p)); [apply (wf_occl _ _ Hw) | lia]).
    assert (Hr : m / 8 < length (p_rea p)) by (apply (in_flags _ _ (cap p)); [apply (wf_real _ _ Hw) | lia]).
    assert (Hidem : forall l, set_bit (set_bit l m) m = set_bit l m).
    { intro l. unfold set_bit. rewrite <- list_alter_compose. apply list_alter_ext; [|easy].
      intros x _. cbn. rewrite <- N.lor_assoc, N.lor_diag. easy. }
    rewrite (sched_repeat cmp dflt 1 0 (k1, v1) (PWrite m)) by easy. cbn [alone tstep fst snd].
    rewrite (sched_repeat cmp dflt 1 1 (k2, v2) (PWrite m)) by easy. cbn [alone tstep fst snd p_occ p_rea p_arr p_poison].
    rewrite (sched_repeat cmp dflt 2 0 (k1, v1) (POcc m)) by easy. cbn [alone tstep fst snd p_occ p_rea p_arr p_poison].
    rewrite (sched_repeat cmp dflt 2 1 (k2, v2) (POcc m)) by easy. cbn [alone tstep fst snd p_occ p_rea p_arr p_poison].
    rewrite !Hidem, (wf_poison _ _ Hw), list_insert_insert. reflexivity.
  - unfold q. rewrite !get_after_insert by (easy || lia). split; [|easy].
    f_equal. unfold values_of. rewrite List.filter_app. cbn [List.filter fst]. rewrite Hne, app_nil_r.
    unfold has_key in Hk1. rewrite filter_nil; [easy|]. intros x Hx. apply not_true_iff_false. intro Hb2.
    apply not_true_iff_false in Hk1. apply Hk1. apply existsb_exists. eauto.
Qed.

(** Two insertions of one key into a page with room for two: there is a schedule in which both are accepted. *)
Theorem c115_twice_refuted n h p k v w :
  page_of n h p -> S (accepted h) < n -> has_key cmp k (held h) = false -> cmp k k = true ->
  exists l q, sched l (map starting [(k, v); (k, w)], p) = ([((k, v), PDone true); ((k, w), PDone true)], q)
    /\ get_value k q = Ret [v; w].
Proof.
  intros Hp Hroom Hk Hkk. destruct (page_of_wf cmp veq dflt n h p Hp) as (Hw & Hc & Hl).
  set (m := accepted h) in *. clearbody m. rewrite <- Hl in *.
  assert (Hfull : is_full p = false).
  { unfold is_full. rewrite (count_live dflt). pose proof (live_le dflt p m Hw). apply Nat.eqb_neq. lia. }
  destruct (alone_to_find cmp dflt k v p ltac:(lia) Hfull ltac:(rewrite has_key_live; easy)) as [a Ha].
  destruct (alone_to_find cmp dflt k w p ltac:(lia) Hfull ltac:(rewrite has_key_live; easy)) as [b Hb].
  destruct (alone_from_find cmp dflt k v p m Hw ltac:(lia)) as [c Hcc].
  destruct (after_insert p m k v Hw ltac:(lia)) as (Hw2 & Hl2 & Hc2).
  set (p2 := Page (set_bit (p_occ p) m) (set_bit (p_rea p) m) (<[m := (k, v)]> (p_arr p)) false) in *.
  destruct (alone_from_find cmp dflt k w p2 (S m) Hw2 ltac:(lia)) as [d Hd].
  destruct (after_insert p2 (S m) k w Hw2 ltac:(lia)) as (Hw3 & Hl3 & Hc3).
  eexists (repeat 0 a ++ repeat 1 b ++ repeat 0 c ++ repeat 1 d), _. split.
  - rewrite !sched_app. rewrite (sched_repeat cmp dflt a 0 (k, v) (PFull 0 0)) by easy. cbn [fst snd]. rewrite Ha.
    rewrite (sched_repeat cmp dflt b 1 (k, w) (PFull 0 0)) by easy. cbn [fst snd]. rewrite Hb.
    rewrite (sched_repeat cmp dflt c 0 (k, v) (PFind 0)) by easy. cbn [fst snd]. rewrite Hcc.
    rewrite (sched_repeat cmp dflt d 1 (k, w) (PFind 0)) by easy. cbn [fst snd]. rewrite Hd. reflexivity.
  - rewrite (get_live cmp dflt k _ _ Hw3), Hl3, Hl2. f_equal. unfold values_of.
    rewrite !List.filter_app. cbn [List.filter fst]. rewrite Hkk.
    rewrite filter_nil; [easy|]. intros x Hx. apply not_true_iff_false. intro Hb2. unfold has_key in Hk.
    apply not_true_iff_false in Hk. apply Hk. apply existsb_exists. eauto.
Qed.
End Props.

(** Pairs of every size up to 4095 bytes and their flags fit on the page, with three exceptions, for which one byte is
    missing; larger pairs cannot be stored at all. *)
Theorem c115_fits_partial size :
  0 < size < page_bytes -> size <> 95 -> size <> 1365 -> size <> 4095 -> 0 < array_size size /\ bytes_for (array_size size) size <= page_bytes.
Proof.
  intros Hs H1 H2 H3.
  set (okN := fun s : N => let n := (4 * 4096 / (4 * s + 1))%N in ((0 <? n) && ((n * s + 2 * ((n + 7) / 8) <=? 4096) || (s =? 95) || (s =? 1365) || (s =? 4095)))%N).
  assert (Hall : forallb okN (map N.of_nat (seq 1 4095)) = true) by (vm_compute; reflexivity).
  rewrite forallb_forall in Hall. specialize (Hall (N.of_nat size)).
  assert (Hin : In (N.of_nat size) (map N.of_nat (seq 1 4095))) by (apply in_map, in_seq; unfold page_bytes in Hs; lia).
  specialize (Hall Hin). unfold okN in Hall. cbn zeta in Hall. apply andb_true_iff in Hall as [Hpos Hfit].
  unfold array_size, bytes_for, page_bytes. set (n := (4 * 4096 / (4 * N.of_nat size + 1))%N) in *. clearbody n.
  apply N.ltb_lt in Hpos. split; [lia|].
  rewrite !orb_true_iff in Hfit. destruct Hfit as [[[Hf | Hf] | Hf] | Hf]; [|apply N.eqb_eq in Hf; lia..].
  apply N.leb_le in Hf. replace ((N.to_nat n + 7) / 8) with (N.to_nat ((n + 7) / 8)); [lia|].
  rewrite N2Nat.inj_div, N2Nat.inj_add. easy.
Qed.
Theorem c115_fits_refuted :
  bytes_for (array_size 95) 95 = page_bytes + 1 /\ bytes_for (array_size 1365) 1365 = page_bytes + 1 /\ bytes_for (array_size 4095) 4095 = page_bytes + 1.
Proof.
  assert (E1 : array_size 95 = 43) by (vm_compute; reflexivity).
  assert (E2 : array_size 1365 = 3) by (vm_compute; reflexivity).
  assert (E3 : array_size 4095 = 1) by (vm_compute; reflexivity).
  rewrite E1, E2, E3. unfold bytes_for, page_bytes. split; [|split]; vm_compute; reflexivity.
Qed.
Theorem c115_too_big {K V : Type} (dflt : K * V) size : page_new dflt (array_size size) = None <-> page_bytes <= size.
Proof.
  destruct (decide (page_bytes <= size)) as [Hs | Hs].
  - split; [easy|]. intros _. unfold array_size. rewrite N.div_small; [easy|]. unfold page_bytes in Hs. lia.
  - split; [|lia]. intro H. exfalso. destruct (array_size size) as [|m] eqn:Ha; [|discriminate].
    unfold array_size in Ha. assert (Hq : (4 * 4096 / (4 * N.of_nat size + 1) = 0)%N) by lia.
    apply N.div_small_iff in Hq; [|lia]. unfold page_bytes in Hs. lia.
Qed.

(** A case each: a page of three slots. *)
Definition ex_h : list (op nat nat * ans nat) :=
  [(Insert 1 10, ABool true); (Insert 2 20, ABool true); (Insert 1 11, ABool false); (Remove 1 10, ABool true);
   (Insert 1 11, ABool true); (Get 1, AVals [11]); (Get 2, AVals [20]); (Count, ANum 2); (Insert 3 30, ABool false)].
Example c115_ex_page : exists p, page_of Nat.eqb Nat.eqb (0, 0) 3 ex_h p.
Proof. eexists. eexists. split; [reflexivity|]. vm_compute. reflexivity. Qed.
Example c115_ex_held : held Nat.eqb Nat.eqb ex_h = [(2, 20); (1, 11)] /\ accepted ex_h = 3.
Proof. easy. Qed.
Example c115_ex_race :
  exists p, page_of Nat.eqb Nat.eqb (0, 0) 3 [(Insert 1 10, ABool true)] p /\ accepted [(@Insert nat nat 1 10, @ABool nat true)] < 3
    /\ has_key Nat.eqb 5 (held Nat.eqb Nat.eqb [(Insert 1 10, ABool true)]) = false.
Proof. eexists. split; [eexists; split; [reflexivity | vm_compute; reflexivity]|]. split; [unfold accepted; cbn; lia | easy]. Qed.

Print Assumptions c115_answers.
Print Assumptions c115_insert_partial.
Print Assumptions c115_reuse_refuted.
Print Assumptions c115_nonunique_refuted.
Print Assumptions c115_past_end_refuted.
Print Assumptions c115_alone.
Print Assumptions c115_kept.
Print Assumptions c115_apart.
Print Assumptions c115_race_refuted.
Print Assumptions c115_twice_refuted.
Print Assumptions c115_fits_partial.
Print Assumptions c115_fits_refuted.
Print Assumptions c115_too_big.
