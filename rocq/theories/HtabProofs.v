(** * Proofs about the extendible hash table *)
From Coq Require Import NArith Lia.
From stdpp Require Import gmap list.
From Verif Require Import HtabSpec HtabModel.
Local Open Scope N_scope.

(** ** Low bits *)
Lemma land_mod a n : N.land a (2 ^ n - 1) = a mod 2 ^ n.
Proof. rewrite <- N.land_ones, N.ones_equiv, N.pred_sub. done. Qed.
Lemma mod_bits a b n : a mod 2 ^ n = b mod 2 ^ n <-> forall m, m < n -> N.testbit a m = N.testbit b m.
Proof.
  split.
  - intros H m Hm. rewrite <- (N.mod_pow2_bits_low a n m), <- (N.mod_pow2_bits_low b n m), H; done.
  - intros H. apply N.bits_inj. intros m. destruct (N.lt_ge_cases m n).
    + rewrite !N.mod_pow2_bits_low by done. by apply H.
    + by rewrite !N.mod_pow2_bits_high.
Qed.
Lemma mod_S a b n : a mod 2 ^ (n + 1) = b mod 2 ^ (n + 1) <-> a mod 2 ^ n = b mod 2 ^ n /\ N.testbit a n = N.testbit b n.
Proof.
  rewrite !mod_bits. split.
  - intros H. split; [intros m Hm; apply H; lia|apply H; lia].
  - intros [H1 H2] m Hm. destruct (N.eq_dec m n) as [->|]; [done|]. apply H1. lia.
Qed.
Lemma mod_mod_low a n m : m <= n -> (a mod 2 ^ n) mod 2 ^ m = a mod 2 ^ m.
Proof.
  intros H. apply mod_bits. intros i Hi. apply N.mod_pow2_bits_low. lia.
Qed.
Lemma mod_weaken a b n m : m <= n -> a mod 2 ^ n = b mod 2 ^ n -> a mod 2 ^ m = b mod 2 ^ m.
Proof. intros H E. rewrite <- (mod_mod_low a n m), <- (mod_mod_low b n m), E; done. Qed.
Lemma pow_pos n : 0 < 2 ^ n.
Proof. apply N.neq_0_lt_0, N.pow_nonzero. done. Qed.
Lemma mod_lt a n : a mod 2 ^ n < 2 ^ n.
Proof. apply N.mod_lt. pose proof (pow_pos n). lia. Qed.
Lemma testbit_mod a n m : m < n -> N.testbit (a mod 2 ^ n) m = N.testbit a m.
Proof. intros. by apply N.mod_pow2_bits_low. Qed.
Lemma testbit_small a n : a < 2 ^ n -> N.testbit a n = false.
Proof. intros H. rewrite <- (N.mod_small a (2 ^ n)) by done. apply N.mod_pow2_bits_high. lia. Qed.

Section Htab.
Context {K V : Type} `{EqDecision K} (hash : K -> N).
Notation bucket := (bucket K V).
Notation htab := (htab K V).

(** ** Buckets *)
(** The entries of one key, in order. *)
Definition of_key (k : K) (l : list (K * V)) : list (K * V) := filter (fun e => e.1 = k) l.
Lemma of_key_app k l1 l2 : of_key k (l1 ++ l2) = of_key k l1 ++ of_key k l2.
Proof. apply filter_app. Qed.
Lemma of_key_snoc k k' v l : of_key k' (l ++ [(k, v)]) = of_key k' l ++ if decide (k = k') then [(k, v)] else [].
Proof. rewrite of_key_app. unfold of_key at 2. rewrite filter_cons, filter_nil. cbn. done. Qed.
Lemma first_value_of_key k (l : list (K * V)) : first_value k l = snd <$> head (of_key k l).
Proof. unfold of_key. induction l as [|e l IH]; [done|]. rewrite filter_cons. cbn [first_value]. destruct (decide (e.1 = k)); [done|]. exact IH. Qed.
Lemma lookup_of_key k (b : bucket) : b_lookup k b = snd <$> head (of_key k (b_ents b)).
Proof.
  unfold b_lookup, of_key. induction (b_ents b) as [|e l IH]; [done|]. rewrite filter_cons. cbn [find].
  destruct (decide (e.1 = k)); [by rewrite bool_decide_true|]. rewrite bool_decide_false by done. exact IH.
Qed.
Lemma take_out_of_key k k' (l : list (K * V)) : of_key k' (take_out k l) = if decide (k' = k) then tail (of_key k l) else of_key k' l.
Proof.
  induction l as [|e l IH]; [by destruct (decide (k' = k))|]. unfold of_key in *. cbn [take_out]. rewrite !filter_cons. destruct (decide (e.1 = k)) as [E|E].
  - destruct (decide (k' = k)) as [->|Hk]; [done|]. rewrite decide_False by congruence. done.
  - rewrite filter_cons, IH. destruct (decide (k' = k)) as [->|Hk]; [by rewrite decide_False|done].
Qed.
Lemma remove_first_spec k (l : list (K * V)) :
  match remove_first k l with
  | Some l' => l' = take_out k l /\ is_Some (first_value k l)
  | None => first_value k l = None /\ take_out k l = l
  end.
Proof.
  induction l as [|e l IH]; [done|]. cbn. destruct (decide (e.1 = k)); [split; [done|eauto]|].
  destruct (remove_first k l) as [l'|]; destruct IH as [H1 H2]; split; congruence.
Qed.
Lemma take_out_length k (l : list (K * V)) : (length (take_out k l) <= length l)%nat.
Proof. induction l as [|e l IH]; [done|]. cbn. destruct (decide _); cbn; lia. Qed.
Lemma take_out_sub k (l : list (K * V)) e : e ∈ take_out k l -> e ∈ l.
Proof.
  induction l as [|x l IH]; cbn; [done|]. destruct (decide _); [by right|]. intros [->|H]%elem_of_cons; [left|right; auto].
Qed.

(** Sharing out the entries. *)
Lemma share_spec mask i (es : list (K * V)) (o n : bucket) :
  (length (b_ents o) + length es <= N.to_nat (b_max o))%nat -> (length (b_ents n) + length es <= N.to_nat (b_max n))%nat ->
  share hash mask i es o n =
    (mkB (b_max o) (b_ents o ++ filter (fun e => N.land (hash e.1) mask = i) es), mkB (b_max n) (b_ents n ++ filter (fun e => N.land (hash e.1) mask <> i) es)).
Proof.
  revert o n. induction es as [|e es IH]; intros o n Ho Hn; cbn [length] in *.
  - cbn. rewrite !app_nil_r. by destruct o, n.
  - cbn [share]. rewrite !filter_cons. destruct (N.eqb_spec (N.land (hash e.1) mask) i) as [E|E].
    + rewrite decide_True, decide_False by (try done; intros H; by apply H). unfold b_insert, is_full.
      destruct (N.leb_spec (b_max o) (N.of_nat (length (b_ents o)))); [lia|]. cbn [snd].
      rewrite IH by (cbn [b_ents b_max]; rewrite ?app_length; cbn [length]; lia). cbn [b_ents b_max]. by rewrite <- app_assoc.
    + rewrite decide_False, decide_True by done. unfold b_insert, is_full.
      destruct (N.leb_spec (b_max n) (N.of_nat (length (b_ents n)))); [lia|]. cbn [snd].
      rewrite IH by (cbn [b_ents b_max]; rewrite ?app_length; cbn [length]; lia). cbn [b_ents b_max]. by rewrite <- app_assoc.
Qed.
Lemma of_key_filter k (P : K * V -> Prop) `{!forall e, Decision (P e)} l : (forall v, P (k, v)) -> of_key k (filter P l) = of_key k l.
Proof.
  intros Hp. unfold of_key. induction l as [|[k' v] l IH]; [done|]. rewrite !filter_cons. cbn. destruct (decide (P (k', v))) as [H1|H1].
  - rewrite filter_cons. cbn. destruct (decide (k' = k)); congruence.
  - destruct (decide (k' = k)) as [->|]; [by destruct H1|done].
Qed.

(** ** Directories *)
Record dwf (d : dir) : Prop := mkDwf {
  w_glob : d_glob d <= d_max d;
  w_loc : forall i, i < 2 ^ d_glob d -> d_loc d i <= d_glob d;
  w_same : forall i j, i < 2 ^ d_glob d -> j < 2 ^ d_glob d -> (d_page d i = d_page d j <-> i mod 2 ^ d_loc d i = j mod 2 ^ d_loc d i);
  w_depth : forall i j, i < 2 ^ d_glob d -> j < 2 ^ d_glob d -> d_page d i = d_page d j -> d_loc d i = d_loc d j
}.
Lemma grow_spec d d' : dwf d -> grow d = Some d' ->
  d_max d' = d_max d /\ d_glob d' = d_glob d + 1 /\
  (forall i, i < 2 ^ d_glob d' -> d_loc d' i = d_loc d (i mod 2 ^ d_glob d) /\ d_page d' i = d_page d (i mod 2 ^ d_glob d)) /\ dwf d'.
Proof.
  intros W. unfold grow. destruct (N.leb_spec (d_max d) (d_glob d)) as [|Hlt]; [done|]. intros E.
  assert (d_max d' = d_max d /\ d_glob d' = d_glob d + 1) as [Em Eg] by (injection E as <-; done).
  assert (forall i, i < 2 ^ d_glob d' -> d_loc d' i = d_loc d (i mod 2 ^ d_glob d) /\ d_page d' i = d_page d (i mod 2 ^ d_glob d)) as Hi.
  { intros i Hi. rewrite Eg, N.pow_add_r in Hi. change (2 ^ 1) with 2 in Hi. match type of E with Some ?x = _ => assert (x = d') as <- by congruence end. cbn [d_loc d_page].
    destruct (N.leb_spec (2 ^ d_glob d) i) as [Hge|Hl].
    - destruct (N.ltb_spec i (2 * 2 ^ d_glob d)); [|lia]. cbn [andb].
      assert (i mod 2 ^ d_glob d = i - 2 ^ d_glob d) as ->; [|done].
      symmetry. apply (N.mod_unique _ _ 1); lia.
    - cbn [andb]. by rewrite N.mod_small. }
  split; [done|]. split; [done|]. split; [done|].
  constructor.
  - lia.
  - intros i H. destruct (Hi i H) as [-> _]. pose proof (w_loc _ W (i mod 2 ^ d_glob d) (mod_lt _ _)). lia.
  - intros i j H1 H2. destruct (Hi i H1) as [-> ->], (Hi j H2) as [_ ->].
    rewrite (w_same _ W) by apply mod_lt. pose proof (w_loc _ W (i mod 2 ^ d_glob d) (mod_lt _ _)). by rewrite !mod_mod_low.
  - intros i j H1 H2. destruct (Hi i H1) as [-> ->], (Hi j H2) as [-> ->]. apply (w_depth _ W); apply mod_lt.
Qed.

Lemma split_spec d d' b np : dwf d -> b < 2 ^ d_glob d -> d_loc d b < d_max d ->
  (forall i, i < 2 ^ d_glob d -> d_page d i <> np) -> update_for_split b np d = Some d' ->
  let l := d_loc d b in
  d_max d' = d_max d /\ d_glob d <= d_glob d' /\ d_loc d' b = l + 1 /\ dwf d' /\
  (forall i, i < 2 ^ d_glob d' ->
     (i mod 2 ^ l = b mod 2 ^ l -> d_loc d' i = l + 1 /\ d_page d' i = if N.testbit i l then np else d_page d b) /\
     (i mod 2 ^ l <> b mod 2 ^ l -> d_loc d' i = d_loc d (i mod 2 ^ d_glob d) /\ d_page d' i = d_page d (i mod 2 ^ d_glob d))).
Proof.
  intros W Hb Hl Hnp. unfold update_for_split. set (l := d_loc d b) in *. cbn zeta.
  destruct (grow_to _ d) as [g|] eqn:Eg; [|done].
  assert (d_max g = d_max d /\ d_glob d <= d_glob g /\ l + 1 <= d_glob g /\ dwf g /\
          (forall i, i < 2 ^ d_glob g -> d_loc g i = d_loc d (i mod 2 ^ d_glob d) /\ d_page g i = d_page d (i mod 2 ^ d_glob d))) as (Hm & Hg & Hl' & Wg & Hi).
  { pose proof (w_loc _ W b Hb) as Hlb. fold l in Hlb.
    destruct (N.eq_dec l (d_glob d)) as [El|El].
    - replace (N.to_nat (l + 1 - d_glob d)) with 1%nat in Eg by lia. cbn [grow_to] in Eg.
      destruct (grow d) as [g'|] eqn:E'; [|done]. assert (g' = g) as -> by congruence.
      destruct (grow_spec d g W E') as (H1 & H2 & H3 & H4). rewrite H1, H2. split; [done|]. split; [lia|]. split; [lia|]. split; [done|].
      by rewrite <- H2.
    - replace (N.to_nat (l + 1 - d_glob d)) with 0%nat in Eg by lia. cbn [grow_to] in Eg. assert (g = d) as -> by congruence.
      split; [done|]. split; [lia|]. split; [lia|]. split; [done|]. intros i Hi. by rewrite N.mod_small. }
  clear Eg. assert (2 ^ d_glob d <= 2 ^ d_glob g) as Hpow by (apply N.pow_le_mono_r; lia).
  assert (d_page g b = d_page d b) as Epb by (destruct (Hi b) as [_ ->]; [lia|by rewrite N.mod_small]).
  intros E. assert (d_max d' = d_max g /\ d_glob d' = d_glob g) as [Em Egl] by (injection E as <-; done).
  assert (forall i, i < 2 ^ d_glob d' ->
     (i mod 2 ^ l = b mod 2 ^ l -> d_loc d' i = l + 1 /\ d_page d' i = if N.testbit i l then np else d_page d b) /\
     (i mod 2 ^ l <> b mod 2 ^ l -> d_loc d' i = d_loc g i /\ d_page d' i = d_page g i)) as Hd.
  { intros i Hi'. rewrite Egl in Hi'. match type of E with Some ?x = _ => assert (x = d') as <- by congruence end. cbn [d_loc d_page]. rewrite !land_mod.
    destruct (N.ltb_spec i (2 ^ d_glob g)) as [_|]; [|lia]. cbn [andb]. rewrite Epb.
    destruct (N.eqb_spec (i mod 2 ^ l) (b mod 2 ^ l)); split; intros; done. }
  assert (forall i, i < 2 ^ d_glob g -> d_page g i <> np) as Hnpg.
  { intros i H. destruct (Hi i H) as [_ ->]. apply Hnp, mod_lt. }
  assert (d_loc g b = l) as Elb. { destruct (Hi b) as [-> _]; [lia|]. by rewrite N.mod_small. }
  split; [congruence|]. split; [lia|]. split; [|split].
  - destruct (Hd b) as [H _]; [rewrite Egl; lia|]. by apply H.
  - assert (b < 2 ^ d_glob g) as Hbg by lia.
    assert (forall i, i < 2 ^ d_glob g -> (d_page g i = d_page g b <-> i mod 2 ^ l = b mod 2 ^ l)) as Hcl.
    { intros i H. split; intros H'.
      - apply eq_sym. rewrite <- Elb. apply (w_same _ Wg); done.
      - apply eq_sym. apply (w_same _ Wg); try done. by rewrite Elb. }
    constructor; rewrite ?Egl, ?Em.
    + pose proof (w_glob _ Wg). lia.
    + intros i H. destruct (Hd i) as [H1 H2]; [by rewrite Egl|]. destruct (decide (i mod 2 ^ l = b mod 2 ^ l)) as [Ec|Ec].
      * destruct (H1 Ec) as [-> _]. lia.
      * destruct (H2 Ec) as [-> _]. by apply (w_loc _ Wg).
    + intros i j H H'. destruct (Hd i) as [H1 H2]; [by rewrite Egl|]. destruct (Hd j) as [H1' H2']; [by rewrite Egl|].
      destruct (decide (i mod 2 ^ l = b mod 2 ^ l)) as [Ec|Ec], (decide (j mod 2 ^ l = b mod 2 ^ l)) as [Ec'|Ec'].
      * destruct (H1 Ec) as [-> ->], (H1' Ec') as [_ ->]. rewrite mod_S.
        pose proof (Hnpg b Hbg) as Hn. rewrite Epb in Hn.
        destruct (N.testbit i l), (N.testbit j l); split; intros X; try done; try (split; congruence); try congruence; by destruct X.
      * destruct (H1 Ec) as [-> ->], (H2' Ec') as [_ ->]. split; intros X.
        -- exfalso. destruct (N.testbit i l); [by apply (Hnpg j H')|]. rewrite <- Epb in X. apply Ec', Hcl; done.
        -- exfalso. apply Ec'. rewrite <- Ec. symmetry. eapply mod_weaken; [|exact X]. lia.
      * destruct (H2 Ec) as [-> ->], (H1' Ec') as [_ ->]. split; intros X.
        -- exfalso. destruct (N.testbit j l); [by apply (Hnpg i H)|]. rewrite <- Epb in X. apply Ec, Hcl; done.
        -- exfalso. apply Ec, Hcl; [done|]. transitivity (d_page g j); [by apply (w_same _ Wg)|by apply Hcl].
      * destruct (H2 Ec) as [-> ->], (H2' Ec') as [_ ->]. by apply (w_same _ Wg).
    + intros i j H H'. destruct (Hd i) as [H1 H2]; [by rewrite Egl|]. destruct (Hd j) as [H1' H2']; [by rewrite Egl|].
      destruct (decide (i mod 2 ^ l = b mod 2 ^ l)) as [Ec|Ec], (decide (j mod 2 ^ l = b mod 2 ^ l)) as [Ec'|Ec'].
      * destruct (H1 Ec) as [-> ->], (H1' Ec') as [-> ->]. done.
      * destruct (H1 Ec) as [-> ->], (H2' Ec') as [-> ->]. intros X.
        exfalso. destruct (N.testbit i l); [by apply (Hnpg j H')|]. rewrite <- Epb in X. apply Ec', Hcl; done.
      * destruct (H2 Ec) as [-> ->], (H1' Ec') as [-> ->]. intros X.
        exfalso. destruct (N.testbit j l); [by apply (Hnpg i H)|]. rewrite <- Epb in X. apply Ec, Hcl; done.
      * destruct (H2 Ec) as [-> ->], (H2' Ec') as [-> ->]. by apply (w_depth _ Wg).
  - intros i H. destruct (Hd i H) as [H1 H2]. split; [done|]. intros X. destruct (H2 X) as [-> ->]. apply Hi. by rewrite <- Egl.
Qed.

(** ** Tables *)
Definition idx (d : dir) (k : K) : N := hash k mod 2 ^ d_glob d.
Record Inv (m : list (K * V)) (dp : N) (d : dir) (s : htab) : Prop := mkInv {
  i_head : forall k, h_dirs (t_head s) (hash_to_dir (hash k) (t_head s)) = dp;
  i_dp : dp <> no_page;
  i_dir : t_dirs s !! dp = Some d;
  i_max : d_max d = t_dmax s;
  i_wf : dwf d;
  i_page : forall i, i < 2 ^ d_glob d -> d_page d i < t_next s;
  i_next : t_next s <= no_page;
  i_buck : forall i, i < 2 ^ d_glob d -> exists b, t_bucks s !! d_page d i = Some b /\ b_max b = t_bmax s /\
             (length (b_ents b) <= N.to_nat (t_bmax s))%nat /\
             (forall e, e ∈ b_ents b -> hash e.1 mod 2 ^ d_loc d i = i mod 2 ^ d_loc d i);
  i_keys : forall k b, t_bucks s !! d_page d (idx d k) = Some b -> of_key k (b_ents b) = of_key k m
}.
Lemma idx_lt d k : idx d k < 2 ^ d_glob d.
Proof. apply mod_lt. Qed.
Lemma hash_to_bucket_idx d k : hash_to_bucket (hash k) d = idx d k.
Proof. apply land_mod. Qed.

Lemma inv_fetch m dp d s k : Inv m dp d s ->
  dir_page s (hash k) = Some (dp, d) /\
  exists b, bucket_page s d (hash_to_bucket (hash k) d) = Some (d_page d (idx d k), b) /\
    t_bucks s !! d_page d (idx d k) = Some b /\ b_max b = t_bmax s /\ (length (b_ents b) <= N.to_nat (t_bmax s))%nat /\
    (forall e, e ∈ b_ents b -> hash e.1 mod 2 ^ d_loc d (idx d k) = idx d k mod 2 ^ d_loc d (idx d k)) /\
    of_key k (b_ents b) = of_key k m.
Proof.
  intros I. split.
  - unfold dir_page. rewrite (i_head _ _ _ _ I). rewrite (proj2 (N.eqb_neq _ _)) by apply (i_dp _ _ _ _ I). by rewrite (i_dir _ _ _ _ I).
  - destruct (i_buck _ _ _ _ I (idx d k) (idx_lt d k)) as (b & Hb & Hm & Hl & He). exists b. rewrite hash_to_bucket_idx. unfold bucket_page.
    pose proof (i_page _ _ _ _ I (idx d k) (idx_lt d k)). pose proof (i_next _ _ _ _ I).
    rewrite (proj2 (N.eqb_neq _ _)) by lia. rewrite Hb. do 5 (split; [done|]). by apply (i_keys _ _ _ _ I).
Qed.

Lemma inv_get m dp d s k : Inv m dp d s -> get_value hash s k = first_value k m.
Proof.
  intros I. destruct (inv_fetch _ _ _ _ k I) as (H1 & b & H2 & _ & _ & _ & _ & H3). unfold get_value. rewrite H1, H2.
  by rewrite lookup_of_key, first_value_of_key, H3.
Qed.

(** Replacing the contents of one key's bucket. *)
Lemma inv_set m m' dp d s k b' : Inv m dp d s -> b_max b' = t_bmax s -> (length (b_ents b') <= N.to_nat (t_bmax s))%nat ->
  (forall e, e ∈ b_ents b' -> hash e.1 mod 2 ^ d_loc d (idx d k) = idx d k mod 2 ^ d_loc d (idx d k)) ->
  (forall k', d_page d (idx d k') = d_page d (idx d k) -> of_key k' (b_ents b') = of_key k' m') ->
  (forall k', d_page d (idx d k') <> d_page d (idx d k) -> of_key k' m' = of_key k' m) ->
  Inv m' dp d (set_bucks s (<[d_page d (idx d k) := b']> (t_bucks s))).
Proof.
  intros I Hm Hl He Hk Hk'. destruct I as [I1 I2 I3 I4 I5 I6 I7 I8 I9]. constructor; cbn; try done.
  - intros i Hi. destruct (decide (d_page d i = d_page d (idx d k))) as [E|E].
    + rewrite E, lookup_insert. exists b'. split; [done|]. split; [done|]. split; [done|]. intros e Hin.
      assert (d_loc d i = d_loc d (idx d k)) as -> by (apply (w_depth _ I5); [done|apply idx_lt|done]).
      rewrite (He e Hin). apply (w_same _ I5); [apply idx_lt|done|done].
    + rewrite lookup_insert_ne by congruence. by apply I8.
  - intros k0 b0. destruct (decide (d_page d (idx d k0) = d_page d (idx d k))) as [E|E].
    + rewrite E, lookup_insert. intros [= <-]. by apply Hk.
    + rewrite lookup_insert_ne by congruence. intros H. rewrite Hk' by done. by apply I9.
Qed.

Lemma inv_split m dp d s k b ok r s' : Inv m dp d s -> t_bucks s !! d_page d (idx d k) = Some b ->
  t_next s < no_page -> split hash s dp d (idx d k) ok = (r, s') ->
  (r = true -> idx d k < 2 ^ d_loc d (idx d k)) ->
  t_bmax s' = t_bmax s /\ t_dmax s' = t_dmax s /\ t_next s <= t_next s' <= t_next s + 1 /\
  exists d', Inv m dp d' s' /\ (r = true -> d_loc d' (idx d' k) = d_loc d (idx d k) + 1) /\
    (r = false -> d' = d /\ (ok = true -> d_loc d (idx d k) = t_dmax s)).
Proof.
  intros I Hb Hn. unfold split. set (i := idx d k) in *. assert (i < 2 ^ d_glob d) as Hi by apply idx_lt.
  pose proof (w_loc _ (i_wf _ _ _ _ I) i Hi) as Hlg. pose proof (w_glob _ (i_wf _ _ _ _ I)) as Hgm. pose proof (i_max _ _ _ _ I) as Hmx.
  destruct (N.leb_spec (t_dmax s) (d_loc d i)) as [Hd|Hd].
  { intros [= <- <-] _. split; [done|]. split; [done|]. split; [lia|]. exists d. split; [done|]. split; [done|]. intros _. split; [done|]. intros _. lia. }
  destruct ok; cbn [negb].
  2: { intros [= <- <-] _. split; [done|]. split; [done|]. split; [lia|]. exists d. split; [done|]. split; done. }
  set (np := t_next s) in *. set (s1 := mkT _ _ _ _ _ _).
  assert (forall j, j < 2 ^ d_glob d -> d_page d j <> np) as Hnp.
  { intros j Hj. pose proof (i_page _ _ _ _ I j Hj). fold np in H. lia. }
  assert (bucket_page s1 d i = Some (d_page d i, b)) as ->.
  { unfold bucket_page. pose proof (i_page _ _ _ _ I i Hi). pose proof (i_next _ _ _ _ I). rewrite (proj2 (N.eqb_neq _ _)) by lia.
    cbn [s1 t_bucks]. rewrite lookup_insert_ne by (apply not_eq_sym; by apply Hnp). by rewrite Hb. }
  destruct (i_buck _ _ _ _ I i Hi) as (b0 & Hb0 & Hbm & Hbl & Hbe). assert (b0 = b) as -> by congruence.
  destruct (update_for_split i np d) as [d'|] eqn:Eu.
  2: { exfalso. unfold update_for_split in Eu. destruct (grow_to _ d) eqn:Eg; [done|].
       destruct (N.eq_dec (d_loc d i) (d_glob d)) as [E|E].
       - replace (N.to_nat (d_loc d i + 1 - d_glob d)) with 1%nat in Eg by lia. cbn [grow_to] in Eg. unfold grow in Eg.
         destruct (N.leb_spec (d_max d) (d_glob d)); [lia|done].
       - replace (N.to_nat (d_loc d i + 1 - d_glob d)) with 0%nat in Eg by lia. done. }
  destruct (split_spec d d' i np (i_wf _ _ _ _ I) Hi ltac:(lia) Hnp Eu) as (Hm' & Hg' & Hl' & W' & Hd').
  set (l := d_loc d i) in *. rewrite Hl'.
  destruct (share _ _ _ _ _ _) as [o' n'] eqn:Es. intros E Hodd. assert (r = true) as -> by congruence.
  assert (s' = set_dir (set_bucks s1 (<[np := n']> (<[d_page d i := o']> (t_bucks s1)))) dp d') as -> by congruence. clear E.
  specialize (Hodd eq_refl).
  rewrite share_spec in Es; cbn [b_ents b_max length]; [|rewrite ?Hbm; lia|lia].
  cbn [b_ents b_max app] in Es.
  assert (o' = mkB (b_max b) (filter (fun e => N.land (hash e.1) (2 ^ (l + 1) - 1) = i) (b_ents b))) as Eo by congruence.
  assert (n' = mkB (t_bmax s) (filter (fun e => N.land (hash e.1) (2 ^ (l + 1) - 1) <> i) (b_ents b))) as En by congruence. clear Es.
  split; [done|]. split; [done|]. split; [cbn; lia|]. exists d'.
  assert (2 ^ d_glob d <= 2 ^ d_glob d') as Hpow by (apply N.pow_le_mono_r; lia).
  assert (l + 1 <= d_glob d') as Hlg'. { rewrite <- Hl'. apply (w_loc _ W'). lia. }
  assert (forall h, h mod 2 ^ (l + 1) = i <-> h mod 2 ^ l = i mod 2 ^ l /\ N.testbit h l = false) as Hside.
  { intros h. assert (i mod 2 ^ (l + 1) = i) as Ei. { apply N.mod_small. rewrite N.add_1_r, N.pow_succ_r'. lia. }
    split.
    - intros H. rewrite <- Ei in H. apply mod_S in H as [H1 H2]. split; [done|]. rewrite H2. by apply testbit_small.
    - intros [H1 H2]. rewrite <- Ei. apply mod_S. split; [done|]. rewrite H2. symmetry. by apply testbit_small. }
  assert (forall k', idx d' k' mod 2 ^ l = hash k' mod 2 ^ l) as Hix by (intros; unfold idx; apply mod_mod_low; lia).
  assert (forall k', N.testbit (idx d' k') l = N.testbit (hash k') l) as Hbit by (intros; unfold idx; apply testbit_mod; lia).
  assert (t_bucks s1 = <[np := mkB (t_bmax s) []]> (t_bucks s)) as Es1 by done.
  split; [constructor|].
  - apply (i_head _ _ _ _ I).
  - apply (i_dp _ _ _ _ I).
  - cbn. by rewrite lookup_insert.
  - cbn. congruence.
  - done.
  - intros j Hj. cbn. destruct (Hd' j Hj) as [H1 H2]. destruct (decide (j mod 2 ^ l = i mod 2 ^ l)) as [Ec|Ec].
    + destruct (H1 Ec) as [_ ->]. pose proof (i_page _ _ _ _ I i Hi). destruct (N.testbit j l); fold np in H; lia.
    + destruct (H2 Ec) as [_ ->]. pose proof (i_page _ _ _ _ I (j mod 2 ^ d_glob d) (mod_lt _ _)). fold np in H. lia.
  - change (np + 1 <= no_page). lia.
  - intros j Hj. cbn [set_dir set_bucks t_bucks t_bmax]. rewrite Es1. destruct (Hd' j Hj) as [H1 H2]. destruct (decide (j mod 2 ^ l = i mod 2 ^ l)) as [Ec|Ec].
    + destruct (H1 Ec) as [-> ->]. destruct (N.testbit j l) eqn:Et.
      * rewrite lookup_insert. exists n'. subst n'. cbn. split; [done|]. split; [done|].
        split; [pose proof (filter_length (fun e => N.land (hash e.1) (2 ^ (l + 1) - 1) <> i) (b_ents b)); lia|].
        intros e [He1 He2]%elem_of_list_filter. rewrite land_mod, Hside in He1. apply mod_S.
        pose proof (Hbe e He2) as Hce. split; [by rewrite Hce|]. rewrite Et. destruct (N.testbit (hash e.1) l); [done|]. by destruct He1.
      * rewrite lookup_insert_ne by (apply not_eq_sym; by apply Hnp). rewrite lookup_insert. exists o'. subst o'. cbn. split; [done|]. split; [done|].
        split; [pose proof (filter_length (fun e => N.land (hash e.1) (2 ^ (l + 1) - 1) = i) (b_ents b)); lia|].
        intros e [He1 He2]%elem_of_list_filter. rewrite land_mod, Hside in He1. apply mod_S. destruct He1 as [He1 He3]. split; [congruence|]. congruence.
    + destruct (H2 Ec) as [-> ->]. pose proof (mod_lt j (d_glob d)) as Hj'.
      destruct (i_buck _ _ _ _ I _ Hj') as (b1 & Hb1 & Hm1 & Hl1 & He1). exists b1.
      assert (d_page d (j mod 2 ^ d_glob d) <> d_page d i) as Hne.
      { intros X. apply Ec. apply eq_sym in X. apply (w_same _ (i_wf _ _ _ _ I)) in X; [|done|done]. fold l in X.
        rewrite X. symmetry. apply mod_mod_low. done. }
      rewrite lookup_insert_ne by (apply not_eq_sym; by apply Hnp). rewrite lookup_insert_ne by congruence.
      rewrite lookup_insert_ne by (apply not_eq_sym; by apply Hnp). split; [done|]. split; [done|]. split; [done|].
      intros e Hin. rewrite (He1 e Hin). apply mod_mod_low. by apply (w_loc _ (i_wf _ _ _ _ I)).
  - intros k' b1. cbn [set_dir set_bucks t_bucks]. rewrite Es1. pose proof (idx_lt d' k') as Hj. destruct (Hd' _ Hj) as [H1 H2].
    pose proof (mod_lt (idx d' k') (d_glob d)) as Hj'.
    assert (idx d' k' mod 2 ^ d_glob d = idx d k') as Eold by (unfold idx; by apply mod_mod_low).
    destruct (decide (idx d' k' mod 2 ^ l = i mod 2 ^ l)) as [Ec|Ec].
    + assert (d_page d (idx d k') = d_page d i) as Esame.
      { symmetry. apply (w_same _ (i_wf _ _ _ _ I)); [done|apply idx_lt|]. fold l. rewrite <- Ec, Hix. unfold idx. symmetry. by apply mod_mod_low. }
      destruct (H1 Ec) as [_ ->]. rewrite Hbit. destruct (N.testbit (hash k') l) eqn:Et.
      * rewrite lookup_insert. intros [= <-]. subst n'. cbn [b_ents]. rewrite of_key_filter.
        -- apply (i_keys _ _ _ _ I). by rewrite Esame.
        -- intros v. cbn. rewrite land_mod, Hside. intros [_ X]. congruence.
      * rewrite lookup_insert_ne by (apply not_eq_sym; by apply Hnp). rewrite lookup_insert. intros [= <-]. subst o'. cbn [b_ents]. rewrite of_key_filter.
        -- apply (i_keys _ _ _ _ I). by rewrite Esame.
        -- intros v. cbn. rewrite land_mod, Hside. split; [|done]. by rewrite <- Hix.
    + destruct (H2 Ec) as [_ ->]. rewrite Eold.
      assert (d_page d (idx d k') <> d_page d i) as Hne.
      { intros X. apply Ec. apply eq_sym in X. apply (w_same _ (i_wf _ _ _ _ I)) in X; [|done|apply idx_lt]. fold l in X.
        rewrite X, Hix. unfold idx. symmetry. by apply mod_mod_low. }
      rewrite lookup_insert_ne by (apply not_eq_sym; apply Hnp, idx_lt). rewrite lookup_insert_ne by congruence.
      rewrite lookup_insert_ne by (apply not_eq_sym; apply Hnp, idx_lt). apply (i_keys _ _ _ _ I).
  - split; [|done]. intros _. pose proof (idx_lt d' k) as Hj. destruct (Hd' _ Hj) as [H1 _]. apply H1. rewrite Hix. unfold i, idx. symmetry. by apply mod_mod_low.
Qed.

Lemma insert_odd f : forall (s : htab) k v oks o, (insert_loop hash f s k v oks o).2 = false -> o = false.
Proof.
  induction f as [|f IH]; intros s k v oks o; cbn [insert_loop]; [done|].
  destruct (dir_page s (hash k)) as [[dp d]|]; [|done]. destruct (bucket_page _ _ _) as [[bp b]|]; [|done].
  destruct (is_full b); cbn [negb]; [|by destruct (b_insert _ _)]. destruct (split _ _ _ _ _ _) as [r s']. destruct r.
  - intros H. apply IH in H. by destruct o.
  - cbn. by destruct o.
Qed.
Lemma length_split_key k (l : list (K * V)) : length l = (length (of_key k l) + length (filter (fun e => e.1 <> k) l))%nat.
Proof.
  unfold of_key. induction l as [|e l IH]; [done|]. rewrite !filter_cons. destruct (decide (e.1 = k)) as [E|E].
  - rewrite decide_False by (intros X; by apply X). cbn. lia.
  - rewrite decide_True by done. cbn. lia.
Qed.
Lemma count_le (P : K * V -> Prop) `{!forall e, Decision (P e)} : (forall k v w, P (k, v) -> P (k, w)) -> forall n b m, (length b <= n)%nat ->
  (forall e, e ∈ b -> P e /\ of_key e.1 b = of_key e.1 m) -> (length b <= length (filter P m))%nat.
Proof.
  intros HP. induction n as [|n IH]; intros b m Hn Hb; [lia|]. destruct b as [|e b0]; [cbn; lia|]. set (b := e :: b0) in *. set (k := e.1).
  assert (e ∈ b) as He by left. destruct (Hb e He) as [Pe Ke]. fold k in Ke.
  rewrite (length_split_key k b), (length_split_key k (filter P m)).
  assert (length (of_key k (filter P m)) = length (of_key k b)) as ->.
  { rewrite Ke. f_equal. apply of_key_filter. intros v. unfold k. destruct e as [k0 v0]. by apply (HP k0 v0). }
  assert (filter (fun e => e.1 <> k) (filter P m) = filter P (filter (fun e => e.1 <> k) m)) as ->.
  { clear. induction m as [|x l IH]; [done|]. rewrite !filter_cons. destruct (decide (P x)) eqn:EP, (decide (x.1 <> k)) eqn:EQ; rewrite ?filter_cons, ?EP, ?EQ; congruence. }
  enough (length (filter (fun e => e.1 <> k) b) <= length (filter P (filter (fun e => e.1 <> k) m)))%nat by lia.
  apply IH.
  - assert (1 <= length (of_key k b))%nat; [|pose proof (length_split_key k b); lia].
    unfold of_key, b. rewrite filter_cons, decide_True by done. cbn. lia.
  - intros x [Hx1 Hx2]%elem_of_list_filter. destruct (Hb x Hx2) as [H1 H2]. split; [done|].
    rewrite !of_key_filter; [done|done|done].
Qed.

Lemma inv_insert f : forall m dp d s k v oks o r s' o', Inv m dp d s -> t_next s + N.of_nat f <= no_page ->
  insert_loop hash f s k v oks o = (r, s', o') -> o' = false ->
  t_next s <= t_next s' <= t_next s + N.of_nat f /\ t_bmax s' = t_bmax s /\ t_dmax s' = t_dmax s /\
  (exists d', Inv (if r then add_entry k v m else m) dp d' s') /\
  (r = false -> (forall x, x ∈ oks -> x = true) -> t_dmax s < N.of_nat f + d_loc d (idx d k) ->
     t_bmax s <= N.of_nat (length (filter (fun e : K * V => hash e.1 mod 2 ^ t_dmax s = hash k mod 2 ^ t_dmax s) m))).
Proof.
  induction f as [|f IH]; intros m dp d s k v oks o r s' o' I Hn; cbn [insert_loop].
  { intros E _. assert (r = false) as -> by congruence. assert (s' = s) as -> by congruence. split; [lia|]. split; [done|]. split; [done|]. split; [by eauto|].
    intros _ _ X. exfalso. pose proof (w_loc _ (i_wf _ _ _ _ I) _ (idx_lt d k)). pose proof (w_glob _ (i_wf _ _ _ _ I)). pose proof (i_max _ _ _ _ I). lia. }
  destruct (inv_fetch _ _ _ _ k I) as (H1 & b & H2 & H3 & H4 & H5 & H6 & H7). rewrite H1, H2, hash_to_bucket_idx.
  destruct (is_full b) eqn:Ef; cbn [negb].
  - destruct (split _ _ _ _ _ _) as [r1 s1] eqn:Es. destruct r1.
    + cbn [andb]. intros E Ho. pose proof (insert_odd f s1 k v (tail oks) (o || (2 ^ d_loc d (idx d k) <=? idx d k))) as Hodd. rewrite E in Hodd. specialize (Hodd Ho).
      apply orb_false_iff in Hodd as [_ Hodd]. apply N.leb_gt in Hodd.
      destruct (inv_split _ _ _ _ k b _ _ _ I H3 ltac:(lia) Es (fun _ => Hodd)) as (Eb & Ed & En & d1 & I1 & Hl1 & _).
      destruct (IH _ _ _ _ _ _ _ _ _ _ _ I1 ltac:(lia) E Ho) as (A1 & A2 & A3 & A4 & A5).
      split; [lia|]. split; [congruence|]. split; [congruence|]. split; [done|]. intros Hr Hoks Hx. rewrite <- Eb, <- Ed. apply A5; [done| |].
      * intros x Hx'. apply Hoks. destruct oks; [done|by right].
      * rewrite (Hl1 eq_refl), Ed. lia.
    + intros E Ho. assert (r = false) as -> by congruence. assert (s' = s1) as -> by congruence.
      destruct (inv_split _ _ _ _ k b _ _ _ I H3 ltac:(lia) Es ltac:(done)) as (Eb & Ed & En & d1 & I1 & _ & Hr). destruct (Hr eq_refl) as [-> Hr'].
      split; [lia|]. split; [done|]. split; [done|]. split; [by eauto|]. intros _ Hoks _.
      assert (d_loc d (idx d k) = t_dmax s) as El. { apply Hr'. destruct oks as [|x oks]; [done|]. cbn. apply Hoks. left. }
      unfold is_full in Ef. apply N.leb_le in Ef. rewrite H4 in Ef.
      enough (length (b_ents b) <= length (filter (fun e : K * V => (hash e.1 mod 2 ^ t_dmax s = hash k mod 2 ^ t_dmax s)%N) m))%nat by lia.
      apply (count_le (fun e : K * V => hash e.1 mod 2 ^ t_dmax s = hash k mod 2 ^ t_dmax s) ltac:(done) (length (b_ents b)) (b_ents b) m); [lia|].
      intros e He. pose proof (H6 e He) as He'. rewrite El in He'.
      assert (d_glob d = t_dmax s) as Eg.
      { pose proof (w_loc _ (i_wf _ _ _ _ I) _ (idx_lt d k)). pose proof (w_glob _ (i_wf _ _ _ _ I)). pose proof (i_max _ _ _ _ I). lia. }
      assert (hash e.1 mod 2 ^ t_dmax s = hash k mod 2 ^ t_dmax s) as Hsame. { rewrite He'. unfold idx. rewrite Eg. by apply mod_mod_low. }
      split; [done|]. apply (i_keys _ _ _ _ I). unfold idx. rewrite Eg, Hsame, <- Eg. exact H3.
  - unfold b_insert. rewrite Ef. intros E Ho. assert (r = true) as -> by congruence.
    assert (s' = set_bucks s (<[d_page d (idx d k) := mkB (b_max b) (b_ents b ++ [(k, v)])]> (t_bucks s))) as -> by congruence.
    split; [cbn; lia|]. split; [done|]. split; [done|]. split; [|done]. exists d. unfold is_full in Ef. apply N.leb_gt in Ef.
    apply (inv_set m); [done|done|cbn [b_ents]; rewrite app_length; cbn; lia| | |].
    + intros e. cbn [b_ents]. intros [He|He]%elem_of_app; [by apply H6|]. apply elem_of_list_singleton in He as ->. cbn [fst].
      symmetry. unfold idx. apply mod_mod_low. apply (w_loc _ (i_wf _ _ _ _ I)), mod_lt.
    + intros k' Hp. cbn [b_ents]. unfold add_entry. rewrite !of_key_app. f_equal. apply (i_keys _ _ _ _ I). by rewrite Hp.
    + intros k' Hp. unfold add_entry. rewrite of_key_snoc. rewrite decide_False by (intros ->; done). by rewrite app_nil_r.
Qed.

Lemma inv_ext m dp d d' s : Inv m dp d s -> d_glob d' = d_glob d -> d_max d' = d_max d ->
  (forall i, i < 2 ^ d_glob d -> d_loc d' i = d_loc d i /\ d_page d' i = d_page d i) -> Inv m dp d' (set_dir s dp d').
Proof.
  intros [I1 I2 I3 I4 I5 I6 I7 I8 I9] Eg Em E.
  assert (dwf d') as W'.
  { destruct I5 as [W1 W2 W3 W4]. constructor; rewrite ?Eg.
    - lia.
    - intros i H. destruct (E i H) as [-> _]. by apply W2.
    - intros i j H1 H2. destruct (E i H1) as [-> ->], (E j H2) as [_ ->]. by apply W3.
    - intros i j H1 H2. destruct (E i H1) as [-> ->], (E j H2) as [-> ->]. by apply W4. }
  constructor; try done; cbn; rewrite ?Eg.
  - by rewrite lookup_insert.
  - congruence.
  - intros i H. destruct (E i H) as [_ ->]. by apply I6.
  - intros i H. destruct (E i H) as [-> ->]. by apply I8.
  - intros k b. unfold idx. rewrite Eg. destruct (E (hash k mod 2 ^ d_glob d) (mod_lt _ _)) as [_ ->]. apply I9.
Qed.
Lemma inv_remove m dp d s k r s' : Inv m dp d s -> remove hash s k = (r, s', false) ->
  (r = true <-> is_Some (first_value k m)) /\ t_next s' = t_next s /\ t_bmax s' = t_bmax s /\ t_dmax s' = t_dmax s /\
  exists d', Inv (take_out k m) dp d' s'.
Proof.
  intros I. unfold remove. destruct (inv_fetch _ _ _ _ k I) as (H1 & b & H2 & H3 & H4 & H5 & H6 & H7). rewrite H1, H2, hash_to_bucket_idx.
  unfold b_remove. pose proof (remove_first_spec k (b_ents b)) as Hrf.
  assert (first_value k (b_ents b) = first_value k m) as Hfv by (by rewrite !first_value_of_key, H7).
  assert (forall b', b_max b' = b_max b -> b_ents b' = take_out k (b_ents b) ->
    Inv (take_out k m) dp d (set_bucks s (<[d_page d (idx d k) := b']> (t_bucks s)))) as Hset.
  { intros b' Hm Hb'. apply (inv_set m); [done|congruence| | | |].
    - rewrite Hb'. pose proof (take_out_length k (b_ents b)). lia.
    - intros e He. apply H6. rewrite Hb' in He. by apply take_out_sub in He.
    - intros k' Hp. rewrite Hb', !take_out_of_key. destruct (decide (k' = k)) as [->|Hne]; [by rewrite H7|].
      apply (i_keys _ _ _ _ I). by rewrite Hp.
    - intros k' Hp. rewrite take_out_of_key. rewrite decide_False; [done|]. intros ->. done. }
  destruct (remove_first k (b_ents b)) as [l|]; destruct Hrf as [Hr1 Hr2].
  - cbn [andb b_ents]. specialize (Hset (mkB (b_max b) l) eq_refl Hr1). rewrite Hfv in Hr2.
    set (s1 := set_bucks s (<[d_page d (idx d k) := mkB (b_max b) l]> (t_bucks s))) in *.
    destruct (bool_decide (l = [])).
    + unfold merge. destruct (dir_merge (idx d k) d) as [[p d']|] eqn:Em.
      * intros E. assert (r = true) as -> by congruence. assert (negb (p =? d_page d (idx d k)) = false) as Hp by congruence.
        apply negb_false_iff in Hp. rewrite Hp in E. assert (s' = set_dir s1 dp d') as -> by congruence. clear E.
        split; [done|]. split; [done|]. split; [done|]. split; [done|]. exists d'.
        unfold dir_merge in Em. set (i := idx d k) in *. set (lo := d_loc d i) in *.
        destruct (N.eqb_spec lo 0) as [|Hlo]; [done|]. destruct (N.eqb_spec (d_loc d (N.lxor i (2 ^ (lo - 1)))) lo) as [Hbl|]; [|done]. cbn [negb] in Em.
        apply N.eqb_eq in Hp.
        match type of Em with Some (?x, ?y) = _ => assert (x = p) as Ex by congruence; assert (y = d') as Ey by congruence end. clear Em.
        cbn [d_page] in Ex. assert (i < 2 ^ d_glob d) as Hi by apply idx_lt.
        pose proof (w_loc _ (i_wf _ _ _ _ I) i Hi) as Hlg. fold lo in Hlg.
        destruct (decide (i < 2 ^ lo)) as [Hs|Hs].
        -- exfalso. rewrite land_mod, N.mod_small, N.eqb_refl in Ex by done. rewrite (proj2 (N.ltb_lt _ _) Hi) in Ex. cbn [andb] in Ex.
           assert (N.lxor i (2 ^ (lo - 1)) mod 2 ^ d_glob d = N.lxor i (2 ^ (lo - 1))) as Hbg.
           { apply N.bits_inj. intros n. destruct (N.lt_ge_cases n (d_glob d)); [by rewrite N.mod_pow2_bits_low|].
             rewrite N.mod_pow2_bits_high by done. rewrite N.lxor_spec, N.pow2_bits_false by lia.
             rewrite <- (N.mod_small i (2 ^ d_glob d)) by done. rewrite N.mod_pow2_bits_high by done. done. }
           assert (d_page d i = d_page d (N.lxor i (2 ^ (lo - 1)))) as X by congruence.
           apply (w_same _ (i_wf _ _ _ _ I)) in X; [|done|rewrite <- Hbg; apply mod_lt]. fold lo in X.
           apply mod_bits with (m := lo - 1) in X; [|lia]. rewrite N.lxor_spec, N.pow2_bits_true in X. by destruct (N.testbit i (lo - 1)).
        -- apply (inv_ext _ _ d); [done|by rewrite <- Ey|by rewrite <- Ey|]. intros j Hj. rewrite <- Ey. cbn [d_loc d_page].
           assert ((N.land j (2 ^ lo - 1) =? i) = false) as ->; [|by rewrite andb_false_r].
           apply N.eqb_neq. rewrite land_mod. pose proof (mod_lt j lo). lia.
      * intros E. assert (r = true) as -> by congruence. assert (s' = s1) as -> by congruence. split; [done|]. do 3 (split; [done|]). by exists d.
    + intros E. assert (r = true) as -> by congruence. assert (s' = s1) as -> by congruence. split; [done|]. do 3 (split; [done|]). by exists d.
  - cbn [andb]. intros E. assert (r = false) as -> by congruence.
    assert (s' = set_bucks s (<[d_page d (idx d k) := b]> (t_bucks s))) as -> by congruence.
    split; [rewrite <- Hfv, Hr1; split; [done|by intros []]|]. do 3 (split; [done|]). exists d. apply Hset; congruence.
Qed.

Lemma inv_new p hdepth dmax bmax : p + 3 <= no_page ->
  exists d, Inv [] (p + 1) d (htab_new p hdepth dmax bmax).
Proof.
  intros Hp. exists (mkD dmax 0 (fun _ => 0) (fun i => if i =? 0 then p + 2 else no_page)). constructor.
  - intros k. unfold htab_new. cbn [t_head h_dirs]. destruct (N.ltb_spec (hash_to_dir (hash k) (mkH hdepth (fun i => if i <? 2 ^ hdepth then p + 1 else no_page))) (2 ^ hdepth)) as [|H]; [done|].
    exfalso. unfold hash_to_dir in H. cbn [h_depth] in H. destruct (N.eqb_spec (N.min hdepth 31) 0).
    + pose proof (pow_pos hdepth). lia.
    + rewrite land_mod in H. pose proof (mod_lt (N.shiftr (hash k) (32 - N.min hdepth 31)) (N.min hdepth 31)).
      assert (2 ^ N.min hdepth 31 <= 2 ^ hdepth) by (apply N.pow_le_mono_r; lia). lia.
  - lia.
  - cbn. by rewrite lookup_singleton.
  - done.
  - constructor; cbn.
    + lia.
    + lia.
    + intros i j Hi Hj. change (2 ^ 0) with 1 in *. assert (i = 0) as -> by lia. assert (j = 0) as -> by lia. done.
    + done.
  - cbn. intros i Hi. change (2 ^ 0) with 1 in *. assert (i = 0) as -> by lia. cbn. lia.
  - done.
  - cbn. intros i Hi. change (2 ^ 0) with 1 in *. assert (i = 0) as -> by lia. rewrite N.eqb_refl.
    eexists. rewrite lookup_singleton. split; [done|]. split; [done|]. split; [cbn; lia|]. intros e He. by apply elem_of_nil in He.
  - intros k b. assert (idx (mkD dmax 0 (fun _ => 0) (fun i => if i =? 0 then p + 2 else no_page)) k = 0) as E.
    { unfold idx. cbn. change (2 ^ 0) with 1. apply N.mod_1_r. }
    cbn [htab_new t_dirs t_bucks]. rewrite E. cbn [d_page]. rewrite N.eqb_refl, lookup_singleton. intros [= <-]. done.
Qed.

Lemma calls_right cs : forall m dp d s as' s', Inv m dp d s -> t_next s + 10 * N.of_nat (length cs) <= no_page ->
  calls hash s cs = (as', s', false) ->
  exists m' d', all_right m (map fst cs) as' m' /\ Inv m' dp d' s' /\ t_bmax s' = t_bmax s /\ t_dmax s' = t_dmax s /\
    t_next s' <= t_next s + 10 * N.of_nat (length cs).
Proof.
  induction cs as [|[c oks] cs IH]; intros m dp d s as' s' I Hn; cbn [calls map fst].
  - intros [= <- <-]. exists m, d. split; [constructor|]. split; [done|]. split; [done|]. split; [done|]. cbn. lia.
  - destruct (step hash s c oks) as [[a s1] o1] eqn:Es. destruct (calls hash s1 cs) as [[as2 s2] o2] eqn:Ec. intros E.
    assert (as' = a :: as2) as -> by congruence. assert (o1 || o2 = false) as Ho by congruence. apply orb_false_iff in Ho as [-> ->].
    cbn [length] in Hn.
    assert (exists m' d', right m c a m' /\ Inv m' dp d' s1 /\ t_next s1 <= t_next s + 10 /\ t_bmax s1 = t_bmax s /\ t_dmax s1 = t_dmax s) as (m' & d' & Hr & I' & Hn' & Eb & Ed).
    { destruct c as [k v|k|k]; cbn [step] in Es.
      - unfold insert in Es. destruct (insert_loop hash 10 s k v oks false) as [[r s1'] o] eqn:Ei. assert (a = ADone r) as -> by congruence.
        assert (s1' = s1) as -> by congruence. assert (o = false) as -> by congruence.
        destruct (inv_insert 10 _ _ _ _ _ _ _ _ _ _ _ I ltac:(lia) Ei eq_refl) as (A1 & A2 & A3 & (d' & A4) & _).
        exists (if r then add_entry k v m else m), d'. split; [by destruct r|]. split; [done|]. split; [lia|done].
      - assert (a = AValue (get_value hash s k)) as -> by congruence. assert (s1 = s) as -> by congruence. exists m, d.
        split; [split; [by eapply inv_get|done]|]. split; [done|]. split; [lia|done].
      - destruct (remove hash s k) as [[r s1'] o] eqn:Ei. assert (a = ADone r) as -> by congruence.
        assert (s1' = s1) as -> by congruence. assert (o = false) as -> by congruence.
        destruct (inv_remove _ _ _ _ _ _ _ I Ei) as (A1 & A2 & A3 & A4 & d' & A5). exists (take_out k m), d'. split; [done|]. split; [done|]. split; [lia|done]. }
    destruct (IH _ _ _ _ _ _ I' ltac:(lia) Ec) as (m2 & d2 & B1 & B2 & B3 & B4 & B5). assert (s' = s2) as -> by congruence. exists m2, d2. split; [by econstructor|]. split; [done|].
    split; [congruence|]. split; [congruence|]. cbn [length]. lia.
Qed.
End Htab.
