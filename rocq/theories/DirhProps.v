(** C128: a directory page of the hash index stays consistent. *)
From Coq Require Import NArith List Bool Lia Arith.
From Verif Require Import HtabModel HtabProofs DirhSpec DirhModel.
Import ListNotations.
Local Open Scope N_scope.

Definition sound (d : dir) : Prop := consistent (d_glob d) (d_loc d) (d_page d).
Lemma sound_dwf d : d_glob d <= d_max d -> sound d -> dwf d.
Proof. intros M (A & B & C). constructor; assumption. Qed.
Lemma dwf_sound d : dwf d -> sound d.
Proof. intros [M A B C]. split; [exact A|split; [exact B|exact C]]. Qed.

(** ** Growing *)
Theorem c128_grow d : consistent (d_glob d) (d_loc d) (d_page d) -> d_glob d < d_max d ->
  let d' := incr_global d in
  d_glob d' = d_glob d + 1 /\ d_max d' = d_max d /\ consistent (d_glob d') (d_loc d') (d_page d') /\
  (forall h, goes_to (d_glob d') (d_page d') h = goes_to (d_glob d) (d_page d) h).
Proof.
  intros S M. pose proof (sound_dwf d ltac:(lia) S) as W. unfold incr_global.
  destruct (grow d) as [d'|] eqn:E.
  - destruct (grow_spec d d' W E) as (A & B & C & D). split; [exact B|]. split; [exact A|]. split; [exact (dwf_sound d' D)|].
    intros h. unfold goes_to. rewrite (proj2 (C _ (mod_lt h _))). rewrite B, mod_mod_low by lia. reflexivity.
  - exfalso. unfold grow in E. destruct (N.leb_spec (d_max d) (d_glob d)); [lia|discriminate].
Qed.
Theorem c128_grow_full d : d_max d <= d_glob d -> incr_global d = d.
Proof. intros M. unfold incr_global, grow. destruct (N.leb_spec (d_max d) (d_glob d)); [reflexivity|lia]. Qed.

(** ** Splitting *)
Lemma split_some d b p : d_loc d b <= d_glob d -> d_loc d b < d_max d -> d_glob d <= d_max d ->
  update_for_split b p d = Some (split_bucket b p d).
Proof.
  intros L M G. unfold update_for_split, split_bucket. destruct (N.leb_spec (d_glob d) (d_loc d b)) as [H|H].
  - replace (N.to_nat (d_loc d b + 1 - d_glob d)) with 1%nat by lia. cbn [grow_to].
    unfold grow. destruct (N.leb_spec (d_max d) (d_glob d)); [lia|]. reflexivity.
  - replace (N.to_nat (d_loc d b + 1 - d_glob d)) with 0%nat by lia. reflexivity.
Qed.
(** Splitting a bucket with a page not yet in the directory leaves it consistent; of the keys of
    the bucket those with the next bit set go to the new page, and no other key moves. *)
Theorem c128_split d b p : consistent (d_glob d) (d_loc d) (d_page d) -> d_glob d <= d_max d ->
  b < 2 ^ d_glob d -> d_loc d b < d_max d -> (forall i, i < 2 ^ d_glob d -> d_page d i <> p) ->
  let d' := split_bucket b p d in let l := d_loc d b in
  update_for_split b p d = Some d' /\ consistent (d_glob d') (d_loc d') (d_page d') /\ d_max d' = d_max d /\
  d_glob d <= d_glob d' <= d_glob d + 1 /\ d_loc d' b = l + 1 /\
  (forall h, goes_to (d_glob d') (d_page d') h =
     if (h mod 2 ^ l =? b mod 2 ^ l) && N.testbit h l then p else goes_to (d_glob d) (d_page d) h) /\
  (forall i, i < 2 ^ d_glob d' -> d_page d' i = p \/ exists j, j < 2 ^ d_glob d /\ d_page d' i = d_page d j).
Proof.
  intros S G B L P d' l. pose proof (proj1 S b B) as Lb. pose proof (split_some d b p Lb L G) as E. fold d' in E.
  pose proof (sound_dwf d G S) as W. destruct (split_spec d d' b p W B L P E) as (A1 & A2 & A3 & A4 & A5). fold l in A3, A5.
  assert (G' : d_glob d' <= d_glob d + 1 /\ l + 1 <= d_glob d').
  { split; [|rewrite <- A3; apply (w_loc _ A4); eapply N.lt_le_trans; [exact B|apply N.pow_le_mono_r; lia]].
    unfold d', split_bucket. destruct (N.leb_spec (d_glob d) (d_loc d b)); [|cbn [d_glob]; lia].
    unfold grow. destruct (N.leb_spec (d_max d) (d_glob d)); cbn [d_glob]; lia. }
  repeat split; try assumption; try lia.
  - apply (dwf_sound d' A4).
  - apply (dwf_sound d' A4); assumption.
  - apply (dwf_sound d' A4); assumption.
  - apply (dwf_sound d' A4).
  - intros h. unfold goes_to. set (i := h mod 2 ^ d_glob d').
    assert (Hi : i < 2 ^ d_glob d') by apply mod_lt. destruct (A5 i Hi) as [X Y].
    assert (E1 : i mod 2 ^ l = h mod 2 ^ l) by (apply mod_mod_low; lia).
    assert (E2 : N.testbit i l = N.testbit h l) by (apply testbit_mod; lia).
    assert (E3 : i mod 2 ^ d_glob d = h mod 2 ^ d_glob d) by (apply mod_mod_low; lia).
    rewrite E1 in X, Y. destruct (N.eqb_spec (h mod 2 ^ l) (b mod 2 ^ l)) as [Q|Q]; cbn [andb].
    + rewrite (proj2 (X Q)), E2. destruct (N.testbit h l); [reflexivity|].
      apply (w_same _ W b (h mod 2 ^ d_glob d) B (mod_lt _ _)). fold l. rewrite mod_mod_low by exact Lb. symmetry. exact Q.
    + rewrite (proj2 (Y Q)), E3. reflexivity.
  - intros i Hi. destruct (A5 i Hi) as [X Y]. destruct (N.eq_dec (i mod 2 ^ l) (b mod 2 ^ l)) as [Q|Q].
    + rewrite (proj2 (X Q)). destruct (N.testbit i l); [left; reflexivity|right; exists b; split; [exact B|reflexivity]].
    + rewrite (proj2 (Y Q)). right. exists (i mod 2 ^ d_glob d). split; [apply mod_lt|reflexivity].
Qed.
(** At the greatest depth nothing is split. *)
Theorem c128_split_full d b p : d_loc d b = d_max d -> d_glob d = d_max d ->
  split_bucket b p d = d /\ update_for_split b p d = None.
Proof.
  intros A B. unfold split_bucket, update_for_split. rewrite A, B, N.leb_refl.
  replace (N.to_nat (d_max d + 1 - d_max d)) with 1%nat by lia. cbn [grow_to]. unfold grow. rewrite B, N.leb_refl. split; reflexivity.
Qed.

Lemma split_all_sound ops : forall d, sound d -> d_glob d <= d_max d -> NoDup (map snd ops) ->
  (forall i q, i < 2 ^ d_glob d -> In q (map snd ops) -> d_page d i <> q) -> sound (split_all ops d) /\ d_glob (split_all ops d) <= d_max (split_all ops d).
Proof.
  induction ops as [|[h p] ops IH]; intros d S G ND P; [split; assumption|]. cbn [split_all fold_left fst snd].
  inversion ND as [|? ? X Y]; subst. cbn [map snd] in X, Y, P. set (b := hash_to_bucket h d).
  assert (B : b < 2 ^ d_glob d) by (unfold b, hash_to_bucket; rewrite land_mod; apply mod_lt).
  pose proof (proj1 S b B) as Lb. destruct (N.eq_dec (d_loc d b) (d_max d)) as [E|E].
  - rewrite (proj1 (c128_split_full d b p E ltac:(lia))). apply IH; auto. intros i q Hi Hq. apply P; [exact Hi|right; exact Hq].
  - destruct (c128_split d b p S G B ltac:(lia)) as (_ & S' & M & G' & _ & _ & Pg); [intros i Hi; apply P; [exact Hi|left; reflexivity]|].
    assert (G2 : d_glob (split_bucket b p d) <= d_max (split_bucket b p d)).
    { rewrite M. unfold split_bucket. destruct (N.leb_spec (d_glob d) (d_loc d b)); [|cbn [d_glob]; lia].
      unfold grow. destruct (N.leb_spec (d_max d) (d_glob d)); cbn [d_glob]; lia. }
    apply IH; auto. intros i q Hi Hq. destruct (Pg i Hi) as [->|(j & Hj & ->)].
    + intros ->. exact (X Hq).
    + apply P; [exact Hj|right; exact Hq].
Qed.
Lemma fresh_sound mx p : sound (fresh mx p).
Proof.
  unfold sound, fresh. cbn [d_glob d_loc d_page set_page dir_init]. change (2 ^ 0) with 1. repeat split; intros; try lia.
  - rewrite !N.mod_1_r. reflexivity.
  - replace i with 0 by lia. replace j with 0 by lia. reflexivity.
Qed.
(** However often buckets of a new directory are split, it is consistent. *)
Theorem c128_splits mx p ops : NoDup (p :: map snd ops) ->
  let d := split_all ops (fresh mx p) in consistent (d_glob d) (d_loc d) (d_page d) /\ d_glob d <= mx.
Proof.
  intros ND d. inversion ND as [|? ? X Y]; subst.
  assert (Q : forall i q, i < 2 ^ d_glob (fresh mx p) -> In q (map snd ops) -> d_page (fresh mx p) i <> q).
  { intros i q Hi Hq. cbn in Hi. replace i with 0 by lia. cbn. intros ->. exact (X Hq). }
  destruct (split_all_sound ops (fresh mx p) (fresh_sound mx p) ltac:(cbn; lia) Y Q) as [A B]. split; [exact A|].
  replace mx with (d_max d); [exact B|]. unfold d, split_all. clear.
  assert (H : forall d, d_max (fold_left (fun d op => split_bucket (hash_to_bucket (fst op) d) (snd op) d) ops d) = d_max d).
  { induction ops as [|op ops IH]; intros d; [reflexivity|]. cbn [fold_left]. rewrite IH. unfold split_bucket.
    destruct (d_glob d <=? _); [|reflexivity]. unfold grow. destruct (d_max d <=? d_glob d); reflexivity. }
  rewrite H. reflexivity.
Qed.

(** After a split the image of the bucket is the other of the two. *)
Lemma xor_bit b n m : N.testbit (N.lxor b (2 ^ n)) m = xorb (N.testbit b m) (N.eqb n m).
Proof. rewrite N.lxor_spec, N.pow2_bits_eqb. reflexivity. Qed.
Lemma xor_lt b n g : b < 2 ^ g -> n < g -> N.lxor b (2 ^ n) < 2 ^ g.
Proof.
  intros B H. assert (E : N.lxor b (2 ^ n) = N.lxor b (2 ^ n) mod 2 ^ g).
  { apply N.bits_inj. intros m. destruct (N.lt_ge_cases m g) as [L|L].
    - rewrite N.mod_pow2_bits_low by exact L. reflexivity.
    - rewrite N.mod_pow2_bits_high by exact L. rewrite xor_bit. rewrite <- (N.mod_small b (2 ^ g) B).
      rewrite N.mod_pow2_bits_high by exact L. destruct (N.eqb_spec n m); [lia|reflexivity]. }
  rewrite E. apply mod_lt.
Qed.
Lemma xor_low b n : N.lxor b (2 ^ n) mod 2 ^ n = b mod 2 ^ n.
Proof. apply mod_bits. intros m Hm. rewrite xor_bit. destruct (N.eqb_spec n m); [lia|]. apply xorb_false_r. Qed.
Theorem c128_split_image d b p : consistent (d_glob d) (d_loc d) (d_page d) -> d_glob d <= d_max d ->
  b < 2 ^ d_glob d -> d_loc d b < d_max d -> (forall i, i < 2 ^ d_glob d -> d_page d i <> p) ->
  let d' := split_bucket b p d in let i := split_image b d' in
  i < 2 ^ d_glob d' /\ (d_page d' b = p /\ d_page d' i = d_page d b \/ d_page d' b = d_page d b /\ d_page d' i = p).
Proof.
  intros S G B L P d' i. destruct (c128_split d b p S G B L P) as (E & S' & _ & G' & Lb & _). fold d' in E, S', G', Lb.
  destruct (split_spec d d' b p (sound_dwf d G S) B L P E) as (_ & _ & _ & _ & A5).
  assert (B' : b < 2 ^ d_glob d') by (eapply N.lt_le_trans; [exact B|apply N.pow_le_mono_r; lia]).
  pose proof (proj1 S' b B') as Q. rewrite Lb in Q. unfold i, split_image. rewrite Lb.
  destruct (N.eqb_spec (d_loc d b + 1) 0); [lia|]. replace (d_loc d b + 1 - 1) with (d_loc d b) by lia.
  assert (I : N.lxor b (2 ^ d_loc d b) < 2 ^ d_glob d') by (apply xor_lt; [exact B'|lia]). split; [exact I|].
  destruct (A5 b B') as [X _]. destruct (A5 _ I) as [Y _]. rewrite (proj2 (X eq_refl)), (proj2 (Y (xor_low _ _))).
  rewrite xor_bit, N.eqb_refl. destruct (N.testbit b (d_loc d b)); [left|right]; split; reflexivity.
Qed.
(** Asked of a bucket of depth 0, in any directory, the image is no entry of the directory, or
    one of the same bucket. *)
Theorem c128_split_image_refuted d b : consistent (d_glob d) (d_loc d) (d_page d) -> b < 2 ^ d_glob d -> d_loc d b = 0 ->
  2 ^ d_glob d <= split_image b d \/ d_page d (split_image b d) = d_page d b.
Proof.
  intros S B L. unfold split_image. rewrite L, N.eqb_refl. destruct (N.lt_ge_cases (b + 1) (2 ^ d_glob d)) as [H|H]; [right|left; exact H].
  symmetry. apply (proj1 (proj2 S) b (b + 1) B H). rewrite L. change (2 ^ 0) with 1. rewrite !N.mod_1_r. reflexivity.
Qed.

(** ** Merging *)

(** A bucket merged with its buddy: the directory is no longer consistent, and the page given
    back to be deleted is the one both now point to. *)
Theorem c128_merge_refuted d b : consistent (d_glob d) (d_loc d) (d_page d) -> b < 2 ^ d_glob d ->
  0 < d_loc d b -> b < 2 ^ d_loc d b -> d_loc d (split_image b d) = d_loc d b ->
  exists p d', dir_merge b d = Some (p, d') /\ ~ consistent (d_glob d') (d_loc d') (d_page d') /\
    p = d_page d (split_image b d) /\ d_page d' b = p /\ d_page d' (split_image b d) = p /\
    (forall h, goes_to (d_glob d') (d_page d') h = if h mod 2 ^ d_loc d b =? b then p else goes_to (d_glob d) (d_page d) h) /\
    d_loc d' (split_image b d) = d_loc d b.
Proof.
  intros S B Z Sm Bd. pose proof (proj1 S b B) as Lb. unfold split_image in *.
  destruct (N.eqb_spec (d_loc d b) 0) as [|NZ]; [lia|]. set (l := d_loc d b) in *. set (y := N.lxor b (2 ^ (l - 1))) in *.
  assert (Yg : y < 2 ^ d_glob d) by (apply xor_lt; [exact B|lia]).
  assert (Yn : y mod 2 ^ l <> b).
  { intros E. rewrite <- (N.mod_small b (2 ^ l) Sm) in E. rewrite mod_bits in E. specialize (E (l - 1) ltac:(lia)).
    unfold y in E. rewrite xor_bit, N.eqb_refl in E. destruct (N.testbit b (l - 1)); discriminate. }
  unfold dir_merge. fold l. fold y. destruct (N.eqb_spec l 0); [lia|]. rewrite Bd, N.eqb_refl. cbn [negb].
  eexists. eexists. split; [reflexivity|]. cbn [d_page d_loc d_glob].
  rewrite !land_mod. rewrite (N.mod_small b (2 ^ l) Sm), N.eqb_refl.
  destruct (N.ltb_spec b (2 ^ d_glob d)); [|lia]. destruct (N.ltb_spec y (2 ^ d_glob d)); [|lia].
  destruct (N.eqb_spec (y mod 2 ^ l) b) as [|_]; [contradiction|]. cbn [andb].
  repeat split; auto.
  - intros (_ & _ & X). specialize (X b y B Yg). cbn beta in X.
    rewrite !land_mod, (N.mod_small b (2 ^ l) Sm), N.eqb_refl in X.
    destruct (N.ltb_spec b (2 ^ d_glob d)); [|lia]. destruct (N.ltb_spec y (2 ^ d_glob d)); [|lia].
    destruct (N.eqb_spec (y mod 2 ^ l) b) as [|_]; [contradiction|]. cbn [andb] in X. specialize (X eq_refl). lia.
  - intros h. unfold goes_to. cbn beta. pose proof (mod_lt h (d_glob d)) as Hh.
    destruct (N.ltb_spec (h mod 2 ^ d_glob d) (2 ^ d_glob d)); [|lia]. cbn [andb].
    rewrite land_mod, mod_mod_low by exact Lb. reflexivity.
Qed.
(** Merging through an entry number beyond the bucket's depth changes nothing, and gives back
    the page of the bucket itself. *)
Theorem c128_merge_high_refuted d b p d' : b < 2 ^ d_glob d -> 2 ^ d_loc d b <= b -> dir_merge b d = Some (p, d') ->
  p = d_page d b /\ d_glob d' = d_glob d /\ forall i, d_loc d' i = d_loc d i /\ d_page d' i = d_page d i.
Proof.
  intros B H. unfold dir_merge. destruct (d_loc d b =? 0); [discriminate|]. destruct (negb _); [discriminate|].
  intros E. injection E as <- <-. cbn [d_glob d_loc d_page].
  assert (X : forall i, (N.land i (2 ^ d_loc d b - 1) =? b) = false).
  { intros i. rewrite land_mod. apply N.eqb_neq. pose proof (mod_lt i (d_loc d b)). lia. }
  repeat split; intros; rewrite X, andb_false_r; reflexivity.
Qed.

(** ** Shrinking *)
Lemma can_shrink_iff d : can_shrink d = true <-> forall i, i < 512 -> d_loc d i < d_glob d.
Proof.
  unfold can_shrink. rewrite forallb_forall. split.
  - intros H i Hi. specialize (H (N.to_nat i)). rewrite in_seq, N2Nat.id in H. unfold array_size in H.
    specialize (H ltac:(lia)). destruct (N.leb_spec (d_glob d) (d_loc d i)); [discriminate|assumption].
  - intros H i Hi. apply in_seq in Hi. unfold array_size in Hi. specialize (H (N.of_nat i) ltac:(lia)).
    destruct (N.leb_spec (d_glob d) (d_loc d (N.of_nat i))); [lia|reflexivity].
Qed.
(** When the page says the directory can be halved, halving it moves no key. *)
Theorem c128_shrink d : consistent (d_glob d) (d_loc d) (d_page d) -> d_glob d <= 9 -> can_shrink d = true ->
  let d' := decr_global d in
  d_glob d = d_glob d' + 1 /\ consistent (d_glob d') (d_loc d') (d_page d') /\
  (forall h, goes_to (d_glob d') (d_page d') h = goes_to (d_glob d) (d_page d) h).
Proof.
  intros (A & B & C) G Sh. rewrite can_shrink_iff in Sh. pose proof (Sh 0 ltac:(lia)) as P.
  unfold decr_global. destruct (N.eqb_spec (d_glob d) 0); [lia|]. cbn [d_glob d_loc d_page].
  assert (Le : 2 ^ (d_glob d - 1) <= 2 ^ d_glob d) by (apply N.pow_le_mono_r; lia).
  assert (Top : 2 ^ d_glob d <= 512) by (change 512 with (2 ^ 9); apply N.pow_le_mono_r; lia).
  split; [lia|]. split.
  - repeat split.
    + intros i Hi. specialize (Sh i ltac:(lia)). lia.
    + intros X. apply B; [lia|lia|exact X].
    + intros X. apply B; [lia|lia|exact X].
    + intros i j Hi Hj. apply C; lia.
  - intros h. unfold goes_to. pose proof (mod_lt h (d_glob d)) as Hh. pose proof (mod_lt h (d_glob d - 1)) as Hh'.
    symmetry. apply B; [lia|lia|]. pose proof (Sh (h mod 2 ^ d_glob d) ltac:(lia)) as L. rewrite !mod_mod_low by lia. reflexivity.
Qed.
(** After two of the deepest buckets are merged the directory can yet never be halved: the
    buddy's entry still has the old depth. *)
Theorem c128_shrink_refuted d b : consistent (d_glob d) (d_loc d) (d_page d) -> d_glob d <= 9 -> b < 2 ^ d_glob d ->
  0 < d_glob d -> d_loc d b = d_glob d -> d_loc d (split_image b d) = d_loc d b ->
  exists p d', dir_merge b d = Some (p, d') /\ can_shrink d' = false /\ dir_merge (split_image b d) d' = None.
Proof.
  intros S G B Z L Bd. destruct (c128_merge_refuted d b S B ltac:(lia) ltac:(rewrite L; exact B) Bd) as (p & d' & E & _ & _ & _ & _ & _ & Ly).
  exists p, d'. split; [exact E|].
  assert (Yg : split_image b d < 2 ^ d_glob d).
  { unfold split_image. rewrite L. destruct (N.eqb_spec (d_glob d) 0); [lia|]. apply xor_lt; [exact B|lia]. }
  assert (Top : 2 ^ d_glob d <= 512) by (change 512 with (2 ^ 9); apply N.pow_le_mono_r; lia).
  assert (G' : d_glob d' = d_glob d /\ d_loc d' b = d_loc d b - 1).
  { unfold dir_merge in E. destruct (d_loc d b =? 0); [discriminate|]. destruct (negb _); [discriminate|]. injection E as <- <-.
    cbn [d_glob d_loc]. split; [reflexivity|]. rewrite land_mod, N.mod_small by (rewrite L; exact B). rewrite N.eqb_refl.
    destruct (N.ltb_spec b (2 ^ d_glob d)); [reflexivity|lia]. }
  destruct G' as [G' Lb']. split.
  - destruct (can_shrink d') eqn:Q; [|reflexivity]. rewrite can_shrink_iff in Q. specialize (Q (split_image b d) ltac:(lia)). lia.
  - unfold dir_merge. rewrite Ly. destruct (N.eqb_spec (d_loc d b) 0); [reflexivity|].
    assert (Y : N.lxor (split_image b d) (2 ^ (d_loc d b - 1)) = b).
    { unfold split_image. destruct (N.eqb_spec (d_loc d b) 0); [lia|]. rewrite N.lxor_assoc, N.lxor_nilpotent. apply N.lxor_0_r. }
    rewrite Y, Lb'. destruct (N.eqb_spec (d_loc d b - 1) (d_loc d b)); [lia|]. reflexivity.
Qed.

(** ** The integrity check *)
Lemma in_indices d i : In i (indices d) <-> i < 2 ^ d_glob d.
Proof.
  unfold indices. rewrite in_map_iff. split.
  - intros (n & <- & H). apply in_seq in H. lia.
  - intros H. exists (N.to_nat i). rewrite N2Nat.id, in_seq. split; [reflexivity|lia].
Qed.
Lemma count_one r : forall n s, (s <= r < s + n)%nat -> length (filter (fun j => Nat.eqb j r) (seq s n)) = 1%nat.
Proof.
  assert (Z : forall n s, (r < s \/ s + n <= r)%nat -> length (filter (fun j => Nat.eqb j r) (seq s n)) = 0%nat).
  { induction n as [|n IH]; intros s H; [reflexivity|]. cbn. destruct (Nat.eqb_spec s r); [lia|]. apply IH. lia. }
  induction n as [|n IH]; intros s H; [lia|]. cbn. destruct (Nat.eqb_spec s r); [cbn; f_equal; apply Z; lia|apply IH; lia].
Qed.
Lemma count_mod m r q : (r < m)%nat -> length (filter (fun j => Nat.eqb (j mod m) r) (seq 0 (q * m))) = q.
Proof.
  intros H. induction q as [|q IH]; [reflexivity|].
  replace (S q * m)%nat with (q * m + m)%nat by lia. rewrite seq_app, filter_app, app_length, IH. cbn [Nat.add].
  rewrite (filter_ext_in _ (fun j => Nat.eqb j (q * m + r))).
  - rewrite count_one by lia. lia.
  - intros j Hj. apply in_seq in Hj. assert (j mod m = j - q * m)%nat as ->.
    { symmetry. apply (Nat.mod_unique j m q); lia. }
    destruct (Nat.eqb_spec (j - q * m) r), (Nat.eqb_spec j (q * m + r)); try reflexivity; lia.
Qed.
Theorem c128_integrity d : consistent (d_glob d) (d_loc d) (d_page d) -> verify_integrity d = true.
Proof.
  intros (A & B & C). unfold verify_integrity. rewrite !andb_true_iff, !forallb_forall. split; [split|].
  - intros i Hi. apply in_indices in Hi. apply N.leb_le. apply A. exact Hi.
  - intros i Hi. unfold find_bucket_index. destruct (find _ _) as [j|] eqn:F.
    + apply find_some in F as [Hj E]. apply N.eqb_eq in E. pose proof Hi as Hi'. apply in_indices in Hi. apply in_indices in Hj.
      rewrite (C j i Hj Hi E). apply N.eqb_eq. unfold page_count.
      set (l := d_loc d i). assert (Ll : l <= d_glob d) by (apply A; exact Hi).
      rewrite (filter_ext_in _ (fun j => j mod 2 ^ l =? i mod 2 ^ l)).
      * unfold indices.
        assert (Q : forall (f : N -> bool) s, length (filter f (map N.of_nat s)) = length (filter (fun n => f (N.of_nat n)) s)).
        { intros f s. induction s as [|x s IHs]; [reflexivity|]. cbn. destruct (f (N.of_nat x)); cbn; rewrite IHs; reflexivity. }
        rewrite Q. rewrite (filter_ext_in _ (fun j => Nat.eqb (j mod N.to_nat (2 ^ l)) (N.to_nat (i mod 2 ^ l)))).
        -- replace (N.to_nat (2 ^ d_glob d)) with (N.to_nat (2 ^ (d_glob d - l)) * N.to_nat (2 ^ l))%nat.
           2: { rewrite <- N2Nat.inj_mul, <- N.pow_add_r. f_equal. f_equal. lia. }
           rewrite count_mod; [apply N2Nat.id|]. pose proof (mod_lt i l). lia.
        -- intros n _. pose proof (pow_pos l) as Pp.
           assert (X : N.to_nat (N.of_nat n mod 2 ^ l) = (n mod N.to_nat (2 ^ l))%nat).
           { rewrite N2Nat.inj_mod, Nat2N.id. reflexivity. }
           rewrite <- X. destruct (N.eqb_spec (N.of_nat n mod 2 ^ l) (i mod 2 ^ l)) as [->|Ne]; [symmetry; apply Nat.eqb_refl|].
           symmetry. apply Nat.eqb_neq. intros Y. apply N2Nat.inj in Y. contradiction.
      * intros k Hk. apply in_indices in Hk. specialize (B i k Hi Hk). fold l in B.
        destruct (N.eqb_spec (d_page d k) (d_page d i)) as [X|X], (N.eqb_spec (k mod 2 ^ l) (i mod 2 ^ l)) as [Y|Y]; try reflexivity; exfalso.
        -- apply Y. symmetry. apply B. symmetry. exact X.
        -- apply X. symmetry. apply B. symmetry. exact Y.
    + exfalso. apply (find_none _ _ F i) in Hi. rewrite N.eqb_refl in Hi. discriminate.
  - intros i Hi. apply forallb_forall. intros j Hj. apply in_indices in Hi. apply in_indices in Hj.
    destruct (N.eqb_spec (d_page d j) (d_page d i)) as [X|X]; [|reflexivity]. apply N.eqb_eq. apply C; auto.
Qed.
(** The check also passes for directories that are not consistent. *)
Definition mixed : dir := mkD 9 2 (fun _ => 1) (fun i => if i <? 2 then 10 else 11).
Theorem c128_integrity_refuted : verify_integrity mixed = true /\ ~ consistent (d_glob mixed) (d_loc mixed) (d_page mixed).
Proof.
  split; [vm_compute; reflexivity|]. intros (_ & B & _). specialize (B 0 1 ltac:(vm_compute; reflexivity) ltac:(vm_compute; reflexivity)).
  cbn in B. destruct B as [B _]. specialize (B eq_refl). discriminate.
Qed.
(** A merge is noticed by it. *)
Theorem c128_merge_noticed d b : consistent (d_glob d) (d_loc d) (d_page d) -> b < 2 ^ d_glob d ->
  0 < d_loc d b -> b < 2 ^ d_loc d b -> d_loc d (split_image b d) = d_loc d b ->
  exists p d', dir_merge b d = Some (p, d') /\ verify_integrity d' = false.
Proof.
  intros S B Z Sm Bd. destruct (c128_merge_refuted d b S B Z Sm Bd) as (p & d' & E & _ & _ & P1 & P2 & _ & Ly).
  exists p, d'. split; [exact E|]. destruct (verify_integrity d') eqn:V; [|reflexivity]. exfalso.
  unfold verify_integrity in V. rewrite !andb_true_iff in V. destruct V as [_ V]. rewrite forallb_forall in V.
  assert (G : d_glob d' = d_glob d /\ d_loc d' b = d_loc d b - 1).
  { unfold dir_merge in E. destruct (d_loc d b =? 0); [discriminate|]. destruct (negb _); [discriminate|]. injection E as <- <-.
    cbn [d_glob d_loc]. split; [reflexivity|]. rewrite land_mod, N.mod_small by exact Sm. rewrite N.eqb_refl.
    destruct (N.ltb_spec b (2 ^ d_glob d)); [reflexivity|lia]. }
  destruct G as [G Lb]. assert (Yg : split_image b d < 2 ^ d_glob d).
  { pose proof (proj1 S b B). unfold split_image. destruct (N.eqb_spec (d_loc d b) 0); [lia|]. apply xor_lt; [exact B|lia]. }
  specialize (V b (proj2 (in_indices d' b) ltac:(rewrite G; exact B))). rewrite forallb_forall in V.
  specialize (V (split_image b d) (proj2 (in_indices d' _) ltac:(rewrite G; exact Yg))).
  rewrite P1, P2, N.eqb_refl, Lb, Ly in V. apply N.eqb_eq in V. lia.
Qed.

(** ** Cases *)
Definition three : dir := split_all [(0, 11); (2, 12); (5, 13)] (fresh 9 10).
Example c128_splits_ex : NoDup (10 :: map snd [(0, 11); (2, 12); (5, 13)]) /\ d_glob three = 2 /\
  map (d_page three) [0; 1; 2; 3] = [10; 11; 12; 13] /\ verify_integrity three = true.
Proof. split; [repeat constructor; cbn; intuition discriminate|]. vm_compute. repeat split. Qed.
Example c128_merge_ex : d_loc three 2 = 2 /\ split_image 2 three = 0 /\ d_loc three (split_image 2 three) = d_loc three 2.
Proof. vm_compute. repeat split. Qed.
Example c128_shrink_ex : let d := incr_global (fresh 9 10) in can_shrink d = true /\ d_glob d = 1 /\ can_shrink three = false.
Proof. vm_compute. repeat split. Qed.
Example c128_image_ex : split_image 0 (fresh 9 10) = 1 /\ d_glob (fresh 9 10) = 0.
Proof. vm_compute. split; reflexivity. Qed.

Print Assumptions c128_grow.
Print Assumptions c128_grow_full.
Print Assumptions c128_split.
Print Assumptions c128_split_full.
Print Assumptions c128_splits.
Print Assumptions c128_split_image.
Print Assumptions c128_split_image_refuted.
Print Assumptions c128_merge_refuted.
Print Assumptions c128_merge_high_refuted.
Print Assumptions c128_shrink.
Print Assumptions c128_shrink_refuted.
Print Assumptions c128_integrity.
Print Assumptions c128_integrity_refuted.
Print Assumptions c128_merge_noticed.
