(** * Proofs about table pages: contents in memory *)
From stdpp Require Import list.
From Coq Require Import NArith Lia ZifyBool ZifyNat ZifyN.
From Verif Require Import Bytes PageModel PageSpec.
Local Open Scope N_scope.

(** ** Slices *)

Lemma slice_length d s n : length (slice d s n) = N.to_nat n.
Proof. unfold slice. by rewrite map_length, seq_length. Qed.

Lemma slice_ext d d' s n : (forall i, s <= i < s + n -> d i = d' i) -> slice d s n = slice d' s n.
Proof.
  intros H. unfold slice. apply map_ext_in. intros i Hi. apply in_seq in Hi. apply H. lia.
Qed.

Lemma slice_app d s a b : slice d s (a + b) = slice d s a ++ slice d (s + a) b.
Proof.
  unfold slice. rewrite N2Nat.inj_add, seq_app, map_app. f_equal.
  rewrite <- (Nat.add_0_r (0 + N.to_nat a)). cbn [plus].
  assert (G : forall n k, map (fun i => d (s + N.of_nat i)) (seq (N.to_nat a + k) n)
                         = map (fun i => d (s + a + N.of_nat i)) (seq k n)).
  { induction n as [|n IH]; intros k; cbn; [done|]. rewrite <- IH, Nat.add_succ_r. f_equal. f_equal. lia. }
  apply G.
Qed.

Lemma blit_out d s bs i : i < s \/ s + blen bs <= i -> blit d s bs i = d i.
Proof. intros H. unfold blit. destruct ((s <=? i) && (i <? s + blen bs)) eqn:E; [lia|done]. Qed.

Lemma slice_blit d s bs : slice (blit d s bs) s (blen bs) = bs.
Proof.
  unfold slice, blen. rewrite Nat2N.id.
  apply nth_ext with (d := 0) (d' := 0); [by rewrite map_length, seq_length|].
  intros n Hn. rewrite map_length, seq_length in Hn.
  rewrite nth_indep with (d' := (fun i => blit d s bs (s + N.of_nat i)) 0%nat) by (by rewrite map_length, seq_length).
  rewrite (map_nth (fun i => blit d s bs (s + N.of_nat i))), seq_nth by done. cbn [plus].
  unfold blit, blen. destruct ((s <=? s + N.of_nat n) && (s + N.of_nat n <? s + N.of_nat (length bs))) eqn:E; [|lia].
  f_equal. lia.
Qed.

Lemma slice_blit_out d s bs a n : a + n <= s \/ s + blen bs <= a -> slice (blit d s bs) a n = slice d a n.
Proof. intros H. apply slice_ext. intros i Hi. apply blit_out. lia. Qed.

Lemma blen_app a b : blen (a ++ b) = blen a + blen b.
Proof. unfold blen. rewrite app_length. lia. Qed.

(** Two pieces written together are read one by one. *)
Lemma slice_two d s n a b : slice d s (blen a + n) = a ++ b -> slice d s (blen a) = a /\ slice d (s + blen a) n = b.
Proof.
  rewrite slice_app. intros E. apply app_inj_1 in E; [done|]. rewrite slice_length. unfold blen. lia.
Qed.

(** ** Encodings *)

Lemma varint_enc_length f x : (length (varint_enc f x) <= f)%nat.
Proof. revert x. induction f as [|f IH]; intros x; cbn; [done|]. destruct (x <? 128); cbn; [lia|]. specialize (IH (x / 128)). lia. Qed.

Lemma opt_enc_length x : (length (opt_enc x) <= 11)%nat.
Proof. destruct x as [x|]; cbn [opt_enc length]; [|lia]. pose proof (varint_enc_length 10 x). unfold u64_enc. lia. Qed.

Lemma meta_enc_length m : blen (meta_enc m) <= 33.
Proof.
  unfold meta_enc, blen. rewrite !app_length.
  pose proof (varint_enc_length 10 (tm_creator m)). pose proof (opt_enc_length (tm_ts m)). pose proof (opt_enc_length (tm_undo m)).
  unfold u64_enc. cbn [length bool_enc]. lia.
Qed.

Lemma varint_enc_nonempty f x : (0 < f)%nat -> (1 <= length (varint_enc f x))%nat.
Proof. destruct f; [lia|]. cbn. destruct (x <? 128); cbn; lia. Qed.

Lemma meta_enc_nonempty m : 4 <= blen (meta_enc m).
Proof.
  unfold meta_enc, blen. rewrite !app_length.
  pose proof (varint_enc_nonempty 10 (tm_creator m) ltac:(lia)). unfold u64_enc.
  assert (forall x, 1 <= length (opt_enc x))%nat as G by (intros [x|]; cbn; lia).
  pose proof (G (tm_ts m)). pose proof (G (tm_undo m)). cbn [length bool_enc]. lia.
Qed.

Lemma info_bytes_bound l : 8 * N.of_nat (length l) <= info_bytes l <= 37 * N.of_nat (length l).
Proof.
  induction l as [|s l IH]; cbn [info_bytes foldr length]; [lia|]. change (foldr _ 0 l) with (info_bytes l).
  pose proof (meta_enc_length s.2). pose proof (meta_enc_nonempty s.2). lia.
Qed.

Lemma info_bytes_app a b : info_bytes (a ++ b) = info_bytes a + info_bytes b.
Proof.
  induction a as [|s a IH]; cbn [app info_bytes foldr]; [done|].
  change (foldr _ 0 (a ++ b)) with (info_bytes (a ++ b)). change (foldr _ 0 a) with (info_bytes a). rewrite IH. lia.
Qed.

(** ** Invariant *)

Definition s_off (s : slot) : N := s.1.1.
Definition s_size (s : slot) : N := s.1.2.

Definition slot_ok (d : N -> N) (s : slot) (r : row) : Prop :=
  s.2 = r.1 /\ s_size s = blen r.2 /\ slice d (s_off s) (s_size s) = r.2 /\ s_off s + s_size s <= psize.

Definition apart (s s' : slot) : Prop := s_off s + s_size s <= s_off s' \/ s_off s' + s_size s' <= s_off s.

Definition lowest_last (l : list slot) : Prop :=
  forall s, last l = Some s -> forall i s', l !! i = Some s' -> s_off s <= s_off s'.

Record pinv (grown : Prop) (p : page) (rows : list row) : Prop := PInv {
  pi_num : p_num p = N.of_nat (length (p_info p));
  pi_room : 8 * N.of_nat (length (p_info p)) <= psize;
  pi_rows : Forall2 (slot_ok (p_data p)) (p_info p) rows;
  pi_apart : forall i j s s', p_info p !! i = Some s -> p_info p !! j = Some s' -> i <> j -> apart s s';
  pi_last : ~ grown -> lowest_last (p_info p)
}.

Lemma pinv_len g p rows : pinv g p rows -> length (p_info p) = length rows.
Proof. intros I. apply Forall2_length with (P := slot_ok (p_data p)). apply (pi_rows _ _ _ I). Qed.

Lemma pinv_get g p rows k del : pinv g p rows -> get_tuple (p_id p) k del p = row_get rows k del.
Proof.
  intros I. unfold get_tuple, row_get. rewrite N.eqb_refl.
  destruct (p_info p !! k) as [[[off size] m]|] eqn:E.
  - destruct (Forall2_lookup_l _ _ _ _ _ (pi_rows _ _ _ I) E) as ([m2 bs] & Er & Hm & Hs & Hd & _).
    rewrite Er. unfold s_off, s_size in *. cbn in *. rewrite Hd, Hm. done.
  - destruct (rows !! k) as [r|] eqn:Er; [|done].
    destruct (Forall2_lookup_r _ _ _ _ _ (pi_rows _ _ _ I) Er) as (s & Es & _). congruence.
Qed.

Lemma pinv_new id : pinv False (new_page id) [].
Proof. split; cbn; done || constructor. Qed.

Lemma pinv_grown (g g' : Prop) p rows : pinv g p rows -> (g -> g') -> pinv g' p rows.
Proof. intros [A B C D E] H. split; auto. Qed.

(** ** Serialisation keeps the tuples in place *)

Lemma fold_blit d l buf i :
  fold_left (fun b s => blit b (s_off s) (slice d (s_off s) (s_size s))) l buf i =
  if existsb (fun s => (s_off s <=? i) && (i <? s_off s + s_size s)) l then d i else buf i.
Proof.
  revert buf. induction l as [|s l IH]; intros buf; cbn [fold_left existsb]; [done|].
  rewrite IH. destruct (existsb _ l) eqn:E; [by rewrite orb_true_r|]. rewrite orb_false_r.
  unfold blit, blen. rewrite slice_length, N2Nat.id.
  destruct ((s_off s <=? i) && (i <? s_off s + s_size s)) eqn:E2; [|done].
  unfold slice. rewrite nth_indep with (d' := (fun j => d (s_off s + N.of_nat j)) 0%nat) by (rewrite map_length, seq_length; lia).
  rewrite (map_nth (fun j => d (s_off s + N.of_nat j))), seq_nth by lia. f_equal. lia.
Qed.

Lemma serialize_in p i s :
  s ∈ p_info p -> s_off s <= i < s_off s + s_size s -> serialize p i = p_data p i.
Proof.
  intros Hs Hi. unfold serialize. destruct (write_infos _ 33 (p_info p)) as [buf off].
  rewrite (fold_blit (p_data p) (p_info p)).
  destruct (existsb _ (p_info p)) eqn:E; [done|]. exfalso.
  apply not_true_iff_false in E. apply E. apply existsb_exists. exists s. split; [by apply elem_of_list_In|]. lia.
Qed.

Lemma serialize_slice p s : s ∈ p_info p -> slice (serialize p) (s_off s) (s_size s) = slice (p_data p) (s_off s) (s_size s).
Proof. intros Hs. apply slice_ext. intros i Hi. by apply (serialize_in p i s). Qed.

(** ** Insert *)

Lemma next_offset_spec p m bs o :
  next_offset p m bs = Some o ->
  exists se, o = se - blen bs /\ blen bs <= max_tuple /\ as_u16 (blen bs) = blen bs /\
    37 <= footprint_new p m /\ footprint_new p m <= o /\ blen bs <= se /\
    8 * (N.of_nat (length (p_info p)) + 1) <= psize /\
    ((p_num p = 0 /\ se = psize) \/
     (0 < p_num p /\ forall s, p_info p !! (N.to_nat (p_num p) - 1)%nat = Some s -> se = s_off s)).
Proof.
  unfold next_offset, too_large. intros H.
  destruct ((max_tuple <? blen bs) || (psize <? blen bs + footprint_new p (TMeta 0 None false None))) eqn:E; [done|].
  apply orb_false_iff in E as [E1 E2]. unfold max_tuple in *.
  assert (Eu : as_u16 (blen bs) = blen bs) by (unfold as_u16; apply N.mod_small; lia).
  rewrite Eu in H. destruct (3500 <? blen bs) eqn:E3; [lia|].
  assert (Hf : footprint_new p m <= 4096 + 33).
  { unfold footprint_new, psize in *. pose proof (meta_enc_length m). lia. }
  assert (Ef : as_u16 (footprint_new p m) = footprint_new p m) by (unfold as_u16; apply N.mod_small; lia).
  rewrite Ef in H.
  assert (H37 : 37 <= footprint_new p m) by (unfold footprint_new; lia).
  assert (H8 : 8 * (N.of_nat (length (p_info p)) + 1) <= psize).
  { unfold footprint_new, psize in *. pose proof (info_bytes_bound (p_info p)). change (blen (meta_enc (TMeta 0 None false None))) with 4 in E2. lia. }
  set (se := if 0 <? p_num p then match p_info p !! (N.to_nat (p_num p) - 1)%nat with Some s => s.1.1 | None => 0 end else psize) in *.
  destruct (se - blen bs <? footprint_new p m) eqn:E4; [done|]. assert (Ho : o = se - blen bs) by congruence.
  exists se. do 7 (split; [lia|]). unfold se. destruct (0 <? p_num p) eqn:E5.
  - right. split; [lia|]. intros s Hs. rewrite Hs. done.
  - left. split; [lia|done].
Qed.


Lemma serialize_out p q i :
  p_info p = p_info q -> header_enc p = header_enc q ->
  (forall s, s ∈ p_info p -> ~ (s_off s <= i < s_off s + s_size s)) -> serialize p i = serialize q i.
Proof.
  intros Hi Hh H. unfold serialize. rewrite <- Hi, <- Hh. destruct (write_infos _ 33 (p_info p)) as [buf off].
  rewrite (fold_blit (p_data p) (p_info p)), (fold_blit (p_data q) (p_info p)).
  destruct (existsb _ (p_info p)) eqn:E; [|done]. exfalso.
  apply existsb_exists in E as (s & Hs & Hb). apply (H s); [by apply elem_of_list_In|lia].
Qed.

Lemma in_slots_dec (l : list slot) i :
  (exists s, s ∈ l /\ s_off s <= i < s_off s + s_size s) \/ (forall s, s ∈ l -> ~ (s_off s <= i < s_off s + s_size s)).
Proof.
  destruct (existsb (fun s => (s_off s <=? i) && (i <? s_off s + s_size s)) l) eqn:E.
  - left. apply existsb_exists in E as (s & Hs & Hb). exists s. split; [by apply elem_of_list_In|lia].
  - right. intros s Hs Hi. apply not_true_iff_false in E. apply E. apply existsb_exists. exists s.
    split; [by apply elem_of_list_In|lia].
Qed.

Lemma slot_ok_ext d d' s r :
  (forall i, s_off s <= i < s_off s + s_size s -> d i = d' i) -> slot_ok d s r -> slot_ok d' s r.
Proof. intros H (A & B & C & D). split; [done|]. split; [done|]. split; [|done]. by rewrite <- (slice_ext d d'). Qed.

Lemma lookup_snoc_Some {A} (x : A) l i y :
  (l ++ [x]) !! i = Some y <-> (i < length l)%nat /\ l !! i = Some y \/ i = length l /\ x = y.
Proof.
  rewrite lookup_app_Some, list_lookup_singleton_Some. split.
  - intros [H|(H1 & H2 & H3)]; [left|right]; [split; [by apply lookup_lt_Some with y|done]|]. split; [lia|done].
  - intros [[_ H]|[-> ->]]; [by left|right]. split; [done|]. split; [lia|done].
Qed.

Lemma insert_pinv (g : Prop) m bs p p2 rows :
  pinv g p rows -> ~ g -> insert_with_rid m bs p = Some p2 ->
  pinv g p2 (rows ++ [(m, bs)]) /\ p_id p2 = p_id p /\
  exists o, p_info p2 = p_info p ++ [(o, blen bs, m)] /\ footprint p2 <= o /\ (forall i, p_data p2 i = serialize p2 i) /\
            p_next p2 = p_next p /\ p_prev p2 = p_prev p /\ p_ndel p2 = p_ndel p /\
            (forall s, s ∈ p_info p -> o + blen bs <= s_off s) /\ o + blen bs <= psize.
Proof.
  intros I Hg H. unfold insert_with_rid in H. destruct (next_offset p m bs) as [o|] eqn:En; [|done].
  destruct (next_offset_spec _ _ _ _ En) as (se & Ho & Hb & Eu & H37 & Hfo & Hse & H8 & Hend).
  destruct (o + blen bs <=? psize) eqn:Ep; [|done]. rewrite Eu in H. cbn [p_id p_next p_prev p_num p_ndel p_info] in H.
  set (p1 := Page (p_id p) (p_next p) (p_prev p) (p_num p + 1) (p_ndel p) (p_info p ++ [(o, blen bs, m)]) (blit (p_data p) o bs) true) in *.
  assert (E : p2 = Page (p_id p) (p_next p) (p_prev p) (p_num p + 1) (p_ndel p) (p_info p ++ [(o, blen bs, m)]) (serialize p1) true) by congruence.
  (* the new tuple is below all others *)
  assert (Hlow : forall i s, p_info p !! i = Some s -> o + blen bs <= s_off s).
  { intros i s Hi. destruct Hend as [[Hn _]|[Hn Hs]].
    - rewrite (pi_num _ _ _ I) in Hn. assert (p_info p = []) as E0 by (apply nil_length_inv; lia). rewrite E0 in Hi. done.
    - assert (Hl : exists sl, p_info p !! (N.to_nat (p_num p) - 1)%nat = Some sl).
      { apply lookup_lt_is_Some. rewrite (pi_num _ _ _ I) in *. lia. }
      destruct Hl as [sl Hl]. rewrite (Hs sl Hl) in *.
      assert (last (p_info p) = Some sl) as Hlast.
      { rewrite last_lookup. rewrite <- Hl. f_equal. rewrite (pi_num _ _ _ I). lia. }
      pose proof (pi_last _ _ _ I Hg sl Hlast i s Hi). lia. }
  assert (Hlow2 : forall s, s ∈ p_info p -> o + blen bs <= s_off s).
  { intros s Hs. apply elem_of_list_lookup in Hs as [i Hi]. by apply (Hlow i). }
  assert (Hp2 : forall i, p_data p2 i = serialize p2 i).
  { intros i. rewrite E at 1. cbn [p_data]. destruct (in_slots_dec (p_info p1) i) as [(s & Hs & Hi)|Hno].
    - rewrite (serialize_in p2 i s); [by rewrite E|by rewrite E|done].
    - apply serialize_out; [by rewrite E|by rewrite E|done]. }
  split; [|split; [by rewrite E|]].
  - rewrite E. split; cbn [p_num p_info p_data].
    + rewrite app_length. cbn [length]. rewrite (pi_num _ _ _ I). lia.
    + rewrite app_length. cbn [length]. lia.
    + apply Forall2_app.
      * apply Forall2_same_length_lookup_2; [apply (pinv_len _ _ _ I)|]. intros i s r Hs Hr.
        pose proof (Forall2_lookup_lr _ _ _ _ _ _ (pi_rows _ _ _ I) Hs Hr) as Hok.
        apply (slot_ok_ext (p_data p)); [|done]. intros j Hj.
        rewrite (serialize_in p1 j s); [|cbn; apply elem_of_app; left; by apply elem_of_list_lookup_2 with i|done].
        cbn [p_data p1]. rewrite blit_out; [done|]. pose proof (Hlow i s Hs). lia.
      * constructor; [|constructor]. unfold slot_ok, s_off, s_size. cbn [fst snd].
        split; [done|]. split; [done|]. split; [|lia].
        transitivity (slice (p_data p1) o (blen bs)); [|cbn; apply slice_blit].
        apply (serialize_slice p1 (o, blen bs, m)). cbn. apply elem_of_app. right. apply elem_of_list_singleton. done.
    + intros i j s s' Hi Hj Hij.
      apply lookup_snoc_Some in Hi as [[Hi1 Hi]|[Hi1 <-]]; apply lookup_snoc_Some in Hj as [[Hj1 Hj]|[Hj1 <-]].
      * by apply (pi_apart _ _ _ I i j).
      * right. unfold s_off at 1, s_size at 1. cbn. by apply (Hlow i).
      * left. unfold s_off at 1, s_size at 1. cbn. by apply (Hlow j).
      * congruence.
    + intros _ s Hs i s' Hi. rewrite last_snoc in Hs. assert (s = (o, blen bs, m)) by congruence. subst s. unfold s_off at 1. cbn.
      apply lookup_snoc_Some in Hi as [[Hi1 Hi]|[Hi1 <-]]; [|unfold s_off; cbn; lia]. pose proof (Hlow i s' Hi). lia.
  - exists o. split; [by rewrite E|]. split.
    + rewrite E. unfold footprint. cbn [p_info]. rewrite info_bytes_app. unfold footprint_new in Hfo. cbn [info_bytes foldr snd]. lia.
    + split; [done|]. do 3 (split; [by rewrite E|]). split; [done|lia].
Qed.

(** ** Update *)

Lemma foldr_min_le l x : x ∈ l -> foldr (fun (s : slot) n => N.min s.1.1 n) psize l <= s_off x.
Proof.
  induction l as [|y l IH]; intros H; [by apply elem_of_nil in H|]. apply elem_of_cons in H as [->|H]; cbn.
  - unfold s_off. lia.
  - specialize (IH H). lia.
Qed.

Lemma foldr_min_psize l : foldr (fun (s : slot) n => N.min s.1.1 n) psize l <= psize.
Proof. induction l as [|y l IH]; cbn; lia. Qed.

Lemma low_others_le k l j s : l !! j = Some s -> j <> k -> low_others k l <= s_off s.
Proof.
  intros Hj Hjk. apply foldr_min_le. apply elem_of_app.
  destruct (decide (j < k)%nat) as [Hlt|Hge].
  - left. apply elem_of_list_lookup. exists j. by rewrite lookup_take.
  - right. apply elem_of_list_lookup. exists (j - S k)%nat. rewrite lookup_drop. rewrite <- Hj. f_equal. lia.
Qed.

Lemma footprint_u16 g p rows : pinv g p rows -> as_u16 (footprint p) = footprint p /\ 37 <= footprint p.
Proof.
  intros I. pose proof (info_bytes_bound (p_info p)). pose proof (pi_room _ _ _ I). unfold as_u16, footprint, psize in *.
  split; [apply N.mod_small|]; lia.
Qed.

(** Replacing slot [k] by a slot that stays apart from the others. *)
Lemma set_slot_pinv (g g' : Prop) p rows k s d dirty s2 r2 :
  pinv g p rows -> p_info p !! k = Some s ->
  slot_ok d s2 r2 ->
  (forall j s', p_info p !! j = Some s' -> j <> k -> apart s2 s' /\
     forall i, s_off s' <= i < s_off s' + s_size s' -> d i = p_data p i) ->
  (~ g' -> ~ g /\ (s_off s2 = s_off s \/ (S k = length (p_info p) /\
     forall j s', p_info p !! j = Some s' -> j <> k -> s_off s2 <= s_off s'))) ->
  pinv g' (set_slot k s2 d dirty p) (<[k := r2]> rows).
Proof.
  intros I Hk Hok Hj Hg. pose proof (lookup_lt_Some _ _ _ Hk) as Hlt.
  assert (Hlen := pinv_len _ _ _ I).
  split; cbn [p_num p_info p_data set_slot].
  - rewrite insert_length. apply (pi_num _ _ _ I).
  - rewrite insert_length. apply (pi_room _ _ _ I).
  - apply Forall2_same_length_lookup_2; [by rewrite !insert_length|]. intros i s' r' Hs Hr.
    destruct (decide (i = k)) as [->|Hik].
    + rewrite list_lookup_insert in Hs by done. rewrite list_lookup_insert in Hr by lia. congruence.
    + rewrite list_lookup_insert_ne in Hs by congruence. rewrite list_lookup_insert_ne in Hr by congruence.
      apply (slot_ok_ext (p_data p)); [|by apply (Forall2_lookup_lr _ _ _ i _ _ (pi_rows _ _ _ I))].
      intros x Hx. symmetry. by apply (Hj i s').
  - intros i j s1 s1' Hi Hi' Hne.
    destruct (decide (i = k)) as [->|Hik]; destruct (decide (j = k)) as [->|Hjk]; [congruence| | |].
    + rewrite list_lookup_insert in Hi by done. rewrite list_lookup_insert_ne in Hi' by congruence.
      assert (s1 = s2) by congruence. subst s1. by apply (Hj j).
    + rewrite list_lookup_insert in Hi' by done. rewrite list_lookup_insert_ne in Hi by congruence.
      assert (s1' = s2) by congruence. subst s1'. destruct (Hj i s1 Hi Hik) as [[A|A] _]; [right|left]; done.
    + rewrite list_lookup_insert_ne in Hi by congruence. rewrite list_lookup_insert_ne in Hi' by congruence.
      by apply (pi_apart _ _ _ I i j).
  - intros Hng. destruct (Hg Hng) as (Hg0 & Hor). intros sl Hsl i s' Hi.
    rewrite last_lookup, insert_length in Hsl.
    pose proof (pi_last _ _ _ I Hg0) as Hl.
    destruct (p_info p !! Init.Nat.pred (length (p_info p))) as [sl0|] eqn:E0.
    2:{ apply lookup_ge_None in E0. lia. }
    assert (Hl0 : forall i s', p_info p !! i = Some s' -> s_off sl0 <= s_off s').
    { intros j sj Hsj. apply (Hl sl0) with j; [|done]. by rewrite last_lookup. }
    destruct (decide (Init.Nat.pred (length (p_info p)) = k)) as [Ek|Ek].
    + rewrite Ek in *. rewrite list_lookup_insert in Hsl by done. assert (sl = s2) by congruence. subst sl.
      assert (sl0 = s) by congruence. subst sl0.
      destruct (decide (i = k)) as [->|Hik].
      * rewrite list_lookup_insert in Hi by done. assert (s' = s2) by congruence. subst s'. lia.
      * rewrite list_lookup_insert_ne in Hi by congruence. destruct Hor as [Heq|[_ Hor]].
        -- rewrite Heq. by apply (Hl0 i).
        -- by apply (Hor i).
    + rewrite list_lookup_insert_ne in Hsl by congruence. assert (sl = sl0) by congruence. subst sl.
      destruct Hor as [Heq|[Hlast _]]; [|lia].
      destruct (decide (i = k)) as [->|Hik].
      * rewrite list_lookup_insert in Hi by done. assert (s' = s2) by congruence. subst s'. rewrite Heq. by apply (Hl0 k).
      * rewrite list_lookup_insert_ne in Hi by congruence. by apply (Hl0 i).
Qed.

Lemma blen_zeros n : blen (zeros n) = n.
Proof. unfold blen, zeros. rewrite repeat_length. lia. Qed.

Lemma update_pinv (g : Prop) k m bs p rows :
  pinv g p rows -> blen bs < 65536 ->
  match update_tuple k m bs p with
  | POk p2 => pinv (g \/ outgrows (PUpdate k m bs) rows) p2 (<[k := (m, bs)]> rows) /\ p_id p2 = p_id p /\
              p_next p2 = p_next p /\ p_prev p2 = p_prev p /\ p_ndel p2 = p_ndel p
  | PErr p2 => p2 = p
  | PPanic => False
  end.
Proof.
  intros I Hb. unfold update_tuple. assert (Eu : as_u16 (blen bs) = blen bs) by (unfold as_u16; by apply N.mod_small).
  rewrite Eu. destruct (p_info p !! k) as [[[off size] old]|] eqn:Hk; [|done].
  destruct (p_num p <=? N.of_nat k) eqn:En; [done|].
  destruct (Forall2_lookup_l _ _ _ _ _ (pi_rows _ _ _ I) Hk) as (r & Hr & Hok).
  destruct Hok as (Hm & Hs & Hd & Hp). unfold s_off, s_size in Hs, Hd, Hp. cbn [fst snd] in *.
  destruct (blen bs <=? size) eqn:Esz.
  - destruct (off + blen bs <=? psize) eqn:Eo; [|lia]. rewrite N.eqb_refl.
    split; [|done].
    apply (set_slot_pinv g) with (s := (off, size, old)); [done|done| | |].
    + split; [done|]. split; [done|]. split; [|unfold s_off, s_size; cbn; lia].
      unfold s_off, s_size. cbn [fst snd].
      destruct ((blen bs <? size) && (off + size <=? psize)); [rewrite slice_blit_out by lia|]; apply slice_blit.
    + intros j s' Hj Hjk. pose proof (pi_apart _ _ _ I k j _ s' Hk Hj ltac:(congruence)) as Ha.
      unfold apart, s_off at 1 3, s_size at 1 2 in Ha. cbn [fst snd] in Ha.
      unfold apart, s_off, s_size in *. cbn [fst snd] in *. split; [lia|]. intros i Hi.
      destruct ((blen bs <? size) && (off + size <=? psize)) eqn:Ez.
      * rewrite blit_out; [rewrite blit_out; [done|lia]|rewrite blen_zeros; lia].
      * rewrite blit_out; [done|lia].
    + intros Hng. split; [tauto|]. left. done.
  - destruct (footprint_u16 _ _ _ I) as [Ef H37]. rewrite Ef.
    set (lo := low_others k (p_info p)). destruct (lo - blen bs <? footprint p) eqn:Elo; [done|].
    assert (Hlo : lo <= psize) by apply foldr_min_psize.
    destruct (lo - blen bs + blen bs <=? psize) eqn:Ele; [|lia]. rewrite N.eqb_refl.
    destruct (off + size <=? psize) eqn:Eos; [|lia].
    split; [|done].
    apply (set_slot_pinv g) with (s := (off, size, old)); [done|done| | |].
    + split; [done|]. split; [done|]. split; [|unfold s_off, s_size; cbn; lia].
      unfold s_off, s_size. cbn [fst snd]. apply slice_blit.
    + intros j s' Hj Hjk. pose proof (low_others_le k _ j s' Hj Hjk) as Hlow. fold lo in Hlow.
      pose proof (pi_apart _ _ _ I k j _ s' Hk Hj ltac:(congruence)) as Ha.
      unfold apart, s_off, s_size in *. cbn [fst snd] in *. split; [lia|]. intros i Hi.
      rewrite blit_out by lia. rewrite blit_out; [done|]. rewrite blen_zeros. lia.
    + intros Hng. split; [tauto|].
      assert (Hlast : S k = length (p_info p)).
      { destruct (decide (S k = length (p_info p))) as [|Hne]; [done|]. exfalso. apply Hng. right.
        exists r. split; [done|]. pose proof (lookup_lt_Some _ _ _ Hk). rewrite <- (pinv_len _ _ _ I). unfold blen in *. split; lia. }
      right. split; [done|]. intros j s' Hj Hjk. pose proof (low_others_le k _ j s' Hj Hjk) as Hlow. fold lo in Hlow.
      unfold s_off at 1. cbn [fst]. lia.
Qed.

Lemma meta_pinv (g : Prop) k m p rows :
  pinv g p rows ->
  match update_meta k m p with
  | POk p2 => pinv g p2 (alter (fun r => (m, r.2)) k rows) /\ p_id p2 = p_id p /\ p_next p2 = p_next p /\ p_prev p2 = p_prev p
  | PErr p2 => p2 = p
  | PPanic => False
  end.
Proof.
  intros I. unfold update_meta. destruct (p_info p !! k) as [[[off size] old]|] eqn:Hk; [|done].
  destruct (p_num p <=? N.of_nat k) eqn:En; [done|].
  destruct (Forall2_lookup_l _ _ _ _ _ (pi_rows _ _ _ I) Hk) as ([m0 bs] & Hr & Hok).
  destruct Hok as (Hm & Hs & Hd & Hp). unfold s_off, s_size in Hs, Hd, Hp. cbn [fst snd] in *.
  split; [|done].
  assert (Ea : alter (fun r => (m, r.2)) k rows = <[k := (m, bs)]> rows).
  { apply list_eq. intros i. destruct (decide (i = k)) as [->|Hik].
    - rewrite list_lookup_alter, Hr. cbn. rewrite list_lookup_insert; [done|]. by apply lookup_lt_Some with (m0, bs).
    - rewrite list_lookup_alter_ne by congruence. by rewrite list_lookup_insert_ne by congruence. }
  rewrite Ea.
  assert (Hset : pinv g (set_slot k (off, size, m) (p_data p) true p) (<[k := (m, bs)]> rows)).
  { apply (set_slot_pinv g) with (s := (off, size, old)); [done|done| | |].
    - done.
    - intros j s' Hj Hjk. split; [|done]. pose proof (pi_apart _ _ _ I k j _ s' Hk Hj ltac:(congruence)) as Ha. done.
    - intros Hng. split; [done|]. left. done. }
  destruct Hset as [A B C D F]. split; done.
Qed.

(** ** Histories *)

Lemma links_pinv g p q rows :
  pinv g p rows -> p_num q = p_num p -> p_info q = p_info p -> p_data q = p_data p -> pinv g q rows.
Proof. intros [A B C D F] E1 E2 E3. split; rewrite ?E1, ?E2, ?E3; done. Qed.

Lemma pstep_pinv (g : Prop) o p rows :
  pinv g p rows -> small o ->
  match pstep o p with
  | POk p2 => ((exists m bs, o = PInsert m bs) -> ~ g) -> pinv (g \/ outgrows o rows) p2 (rstep o rows) /\ p_id p2 = p_id p
  | PErr p2 => p2 = p
  | PPanic => False
  end.
Proof.
  intros I Hsm. destruct o as [m bs|k m bs|k m|n|n]; cbn [pstep rstep].
  - destruct (insert_with_rid m bs p) as [p2|] eqn:E; [|done]. intros Hg.
    destruct (insert_pinv g m bs p p2 rows I (Hg (ex_intro _ m (ex_intro _ bs eq_refl))) E) as (I2 & Hid & _).
    split; [|done]. apply (pinv_grown g); [done|tauto].
  - destruct Hsm as [_ Hl]. pose proof (update_pinv g k m bs p rows I Hl) as H.
    destruct (update_tuple k m bs p) as [p2|p2|]; [|done|done]. intros _. tauto.
  - pose proof (meta_pinv g k m p rows I) as H. destruct (update_meta k m p) as [p2|p2|]; [|done|done].
    intros _. split; [|tauto]. apply (pinv_grown g); tauto.
  - intros _. split; [|done]. apply (pinv_grown g); [|tauto]. by apply (links_pinv g p).
  - intros _. split; [|done]. apply (pinv_grown g); [|tauto]. by apply (links_pinv g p).
Qed.

Lemma orderly_weaken (g g' : Prop) ops rs rows : (g' -> g) -> orderly g ops rs rows -> orderly g' ops rs rows.
Proof.
  revert g g' rs rows. induction ops as [|o ops IH]; intros g g' rs rows Hg H; [done|].
  destruct rs as [|ok rs]; [done|]. destruct H as [H1 H2]. split; [intros Hok Hin Hg'; apply (H1 Hok Hin); auto|].
  eapply IH; [|exact H2]. tauto.
Qed.

Lemma prun_pinv (g : Prop) ops p rows :
  pinv g p rows -> Forall small ops ->
  (forall rs p2, prun ops p = Some (rs, p2) -> orderly g ops rs rows ->
     exists g', pinv g' p2 (rows_after ops rs rows) /\ p_id p2 = p_id p).
Proof.
  revert g p rows. induction ops as [|o ops IH]; intros g p rows I Hs rs p2 R Ho; cbn in R.
  { assert (rs = [] /\ p2 = p) as [-> ->] by (split; congruence). exists g. done. }
  apply Forall_cons in Hs as [Hs Hss]. pose proof (pstep_pinv g o p rows I Hs) as H.
  destruct (pstep o p) as [p1|p1|]; [| |done].
  - destruct (prun ops p1) as [[rs1 p3]|] eqn:R1; [|done]. assert (rs = true :: rs1 /\ p2 = p3) as [-> ->] by (split; congruence).
    destruct Ho as [Ho1 Ho2]. destruct (H (Ho1 eq_refl)) as [I1 Hid].
    destruct (IH _ p1 _ I1 Hss rs1 p3 R1) as (g' & I2 & Hid2).
    + eapply orderly_weaken; [|exact Ho2]. tauto.
    + exists g'. split; [done|congruence].
  - subst p1. destruct (prun ops p) as [[rs1 p3]|] eqn:R1; [|done]. assert (rs = false :: rs1 /\ p2 = p3) as [-> ->] by (split; congruence).
    destruct Ho as [Ho1 Ho2]. destruct (IH _ p _ I Hss rs1 p3 R1) as (g' & I2 & Hid2).
    + eapply orderly_weaken; [|exact Ho2]. tauto.
    + exists g'. done.
Qed.

(** No call panics. *)
Lemma pstep_total o p : small o -> pstep o p <> PPanic.
Proof.
  intros H. destruct o as [m bs|k m bs|k m|n|n]; cbn [pstep]; [by destruct (insert_with_rid m bs p)| |
    unfold update_meta; destruct (p_info p !! k) as [[[off size] old]|]; [destruct (p_num p <=? N.of_nat k)|]; done|done|done].
  destruct H as [_ H]. unfold update_tuple. destruct (p_info p !! k) as [[[off size] old]|]; [|done].
  assert (Eu : as_u16 (blen bs) = blen bs) by (unfold as_u16; by apply N.mod_small).
  rewrite Eu, N.eqb_refl. repeat case_match; done.
Qed.

Lemma prun_total ops p : Forall small ops -> exists rs p2, prun ops p = Some (rs, p2).
Proof.
  revert p. induction ops as [|o ops IH]; intros p Hs; [by exists [], p|]. apply Forall_cons in Hs as [Hs Hss].
  cbn. pose proof (pstep_total o p Hs). destruct (pstep o p) as [p1|p1|]; [| |done].
  - destruct (IH p1 Hss) as (rs & p2 & R). rewrite R. by exists (true :: rs), p2.
  - destruct (IH p1 Hss) as (rs & p2 & R). rewrite R. by exists (false :: rs), p2.
Qed.
