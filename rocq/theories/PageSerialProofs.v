(** * Proofs about table pages: the byte image *)
From stdpp Require Import list.
From Coq Require Import NArith Lia ZifyBool ZifyNat ZifyN.
From Verif Require Import Bytes PageModel PageSpec PageProofs.
Local Open Scope N_scope.

(** ** Decoding undoes encoding *)

Lemma varint_dec_enc f x l : x < 2 * 128 ^ N.of_nat f -> varint_dec (S f) (varint_enc (S f) x ++ l) = Some (x, l).
Proof.
  revert x. induction f as [|f IH]; intros x Hx.
  - change (128 ^ N.of_nat 0) with 1 in Hx. cbn. destruct (x <? 128) eqn:E; [|lia]. cbn. rewrite E.
    destruct (1 <? x) eqn:E2; [lia|done].
  - remember (S f) as f1. cbn [varint_enc]. destruct (x <? 128) eqn:E.
    + cbn. rewrite E. destruct (f1 =? 0)%nat eqn:E2; [lia|done].
    + cbn [app varint_dec]. destruct (x mod 128 + 128 <? 128) eqn:E2; [lia|]. rewrite IH.
      * f_equal. f_equal. pose proof (N.div_mod x 128 ltac:(lia)). lia.
      * rewrite Heqf1 in Hx. rewrite Nat2N.inj_succ, N.pow_succ_r in Hx by lia.
        apply N.div_lt_upper_bound; lia.
Qed.

Lemma u64_dec_enc x l : x < 2 ^ 64 -> u64_dec (u64_enc x ++ l) = Some (x, l).
Proof. intros H. apply (varint_dec_enc 9). exact H. Qed.

Lemma opt_dec_enc x l : (forall y, x = Some y -> y < 2 ^ 64) -> opt_dec (opt_enc x ++ l) = Some (x, l).
Proof. intros H. destruct x as [x|]; cbn [opt_enc app opt_dec]; [|done]. rewrite u64_dec_enc; [done|by apply H]. Qed.

Lemma meta_dec_enc m l : small_meta m -> meta_dec (meta_enc m ++ l) = Some m.
Proof.
  intros (H1 & H2 & H3). unfold meta_dec, meta_enc. rewrite <- !app_assoc. rewrite u64_dec_enc by done. rewrite opt_dec_enc by done.
  destruct m as [c ts d u]. cbn [tm_del bool_enc app tm_undo tm_creator tm_ts] in *.
  assert (E : bool_dec ((if d then 1 else 0) :: opt_enc u ++ l) = Some (d, opt_enc u ++ l)) by (by destruct d).
  rewrite E. rewrite opt_dec_enc by done. done.
Qed.

Lemma blen_le k x : blen (le_enc k x) = N.of_nat k.
Proof. unfold blen. by rewrite le_enc_length. Qed.

(** ** The slot directory *)

Definition small_slot (s : slot) : Prop := s_off s < 65536 /\ s_size s < 65536 /\ small_meta s.2.

Lemma info_bytes_cons s l : info_bytes (s :: l) = 4 + blen (meta_enc s.2) + info_bytes l.
Proof. done. Qed.

Lemma write_infos_spec l : forall buf off, off + info_bytes l + 4 <= psize -> Forall small_slot l ->
  exists buf', write_infos buf off l = (buf', off + info_bytes l) /\ (forall i, i < off -> buf' i = buf i) /\
    forall d, (forall i, off <= i < off + info_bytes l -> d i = buf' i) -> read_infos d off (length l) = Some (l, off + info_bytes l).
Proof.
  induction l as [|s l IH]; intros buf off Hoff Hsm.
  - exists buf. cbn. rewrite N.add_0_r. done.
  - apply Forall_cons in Hsm as [(Ho & Hz & Hm) Hsm]. rewrite info_bytes_cons in Hoff.
    cbn [write_infos length read_infos]. pose proof (meta_enc_nonempty s.2) as Hne.
    destruct (psize <? off + 8) eqn:E1; [lia|]. destruct (psize <? off + 4 + blen (meta_enc s.2) + 4) eqn:E2; [lia|].
    set (b1 := blit buf off (le_enc 2 s.1.1 ++ le_enc 2 s.1.2)). set (b2 := blit b1 (off + 4) (meta_enc s.2)).
    destruct (IH b2 (off + 4 + blen (meta_enc s.2)) ltac:(lia) Hsm) as (buf' & Ew & Hlow & Hread).
    assert (Hb4 : blen (le_enc 2 s.1.1 ++ le_enc 2 s.1.2) = 4) by (rewrite blen_app, !blen_le; lia).
    exists buf'. split; [rewrite Ew, info_bytes_cons; f_equal; lia|]. split.
    + intros i Hi. rewrite Hlow by lia. unfold b2, b1. rewrite blit_out by lia. by rewrite blit_out by lia.
    + intros d Hd. rewrite info_bytes_cons in Hd.
      destruct (psize <? off + 4) eqn:E3; [lia|].
      assert (Em : slice d (off + 4) (blen (meta_enc s.2)) = meta_enc s.2).
      { transitivity (slice b2 (off + 4) (blen (meta_enc s.2))); [|apply slice_blit]. apply slice_ext. intros i Hi. rewrite Hd by lia. apply Hlow. lia. }
      assert (Eh : slice d off 4 = le_enc 2 s.1.1 ++ le_enc 2 s.1.2).
      { transitivity (slice b1 off 4); [|rewrite <- Hb4; apply slice_blit].
        apply slice_ext. intros i Hi. rewrite Hd by lia. rewrite Hlow by lia. unfold b2. apply blit_out. lia. }
      change 4 with (2 + 2) in Eh. rewrite <- (blen_le 2 s.1.1) in Eh at 1. apply slice_two in Eh as [Ea Eb].
      rewrite blen_le in Ea, Eb. change (N.of_nat 2) with 2 in Ea, Eb.
      assert (Erest : exists rest, slice d (off + 4) (psize - (off + 4)) = meta_enc s.2 ++ rest).
      { exists (slice d (off + 4 + blen (meta_enc s.2)) (psize - (off + 4) - blen (meta_enc s.2))).
        rewrite <- Em at 1. rewrite <- slice_app. f_equal. lia. }
      destruct Erest as [rest Er]. rewrite Er, meta_dec_enc by done.
      rewrite Hread by (intros i Hi; apply Hd; lia). rewrite Ea, Eb.
      rewrite !le_dec_enc by (unfold s_off, s_size in *; cbn; lia).
      rewrite info_bytes_cons. destruct s as [[o z] m]. cbn. f_equal. f_equal. lia.
Qed.

(** ** The header *)

Record hinv (p : page) : Prop := HInv {
  hi_id : p_id p < 2 ^ 64; hi_next : p_next p < 2 ^ 64; hi_prev : p_prev p < 2 ^ 64; hi_ndel : p_ndel p < 65536;
  hi_metas : Forall (fun s => small_meta s.2) (p_info p) }.

Lemma header_dec_enc p : hinv p -> p_num p < 65536 ->
  header_dec (header_enc p) = (p_id p, p_next p, p_prev p, p_num p, p_ndel p).
Proof.
  intros [A B C D _] Hn. unfold header_dec, header_enc.
  assert (T : forall k x l, take k (le_enc k x ++ l) = le_enc k x).
  { intros k x l. rewrite <- (le_enc_length k x) at 1. apply take_app. }
  assert (S : forall k x l, drop k (le_enc k x ++ l) = l).
  { intros k x l. rewrite <- (le_enc_length k x) at 1. apply drop_app. }
  set (l0 := le_enc 8 (p_id p) ++ _).
  assert (D1 : drop 8 l0 = le_enc 8 (p_next p) ++ le_enc 8 (p_prev p) ++ le_enc 2 (p_num p) ++ le_enc 2 (p_ndel p)) by apply S.
  assert (D2 : drop 16 l0 = le_enc 8 (p_prev p) ++ le_enc 2 (p_num p) ++ le_enc 2 (p_ndel p))
    by (change 16%nat with (8 + 8)%nat; rewrite <- drop_drop, D1; apply S).
  assert (D3 : drop 24 l0 = le_enc 2 (p_num p) ++ le_enc 2 (p_ndel p))
    by (change 24%nat with (16 + 8)%nat; rewrite <- drop_drop, D2; apply S).
  assert (D4 : drop 26 l0 = le_enc 2 (p_ndel p)) by (change 26%nat with (24 + 2)%nat; rewrite <- drop_drop, D3; apply S).
  rewrite D1, D2, D3, D4. unfold l0. rewrite !T.
  rewrite (take_ge (le_enc 2 (p_ndel p))) by (by rewrite le_enc_length).
  rewrite (le_dec_enc 8 (p_id p)), (le_dec_enc 8 (p_next p)), (le_dec_enc 8 (p_prev p)),
    (le_dec_enc 2 (p_num p)), (le_dec_enc 2 (p_ndel p)); done.
Qed.

Lemma header_enc_blen p : blen (header_enc p) = 28.
Proof. unfold header_enc. rewrite !blen_app, !blen_le. done. Qed.

(** ** Round trip *)

(** The directory ends before the first tuple. *)
Definition fitted (p : page) : Prop := footprint p <= psize /\ forall s, s ∈ p_info p -> footprint p <= s_off s.

Lemma small_slots g p rows : pinv g p rows -> hinv p -> Forall small_slot (p_info p).
Proof.
  intros I H. apply Forall_lookup_2. intros i s Hs.
  destruct (Forall2_lookup_l _ _ _ _ _ (pi_rows _ _ _ I) Hs) as (r & _ & Hok). destruct Hok as (_ & _ & _ & Hp).
  pose proof (Forall_lookup_1 _ _ _ _ (hi_metas _ H) Hs). unfold psize in Hp. split; [lia|]. split; [lia|done].
Qed.

Lemma round_trip g p rows d :
  pinv g p rows -> hinv p -> fitted p -> (forall i, d i = serialize p i) ->
  deserialize d = Some (Page (p_id p) (p_next p) (p_prev p) (p_num p) (p_ndel p) (p_info p) d false).
Proof.
  intros I H [Hf1 Hf2] Hd.
  assert (Hn : p_num p < 65536) by (rewrite (pi_num _ _ _ I); pose proof (pi_room _ _ _ I); unfold psize in *; lia).
  set (b1 := blit (fun _ => 0) 0 [2]). set (b2 := blit b1 1 (header_enc p)). set (b3 := blit b2 29 magic).
  unfold footprint in *.
  destruct (write_infos_spec (p_info p) b3 33 ltac:(lia) (small_slots _ _ _ I H)) as (buf & Ew & Hlow & Hread).
  set (off := 33 + info_bytes (p_info p)) in *.
  assert (Hd2 : forall i, i < off + 4 -> d i = blit buf off end_magic i).
  { intros i Hi. rewrite Hd. unfold serialize. fold b1 b2 b3. rewrite Ew.
    destruct (off + 4 <=? psize) eqn:E; [|lia].
    rewrite (fold_blit (p_data p) (p_info p)). destruct (existsb _ (p_info p)) eqn:E2; [|done]. exfalso.
    apply existsb_exists in E2 as (s & Hs & Hb). apply elem_of_list_In in Hs. pose proof (Hf2 s Hs). unfold off in *. lia. }
  assert (Hd3 : forall i, i < 33 -> d i = b3 i).
  { intros i Hi. rewrite Hd2 by (unfold off; lia). rewrite blit_out by (unfold off; lia). by apply Hlow. }
  assert (E0 : d 0 = 2).
  { rewrite Hd3 by lia. unfold b3. rewrite blit_out by lia. unfold b2. rewrite blit_out by lia. done. }
  assert (E1 : slice d 1 28 = header_enc p).
  { transitivity (slice b2 1 28); [|rewrite <- (header_enc_blen p); apply slice_blit]. apply slice_ext. intros i Hi.
    rewrite Hd3 by lia. unfold b3. apply blit_out. lia. }
  assert (E2 : slice d 29 4 = magic).
  { transitivity (slice b3 29 (blen magic)); [|apply slice_blit]. apply slice_ext. intros i Hi. apply Hd3. cbn in Hi. lia. }
  assert (E3 : slice d off 4 = end_magic).
  { transitivity (slice (blit buf off end_magic) off (blen end_magic)); [|apply slice_blit]. apply slice_ext. intros i Hi. apply Hd2. cbn in Hi. lia. }
  unfold deserialize. rewrite E0. cbn [N.eqb negb Pos.eqb]. rewrite E1, header_dec_enc by done.
  rewrite E2. unfold bytes_eqb at 1. destruct (decide (magic = magic)) as [_|]; [|done]. cbn [negb].
  rewrite (pi_num _ _ _ I), Nat2N.id. rewrite Hread.
  2:{ intros i Hi. rewrite Hd2 by (unfold off; lia). apply blit_out. unfold off. lia. }
  fold off. rewrite E3. unfold bytes_eqb at 2. destruct (decide (end_magic = end_magic)) as [_|]; [|done].
  destruct (off + 4 <=? psize) eqn:E4; [|lia]. cbn [andb]. rewrite orb_true_r. cbn [orb]. done.
Qed.

(** A page read back answers as the page written. *)
Lemma round_trip_get g p rows d k del :
  pinv g p rows -> (forall i, d i = serialize p i) ->
  get_tuple (p_id p) k del (Page (p_id p) (p_next p) (p_prev p) (p_num p) (p_ndel p) (p_info p) d false) = row_get rows k del.
Proof.
  intros I Hd.
  assert (I2 : pinv g (Page (p_id p) (p_next p) (p_prev p) (p_num p) (p_ndel p) (p_info p) d false) rows).
  { destruct I as [A B C D F]. split; try done. cbn [p_data p_info].
    apply Forall2_same_length_lookup_2; [by apply Forall2_length in C|]. intros i s r Hs Hr.
    apply (slot_ok_ext (p_data p)); [|by apply (Forall2_lookup_lr _ _ _ i _ _ C)].
    intros j Hj. rewrite Hd. symmetry. apply (serialize_in p j s); [by apply elem_of_list_lookup_2 with i|done]. }
  apply (pinv_get g _ rows k del) in I2. exact I2.
Qed.

(** ** Histories *)

Lemma hinv_new id : id < 2 ^ 64 -> hinv (new_page id).
Proof. intros H. split; cbn; done || constructor. Qed.

Lemma fitted_new id : fitted (new_page id).
Proof. split; cbn; [unfold footprint, psize; cbn; done|]. intros s Hs. by apply elem_of_nil in Hs. Qed.

Lemma pstep_hinv o p : small o -> hinv p -> match pstep o p with POk p2 | PErr p2 => hinv p2 | PPanic => True end.
Proof.
  intros Hs H. pose proof H as [A B C D F]. destruct o as [m bs|k m bs|k m|n|n]; cbn [pstep small] in *.
  - unfold insert_with_rid. destruct (next_offset p m bs) as [o|]; [|done]. destruct (o + blen bs <=? psize); [|done].
    split; cbn; try done. apply Forall_app. split; [done|]. by constructor.
  - destruct Hs as [Hs _]. unfold update_tuple. destruct (p_info p !! k) as [[[off size] old]|]; [|done].
    assert (Hset : forall o z d dirty, hinv (set_slot k (o, z, m) d dirty p)).
    { intros o z d dirty. split; cbn; try done. by apply Forall_insert. }
    repeat (match goal with |- context [if ?b then _ else _] => destruct b end); done || apply Hset.
  - unfold update_meta. destruct (p_info p !! k) as [[[off size] old]|]; [|done]. destruct (p_num p <=? N.of_nat k); [done|].
    split; cbn [p_id p_next p_prev p_ndel p_info]; try done; [|by apply Forall_insert].
    destruct (tm_del old), (tm_del m); try done; [lia|]. unfold as_u16. by apply N.mod_lt.
  - by split.
  - by split.
Qed.

Lemma prun_hinv ops p rs p2 : Forall small ops -> hinv p -> prun ops p = Some (rs, p2) -> hinv p2.
Proof.
  revert p rs. induction ops as [|o ops IH]; intros p rs Hs H R; cbn in R.
  { assert (p2 = p) by congruence. by subst. }
  apply Forall_cons in Hs as [Hs Hss]. pose proof (pstep_hinv o p Hs H) as H1.
  destruct (pstep o p) as [p1|p1|]; [| |done]; destruct (prun ops p1) as [[rs1 p3]|] eqn:R1; try done;
    assert (p2 = p3) by congruence; subst; by apply (IH p1 rs1).
Qed.

Lemma info_bytes_insert l k s0 s : l !! k = Some s0 ->
  info_bytes (<[k := s]> l) + blen (meta_enc s0.2) = info_bytes l + blen (meta_enc s.2).
Proof.
  revert k. induction l as [|x l IH]; intros k H; [done|]. destruct k as [|k].
  - change (<[0%nat := s]> (x :: l)) with (s :: l). assert (x = s0) by (cbn in H; congruence). subst. rewrite !info_bytes_cons. lia.
  - change (<[S k := s]> (x :: l)) with (x :: <[k := s]> l). rewrite !info_bytes_cons. cbn in H. specialize (IH k H). lia.
Qed.

Lemma fitted_set_slot p k s0 s d dirty :
  fitted p -> p_info p !! k = Some s0 -> blen (meta_enc s.2) <= blen (meta_enc s0.2) ->
  s_off s = s_off s0 \/ footprint p <= s_off s -> fitted (set_slot k s d dirty p).
Proof.
  intros [H1 H2] Hk Hm Ho. pose proof (info_bytes_insert _ _ _ s Hk) as Hi.
  assert (Hle : footprint (set_slot k s d dirty p) <= footprint p) by (unfold footprint; cbn [p_info set_slot]; lia).
  split; [lia|]. intros s' Hs'. cbn [p_info set_slot] in Hs'. apply elem_of_list_lookup in Hs' as [i Hi'].
  apply list_lookup_insert_Some in Hi' as [(-> & E & _)|(_ & Hi')].
  - subst s'. destruct Ho as [E|Ho]; [|lia]. rewrite E. pose proof (H2 s0 (elem_of_list_lookup_2 _ _ _ Hk)). lia.
  - pose proof (H2 s' (elem_of_list_lookup_2 _ _ _ Hi')). lia.
Qed.

Lemma insert_fitted (g : Prop) m bs p p2 rows :
  pinv g p rows -> ~ g -> insert_with_rid m bs p = Some p2 -> fitted p2.
Proof.
  intros I Hg E. destruct (insert_pinv g m bs p p2 rows I Hg E) as (_ & _ & o & Hi & Hf & _ & _ & _ & _ & Hlow & Hp).
  split; [lia|]. intros s Hs. rewrite Hi in Hs. apply elem_of_app in Hs as [Hs|Hs].
  - pose proof (Hlow s Hs). lia.
  - apply elem_of_list_singleton in Hs. subst s. unfold s_off. cbn. lia.
Qed.

Lemma pstep_fitted (g : Prop) o p rows p2 :
  pinv g p rows -> small o -> fitted p -> ((exists m bs, o = PInsert m bs) -> ~ g) ->
  match o with
  | PUpdate k m _ | PMeta k m => forall r, rows !! k = Some r -> (length (meta_enc m) <= length (meta_enc r.1))%nat
  | _ => True
  end -> pstep o p = POk p2 -> fitted p2.
Proof.
  intros I Hs F Hg Hm E. destruct o as [m bs|k m bs|k m|n|n]; cbn [pstep] in E.
  - destruct (insert_with_rid m bs p) as [p3|] eqn:E1; [|done]. assert (p3 = p2) by congruence. subst p3.
    apply (insert_fitted g m bs p p2 rows I); [|done]. apply Hg. by exists m, bs.
  - unfold update_tuple in E. destruct (p_info p !! k) as [[[off size] old]|] eqn:Hk; [|done].
    destruct (Forall2_lookup_l _ _ _ _ _ (pi_rows _ _ _ I) Hk) as (r & Hr & Hok). destruct Hok as (Hm2 & _).
    specialize (Hm r Hr). cbn in Hm2. rewrite <- Hm2 in Hm.
    destruct (p_num p <=? N.of_nat k); [done|].
    destruct (as_u16 (blen bs) <=? size).
    + destruct (off + as_u16 (blen bs) <=? psize); [|done]. destruct (blen bs =? as_u16 (blen bs)); [|done].
      assert (Hq : exists d, p2 = set_slot k (off, as_u16 (blen bs), m) d true p) by (eexists; injection E as E; symmetry; exact E).
      destruct Hq as [d ->]. apply (fitted_set_slot p k (off, size, old)); [done|done|unfold blen; cbn [snd]; lia|by left].
    + destruct (footprint_u16 _ _ _ I) as [Ef _]. rewrite Ef in E.
      destruct (low_others k (p_info p) - as_u16 (blen bs) <? footprint p) eqn:El; [done|].
      destruct (low_others k (p_info p) - as_u16 (blen bs) + as_u16 (blen bs) <=? psize); [|done].
      destruct (blen bs =? as_u16 (blen bs)); [|done].
      assert (Hq : exists d, p2 = set_slot k (low_others k (p_info p) - as_u16 (blen bs), as_u16 (blen bs), m) d true p) by (eexists; injection E as E; symmetry; exact E).
      destruct Hq as [d ->]. apply (fitted_set_slot p k (off, size, old)); [done|done|unfold blen; cbn [snd]; lia|].
      right. unfold s_off. cbn [fst]. lia.
  - unfold update_meta in E. destruct (p_info p !! k) as [[[off size] old]|] eqn:Hk; [|done].
    destruct (Forall2_lookup_l _ _ _ _ _ (pi_rows _ _ _ I) Hk) as (r & Hr & Hok). destruct Hok as (Hm2 & _).
    specialize (Hm r Hr). cbn in Hm2. rewrite <- Hm2 in Hm.
    destruct (p_num p <=? N.of_nat k); [done|].
    pose proof (fitted_set_slot p k (off, size, old) (off, size, m) (p_data p) true F Hk ltac:(unfold blen; cbn [snd]; lia) ltac:(by left)) as [A B].
    assert (Hi : p_info p2 = <[k := (off, size, m)]> (p_info p)) by (assert (p2 = Page (p_id p) (p_next p) (p_prev p) (p_num p) (match tm_del old, tm_del m with false, true => as_u16 (p_ndel p + 1) | true, false => p_ndel p - 1 | _, _ => p_ndel p end) (<[k := (off, size, m)]> (p_info p)) (p_data p) true) by congruence; by subst).
    unfold fitted, footprint in *. rewrite Hi. done.
  - assert (p2 = set_next n p) by congruence. by subst.
  - assert (p2 = set_prev n p) by congruence. by subst.
Qed.

Lemma prun_fitted (g : Prop) ops p rows rs p2 :
  pinv g p rows -> Forall small ops -> fitted p -> prun ops p = Some (rs, p2) -> orderly g ops rs rows ->
  metas_do_not_grow ops rs rows -> fitted p2.
Proof.
  revert g p rows rs. induction ops as [|o ops IH]; intros g p rows rs I Hs F R Ho Hm; cbn in R.
  { assert (p2 = p) by congruence. by subst. }
  apply Forall_cons in Hs as [Hs Hss]. pose proof (pstep_pinv g o p rows I Hs) as H.
  destruct (pstep o p) as [p1|p1|] eqn:Ep; [| |done].
  - destruct (prun ops p1) as [[rs1 p3]|] eqn:R1; [|done]. assert (rs = true :: rs1 /\ p2 = p3) as [-> ->] by (split; congruence).
    destruct Ho as [Ho1 Ho2]. destruct Hm as [Hm1 Hm2]. destruct (H (Ho1 eq_refl)) as [I1 Hid].
    apply (IH _ p1 _ rs1 I1 Hss); [|done| |done].
    + apply (pstep_fitted g o p rows p1 I Hs F (Ho1 eq_refl)); [|done]. destruct o; try done; by apply Hm1.
    + eapply orderly_weaken; [|exact Ho2]. tauto.
  - subst p1. destruct (prun ops p) as [[rs1 p3]|] eqn:R1; [|done]. assert (rs = false :: rs1 /\ p2 = p3) as [-> ->] by (split; congruence).
    destruct Ho as [Ho1 Ho2]. destruct Hm as [Hm1 Hm2]. apply (IH _ p _ rs1 I Hss); [done|done| |done].
    eapply orderly_weaken; [|exact Ho2]. tauto.
Qed.

(** ** Histories that end with an accepted insert *)

Lemma prun_app ops1 ops2 p :
  prun (ops1 ++ ops2) p =
  match prun ops1 p with
  | Some (rs, p1) => match prun ops2 p1 with Some (rs2, p2) => Some (rs ++ rs2, p2) | None => None end
  | None => None
  end.
Proof.
  revert p. induction ops1 as [|o ops IH]; intros p; cbn; [by destruct (prun ops2 p) as [[rs2 p2]|]|].
  destruct (pstep o p) as [p1|p1|]; [| |done]; rewrite IH; destruct (prun ops p1) as [[rs1 p3]|]; try done;
    by destruct (prun ops2 p3) as [[rs2 p2]|].
Qed.

Lemma prun_length ops p rs p2 : prun ops p = Some (rs, p2) -> length rs = length ops.
Proof.
  revert p rs. induction ops as [|o ops IH]; intros p rs R; cbn in R; [by assert (rs = []) as -> by congruence|].
  destruct (pstep o p) as [p1|p1|]; [| |done]; destruct (prun ops p1) as [[rs1 p3]|] eqn:R1; try done.
  - assert (rs = true :: rs1 /\ p3 = p2) as [-> ->] by (split; congruence). cbn. f_equal. by apply (IH p1).
  - assert (rs = false :: rs1 /\ p3 = p2) as [-> ->] by (split; congruence). cbn. f_equal. by apply (IH p1).
Qed.

Lemma rows_after_app ops1 ops2 rs1 rs2 rows : length rs1 = length ops1 ->
  rows_after (ops1 ++ ops2) (rs1 ++ rs2) rows = rows_after ops2 rs2 (rows_after ops1 rs1 rows).
Proof.
  revert rs1 rows. induction ops1 as [|o ops IH]; intros rs1 rows Hl; [by destruct rs1|].
  destruct rs1 as [|ok rs1]; [done|]. cbn in *. apply IH. lia.
Qed.

(** The flag of [orderly] is what the invariant needs. *)
Fixpoint grown_after (g : Prop) (ops : list pop) (rs : list bool) (rows : list row) : Prop :=
  match ops, rs with
  | o :: ops, ok :: rs => grown_after (g \/ (ok = true /\ outgrows o rows)) ops rs (if ok : bool then rstep o rows else rows)
  | _, _ => g
  end.

Lemma orderly_app2 (g : Prop) ops1 ops2 rs1 rs2 rows : length rs1 = length ops1 ->
  orderly g (ops1 ++ ops2) (rs1 ++ rs2) rows ->
  orderly g ops1 rs1 rows /\ orderly (grown_after g ops1 rs1 rows) ops2 rs2 (rows_after ops1 rs1 rows).
Proof.
  revert g rs1 rows. induction ops1 as [|o ops IH]; intros g rs1 rows Hl H.
  - destruct rs1; [|done]. done.
  - destruct rs1 as [|ok rs1]; [done|]. cbn in H. destruct H as [H1 H2]. cbn in Hl.
    destruct (IH _ rs1 _ ltac:(lia) H2) as [A B]. split; [by split|done].
Qed.

Lemma prun_pinv2 (g : Prop) ops p rows rs p2 :
  pinv g p rows -> Forall small ops -> prun ops p = Some (rs, p2) -> orderly g ops rs rows ->
  pinv (grown_after g ops rs rows) p2 (rows_after ops rs rows) /\ p_id p2 = p_id p.
Proof.
  revert g p rows rs. induction ops as [|o ops IH]; intros g p rows rs I Hs R Ho; cbn in R.
  { assert (rs = [] /\ p2 = p) as [-> ->] by (split; congruence). done. }
  apply Forall_cons in Hs as [Hs Hss]. pose proof (pstep_pinv g o p rows I Hs) as H.
  destruct (pstep o p) as [p1|p1|]; [| |done].
  - destruct (prun ops p1) as [[rs1 p3]|] eqn:R1; [|done]. assert (rs = true :: rs1 /\ p2 = p3) as [-> ->] by (split; congruence).
    destruct Ho as [Ho1 Ho2]. destruct (H (Ho1 eq_refl)) as [I1 Hid].
    destruct (IH (g \/ (true = true /\ outgrows o rows)) p1 (rstep o rows) rs1) as [I2 Hid2]; [|done|done|done|].
    + apply (pinv_grown _ _ _ _ I1). tauto.
    + split; [done|congruence].
  - subst p1. destruct (prun ops p) as [[rs1 p3]|] eqn:R1; [|done]. assert (rs = false :: rs1 /\ p2 = p3) as [-> ->] by (split; congruence).
    destruct Ho as [Ho1 Ho2].
    destruct (IH (g \/ (false = true /\ outgrows o rows)) p rows rs1) as [I2 Hid2]; [|done|done|done|].
    + apply (pinv_grown _ _ _ _ I). tauto.
    + done.
Qed.

Lemma prun_insert_image ops m bs id rs p2 :
  id < 2 ^ 64 -> Forall small (ops ++ [PInsert m bs]) ->
  prun (ops ++ [PInsert m bs]) (new_page id) = Some (rs ++ [true], p2) ->
  orderly False (ops ++ [PInsert m bs]) (rs ++ [true]) [] ->
  exists g, pinv g p2 (rows_after (ops ++ [PInsert m bs]) (rs ++ [true]) []) /\ hinv p2 /\ fitted p2 /\ p_id p2 = id /\
    forall i, p_data p2 i = serialize p2 i.
Proof.
  intros Hid Hs R Ho. rewrite prun_app in R. destruct (prun ops (new_page id)) as [[rs1 p1]|] eqn:R1; [|done].
  apply Forall_app in Hs as [Hs1 Hs2].
  assert (Hh : hinv p1) by (apply (prun_hinv ops (new_page id) rs1); [done|by apply hinv_new|done]).
  cbn in R. destruct (insert_with_rid m bs p1) as [p3|] eqn:E.
  2:{ assert (rs1 ++ [false] = rs ++ [true]) as E1 by congruence. apply app_inj_tail in E1 as [_ E1]. done. }
  assert (rs1 ++ [true] = rs ++ [true] /\ p3 = p2) as [E1 ->] by (split; congruence). apply app_inj_tail in E1 as [-> _].
  pose proof (prun_length _ _ _ _ R1) as Hl.
  destruct (orderly_app2 _ _ _ _ _ _ Hl Ho) as [Ho1 Ho2].
  destruct (prun_pinv2 False ops (new_page id) [] rs p1 (pinv_new id) Hs1 R1 Ho1) as [I1 Hid1].
  destruct Ho2 as [Ho2 _]. specialize (Ho2 eq_refl (ex_intro _ m (ex_intro _ bs eq_refl))).
  rewrite rows_after_app by done. cbn [rows_after rstep].
  destruct (insert_pinv _ m bs p1 p2 _ I1 Ho2 E) as (I2 & Hid2 & o & _ & _ & Hser & _).
  eexists. split; [exact I2|]. split.
  - pose proof (pstep_hinv (PInsert m bs) p1) as Hh2. cbn [pstep] in Hh2. rewrite E in Hh2. apply Hh2; [|done].
    by apply Forall_cons in Hs2 as [? _].
  - split; [by apply (insert_fitted _ m bs p1 p2 _ I1)|]. split; [rewrite Hid2, Hid1; done|done].
Qed.
