From Coq Require Import List NArith ZArith Lia Arith ZifyBool ZifyNat ZifyN.
From Verif Require Import Bytes RidModel.
Import ListNotations.
Local Open Scope N_scope.

Lemma lor_disjoint a b : b < 2 ^ 32 -> N.lor (N.shiftl a 32) b = a * 2 ^ 32 + b.
Proof.
  intros Hb. rewrite N.shiftl_mul_pow2.
  rewrite <- N.lxor_lor, <- N.add_nocarry_lxor; try reflexivity.
  all: apply N.bits_inj; intros n; rewrite N.land_spec, N.bits_0;
    destruct (N.ltb_spec n 32) as [H|H].
  1,3: rewrite N.mul_pow2_bits_low by exact H; reflexivity.
  all: rewrite <- (N.mod_small b (2 ^ 32) Hb), N.mod_pow2_bits_high by exact H;
    apply Bool.andb_false_r.
Qed.

Lemma i64_u64_i64 n : n < 2 ^ 64 -> i64_to_u64 (u64_to_i64 n) = n.
Proof.
  intros Hn. unfold i64_to_u64, u64_to_i64.
  destruct (N.ltb_spec n (2 ^ 63)) as [H|H].
  - rewrite Z.mod_small by lia. lia.
  - rewrite <- (Z.mod_add (Z.of_N n - 2 ^ 64) 1 (2 ^ 64)) by lia.
    rewrite Z.mod_small by lia. lia.
Qed.

Lemma u64_i64_u64 z : (- 2 ^ 63 <= z < 2 ^ 63)%Z -> u64_to_i64 (i64_to_u64 z) = z.
Proof.
  intros Hz. unfold i64_to_u64, u64_to_i64.
  destruct (Z.leb_spec 0 z) as [H|H].
  - rewrite (Z.mod_small z) by lia. destruct (N.ltb_spec (Z.to_N z) (2 ^ 63)); lia.
  - rewrite <- (Z.mod_add z 1 (2 ^ 64)) by lia. rewrite Z.mod_small by lia.
    destruct (N.ltb_spec (Z.to_N (z + 1 * 2 ^ 64)) (2 ^ 63)); lia.
Qed.

Lemma u64_to_i64_range n : n < 2 ^ 64 -> (- 2 ^ 63 <= u64_to_i64 n < 2 ^ 63)%Z.
Proof. intros H. unfold u64_to_i64. destruct (N.ltb_spec n (2 ^ 63)); lia. Qed.

Lemma i64_to_u64_range z : i64_to_u64 z < 2 ^ 64.
Proof. unfold i64_to_u64. pose proof (Z.mod_pos_bound z (2 ^ 64) ltac:(lia)). lia. Qed.

Lemma packed_eq r : rid_page r < 2 ^ 32 -> rid_slot r < 2 ^ 32 ->
  N.lor (N.shiftl (rid_page r) 32 mod 2 ^ 64) (rid_slot r) = rid_page r * 2 ^ 32 + rid_slot r.
Proof.
  intros Hp Hs. rewrite N.mod_small.
  - now apply lor_disjoint.
  - rewrite N.shiftl_mul_pow2. change (2 ^ 64) with (2 ^ 32 * 2 ^ 32). nia.
Qed.

Lemma to_i64_some r : rid_ok r -> rid_page r < 2 ^ 32 ->
  rid_to_i64 r = Some (u64_to_i64 (rid_page r * 2 ^ 32 + rid_slot r)).
Proof.
  intros [_ Hs] Hp. unfold rid_to_i64.
  destruct (N.ltb_spec (2 ^ 32 - 1) (rid_page r)); [lia|].
  now rewrite packed_eq.
Qed.

Lemma from_u64_parts p s : p < 2 ^ 32 -> s < 2 ^ 32 ->
  rid_from_i64 (u64_to_i64 (p * 2 ^ 32 + s)) = mkRid p s.
Proof.
  intros Hp Hs. unfold rid_from_i64.
  rewrite i64_u64_i64 by (change (2 ^ 64) with (2 ^ 32 * 2 ^ 32); nia).
  rewrite N.shiftr_div_pow2.
  replace (p * 2 ^ 32 + s) with (s + p * 2 ^ 32) by lia.
  rewrite N.div_add, N.mod_add by lia.
  rewrite (N.div_small s), (N.mod_small s), N.add_0_l, N.mod_small by assumption.
  reflexivity.
Qed.

Lemma i64_roundtrip r : rid_ok r -> rid_page r < 2 ^ 32 ->
  exists z, rid_to_i64 r = Some z /\ (- 2 ^ 63 <= z < 2 ^ 63)%Z /\ rid_from_i64 z = r.
Proof.
  intros Hok Hp. eexists; split; [now apply to_i64_some|]. destruct Hok as [_ Hs]. split.
  - apply u64_to_i64_range. change (2 ^ 64) with (2 ^ 32 * 2 ^ 32). nia.
  - rewrite from_u64_parts by assumption. now destruct r.
Qed.

Lemma i64_none r : rid_ok r -> (rid_to_i64 r = None <-> 2 ^ 32 <= rid_page r).
Proof.
  intros _. unfold rid_to_i64. destruct (N.ltb_spec (2 ^ 32 - 1) (rid_page r)); split;
    intros; try discriminate; try reflexivity; lia.
Qed.

Lemma i64_onto z : (- 2 ^ 63 <= z < 2 ^ 63)%Z ->
  rid_ok (rid_from_i64 z) /\ rid_to_i64 (rid_from_i64 z) = Some z.
Proof.
  intros Hz. set (b := i64_to_u64 z). pose proof (i64_to_u64_range z) as Hb. fold b in Hb.
  assert (Hdiv : b / 2 ^ 32 < 2 ^ 32).
  { apply N.div_lt_upper_bound; [lia|]. change (2 ^ 32 * 2 ^ 32) with (2 ^ 64). exact Hb. }
  assert (Hmod : b mod 2 ^ 32 < 2 ^ 32) by (apply N.mod_lt; lia).
  assert (E : rid_from_i64 z = mkRid (b / 2 ^ 32) (b mod 2 ^ 32)).
  { unfold rid_from_i64. fold b. rewrite N.shiftr_div_pow2. now rewrite (N.mod_small _ _ Hdiv). }
  rewrite E. split.
  - split; cbn [rid_page rid_slot]; [|exact Hmod]. eapply N.lt_trans; [exact Hdiv|reflexivity].
  - rewrite to_i64_some; cbn [rid_page rid_slot]; [|split; cbn|].
    + replace (b / 2 ^ 32 * 2 ^ 32 + b mod 2 ^ 32) with b
        by (pose proof (N.div_mod b (2 ^ 32) ltac:(lia)); lia).
      f_equal. now apply u64_i64_u64.
    + eapply N.lt_trans; [exact Hdiv|reflexivity].
    + exact Hmod.
    + exact Hdiv.
Qed.

Lemma firstn_app_exact {A} (l1 l2 : list A) n : length l1 = n -> firstn n (l1 ++ l2) = l1.
Proof. intros <-. rewrite firstn_app, Nat.sub_diag, firstn_all. cbn. apply app_nil_r. Qed.
Lemma skipn_app_exact {A} (l1 l2 : list A) n : length l1 = n -> skipn n (l1 ++ l2) = l2.
Proof. intros <-. rewrite skipn_app, Nat.sub_diag, skipn_all. reflexivity. Qed.

Lemma bytes_roundtrip r rest : rid_ok r ->
  rid_try_deserialize (rid_to_bytes r ++ rest) = Some r.
Proof.
  intros [Hp Hs]. unfold rid_try_deserialize, rid_to_bytes.
  assert (L : Nat.ltb (length ((le_enc 8 (rid_page r) ++ le_enc 4 (rid_slot r)) ++ rest)) 12 = false).
  { apply Nat.ltb_ge. rewrite !app_length, !le_enc_length. lia. }
  rewrite L, <- app_assoc.
  rewrite firstn_app_exact, skipn_app_exact, firstn_app_exact by apply le_enc_length.
  rewrite !le_dec_enc by assumption. now destruct r.
Qed.

Lemma deserialize_short data : (length data < 12)%nat <-> rid_try_deserialize data = None.
Proof.
  unfold rid_try_deserialize. destruct (Nat.ltb_spec (length data) 12); split; intros;
    try reflexivity; try discriminate; lia.
Qed.

Lemma deserialize_reencode data r : bytes_ok data -> rid_try_deserialize data = Some r ->
  rid_ok r /\ rid_to_bytes r = firstn 12 data.
Proof.
  intros Hb. unfold rid_try_deserialize. destruct (Nat.ltb_spec (length data) 12) as [|HL]; [discriminate|].
  intros E. assert (Er : r = mkRid (le_dec (firstn 8 data)) (le_dec (firstn 4 (skipn 8 data)))) by congruence.
  subst r. clear E. unfold rid_ok, rid_to_bytes. cbn [rid_page rid_slot].
  assert (L8 : length (firstn 8 data) = 8%nat) by (rewrite firstn_length; lia).
  assert (L4 : length (firstn 4 (skipn 8 data)) = 4%nat) by (rewrite firstn_length, skipn_length; lia).
  assert (B8 : bytes_ok (firstn 8 data)) by (apply Forall_firstn; exact Hb).
  assert (B4 : bytes_ok (firstn 4 (skipn 8 data))) by (apply Forall_firstn, Forall_skipn; exact Hb).
  split; [split|].
  - pose proof (le_dec_bound _ B8) as B. rewrite L8 in B. exact B.
  - pose proof (le_dec_bound _ B4) as B. rewrite L4 in B. exact B.
  - pose proof (le_enc_dec _ B8) as E8. rewrite L8 in E8. rewrite E8.
    pose proof (le_enc_dec _ B4) as E4. rewrite L4 in E4. rewrite E4.
    change 12%nat with (8 + 4)%nat. rewrite <- (firstn_skipn 8 (firstn (8 + 4) data)).
    rewrite firstn_firstn. replace (Nat.min 8 (8 + 4)) with 8%nat by reflexivity.
    now rewrite skipn_firstn_comm.
Qed.

Lemma order_agrees a b za zb : rid_ok a -> rid_ok b ->
  rid_page a < 2 ^ 31 -> rid_page b < 2 ^ 31 ->
  rid_to_i64 a = Some za -> rid_to_i64 b = Some zb ->
  (rid_ltb a b = true <-> (za < zb)%Z).
Proof.
  intros Ha Hb Pa Pb. rewrite !to_i64_some by (assumption || lia).
  intros Ea Eb. destruct Ha as [_ Sa], Hb as [_ Sb].
  assert (Eza : za = u64_to_i64 (rid_page a * 2 ^ 32 + rid_slot a)) by congruence.
  assert (Ezb : zb = u64_to_i64 (rid_page b * 2 ^ 32 + rid_slot b)) by congruence.
  clear Ea Eb. subst za zb.
  unfold u64_to_i64, rid_ltb.
  destruct (N.ltb_spec (rid_page a * 2 ^ 32 + rid_slot a) (2 ^ 63)); [|nia].
  destruct (N.ltb_spec (rid_page b * 2 ^ 32 + rid_slot b) (2 ^ 63)); [|nia].
  destruct (N.eqb_spec (rid_page a) (rid_page b)) as [E|E].
  - rewrite E. split; intros; lia.
  - split; intros.
    + assert (rid_page a + 1 <= rid_page b) by lia. nia.
    + destruct (N.ltb_spec (rid_page a) (rid_page b)); [reflexivity|].
      assert (rid_page b + 1 <= rid_page a) by lia. nia.
Qed.
