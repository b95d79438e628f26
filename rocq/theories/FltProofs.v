(** * Proofs about fractional arithmetic *)
From Coq Require Import ZArith NArith QArith Qabs Lqa Lia.
From stdpp Require Import list.
From Verif Require Import CastSpec CastModel CastProofs NumSpec FltSpec FltModel.
Local Open Scope Z_scope.

Lemma rne_nearest X Y i : 0 < Y -> Z.abs (rne X Y * Y - X) <= Z.abs (i * Y - X).
Proof.
  intros HY. unfold rne. pose proof (Z.div_mod X Y ltac:(lia)) as D. pose proof (Z.mod_pos_bound X Y HY) as B.
  set (q := X / Y) in *. set (r := X mod Y) in *. clearbody q r. subst X.
  assert (C : i <= q \/ q + 1 <= i) by lia.
  assert (L : i <= q -> i * Y <= q * Y) by (intros; nia).
  assert (L' : q + 1 <= i -> q * Y + Y <= i * Y) by (intros; nia).
  set (iY := i * Y) in *. clearbody iY.
  destruct (Z.ltb_spec Y (2 * r)) as [H | H]; cbn [orb].
  - replace ((q + 1) * Y) with (q * Y + Y) by ring. replace (Y * q) with (q * Y) by ring. set (qY := q * Y) in *. clearbody qY. destruct C; lia.
  - destruct (Z.eqb_spec Y (2 * r)) as [H2 | H2]; cbn [andb].
    + destruct (Z.odd q).
      * replace ((q + 1) * Y) with (q * Y + Y) by ring. replace (Y * q) with (q * Y) by ring. set (qY := q * Y) in *. clearbody qY. destruct C; lia.
      * replace (Y * q) with (q * Y) by ring. set (qY := q * Y) in *. clearbody qY. destruct C; lia.
    + replace (Y * q) with (q * Y) by ring. set (qY := q * Y) in *. clearbody qY. destruct C; lia.
Qed.

Lemma pow2_pos e : 0 <= e -> 0 < 2 ^ e. Proof. intros. apply Z.pow_pos_nonneg; lia. Qed.

(** Powers of two with any exponent. *)
Definition pw (e : Z) : Q := (inject_Z (2 ^ Z.max 0 e) / inject_Z (2 ^ Z.max 0 (- e)))%Q.
Lemma inj_pos z : 0 < z -> (0 < inject_Z z)%Q. Proof. intros. unfold Qlt, inject_Z. cbn. lia. Qed.
Lemma pw_pos e : (0 < pw e)%Q.
Proof.
  unfold pw. apply Qlt_shift_div_l; [apply inj_pos, pow2_pos; lia|]. rewrite Qmult_0_l. apply inj_pos, pow2_pos; lia.
Qed.
Lemma pw_plus a b : (pw (a + b) == pw a * pw b)%Q.
Proof.
  unfold pw.
  pose proof (pow2_pos (Z.max 0 (- a)) ltac:(lia)) as P1. pose proof (pow2_pos (Z.max 0 (- b)) ltac:(lia)) as P2.
  pose proof (pow2_pos (Z.max 0 (- (a + b))) ltac:(lia)) as P3.
  assert (E : (2 ^ Z.max 0 (a + b) * (2 ^ Z.max 0 (- a) * 2 ^ Z.max 0 (- b)) = 2 ^ Z.max 0 a * 2 ^ Z.max 0 b * 2 ^ Z.max 0 (- (a + b)))%Z).
  { rewrite <- !Z.pow_add_r by lia. f_equal. lia. }
  assert (EQ : (inject_Z (2 ^ Z.max 0 (a + b)) * (inject_Z (2 ^ Z.max 0 (- a)) * inject_Z (2 ^ Z.max 0 (- b))) ==
                inject_Z (2 ^ Z.max 0 a) * inject_Z (2 ^ Z.max 0 b) * inject_Z (2 ^ Z.max 0 (- (a + b))))%Q).
  { rewrite <- !inject_Z_mult. rewrite E. reflexivity. }
  apply inj_pos in P1, P2, P3.
  setoid_replace (inject_Z (2 ^ Z.max 0 a) / inject_Z (2 ^ Z.max 0 (- a)) * (inject_Z (2 ^ Z.max 0 b) / inject_Z (2 ^ Z.max 0 (- b))))%Q
    with (inject_Z (2 ^ Z.max 0 a) * inject_Z (2 ^ Z.max 0 b) / (inject_Z (2 ^ Z.max 0 (- a)) * inject_Z (2 ^ Z.max 0 (- b))))%Q
    by (field; split; lra).
  assert (P12 : (0 < inject_Z (2 ^ Z.max 0 (- a)) * inject_Z (2 ^ Z.max 0 (- b)))%Q) by (apply Qmult_lt_0_compat; lra).
  set (x := inject_Z (2 ^ Z.max 0 (a + b))) in *. set (y := (inject_Z (2 ^ Z.max 0 (- a)) * inject_Z (2 ^ Z.max 0 (- b)))%Q) in *.
  set (w := (inject_Z (2 ^ Z.max 0 a) * inject_Z (2 ^ Z.max 0 b))%Q) in *. set (d := inject_Z (2 ^ Z.max 0 (- (a + b)))) in *.
  assert (X : (x == w * d / y)%Q). { rewrite <- EQ. field. lra. }
  rewrite X. field. split; lra.
Qed.
Lemma pw_nonneg e : 0 <= e -> (pw e == inject_Z (2 ^ e))%Q.
Proof. intros. unfold pw. rewrite Z.max_r by lia. rewrite (Z.max_l 0 (- e)) by lia. change (inject_Z (2 ^ 0)) with 1%Q. field. Qed.
Lemma pw_opp e : (pw e * pw (- e) == 1)%Q.
Proof. rewrite <- pw_plus. rewrite Z.add_opp_diag_r. reflexivity. Qed.
Lemma pw_neg k : (pw (- Z.of_nat k) == 1 / inject_Z (2 ^ Z.of_nat k))%Q.
Proof. unfold pw. rewrite Z.max_l by lia. rewrite Z.max_r by lia. rewrite Z.opp_involutive. reflexivity. Qed.

(** Numbers with p bits: m * 2^g. *)
Lemma binary_pw p x : binary p x <-> exists m g, Z.abs m < 2 ^ p /\ (x == inject_Z m * pw g)%Q.
Proof.
  split.
  - intros (n & k & (m & e & He & -> & Hm) & Hx). exists m, (e + - Z.of_nat k). split; [exact Hm|].
    rewrite Hx, pw_plus, pw_neg, (pw_nonneg e He), inject_Z_mult. pose proof (pow2_pos (Z.of_nat k) ltac:(lia)) as P. apply inj_pos in P. field. lra.
  - intros (m & g & Hm & Hx). exists (m * 2 ^ Z.max 0 g), (Z.to_nat (- g)). split.
    + exists m, (Z.max 0 g). split; [lia|]. split; [reflexivity|exact Hm].
    + rewrite Hx. unfold pw. rewrite inject_Z_mult. replace (Z.of_nat (Z.to_nat (- g))) with (Z.max 0 (- g)) by lia.
      pose proof (pow2_pos (Z.max 0 (- g)) ltac:(lia)) as P. apply inj_pos in P. field. lra.
Qed.
Lemma binary_scale p x e : binary p x -> binary p (x * pw e)%Q.
Proof.
  rewrite !binary_pw. intros (m & g & Hm & Hx). exists m, (g + e). split; [exact Hm|]. rewrite Hx, pw_plus. ring.
Qed.
Global Instance binary_proper p : Proper (Qeq ==> iff) (binary p).
Proof. intros x y E. rewrite !binary_pw. split; intros (m & g & Hm & Hx); exists m, g; (split; [exact Hm|]); rewrite <- Hx; [symmetry|]; exact E. Qed.
Lemma binary_opp p x : binary p x -> binary p (- x)%Q.
Proof. rewrite !binary_pw. intros (m & g & Hm & Hx). exists (- m), g. split; [lia|]. rewrite Hx, inject_Z_opp. ring. Qed.

Lemma core p X Y z : 1 <= p -> 0 < Y -> 2 ^ (p - 1) * Y <= X -> X < 2 ^ p * Y -> binary p z ->
  (Qabs (inject_Z (rne X Y) - inject_Z X / inject_Z Y) <= Qabs (z - inject_Z X / inject_Z Y))%Q.
Proof.
  intros Hp HY Hlo Hhi Hz.
  assert (PY : (0 < inject_Z Y)%Q) by (apply inj_pos, HY).
  assert (I : forall i, (Qabs (inject_Z (rne X Y) - inject_Z X / inject_Z Y) <= Qabs (inject_Z i - inject_Z X / inject_Z Y))%Q).
  { intros i. pose proof (rne_nearest X Y i HY) as N.
    assert (T : forall j, (Qabs (inject_Z j - inject_Z X / inject_Z Y) == inject_Z (Z.abs (j * Y - X)) / inject_Z Y)%Q).
    { intros j. setoid_replace (inject_Z j - inject_Z X / inject_Z Y)%Q with (inject_Z (j * Y - X) / inject_Z Y)%Q.
      2:{ unfold Z.sub. rewrite inject_Z_plus, inject_Z_mult, inject_Z_opp. field. lra. }
      unfold Qdiv at 1. rewrite Qabs_Qmult. rewrite (Qabs_pos (/ inject_Z Y)); [reflexivity|].
      apply Qinv_le_0_compat. lra. }
    rewrite !T. apply Qmult_le_compat_r; [|apply Qinv_le_0_compat; lra]. rewrite <- Zle_Qle. exact N. }
  apply binary_pw in Hz. destruct Hz as (m & g & Hm & Hz).
  destruct (Z.le_gt_cases 0 g) as [Hg | Hg].
  - rewrite Hz, (pw_nonneg g Hg), <- inject_Z_mult. apply I.
  - assert (B : (z <= inject_Z (2 ^ (p - 1)))%Q).
    { rewrite Hz. assert (G1 : (pw g <= 1 # 2)%Q).
      { replace g with (-1 + (g + 1)) by lia. rewrite pw_plus. change (pw (-1)) with (1 / inject_Z 2)%Q.
        assert (G2 : (pw (g + 1) <= 1)%Q).
        { unfold pw. rewrite Z.max_l by lia. change (inject_Z (2 ^ 0)) with 1%Q.
          pose proof (pow2_pos (Z.max 0 (- (g + 1))) ltac:(lia)) as P. pose proof P as P'. apply inj_pos in P.
          apply Qle_shift_div_r; [exact P|]. rewrite Qmult_1_l. change 1%Q with (inject_Z 1). rewrite <- Zle_Qle. lia. }
        setoid_replace (1 / inject_Z 2)%Q with (1 # 2)%Q by reflexivity. lra. }
      pose proof (pw_pos g) as G0.
      assert (M : (inject_Z m <= inject_Z (2 ^ p))%Q) by (rewrite <- Zle_Qle; lia).
      assert (P0 : (0 <= inject_Z (2 ^ p))%Q) by (apply Qlt_le_weak, inj_pos, pow2_pos; lia).
      assert (S1 : (inject_Z m * pw g <= inject_Z (2 ^ p) * pw g)%Q) by (apply Qmult_le_compat_r; lra).
      assert (S2 : (inject_Z (2 ^ p) * pw g <= inject_Z (2 ^ p) * (1 # 2))%Q).
      { rewrite (Qmult_comm _ (pw g)), (Qmult_comm _ (1 # 2)). apply Qmult_le_compat_r; lra. }
      assert (S3 : (inject_Z (2 ^ p) * (1 # 2) == inject_Z (2 ^ (p - 1)))%Q).
      { replace (2 ^ p) with (2 * 2 ^ (p - 1)) by (rewrite <- Z.pow_succ_r by lia; f_equal; lia). rewrite inject_Z_mult.
        change (inject_Z 2) with 2%Q. ring. }
      lra. }
    assert (X1 : (inject_Z (2 ^ (p - 1)) <= inject_Z X / inject_Z Y)%Q).
    { apply Qle_shift_div_l; [exact PY|]. rewrite <- inject_Z_mult, <- Zle_Qle. exact Hlo. }
    eapply Qle_trans; [apply (I (2 ^ (p - 1)))|].
    rewrite (Qabs_neg (inject_Z (2 ^ (p - 1)) - _)) by lra. rewrite (Qabs_neg (z - _)) by lra. lra.
Qed.

Lemma log2_pow a : 0 < a -> 2 ^ Z.log2 a <= a < 2 * 2 ^ Z.log2 a.
Proof. intros Ha. pose proof (Z.log2_spec a Ha) as L. rewrite Z.pow_succ_r in L by apply Z.log2_nonneg. exact L. Qed.
Lemma ilog_spec a b : 0 < a -> 0 < b ->
  (pw (ilog a b) <= inject_Z a / inject_Z b /\ inject_Z a / inject_Z b < pw (ilog a b + 1))%Q.
Proof.
  intros Ha Hb. pose proof (log2_pow a Ha) as La. pose proof (log2_pow b Hb) as Lb.
  set (la := Z.log2 a) in *. set (lb := Z.log2 b) in *.
  assert (PA : 0 <= la) by apply Z.log2_nonneg. assert (PB : 0 <= lb) by apply Z.log2_nonneg.
  assert (Qb : (0 < inject_Z b)%Q) by (apply inj_pos; exact Hb).
  (* a / b against 2^e, in whole numbers *)
  assert (T : forall e, (pw e <= inject_Z a / inject_Z b)%Q <-> b * 2 ^ Z.max 0 e <= a * 2 ^ Z.max 0 (- e)).
  { intros e. unfold pw. pose proof (pow2_pos (Z.max 0 (- e)) ltac:(lia)) as P. apply inj_pos in P.
    rewrite Zle_Qle, !inject_Z_mult. set (u := inject_Z (2 ^ Z.max 0 e)). set (d := inject_Z (2 ^ Z.max 0 (- e))) in *.
    set (qa := inject_Z a). set (qb := inject_Z b) in *. split; intros H.
    - assert (H1 : (u / d * (d * qb) <= qa / qb * (d * qb))%Q) by (apply Qmult_le_compat_r; [exact H|apply Qlt_le_weak, Qmult_lt_0_compat; lra]).
      setoid_replace (u / d * (d * qb))%Q with (qb * u)%Q in H1 by (field; lra).
      setoid_replace (qa / qb * (d * qb))%Q with (qa * d)%Q in H1 by (field; lra). exact H1.
    - apply Qle_shift_div_l; [exact Qb|]. setoid_replace (u / d * qb)%Q with (qb * u / d)%Q by (field; lra).
      apply Qle_shift_div_r; [exact P|exact H]. }
  assert (T' : forall e, b * 2 ^ Z.max 0 e > a * 2 ^ Z.max 0 (- e) -> (inject_Z a / inject_Z b < pw e)%Q).
  { intros e H. apply Qnot_le_lt. rewrite T. lia. }
  assert (Lo : b * 2 ^ Z.max 0 (la - lb - 1) <= a * 2 ^ Z.max 0 (- (la - lb - 1))).
  { destruct (Z.le_gt_cases 0 (la - lb - 1)) as [H | H].
    - rewrite (Z.max_r 0 (la - lb - 1)) by lia. rewrite Z.max_l by lia. rewrite Z.pow_0_r.
      assert (E : 2 ^ la = 2 * 2 ^ lb * 2 ^ (la - lb - 1)).
      { replace la with (1 + lb + (la - lb - 1)) at 1 by lia. rewrite !Z.pow_add_r by lia. ring. }
      pose proof (pow2_pos (la - lb - 1) H). nia.
    - rewrite (Z.max_l 0 (la - lb - 1)) by lia. rewrite Z.max_r by lia. rewrite Z.pow_0_r.
      assert (E : 2 * 2 ^ lb = 2 ^ la * 2 ^ (- (la - lb - 1))).
      { rewrite <- Z.pow_add_r by lia. rewrite <- Z.pow_succ_r by lia. f_equal. lia. }
      pose proof (pow2_pos (- (la - lb - 1)) ltac:(lia)). nia. }
  assert (Hi : b * 2 ^ Z.max 0 (la - lb + 1) > a * 2 ^ Z.max 0 (- (la - lb + 1))).
  { destruct (Z.le_gt_cases 0 (la - lb + 1)) as [H | H].
    - rewrite (Z.max_r 0 (la - lb + 1)) by lia. rewrite Z.max_l by lia. rewrite Z.pow_0_r.
      assert (E : 2 * 2 ^ la = 2 ^ lb * 2 ^ (la - lb + 1)).
      { rewrite <- Z.pow_add_r by lia. rewrite <- Z.pow_succ_r by lia. f_equal. lia. }
      pose proof (pow2_pos (la - lb + 1) H). nia.
    - rewrite (Z.max_l 0 (la - lb + 1)) by lia. rewrite Z.max_r by lia. rewrite Z.pow_0_r.
      assert (E : 2 ^ lb = 2 * 2 ^ la * 2 ^ (- (la - lb + 1))).
      { replace lb with (1 + la + (- (la - lb + 1))) at 1 by lia. rewrite !Z.pow_add_r by lia. ring. }
      pose proof (pow2_pos (- (la - lb + 1)) ltac:(lia)). nia. }
  unfold ilog. fold la lb. destruct (Z.leb_spec (b * 2 ^ Z.max 0 (la - lb)) (a * 2 ^ Z.max 0 (- (la - lb)))) as [H | H].
  - split; [apply T; exact H|]. apply T'. exact Hi.
  - split; [apply T; exact Lo|]. replace (la - lb - 1 + 1) with (la - lb) by lia. apply T'. lia.
Qed.

Definition q_of (x : Z * nat) : Q := (inject_Z x.1 / inject_Z (2 ^ Z.of_nat x.2))%Q.

Lemma fl_pos p a b : 1 <= p -> 0 < a -> 0 < b -> nearest p (inject_Z a / inject_Z b)%Q (q_of (fl p a b)).
Proof.
  intros Hp Ha Hb. unfold fl. destruct (Z.eqb_spec a 0); [lia|]. rewrite (Z.abs_eq a) by lia. rewrite (Z.sgn_pos a) by lia.
  destruct (ilog_spec a b Ha Hb) as (Lo & Hi).
  set (e := ilog a b - (p - 1)). unfold q_of. cbn [fst snd].
  set (X := a * 2 ^ Z.max 0 (- e)). set (Y := b * 2 ^ Z.max 0 e).
  pose proof (pow2_pos (Z.max 0 (- e)) ltac:(lia)) as P1. pose proof (pow2_pos (Z.max 0 e) ltac:(lia)) as P2.
  assert (HY : 0 < Y) by (unfold Y; lia). assert (HX : 0 < X) by (unfold X; lia).
  assert (Qb : (0 < inject_Z b)%Q) by (apply inj_pos; exact Hb).
  assert (QY : (0 < inject_Z Y)%Q) by (apply inj_pos; exact HY).
  assert (EX : (inject_Z a / inject_Z b == inject_Z X / inject_Z Y * pw e)%Q).
  { unfold X, Y, pw. rewrite !inject_Z_mult. apply inj_pos in P1, P2. field. repeat split; lra. }
  assert (Pe : (0 < pw e)%Q) by apply pw_pos.
  assert (BX : 2 ^ (p - 1) * Y <= X /\ X < 2 ^ p * Y).
  { assert (E1 : (pw (ilog a b) == inject_Z (2 ^ (p - 1)) * pw e)%Q).
    { rewrite <- (pw_nonneg (p - 1)) by lia. rewrite <- pw_plus. unfold e. apply eq_ind with (x := ilog a b) (P := fun z => (pw (ilog a b) == pw z)%Q); [reflexivity|lia]. }
    assert (E2 : (pw (ilog a b + 1) == inject_Z (2 ^ p) * pw e)%Q).
    { rewrite <- (pw_nonneg p) by lia. rewrite <- pw_plus. unfold e. apply eq_ind with (x := ilog a b + 1) (P := fun z => (pw (ilog a b + 1) == pw z)%Q); [reflexivity|lia]. }
    rewrite EX, E1 in Lo. rewrite EX, E2 in Hi.
    apply Qmult_lt_r in Hi; [|exact Pe]. apply Qmult_le_r in Lo; [|exact Pe]. split.
    - rewrite Zle_Qle, inject_Z_mult. apply (Qmult_le_r _ _ (inject_Z Y) QY) in Lo.
      setoid_replace (inject_Z X / inject_Z Y * inject_Z Y)%Q with (inject_Z X) in Lo by (field; lra). exact Lo.
    - rewrite Zlt_Qlt, inject_Z_mult. apply (Qmult_lt_r _ _ (inject_Z Y) QY) in Hi.
      setoid_replace (inject_Z X / inject_Z Y * inject_Z Y)%Q with (inject_Z X) in Hi by (field; lra). exact Hi. }
  destruct BX as (B1 & B2).
  assert (EV : (inject_Z (1 * rne X Y * 2 ^ Z.max 0 e) / inject_Z (2 ^ Z.of_nat (Z.to_nat (- e))) == inject_Z (rne X Y) * pw e)%Q).
  { unfold pw. replace (Z.of_nat (Z.to_nat (- e))) with (Z.max 0 (- e)) by lia. rewrite Z.mul_1_l, inject_Z_mult. apply inj_pos in P1. field. lra. }
  split.
  - rewrite EV. apply binary_scale.
    assert (Hr : 0 <= rne X Y <= 2 ^ p).
    { unfold rne. assert (0 <= X / Y) by (apply Z.div_pos; lia).
      assert (X / Y < 2 ^ p) by (apply Z.div_lt_upper_bound; lia).
      destruct ((Y <? 2 * (X mod Y)) || ((Y =? 2 * (X mod Y)) && Z.odd (X / Y))); lia. }
    exists (rne X Y), O. split.
    + destruct (Z.eq_dec (rne X Y) (2 ^ p)) as [E | E].
      * exists 1, p. split; [lia|]. split; [lia|]. apply Z.pow_gt_1; lia.
      * exists (rne X Y), 0. split; [lia|]. split; [lia|]. lia.
    + change (inject_Z (2 ^ Z.of_nat 0)) with 1%Q. field.
  - intros z Hz. rewrite EV, EX.
    assert (Hz' : binary p (z * pw (- e))%Q) by (apply binary_scale; exact Hz).
    pose proof (core p X Y _ Hp HY B1 B2 Hz') as C.
    assert (S : forall y, (Qabs (y * pw e - inject_Z X / inject_Z Y * pw e) == Qabs (y - inject_Z X / inject_Z Y) * pw e)%Q).
    { intros y. setoid_replace (y * pw e - inject_Z X / inject_Z Y * pw e)%Q with ((y - inject_Z X / inject_Z Y) * pw e)%Q by ring.
      rewrite Qabs_Qmult. rewrite (Qabs_pos (pw e)) by lra. reflexivity. }
    assert (EZ : (z == z * pw (- e) * pw e)%Q).
    { setoid_replace (z * pw (- e) * pw e)%Q with (z * (pw e * pw (- e)))%Q by ring. rewrite pw_opp. ring. }
    rewrite EZ. rewrite !S. apply Qmult_le_compat_r; [exact C|lra].
Qed.

Global Instance nearest_proper p : Proper (Qeq ==> Qeq ==> iff) (nearest p).
Proof.
  intros x x' Ex y y' Ey. unfold nearest. split; intros (B & N); (split; [|intros z Hz; specialize (N z Hz)]).
  - rewrite <- Ey. exact B.
  - rewrite <- Ex, <- Ey. exact N.
  - rewrite Ey. exact B.
  - rewrite Ex, Ey. exact N.
Qed.
Lemma nearest_opp p x y : nearest p x y -> nearest p (- x)%Q (- y)%Q.
Proof.
  intros (B & N). split; [apply binary_opp; exact B|]. intros z Hz. specialize (N (- z)%Q (binary_opp _ _ Hz)).
  setoid_replace (- y - - x)%Q with (- (y - x))%Q by ring. setoid_replace (z - - x)%Q with (- (- z - x))%Q by ring.
  rewrite !Qabs_opp. exact N.
Qed.
Lemma nearest_exact p x : binary p x -> nearest p x x.
Proof. intros B. split; [exact B|]. intros z _. setoid_replace (x - x)%Q with 0%Q by ring. apply Qabs_nonneg. Qed.
Lemma nearest_binary p x y : binary p x -> nearest p x y -> (y == x)%Q.
Proof.
  intros B (_ & N). specialize (N x B). setoid_replace (x - x)%Q with 0%Q in N by ring. change (Qabs 0) with 0%Q in N.
  apply Qabs_Qle_condition in N. lra.
Qed.
Lemma binary_zero p : 0 <= p -> binary p 0%Q.
Proof. intros Hp. exists 0, O. split; [|reflexivity]. exists 0, 0. split; [lia|]. split; [reflexivity|]. cbn. apply pow2_pos; lia. Qed.

Lemma fl_nearest p a b : 1 <= p -> 0 < b -> nearest p (inject_Z a / inject_Z b)%Q (q_of (fl p a b)).
Proof.
  intros Hp Hb. assert (Qb : (0 < inject_Z b)%Q) by (apply inj_pos; exact Hb).
  destruct (Z.lt_trichotomy a 0) as [H | [H | H]].
  - pose proof (nearest_opp _ _ _ (fl_pos p (- a) b Hp ltac:(lia) Hb)) as N.
    assert (E1 : (- (inject_Z (- a) / inject_Z b) == inject_Z a / inject_Z b)%Q) by (rewrite inject_Z_opp; field; lra).
    assert (E2 : (- q_of (fl p (- a) b) == q_of (fl p a b))%Q).
    { unfold fl. destruct (Z.eqb_spec a 0); [lia|]. destruct (Z.eqb_spec (- a) 0); [lia|]. rewrite Z.abs_opp, Z.sgn_opp.
      unfold q_of. cbn [fst snd]. rewrite <- !Z.mul_assoc, Z.mul_opp_l, inject_Z_opp.
      set (d := inject_Z (2 ^ Z.of_nat _)). assert (0 < d)%Q by (apply inj_pos, pow2_pos; lia). field. lra. }
    rewrite E1, E2 in N. exact N.
  - subst a. change (fl p 0 b) with (0, O). setoid_replace (inject_Z 0 / inject_Z b)%Q with 0%Q by (change (inject_Z 0) with 0%Q; field; lra).
    change (q_of (0, O)) with (0 / 1)%Q. setoid_replace (0 / 1)%Q with 0%Q by reflexivity. apply nearest_exact, binary_zero. lia.
  - apply fl_pos; lia.
Qed.

(** ** The operations *)

Lemma fop_nearest p op x y : 1 <= p ->
  match exact op (q_of x) (q_of y) with
  | Some r => exists z, fop p op x y = Some z /\ nearest p r (q_of z)
  | None => fop p op x y = None
  end.
Proof.
  intros Hp. destruct x as [n k], y as [m j]. unfold q_of at 1 2. cbn [fst snd].
  pose proof (pow2_pos (Z.of_nat k) ltac:(lia)) as Pk. pose proof (pow2_pos (Z.of_nat j) ltac:(lia)) as Pj.
  unfold fop. cbn [fst snd]. set (a := 2 ^ Z.of_nat k) in *. set (b := 2 ^ Z.of_nat j) in *. clearbody a b.
  pose proof (inj_pos _ Pk) as Qk. pose proof (inj_pos _ Pj) as Qj.
  destruct op; cbn [exact].
  - eexists. split; [reflexivity|]. pose proof (fl_nearest p (n * b + m * a) (a * b) Hp ltac:(lia)) as N.
    rewrite inject_Z_plus, !inject_Z_mult in N.
    setoid_replace (inject_Z n / inject_Z a + inject_Z m / inject_Z b)%Q with ((inject_Z n * inject_Z b + inject_Z m * inject_Z a) / (inject_Z a * inject_Z b))%Q by (field; split; lra). exact N.
  - eexists. split; [reflexivity|]. pose proof (fl_nearest p (n * b - m * a) (a * b) Hp ltac:(lia)) as N.
    unfold Z.sub in N. rewrite inject_Z_plus, inject_Z_opp, !inject_Z_mult in N.
    setoid_replace (inject_Z n / inject_Z a - inject_Z m / inject_Z b)%Q with ((inject_Z n * inject_Z b + - (inject_Z m * inject_Z a)) / (inject_Z a * inject_Z b))%Q by (field; split; lra). exact N.
  - eexists. split; [reflexivity|]. pose proof (fl_nearest p (n * m) (a * b) Hp ltac:(lia)) as N.
    rewrite !inject_Z_mult in N.
    setoid_replace (inject_Z n / inject_Z a * (inject_Z m / inject_Z b))%Q with ((inject_Z n * inject_Z m) / (inject_Z a * inject_Z b))%Q by (field; split; lra). exact N.
  - destruct (Z.eqb_spec m 0) as [-> | Hm].
    + assert (E : (inject_Z 0 / inject_Z b == 0)%Q) by (change (inject_Z 0) with 0%Q; field; lra).
      rewrite (proj2 (Qeq_bool_iff _ _) E). reflexivity.
    + assert (Hq : ~ (inject_Z m == 0)%Q) by (change 0%Q with (inject_Z 0); rewrite inject_Z_injective; exact Hm).
      assert (E : ~ (inject_Z m / inject_Z b == 0)%Q).
      { intros E. apply Hq. setoid_replace (inject_Z m) with (inject_Z m / inject_Z b * inject_Z b)%Q by (field; lra). rewrite E. ring. }
      destruct (Qeq_bool (inject_Z m / inject_Z b) 0) eqn:EB; [apply Qeq_bool_iff in EB; contradiction|].
      eexists. split; [reflexivity|]. pose proof (fl_nearest p (Z.sgn m * n * b) (Z.abs m * a) Hp ltac:(lia)) as N.
      rewrite !inject_Z_mult in N.
      setoid_replace (inject_Z n / inject_Z a / (inject_Z m / inject_Z b))%Q
        with (inject_Z (Z.sgn m) * inject_Z n * inject_Z b / (inject_Z (Z.abs m) * inject_Z a))%Q; [exact N|].
      destruct (Z.lt_trichotomy m 0) as [H | [H | H]]; [|lia|].
      * rewrite Z.sgn_neg, Z.abs_neq by lia. rewrite inject_Z_opp. change (inject_Z (-1)) with (-(1))%Q. field. split; [lra|]. split; [exact Hq|lra].
      * rewrite Z.sgn_pos, Z.abs_eq by lia. change (inject_Z 1) with 1%Q. field. split; [lra|]. split; [exact Hq|lra].
Qed.

Lemma exact_proper op x x' y y' : (x == x')%Q -> (y == y')%Q ->
  match exact op x y, exact op x' y' with
  | Some r, Some r' => (r == r')%Q
  | None, None => True
  | _, _ => False
  end.
Proof.
  intros Ex Ey. destruct op; cbn [exact].
  - rewrite Ex, Ey. reflexivity.
  - rewrite Ex, Ey. reflexivity.
  - rewrite Ex, Ey. reflexivity.
  - destruct (Qeq_bool y 0) eqn:E.
    + apply Qeq_bool_iff in E. rewrite Ey in E. apply Qeq_bool_iff in E. rewrite E. exact I.
    + destruct (Qeq_bool y' 0) eqn:E'.
      * apply Qeq_bool_iff in E'. rewrite <- Ey in E'. apply Qeq_bool_iff in E'. congruence.
      * rewrite Ex, Ey. reflexivity.
Qed.

Lemma number_q_of n k : number (VDec n k) = Some (q_of (n, k)) /\ number (VFloat n k) = Some (q_of (n, k)).
Proof. split; reflexivity. Qed.

(** ** AVG *)
Definition run_sum (l : list val) : option val :=
  match l with
  | [] => Some vnull
  | x :: l => fold_left (fun acc y => match acc with Some s => value_add s y | None => None end) l (Some x)
  end.
Lemma run_sum_snoc l x : l <> [] ->
  run_sum (l ++ [x]) = match run_sum l with Some s => value_add s x | None => None end.
Proof. destruct l as [|y l]; [done|]. intros _. cbn [run_sum app]. rewrite fold_left_app. reflexivity. Qed.
Lemma add_typed t v w : numeric t -> of_type t v -> of_type t w -> exists u, value_add v w = Some u /\ of_type t u.
Proof.
  intros Ht (Tv & Nv) (Tw & Nw).
  destruct v; cbn in Tv; subst t; try (exfalso; destruct Ht as [[H|[H|[H|H]]]|[H|H]]; discriminate);
    try (exfalso; apply Nv; eexists; reflexivity);
    destruct w; cbn in Tw; try discriminate; try (exfalso; apply Nw; eexists; reflexivity);
    cbn [value_add]; eexists; (split; [reflexivity|]); (split; [reflexivity|]); intros [? E]; discriminate.
Qed.
Lemma run_sum_typed t l : numeric t -> Forall (of_type t) l -> l <> [] -> exists v, run_sum l = Some v /\ of_type t v.
Proof.
  intros Ht. induction l as [|x l IH] using rev_ind; [done|]. intros Hl _. apply Forall_app in Hl. destruct Hl as (Hl & Hx).
  apply Forall_cons in Hx. destruct Hx as (Hx & _). destruct (decide (l = [])) as [-> | Hne].
  - exists x. done.
  - destruct (IH Hl Hne) as (v & E & Tv). rewrite run_sum_snoc, E by exact Hne. exact (add_typed t v x Ht Tv Hx).
Qed.

Section AvgProofs.
Context {R K : Type} `{EqDecision K}.
Implicit Types (e : R -> option val) (rows : list R).

Lemma args_app e rows r : args e (rows ++ [r]) =
  args e rows ++ match e r with Some v => if null_dec v then [] else [v] | None => [] end.
Proof. unfold args. rewrite flat_map_app. cbn. rewrite app_nil_r. reflexivity. Qed.
Lemma args_typed t e rows : column t e rows -> Forall (of_type t) (args e rows).
Proof.
  intros (_ & H). induction H as [|r rows (v & E & Hv) _ IH]; [constructor|]. cbn. rewrite E. destruct (null_dec v) as [n|n]; [exact IH|].
  cbn. constructor; [|exact IH]. destruct Hv; [contradiction|assumption].
Qed.
Lemma is_null_spec v : is_null v = true <-> null v.
Proof.
  split.
  - destruct v; cbn; intros H; try discriminate. eexists. reflexivity.
  - intros [t ->]. reflexivity.
Qed.

Definition slot_ok (a : agg R) (rows : list R) (s : slot) : Prop :=
  match a with
  | Avg e => s.2 = Z.of_nat (length (args e rows)) /\ run_sum (args e rows) = Some s.1
  | Sum e => run_sum (args e rows) = Some s.1
  | Count _ => s.1 = vnull \/ exists z, s.1 = VBig z
  end.
Definition typed (a : agg R) (rows : list R) : Prop :=
  match a with Avg e | Sum e => exists t, column t e rows | Count _ => True end.
Lemma typed_app a rows rows' : typed a (rows ++ rows') -> typed a rows.
Proof. destruct a; cbn; try done; intros (t & Ht & H); exists t; (split; [exact Ht|]); apply Forall_app in H; apply H. Qed.
Lemma typed_group a rows key (k : K) : typed a rows -> typed a (group key k rows).
Proof.
  assert (G : forall (P : R -> Prop), Forall P rows -> Forall P (group key k rows)).
  { intros P HP. apply Forall_forall. intros r Hr. rewrite Forall_forall in HP. apply HP. unfold group in Hr. apply elem_of_list_In in Hr.
    apply filter_In in Hr. apply elem_of_list_In, Hr. }
  destruct a; cbn; try done; intros (t & Ht & H); exists t; (split; [exact Ht|]); apply G, H.
Qed.

Lemma step_ok a rows r s : typed a (rows ++ [r]) -> slot_ok a rows s -> exists s', agg_step a r s = UOk s' /\ slot_ok a (rows ++ [r]) s'.
Proof.
  destruct s as [cur c]. intros T H. destruct a as [e|e|e]; cbn [slot_ok fst snd] in H.
  - cbn [typed] in T. destruct T as (t & Ht & T). apply Forall_app in T. destruct T as (T & Tr). apply Forall_cons in Tr. destruct Tr as ((v & E & Hv) & _).
    destruct H as (Hc & Hs). cbn [agg_step]. rewrite E. cbn [slot_ok]. rewrite args_app, E.
    pose proof (args_typed t e rows (conj Ht T)) as A.
    destruct (null_dec v) as [n|n].
    + rewrite (proj2 (is_null_spec v) n). eexists. split; [reflexivity|]. rewrite app_nil_r. cbn. done.
    + assert (In : is_null v = false) by (destruct (is_null v) eqn:En; [apply is_null_spec in En; contradiction|done]). rewrite In.
      destruct Hv as [|Hv]; [contradiction|].
      destruct (decide (args e rows = [])) as [Z|Z].
      * rewrite Z in *. cbn in Hs. injection Hs as <-. cbn [is_null vnull]. eexists. split; [reflexivity|]. cbn. split; [cbn in Hc; lia|reflexivity].
      * destruct (run_sum_typed t _ Ht A Z) as (u & Eu & Tu). rewrite Hs in Eu. injection Eu as ->.
        assert (Iu : is_null u = false) by (destruct (is_null u) eqn:En; [apply is_null_spec in En; destruct Tu; contradiction|done]). rewrite Iu.
        destruct (add_typed t u v Ht Tu Hv) as (w & Ew & Tw). rewrite Ew. eexists. split; [reflexivity|]. cbn [fst snd]. split.
        -- rewrite app_length. cbn. lia.
        -- rewrite run_sum_snoc, Hs by exact Z. exact Ew.
  - cbn [typed] in T. destruct T as (t & Ht & T). apply Forall_app in T. destruct T as (T & Tr). apply Forall_cons in Tr. destruct Tr as ((v & E & Hv) & _).
    rename H into Hs. cbn [agg_step]. rewrite E. cbn [slot_ok]. rewrite args_app, E.
    pose proof (args_typed t e rows (conj Ht T)) as A.
    destruct (null_dec v) as [n|n].
    + rewrite (proj2 (is_null_spec v) n). eexists. split; [reflexivity|]. rewrite app_nil_r. cbn. done.
    + assert (In : is_null v = false) by (destruct (is_null v) eqn:En; [apply is_null_spec in En; contradiction|done]). rewrite In.
      destruct Hv as [|Hv]; [contradiction|].
      destruct (decide (args e rows = [])) as [Z|Z].
      * rewrite Z in *. cbn in Hs. injection Hs as <-. cbn [is_null vnull]. eexists. split; [reflexivity|]. reflexivity.
      * destruct (run_sum_typed t _ Ht A Z) as (u & Eu & Tu). rewrite Hs in Eu. injection Eu as ->.
        assert (Iu : is_null u = false) by (destruct (is_null u) eqn:En; [apply is_null_spec in En; destruct Tu; contradiction|done]). rewrite Iu.
        destruct (add_typed t u v Ht Tu Hv) as (w & Ew & Tw). rewrite Ew. eexists. split; [reflexivity|]. cbn [fst snd].
        rewrite run_sum_snoc, Hs by exact Z. exact Ew.
  - cbn [agg_step]. destruct H as [-> | [z ->]]; cbn [is_null vnull value_add]; eexists; (split; [reflexivity|]); right; eexists; reflexivity.
Qed.
Lemma row_ok (aggs : list (agg R)) rows r ss : Forall (fun a => typed a (rows ++ [r])) aggs -> Forall2 (fun a s => slot_ok a rows s) aggs ss ->
  exists ss', agg_row aggs r ss = Some ss' /\ Forall2 (fun a s => slot_ok a (rows ++ [r]) s) aggs ss'.
Proof.
  intros T H. induction H as [|a s aggs ss Ha _ IH]; [eexists; split; [reflexivity|constructor]|].
  apply Forall_cons in T. destruct T as (Ta & T). destruct (step_ok a rows r s Ta Ha) as (s' & E & Hs).
  destruct (IH T) as (ss' & E' & Hss). cbn [agg_row]. rewrite E, E'. eexists. split; [reflexivity|]. constructor; assumption.
Qed.
Lemma init_ok (aggs : list (agg R)) : Forall2 (fun a s => slot_ok a [] s) aggs (map (fun _ => (vnull, 0)) aggs).
Proof. induction aggs as [|a aggs IH]; constructor; [|exact IH]. destruct a; cbn; auto. Qed.

Lemma add_row_spec (aggs : list (agg R)) (k : K) (r : R) (P P' : K -> list slot -> Prop) gs :
  NoDup (map fst gs) -> (forall k' ss, (k', ss) ∈ gs -> P k' ss) -> (forall k' ss, k' <> k -> P k' ss -> P' k' ss) ->
  (forall ss, P k ss -> exists ss', agg_row aggs r ss = Some ss' /\ P' k ss') ->
  (k ∉ map fst gs -> exists ss', agg_row aggs r (map (fun _ => (vnull, 0)) aggs) = Some ss' /\ P' k ss') ->
  exists gs', add_row aggs k r gs = Some gs' /\ NoDup (map fst gs') /\
    (forall k', k' ∈ map fst gs' <-> k' = k \/ k' ∈ map fst gs) /\ forall k' ss, (k', ss) ∈ gs' -> P' k' ss.
Proof.
  intros ND HP Hoth Hk Hnew. induction gs as [|[k0 ss0] gs IH].
  - destruct (Hnew ltac:(apply not_elem_of_nil)) as (ss' & E & Hs). cbn [add_row]. rewrite E. eexists. split; [reflexivity|]. cbn.
    split; [apply NoDup_singleton|]. split.
    + intros k'. rewrite elem_of_list_singleton. split; [by left|]. intros [->|H]; [done|by apply elem_of_nil in H].
    + intros k' ss H. apply elem_of_list_singleton in H. injection H as -> ->. exact Hs.
  - cbn [map fst] in ND. apply NoDup_cons in ND. destruct ND as (N0 & ND). cbn [add_row]. destruct (decide (k0 = k)) as [-> | Hne].
    + destruct (Hk ss0 (HP k ss0 ltac:(left))) as (ss' & E & Hs). rewrite E. eexists. split; [reflexivity|]. cbn [map fst].
      split; [apply NoDup_cons; done|]. split.
      * intros k'. rewrite elem_of_cons. tauto.
      * intros k' ss H. apply elem_of_cons in H. destruct H as [H|H]; [injection H as -> ->; exact Hs|].
        apply Hoth; [|apply HP; right; exact H]. intros ->. apply N0. change k with (fst (k, ss)). by apply elem_of_list_fmap_1.
    + destruct IH as (gs' & E & ND' & KS & HP').
      * exact ND.
      * intros k' ss H. apply HP. right. exact H.
      * intros H. apply Hnew. cbn [map fst]. rewrite elem_of_cons. intros [|]; [congruence|contradiction].
      * rewrite E. eexists. split; [reflexivity|]. cbn [map fst]. split; [|split].
        -- apply NoDup_cons. split; [|exact ND']. rewrite KS. intros [|]; [congruence|contradiction].
        -- intros k'. rewrite !elem_of_cons, KS. tauto.
        -- intros k' ss H. apply elem_of_cons in H. destruct H as [H|H]; [injection H as -> ->|by apply HP'].
           apply Hoth; [exact Hne|]. apply HP. left.
Qed.

Lemma group_app key (k : K) rows r : group key k (rows ++ [r]) = group key k rows ++ (if bool_decide (key r = Some k) then [r] else []).
Proof. unfold group. rewrite List.filter_app. cbn. destruct (bool_decide _); reflexivity. Qed.
Lemma group_none key (k : K) rows : (forall r, r ∈ rows -> key r <> Some k) -> group key k rows = [].
Proof.
  intros H. unfold group. induction rows as [|r rows IH]; [done|]. cbn. rewrite bool_decide_false; [|apply H; left].
  apply IH. intros r' Hr. apply H. right. exact Hr.
Qed.

Lemma loop_ok (key : R -> option K) (aggs : list (agg R)) rows : forall done gs,
  Forall (fun r => exists k : K, key r = Some k) rows -> Forall (fun a => typed a (done ++ rows)) aggs ->
  NoDup (map fst gs) -> (forall k, k ∈ map fst gs <-> exists r, r ∈ done /\ key r = Some k) ->
  (forall k ss, (k, ss) ∈ gs -> Forall2 (fun a s => slot_ok a (group key k done) s) aggs ss) ->
  exists gs', agg_loop key aggs rows gs = Some gs' /\ NoDup (map fst gs') /\
    (forall k, k ∈ map fst gs' <-> exists r, r ∈ done ++ rows /\ key r = Some k) /\
    forall k ss, (k, ss) ∈ gs' -> Forall2 (fun a s => slot_ok a (group key k (done ++ rows)) s) aggs ss.
Proof.
  induction rows as [|r rows IH]; intros pre gs Hk T ND KS HS.
  - cbn. eexists. split; [reflexivity|]. rewrite app_nil_r. auto.
  - apply Forall_cons in Hk. destruct Hk as ((k & Ek) & Hk).
    assert (T1 : Forall (fun a => typed a (pre ++ [r])) aggs).
    { eapply Forall_impl; [exact T|]. intros a H. replace (pre ++ r :: rows) with ((pre ++ [r]) ++ rows) in H by (rewrite <- app_assoc; reflexivity). exact (typed_app _ _ _ H). }
    assert (TG : Forall (fun a => typed a (group key k pre ++ [r])) aggs).
    { eapply Forall_impl; [exact T1|]. intros a H. apply (typed_group a _ key k) in H. rewrite group_app, bool_decide_true in H by exact Ek. exact H. }
    destruct (add_row_spec aggs k r (fun k ss => Forall2 (fun a s => slot_ok a (group key k pre) s) aggs ss)
      (fun k ss => Forall2 (fun a s => slot_ok a (group key k (pre ++ [r])) s) aggs ss) gs ND HS) as (gs' & E & ND' & KS' & HS').
    + intros k' ss Hne H. rewrite group_app, bool_decide_false by congruence. rewrite app_nil_r. exact H.
    + intros ss H. rewrite group_app, bool_decide_true by exact Ek. apply row_ok; assumption.
    + intros Hn. rewrite group_app, bool_decide_true by exact Ek. apply row_ok; [exact TG|].
      rewrite group_none; [apply init_ok|]. intros r' Hr Er. apply Hn. apply KS. exists r'. done.
    + destruct (IH (pre ++ [r]) gs' Hk) as (gs2 & E2 & H2).
      * rewrite <- app_assoc. exact T.
      * exact ND'.
      * intros k'. rewrite KS', KS. split.
        -- intros [-> | (r' & Hr & Er)]; [exists r|exists r']; rewrite elem_of_app; [rewrite elem_of_list_singleton|]; auto.
        -- intros (r' & Hr & Er). apply elem_of_app in Hr. destruct Hr as [Hr|Hr]; [right; exists r'; done|]. apply elem_of_list_singleton in Hr. subst r'. left. congruence.
      * exact HS'.
      * cbn [agg_loop]. rewrite Ek, E, E2. eexists. split; [reflexivity|]. rewrite <- app_assoc in H2. exact H2.
Qed.
End AvgProofs.

(** ** The mean *)
Definition zof (v : val) : Z := match v with VTiny z | VSmall z | VInt z | VBig z => z | _ => 0 end.
Definition zsum (l : list val) : Z := fold_right (fun v s => zof v + s) 0 l.
Lemma zsum_snoc l x : zsum (l ++ [x]) = zsum l + zof x.
Proof. induction l as [|y l IH]; cbn [app zsum fold_right]; [cbn; lia|]. fold (zsum (l ++ [x])). rewrite IH. fold (zsum l). lia. Qed.
Lemma qsum_snoc l x : (qsum (l ++ [x]) == qsum l + num x)%Q.
Proof. induction l as [|y l IH]; cbn [app qsum fold_right]; [cbn; lra|]. fold (qsum (l ++ [x])). rewrite IH. fold (qsum l). lra. Qed.
Lemma qsum_zsum t l : t = TInt \/ t = TBig -> Forall (of_type t) l -> (qsum l == inject_Z (zsum l))%Q.
Proof.
  intros Ht H. induction H as [|v l (T & N) _ IH]; [reflexivity|]. cbn [qsum zsum fold_right]. fold (qsum l) (zsum l).
  rewrite inject_Z_plus, IH. destruct v; cbn in T; subst t; try (destruct Ht; discriminate); try (exfalso; apply N; eexists; reflexivity); reflexivity.
Qed.
Lemma wrap_id t z lo hi : range t = Some (lo, hi) -> lo <= z <= hi -> wrap t z = z.
Proof. intros E H. unfold wrap. rewrite E. rewrite Z.mod_small by lia. lia. Qed.
Lemma wrap_add t z z' y : wrap t z = wrap t z' -> wrap t (z + y) = wrap t (z' + y).
Proof.
  unfold wrap. destruct (range t) as [[lo hi]|]; [|intros ->; reflexivity]. intros E.
  f_equal. replace (z + y - lo) with ((z - lo) + y) by lia. replace (z' + y - lo) with ((z' - lo) + y) by lia.
  rewrite <- (Zplus_mod_idemp_l (z - lo)), <- (Zplus_mod_idemp_l (z' - lo)). f_equal. lia.
Qed.
Definition mk (t : cty) (z : Z) : val := match t with TInt => VInt z | _ => VBig z end.
Lemma run_sum_int t l : t = TInt \/ t = TBig -> Forall (of_type t) l -> l <> [] ->
  exists z, run_sum l = Some (mk t z) /\ wrap t z = wrap t (zsum l) /\ (z = zsum l \/ z = wrap t (zsum l)).
Proof.
  intros Ht. induction l as [|x l IH] using rev_ind; [done|]. intros Hl _. apply Forall_app in Hl. destruct Hl as (Hl & Hx).
  apply Forall_cons in Hx. destruct Hx as ((Tx & Nx) & _).
  assert (Ex : x = mk t (zof x)).
  { destruct x; cbn in Tx; subst t; try (destruct Ht; discriminate); try (exfalso; apply Nx; eexists; reflexivity); reflexivity. }
  destruct (decide (l = [])) as [-> | Hne].
  - exists (zof x). cbn. rewrite Z.add_0_r. split; [congruence|]. auto.
  - destruct (IH Hl Hne) as (z & E & W & _). rewrite run_sum_snoc, E by exact Hne. rewrite Ex.
    exists (wrap t (z + zof x)). 
    assert (Z : zof (mk t (zof x)) = zof x) by (destruct Ht as [-> | ->]; reflexivity). rewrite zsum_snoc, Z.
    rewrite <- (wrap_add t z (zsum l) (zof x) W). split; [|split; [|right; reflexivity]].
    + destruct Ht as [-> | ->]; reflexivity.
    + unfold wrap. destruct (range t) as [[lo hi]|]; [|reflexivity].
      replace ((z + zof x - lo) mod (hi - lo + 1) + lo - lo) with ((z + zof x - lo) mod (hi - lo + 1)) by lia.
      rewrite Zmod_mod. reflexivity.
Qed.

Lemma binary_whole p n k : 0 <= p -> Z.abs n < 2 ^ p -> binary p (inject_Z n / inject_Z (2 ^ Z.of_nat k))%Q.
Proof. intros Hp H. exists n, k. split; [|reflexivity]. exists n, 0. split; [lia|]. split; [lia|exact H]. Qed.

Lemma abs_sum zs : Z.abs (fold_right Z.add 0 zs) <= fold_right (fun z s => Z.abs z + s) 0 zs.
Proof. induction zs as [|z zs IH]; cbn; [lia|]. lia. Qed.
Lemma fold_abs_snoc zs z : fold_right (fun z s => Z.abs z + s) 0 (zs ++ [z]) = fold_right (fun z s => Z.abs z + s) 0 zs + Z.abs z.
Proof. induction zs as [|y zs IH]; cbn; [lia|]. rewrite IH. lia. Qed.
Lemma fold_add_snoc zs z : fold_right Z.add 0%Z (zs ++ [z]) = fold_right Z.add 0 zs + z.
Proof. induction zs as [|y zs IH]; cbn; [lia|]. rewrite IH. lia. Qed.

Lemma run_sum_dec l : forall k zs, Forall (of_type TDec) l -> l <> [] ->
  Forall2 (fun v z => num v == inject_Z z / inject_Z (2 ^ Z.of_nat k))%Q l zs ->
  fold_right (fun z s => Z.abs z + s) 0 zs < 2 ^ 53 ->
  exists n j, run_sum l = Some (VDec n j) /\ (q_of (n, j) == qsum l)%Q /\
    (qsum l == inject_Z (fold_right Z.add 0%Z zs) / inject_Z (2 ^ Z.of_nat k))%Q.
Proof.
  induction l as [|x l IH] using rev_ind; [done|]. intros k zs Hl _ HZ HB. apply Forall_app in Hl. destruct Hl as (Hl & Hx).
  apply Forall_cons in Hx. destruct Hx as ((Tx & Nx) & _).
  destruct x as [t| | | | | |n j| | | | | | |]; try discriminate Tx; [exfalso; apply Nx; eexists; reflexivity|].
  all: apply Forall2_app_inv_l in HZ; destruct HZ as (zs1 & zs2 & HZ & HX & ->);
       apply Forall2_cons_inv_l in HX; destruct HX as (z & zs3 & HX & HN & ->); apply Forall2_nil_inv_l in HN; subst zs3.
  all: pose proof (FltProofs.pow2_pos (Z.of_nat k) ltac:(lia)) as P; pose proof (inj_pos _ P) as QP.
  all: rewrite fold_abs_snoc in HB.
  all: destruct (decide (l = [])) as [-> | Hne].
  - apply Forall2_nil_inv_l in HZ. subst zs1. eexists _, _. split; [reflexivity|]. split.
    + cbn. unfold num, q_of. cbn. lra.
    + rewrite fold_add_snoc. cbn [app qsum fold_right]. rewrite HX. rewrite Z.add_0_l. field. lra.
  - destruct (IH k zs1 Hl Hne HZ ltac:(lia)) as (m & i & E & Q1 & Q2). rewrite run_sum_snoc, E by exact Hne. cbn [value_add].
    pose proof (fop_nearest 53 Plus (m, i) (n, j) ltac:(lia)) as N. cbn [exact] in N. destruct N as (w & Ew & N). rewrite Ew.
    change (num (VDec n j)) with (q_of (n, j)) in HX.
    assert (S : (q_of (m, i) + q_of (n, j) == inject_Z (fold_right Z.add 0%Z (zs1 ++ [z])) / inject_Z (2 ^ Z.of_nat k))%Q).
    { rewrite Q1, Q2, HX, fold_add_snoc, inject_Z_plus. field. lra. }
    assert (B : binary 53 (q_of (m, i) + q_of (n, j))%Q).
    { rewrite S. apply binary_whole; [lia|]. pose proof (abs_sum (zs1 ++ [z])). rewrite fold_abs_snoc in H. lia. }
    exists w.1, w.2. split; [reflexivity|]. rewrite qsum_snoc. change (num (VDec n j)) with (q_of (n, j)). rewrite <- Q1. split; [|exact S].
    rewrite <- (nearest_binary _ _ _ B N). destruct w. reflexivity.
Qed.
