(** * C96: comparing two numbers compares the numbers *)
From Coq Require Import ZArith NArith QArith Lqa Lia.
From stdpp Require Import list.
From Verif Require Import CastSpec CastModel CastProofs NumSpec NumModel.
Local Open Scope Z_scope.

(** ** Rounding to p bits *)
Lemma short_round p z : 0 < p -> short p z -> round_bits p z = z.
Proof.
  intros P (m & e & He & -> & Hm). unfold round_bits.
  set (a := Z.abs (m * 2 ^ e)). set (E := Z.max 0 (Z.log2 a + 1 - p)).
  assert (Ha : a = Z.abs m * 2 ^ e).
  { unfold a. rewrite Z.abs_mul. f_equal. apply Z.abs_eq, Z.pow_nonneg. lia. }
  assert (HE : 0 <= E <= e).
  { unfold E. split; [lia|]. destruct (Z.eq_dec m 0) as [->|N].
    - rewrite Ha. change (Z.abs 0 * 2 ^ e) with 0. change (Z.log2 0) with 0. lia.
    - rewrite Ha, Z.log2_mul_pow2 by lia.
      assert (Z.log2 (Z.abs m) < p) by (apply Z.log2_lt_pow2; lia). lia. }
  assert (D : a = Z.abs m * 2 ^ (e - E) * 2 ^ E).
  { rewrite Ha, <- Z.mul_assoc, <- Z.pow_add_r by lia. do 2 f_equal. lia. }
  assert (H0 : 0 < 2 ^ E) by (apply Z.pow_pos_nonneg; lia).
  rewrite D, Z.mod_mul, Z.div_mul by lia.
  replace (2 * 0) with 0 by lia.
  assert (2 ^ E <? 0 = false) as -> by lia. assert (2 ^ E =? 0 = false) as -> by lia.
  cbn [orb andb]. rewrite <- D. unfold a. rewrite Z.mul_comm. apply Z.abs_sgn.
Qed.

Lemma round_quot p a : 0 < p -> 0 <= a ->
  let E := Z.max 0 (Z.log2 a + 1 - p) in a / 2 ^ E < 2 ^ p.
Proof.
  intros P A E. assert (H0 : 0 <= E) by lia.
  destruct (Z.eq_dec a 0) as [->|N].
  { rewrite Z.div_0_l by (apply Z.pow_nonzero; lia). apply Z.pow_pos_nonneg; lia. }
  apply Z.div_lt_upper_bound; [apply Z.pow_pos_nonneg; lia|].
  rewrite <- Z.pow_add_r by lia.
  apply Z.lt_le_trans with (2 ^ (Z.log2 a + 1)).
  - replace (Z.log2 a + 1) with (Z.succ (Z.log2 a)) by lia. apply Z.log2_spec. lia.
  - apply Z.pow_le_mono_r; lia.
Qed.

Lemma round_short p z : 1 < p -> short p (round_bits p z).
Proof.
  intros P. unfold round_bits.
  pose proof (round_quot p (Z.abs z) ltac:(lia) (Z.abs_nonneg z)) as Hq. cbn zeta in Hq.
  set (E := Z.max 0 (Z.log2 (Z.abs z) + 1 - p)) in *.
  assert (HE : 0 <= E) by lia.
  assert (Hq0 : 0 <= Z.abs z / 2 ^ E) by (apply Z.div_pos; [lia|apply Z.pow_pos_nonneg; lia]).
  set (q := Z.abs z / 2 ^ E) in *.
  set (q' := if _ || _ then q + 1 else q).
  assert (Q : 0 <= q' <= 2 ^ p) by (unfold q'; destruct (_ || _); lia).
  destruct (Z.eq_dec q' (2 ^ p)) as [F|F].
  - exists (Z.sgn z * 2 ^ (p - 1)), (E + 1). split; [lia|]. split.
    + rewrite F. replace (2 ^ p) with (2 ^ (p - 1) * 2).
      * rewrite Z.pow_add_r by lia. change (2 ^ 1) with 2. ring.
      * replace p with (p - 1 + 1) at 2 by lia. rewrite Z.pow_add_r by lia. reflexivity.
    + rewrite Z.abs_mul. assert (Z.abs (Z.sgn z) <= 1) by lia.
      assert (0 < 2 ^ (p - 1)) by (apply Z.pow_pos_nonneg; lia).
      assert (2 ^ (p - 1) < 2 ^ p) by (apply Z.pow_lt_mono_r; lia).
      rewrite (Z.abs_eq (2 ^ (p - 1))) by lia. nia.
  - exists (Z.sgn z * q'), E. split; [lia|]. split; [ring|].
    rewrite Z.abs_mul. assert (Z.abs (Z.sgn z) <= 1) by lia.
    rewrite (Z.abs_eq q') by lia. nia.
Qed.

Lemma round_bound p z b : 0 < p -> Z.abs z < 2 ^ b -> p <= b -> Z.abs (round_bits p z) <= 2 ^ b.
Proof.
  intros P L B. unfold round_bits.
  pose proof (round_quot p (Z.abs z) P (Z.abs_nonneg z)) as Hq. cbn zeta in Hq.
  set (E := Z.max 0 (Z.log2 (Z.abs z) + 1 - p)) in *.
  assert (HE : 0 <= E) by lia.
  assert (Hq0 : 0 <= Z.abs z / 2 ^ E) by (apply Z.div_pos; [lia|apply Z.pow_pos_nonneg; lia]).
  set (q := Z.abs z / 2 ^ E) in *.
  set (q' := if _ || _ then q + 1 else q).
  assert (Q : 0 <= q' <= 2 ^ p) by (unfold q'; destruct (_ || _); lia).
  assert (EB : p + E <= b).
  { unfold E. destruct (Z.eq_dec z 0) as [->|N]; [change (Z.abs 0) with 0; change (Z.log2 0) with 0; lia|].
    apply (Z.log2_lt_pow2 (Z.abs z) b ltac:(lia)) in L. lia. }
  assert (H1 : q' * 2 ^ E <= 2 ^ b).
  { apply Z.le_trans with (2 ^ p * 2 ^ E).
    - apply Z.mul_le_mono_nonneg_r; [apply Z.pow_nonneg; lia|lia].
    - rewrite <- Z.pow_add_r by lia. apply Z.pow_le_mono_r; lia. }
  assert (H2 : 0 <= q' * 2 ^ E) by (apply Z.mul_nonneg_nonneg; [lia|apply Z.pow_nonneg; lia]).
  rewrite Z.abs_mul, (Z.abs_eq (q' * 2 ^ E)) by lia.
  assert (Z.abs (Z.sgn z) <= 1) by lia. nia.
Qed.

(** ** Numbers and integers over powers of two *)
Definition frac (v : val) : option (Z * nat) :=
  match v with
  | VTiny z | VSmall z | VInt z | VBig z => Some (z, 0%nat)
  | VDec n k | VFloat n k => Some (n, k)
  | _ => None
  end.
Definition q_of (p : Z * nat) : Q := (inject_Z p.1 / inject_Z (2 ^ Z.of_nat p.2))%Q.
Lemma pow2_pos k : 0 < 2 ^ Z.of_nat k. Proof. apply Z.pow_pos_nonneg; lia. Qed.
Lemma number_frac v x : number v = Some x -> exists p, frac v = Some p /\ (x == q_of p)%Q.
Proof.
  destruct v; cbn; intros H; try discriminate; injection H as <-;
    (eexists; split; [reflexivity|]); unfold q_of; cbn [fst snd]; try reflexivity;
    change (2 ^ Z.of_nat 0) with 1; (rewrite Qdiv_mult_l || idtac);
    unfold Qeq, Qdiv, Qmult, Qinv, inject_Z; cbn; lia.
Qed.
Lemma q_cmp p r : Qcompare (q_of p) (q_of r) = cmp_float p.1 p.2 r.1 r.2.
Proof.
  destruct p as [n k], r as [m j]. unfold q_of, cmp_float. cbn [fst snd].
  pose proof (pow2_pos k) as Hk. pose proof (pow2_pos j) as Hj.
  destruct (2 ^ Z.of_nat k) as [|a|a] eqn:Ea; try lia.
  destruct (2 ^ Z.of_nat j) as [|b|b] eqn:Eb; try lia.
  unfold Qcompare, Qdiv, Qmult, Qinv, inject_Z. cbn.
  rewrite !Z.mul_1_r. reflexivity.
Qed.
Definition decide_op (op : cop) (c : comparison) : bool :=
  match op, c with
  | Ceq, Eq => true | Ceq, _ => false
  | Cne, Eq => false | Cne, _ => true
  | Clt, Lt => true | Clt, _ => false
  | Cle, Gt => false | Cle, _ => true
  | Cgt, Gt => true | Cgt, _ => false
  | Cge, Lt => false | Cge, _ => true
  end.
Lemma decide_holds op x y : decide_op op (Qcompare x y) = true <-> holds op x y.
Proof.
  destruct (Qcompare_spec x y) as [H|H|H]; destruct op; cbn [decide_op holds]; split; intros F;
    try reflexivity; try discriminate; try lra; try (intros G; lra); exfalso; apply F; lra.
Qed.
Lemma holds_proper op x x' y y' : (x == x')%Q -> (y == y')%Q -> holds op x y <-> holds op x' y'.
Proof. intros H1 H2. destruct op; cbn; rewrite H1, H2; reflexivity. Qed.

(** The answer on values of one type. *)
Lemma compare_same op v w p r : frac v = Some p -> frac w = Some r -> type_of v = type_of w ->
  compare_op op v w = Some (decide_op op (cmp_float p.1 p.2 r.1 r.2)).
Proof.
  intros Hp Hr T. destruct v, w; cbn in Hp, Hr, T; try discriminate;
    injection Hp as <-; injection Hr as <-; unfold cmp_float; cbn [fst snd];
    try (change (2 ^ Z.of_nat 0) with 1; rewrite !Z.mul_1_r); destruct op; reflexivity.
Qed.

Section Props.
Context (sd : Z -> nat -> list N) (rd rf : list N -> option (Z * nat)).
Context (f32 : Z -> nat -> Z * nat) (ch : cty -> list N -> option Z).
Notation compare := (perform_comparison sd rd rf f32 ch).

Lemma frac_not_null v p t : frac v = Some p -> v <> VNull t.
Proof. intros H ->. discriminate. Qed.

(** If the left value can be cast to the right one's type without a change, or not at
    all and the right one can, the answer is right. *)
Lemma perform_left op v w p r v' p' : frac v = Some p -> frac w = Some r ->
  type_of v <> type_of w -> cast_to sd rd rf f32 ch v (type_of w) = Some v' ->
  frac v' = Some p' -> type_of v' = type_of w ->
  compare op v w = Some (Some (decide_op op (cmp_float p'.1 p'.2 r.1 r.2))).
Proof.
  intros Hp Hr T C Hp' T'. unfold perform_comparison.
  assert (G : (if decide (type_of v = type_of w) then Some (compare_op op v w)
     else match cast_to sd rd rf f32 ch v (type_of w) with
          | Some v' => Some (compare_op op v' w)
          | None => match cast_to sd rd rf f32 ch w (type_of v) with
                    | Some w' => Some (compare_op op v w')
                    | None => None
                    end
          end) = Some (Some (decide_op op (cmp_float p'.1 p'.2 r.1 r.2)))).
  { rewrite decide_False by assumption. rewrite C. now rewrite (compare_same op v' w p' r). }
  destruct v; try discriminate; destruct w; try discriminate; exact G.
Qed.
Lemma perform_right op v w p r w' r' : frac v = Some p -> frac w = Some r ->
  type_of v <> type_of w -> cast_to sd rd rf f32 ch v (type_of w) = None ->
  cast_to sd rd rf f32 ch w (type_of v) = Some w' ->
  frac w' = Some r' -> type_of v = type_of w' ->
  compare op v w = Some (Some (decide_op op (cmp_float p.1 p.2 r'.1 r'.2))).
Proof.
  intros Hp Hr T C C2 Hr' T'. unfold perform_comparison.
  assert (G : (if decide (type_of v = type_of w) then Some (compare_op op v w)
     else match cast_to sd rd rf f32 ch v (type_of w) with
          | Some v' => Some (compare_op op v' w)
          | None => match cast_to sd rd rf f32 ch w (type_of v) with
                    | Some w' => Some (compare_op op v w')
                    | None => None
                    end
          end) = Some (Some (decide_op op (cmp_float p.1 p.2 r'.1 r'.2)))).
  { rewrite decide_False by assumption. rewrite C, C2. now rewrite (compare_same op v w' p r'). }
  destruct v; try discriminate; destruct w; try discriminate; exact G.
Qed.
Lemma perform_equal op v w p r : frac v = Some p -> frac w = Some r -> type_of v = type_of w ->
  compare op v w = Some (Some (decide_op op (cmp_float p.1 p.2 r.1 r.2))).
Proof.
  intros Hp Hr T. unfold perform_comparison.
  assert (G : (if decide (type_of v = type_of w) then Some (compare_op op v w)
     else match cast_to sd rd rf f32 ch v (type_of w) with
          | Some v' => Some (compare_op op v' w)
          | None => match cast_to sd rd rf f32 ch w (type_of v) with
                    | Some w' => Some (compare_op op v w')
                    | None => None
                    end
          end) = Some (Some (decide_op op (cmp_float p.1 p.2 r.1 r.2)))).
  { rewrite decide_True by assumption. now rewrite (compare_same op v w p r). }
  destruct v; try discriminate; destruct w; try discriminate; exact G.
Qed.

Lemma whole_integer v z : whole v = Some z -> integer_type (type_of v) ->
  v = integer (type_of v) z /\ frac v = Some (z, 0%nat).
Proof.
  intros H T. destruct v; cbn in H; try discriminate; injection H as ->; cbn;
    try (now split); destruct T as [E|[E|[E|E]]]; discriminate.
Qed.
Lemma frac_integer t z : integer_type t -> frac (integer t z) = Some (z, 0%nat) /\ type_of (integer t z) = t.
Proof. intros [-> | [-> | [-> | ->]]]; now split. Qed.
Lemma integer_mk t z : integer_type t -> integer t z = mk_whole t z.
Proof. intros [-> | [-> | [-> | ->]]]; reflexivity. Qed.
Lemma cast_float_left (f : bool) n k t : integer_type t ->
  cast_to sd rd rf f32 ch (if f then VFloat n k else VDec n k) t = Some (integer t (clamp t (trunc n k))).
Proof.
  intros T. unfold cast_to. rewrite decide_False by (destruct f, T as [-> | [-> | [-> | ->]]]; discriminate).
  destruct f, T as [-> | [-> | [-> | ->]]]; reflexivity.
Qed.
Lemma trunc_whole z k : trunc (z * 2 ^ Z.of_nat k) k = z.
Proof. unfold trunc. apply Z.quot_mul. pose proof (pow2_pos k). lia. Qed.

Lemma cast_ints t u x y : integer_type t -> integer_type u -> t <> u ->
  cast_to sd rd rf f32 ch (integer t x) u = Some (integer u x) \/
  (cast_to sd rd rf f32 ch (integer t x) u = None /\
   cast_to sd rd rf f32 ch (integer u y) t = Some (integer t y)).
Proof.
  intros It Iu T. unfold cast_to.
  destruct (frac_integer t x It) as [_ Tt], (frac_integer u y Iu) as [_ Tu]. rewrite !Tt, !Tu.
  rewrite !decide_False by congruence. clear Tt Tu.
  destruct It as [-> | [-> | [-> | ->]]], Iu as [-> | [-> | [-> | ->]]]; try contradiction;
    cbn [integer cast_int width Nat.ltb Nat.leb mk_whole]; try (now left);
    (match goal with |- context [in_range ?t ?z] => destruct (in_range t z) end; [now left|now right]).
Qed.

(** Two numbers of which one can be expressed in the other's type are compared by
    value, whatever their types and the operator. *)
Lemma comparable_eval op v w x y :
  comparable v w -> number v = Some x -> number w = Some y ->
  exists b, compare op v w = Some (Some b) /\ (b = true <-> holds op x y).
Proof.
  intros C Hx Hy.
  destruct (number_frac v x Hx) as (p & Hp & Ex), (number_frac w y Hy) as (r & Hr & Ey).
  assert (K : forall b p' r', b = decide_op op (cmp_float p'.1 p'.2 r'.1 r'.2) ->
     (q_of p' == q_of p)%Q -> (q_of r' == q_of r)%Q -> (b = true <-> holds op x y)).
  { intros b p' r' -> E1 E2. rewrite <- q_cmp, decide_holds.
    apply holds_proper; [now rewrite E1, Ex|now rewrite E2, Ey]. }
  destruct (decide (type_of v = type_of w)) as [T|T].
  { eexists. split; [now apply (perform_equal op v w p r)|].
    now apply (K _ p r). }
  destruct C as [v w E|v w x' y' Wv Ww Iv Iw Fv Fw|v z n k Wv Iv S|v z n k Wv Iv S|n k m j
                |n k z w y' -> Ww Iw F|n k z w y' -> Ww Iw F].
  - contradiction.
  - destruct (whole_integer v x' Wv Iv) as [Ev Fv']. destruct (whole_integer w y' Ww Iw) as [Ew Fw'].
    rewrite Fv' in Hp. injection Hp as <-. rewrite Fw' in Hr. injection Hr as <-.
    assert (CV : cast_to sd rd rf f32 ch v (type_of w) = Some (integer (type_of w) x') \/
      (cast_to sd rd rf f32 ch v (type_of w) = None /\
       cast_to sd rd rf f32 ch w (type_of v) = Some (integer (type_of v) y'))).
    { pose proof (cast_ints (type_of v) (type_of w) x' y' Iv Iw T) as CI.
      rewrite <- Ev, <- Ew in CI. exact CI. }
    destruct (frac_integer (type_of w) x' Iw) as [F1 T1], (frac_integer (type_of v) y' Iv) as [F2 T2].
    destruct CV as [CV|[CV CW]].
    + eexists. split; [now apply (perform_left op v w (x', 0%nat) (y', 0%nat) _ (x', 0%nat) Fv' Fw' T CV)|].
      now apply (K _ (x', 0%nat) (y', 0%nat)).
    + eexists. split; [now apply (perform_right op v w (x', 0%nat) (y', 0%nat) _ (y', 0%nat) Fv' Fw' T CV CW)|].
      now apply (K _ (x', 0%nat) (y', 0%nat)).
  - destruct (whole_integer v z Wv Iv) as [Ev Fv].
    rewrite Fv in Hp. injection Hp as <-. cbn in Hr. injection Hr as <-.
    assert (CV : cast_to sd rd rf f32 ch v (type_of (VDec n k)) = Some (VDec z 0)).
    { rewrite Ev. cbn [type_of]. unfold cast_to.
      rewrite decide_False by (destruct Iv as [-> | [-> | [-> | ->]]]; discriminate).
      destruct Iv as [-> | [-> | [-> | ->]]]; cbn [integer cast_int]; now rewrite short_round. }
    eexists. split; [now apply (perform_left op v (VDec n k) (z, 0%nat) (n, k) _ (z, 0%nat) Fv eq_refl T CV)|].
    now apply (K _ (z, 0%nat) (n, k)).
  - destruct (whole_integer v z Wv Iv) as [Ev Fv].
    rewrite Fv in Hp. injection Hp as <-. cbn in Hr. injection Hr as <-.
    assert (CV : cast_to sd rd rf f32 ch v (type_of (VFloat n k)) = Some (VFloat z 0)).
    { rewrite Ev. cbn [type_of]. unfold cast_to.
      rewrite decide_False by (destruct Iv as [-> | [-> | [-> | ->]]]; discriminate).
      destruct Iv as [-> | [-> | [-> | ->]]]; cbn [integer cast_int]; now rewrite short_round. }
    eexists. split; [now apply (perform_left op v (VFloat n k) (z, 0%nat) (n, k) _ (z, 0%nat) Fv eq_refl T CV)|].
    now apply (K _ (z, 0%nat) (n, k)).
  - cbn in Hp, Hr. injection Hp as <-. injection Hr as <-.
    eexists. split; [now apply (perform_left op (VFloat n k) (VDec m j) (n, k) (m, j) (VDec n k) (n, k))|].
    now apply (K _ (n, k) (m, j)).
  - destruct (whole_integer w y' Ww Iw) as [Ew Fw].
    rewrite Fw in Hr. injection Hr as <-. cbn in Hp. injection Hp as <-.
    pose proof (cast_float_left false (z * 2 ^ Z.of_nat k) k (type_of w) Iw) as CV. cbn iota in CV.
    rewrite trunc_whole, (clamp_fits _ _ F) in CV.
    destruct (frac_integer (type_of w) z Iw) as [F1 T1].
    eexists. split; [now apply (perform_left op (VDec (z * 2 ^ Z.of_nat k) k) w (z * 2 ^ Z.of_nat k, k) (y', 0%nat) _ (z, 0%nat) eq_refl Fw T CV)|].
    apply (K _ (z, 0%nat) (y', 0%nat)); try reflexivity.
    apply Qeq_alt. rewrite q_cmp. unfold cmp_float. cbn [fst snd]. change (2 ^ Z.of_nat 0) with 1.
    rewrite Z.mul_1_r. apply Z.compare_refl.
  - destruct (whole_integer w y' Ww Iw) as [Ew Fw].
    rewrite Fw in Hr. injection Hr as <-. cbn in Hp. injection Hp as <-.
    pose proof (cast_float_left true (z * 2 ^ Z.of_nat k) k (type_of w) Iw) as CV. cbn iota in CV.
    rewrite trunc_whole, (clamp_fits _ _ F) in CV.
    destruct (frac_integer (type_of w) z Iw) as [F1 T1].
    eexists. split; [now apply (perform_left op (VFloat (z * 2 ^ Z.of_nat k) k) w (z * 2 ^ Z.of_nat k, k) (y', 0%nat) _ (z, 0%nat) eq_refl Fw T CV)|].
    apply (K _ (z, 0%nat) (y', 0%nat)); try reflexivity.
    apply Qeq_alt. rewrite q_cmp. unfold cmp_float. cbn [fst snd]. change (2 ^ Z.of_nat 0) with 1.
    rewrite Z.mul_1_r. apply Z.compare_refl.
Qed.

(** NULL on either side: the answer is NULL. *)
Lemma null_eval op v w t : v = VNull t \/ w = VNull t -> compare op v w = Some None.
Proof. intros [->| ->]; [reflexivity|]. now destruct v. Qed.

Lemma number_float (f : bool) n k : number (if f then VFloat n k else VDec n k) = Some (q_of (n, k)).
Proof. now destruct f. Qed.
Lemma number_integer t z : integer_type t -> exists x, number (integer t z) = Some x /\ (x == q_of (z, 0%nat))%Q.
Proof.
  intros T. destruct (frac_integer t z T) as [F _].
  assert (N : number (integer t z) = Some (inject_Z z)) by (destruct T as [-> | [-> | [-> | ->]]]; reflexivity).
  exists (inject_Z z). split; [assumption|].
  destruct (number_frac _ _ N) as (p & Hp & E). rewrite F in Hp. injection Hp as <-. exact E.
Qed.
Lemma float_left op (f : bool) n k t z : integer_type t ->
  compare op (if f then VFloat n k else VDec n k) (integer t z) =
  Some (Some (decide_op op (Z.compare (clamp t (trunc n k)) z))).
Proof.
  intros T. destruct (frac_integer t z T) as [F1 T1].
  destruct (frac_integer t (clamp t (trunc n k)) T) as [F2 T2].
  pose proof (cast_float_left f n k t T) as CV.
  rewrite (perform_left op (if f then VFloat n k else VDec n k) (integer t z) (n, k) (z, 0%nat)
    (integer t (clamp t (trunc n k))) (clamp t (trunc n k), 0%nat)).
  - unfold cmp_float. cbn [fst snd]. change (2 ^ Z.of_nat 0) with 1. now rewrite !Z.mul_1_r.
  - now destruct f.
  - assumption.
  - rewrite T1. destruct f, T as [-> | [-> | [-> | ->]]]; discriminate.
  - now rewrite T1.
  - assumption.
  - now rewrite T1.
Qed.

(** A decimal or float that is not whole, on the left of an integer, is cut to its whole
    part first: it is equal to that integer and, if positive, not greater than it. *)
Lemma fraction_eval (f : bool) n k t z x y :
  integer_type t -> z = Z.quot n (2 ^ Z.of_nat k) -> fits t z -> Z.rem n (2 ^ Z.of_nat k) <> 0 ->
  let d := if f then VFloat n k else VDec n k in
  number d = Some x -> number (integer t z) = Some y ->
  compare Ceq d (integer t z) = Some (Some true) /\ ~ holds Ceq x y /\
  (0 < n -> compare Cgt d (integer t z) = Some (Some false) /\ holds Cgt x y).
Proof.
  intros T -> F R d Hx Hy. unfold d in *.
  rewrite number_float in Hx. injection Hx as <-.
  destruct (number_integer t (Z.quot n (2 ^ Z.of_nat k)) T) as (y' & Hy' & Ey).
  rewrite Hy' in Hy. injection Hy as <-.
  rewrite !(float_left _ f n k t _ T). unfold trunc.
  rewrite (clamp_fits _ _ F), Z.compare_refl.
  pose proof (pow2_pos k) as Hk.
  pose proof (Z.quot_rem n (2 ^ Z.of_nat k) ltac:(lia)) as QR.
  split; [reflexivity|]. split.
  - rewrite (holds_proper Ceq _ _ _ _ (Qeq_refl _) Ey), <- decide_holds, q_cmp.
    unfold cmp_float. cbn [fst snd]. change (2 ^ Z.of_nat 0) with 1. rewrite Z.mul_1_r.
    destruct (Z.compare_spec n (n ÷ 2 ^ Z.of_nat k * 2 ^ Z.of_nat k)); cbn; intros G; try discriminate. lia.
  - intros Hn. split; [reflexivity|].
    rewrite (holds_proper Cgt _ _ _ _ (Qeq_refl _) Ey), <- decide_holds, q_cmp.
    unfold cmp_float. cbn [fst snd]. change (2 ^ Z.of_nat 0) with 1. rewrite Z.mul_1_r.
    pose proof (Z.rem_bound_pos n (2 ^ Z.of_nat k) ltac:(lia) Hk).
    destruct (Z.compare_spec n (n ÷ 2 ^ Z.of_nat k * 2 ^ Z.of_nat k)); cbn; try reflexivity; lia.
Qed.

(** A decimal or float above the range of the integer's type is equal to that type's
    largest value. *)
Lemma saturates_eval (f : bool) n k t lo hi x y :
  integer_type t -> range t = Some (lo, hi) -> (hi + 1) * 2 ^ Z.of_nat k <= n ->
  let d := if f then VFloat n k else VDec n k in
  number d = Some x -> number (integer t hi) = Some y ->
  compare Ceq d (integer t hi) = Some (Some true) /\ holds Cgt x y.
Proof.
  intros T R L d Hx Hy. unfold d in *.
  rewrite number_float in Hx. injection Hx as <-.
  destruct (number_integer t hi T) as (y' & Hy' & Ey). rewrite Hy' in Hy. injection Hy as <-.
  rewrite (float_left _ f n k t _ T).
  pose proof (pow2_pos k) as Hk.
  assert (Hlo : lo <= hi /\ 0 <= hi).
  { destruct T as [-> | [-> | [-> | ->]]]; cbn in R; injection R as <- <-; lia. }
  assert (Hq : hi + 1 <= trunc n k).
  { unfold trunc. apply Z.quot_le_lower_bound; lia. }
  assert (C : clamp t (trunc n k) = hi) by (unfold clamp; rewrite R; lia).
  rewrite C, Z.compare_refl. split; [reflexivity|].
  rewrite (holds_proper Cgt _ _ _ _ (Qeq_refl _) Ey), <- decide_holds, q_cmp.
  unfold cmp_float. cbn [fst snd]. change (2 ^ Z.of_nat 0) with 1. rewrite Z.mul_1_r.
  destruct (Z.compare_spec n (hi * 2 ^ Z.of_nat k)); cbn; try reflexivity; nia.
Qed.

(** The same two numbers compared in the two orders: [z < d] is true and [d > z] is
    not. *)
Lemma asymmetric_eval n k t z :
  integer_type t -> z = Z.quot n (2 ^ Z.of_nat k) -> fits t z -> short 53 z ->
  0 < n -> Z.rem n (2 ^ Z.of_nat k) <> 0 ->
  compare Clt (integer t z) (VDec n k) = Some (Some true) /\
  compare Cgt (VDec n k) (integer t z) = Some (Some false).
Proof.
  intros T -> F S Hn R.
  destruct (frac_integer t (n ÷ 2 ^ Z.of_nat k) T) as [F1 T1].
  destruct (number_integer t (Z.quot n (2 ^ Z.of_nat k)) T) as (y' & Hy' & Ey).
  pose proof (number_float false n k) as Hx. cbn iota in Hx.
  destruct (fraction_eval false n k t _ _ y' T eq_refl F R Hx Hy') as (_ & _ & G).
  cbn iota in G. destruct (G Hn) as [G1 G2]. split; [|exact G1].
  destruct (comparable_eval Clt (integer t (n ÷ 2 ^ Z.of_nat k)) (VDec n k) y' (q_of (n, k)))
    as (b & B1 & B2).
  - apply cmp_int_dec with (z := n ÷ 2 ^ Z.of_nat k); rewrite ?T1; try assumption.
    destruct T as [-> | [-> | [-> | ->]]]; reflexivity.
  - assumption.
  - assumption.
  - rewrite B1. now rewrite (proj2 B2 G2).
Qed.

(** A BIGINT that needs more than 53 bits is equal to a decimal that is another number;
    equality is not transitive. *)
Lemma bigint_eval z : Z.abs z < 2 ^ 62 -> ~ short 53 z ->
  exists z', z' <> z /\
    compare Ceq (VBig z) (VDec z' 0) = Some (Some true) /\
    compare Ceq (VDec z' 0) (VBig z') = Some (Some true) /\
    compare Ceq (VBig z) (VBig z') = Some (Some false).
Proof.
  intros L S. exists (round_bits 53 z).
  assert (N : round_bits 53 z <> z).
  { intros E. apply S. rewrite <- E. now apply round_short. }
  assert (B : Z.abs (round_bits 53 z) <= 2 ^ 62) by (apply round_bound; lia).
  split; [exact N|]. split; [|split].
  - rewrite (perform_left Ceq (VBig z) (VDec (round_bits 53 z) 0) (z, 0%nat) (round_bits 53 z, 0%nat)
      (VDec (round_bits 53 z) 0) (round_bits 53 z, 0%nat)); try reflexivity; [|discriminate].
    unfold cmp_float. now rewrite Z.compare_refl.
  - pose proof (float_left Ceq false (round_bits 53 z) 0 TBig (round_bits 53 z)
      ltac:(now right; right; right)) as FL. cbn iota in FL. cbn [integer] in FL. rewrite FL. clear FL.
    replace (trunc (round_bits 53 z) 0) with (round_bits 53 z).
    + rewrite clamp_fits; [now rewrite Z.compare_refl|]. unfold fits. cbn [range]. lia.
    + symmetry. rewrite <- (Z.mul_1_r (round_bits 53 z)) at 1. exact (trunc_whole (round_bits 53 z) 0).
  - rewrite (perform_equal Ceq (VBig z) (VBig (round_bits 53 z)) (z, 0%nat) (round_bits 53 z, 0%nat)); try reflexivity.
    unfold cmp_float. cbn [fst snd]. change (2 ^ Z.of_nat 0) with 1. rewrite !Z.mul_1_r.
    destruct (Z.compare_spec z (round_bits 53 z)); [lia|reflexivity|reflexivity].
Qed.

(** A decimal on the left of a float is rounded to a float first: it is equal to every
    float it rounds to. *)
Lemma float_eval n k m j x y : f32 n k = (m, j) ->
  number (VDec n k) = Some x -> number (VFloat m j) = Some y -> ~ holds Ceq x y ->
  compare Ceq (VDec n k) (VFloat m j) = Some (Some true).
Proof.
  intros E Hx Hy _.
  rewrite (perform_left Ceq (VDec n k) (VFloat m j) (n, k) (m, j) (VFloat m j) (m, j)); try reflexivity.
  - unfold cmp_float. now rewrite Z.compare_refl.
  - discriminate.
  - unfold cast_to. rewrite decide_False by discriminate. now rewrite E.
Qed.

(** ** The claims *)
Notation sql := (sql_compare sd rd rf f32 ch).
Lemma number_type v x : number v = Some x -> numeric_type (type_of v) = true.
Proof. now destruct v. Qed.
Lemma sql_numeric op l v r w : numeric_type (type_of v) = true -> numeric_type (type_of w) = true ->
  sql op l v r w = compare op v w.
Proof.
  intros V W. unfold sql_compare, compatible. rewrite V, W. cbn [andb].
  now rewrite orb_true_r.
Qed.
Lemma sql_numbers op l v r w x y : number v = Some x -> number w = Some y ->
  sql op l v r w = compare op v w.
Proof. intros V W. apply sql_numeric; [exact (number_type v x V)|exact (number_type w y W)]. Qed.

(** Two numbers of which one can be expressed in the other's type are compared by
    value, whatever their types, the operator, and which of them are literals. *)
Theorem c96_comparable_partial op l v r w x y :
  comparable v w -> number v = Some x -> number w = Some y ->
  exists b, sql op l v r w = Some (Some b) /\ (b = true <-> holds op x y).
Proof.
  intros C V W. rewrite (sql_numbers op l v r w x y V W). now apply comparable_eval.
Qed.

(** NULL on either side: the answer is NULL. *)
Theorem c96_null op l v r w t u :
  numeric t -> numeric u ->
  (v = VNull t /\ type_of w = u) \/ (type_of v = t /\ w = VNull u) ->
  sql op l v r w = Some None.
Proof.
  intros T U H.
  assert (N : forall t, numeric t -> numeric_type t = true)
    by (intros ? [[-> | [-> | [-> | ->]]] | [-> | ->]]; reflexivity).
  rewrite sql_numeric.
  - destruct H as [[-> _]|[_ ->]]; [|now destruct v]. reflexivity.
  - destruct H as [[-> _]|[<- _]]; now apply N.
  - destruct H as [[_ <-]|[_ ->]]; now apply N.
Qed.

(** A decimal or float that is not whole, on the left of an integer, is cut to its whole
    part first: it is equal to that integer and, if positive, not greater than it. *)
Theorem c96_fraction_refuted l r (f : bool) n k t z x y :
  integer_type t -> z = Z.quot n (2 ^ Z.of_nat k) -> fits t z -> Z.rem n (2 ^ Z.of_nat k) <> 0 ->
  let d := if f then VFloat n k else VDec n k in
  number d = Some x -> number (integer t z) = Some y ->
  sql Ceq l d r (integer t z) = Some (Some true) /\ ~ holds Ceq x y /\
  (0 < n -> sql Cgt l d r (integer t z) = Some (Some false) /\ holds Cgt x y).
Proof.
  intros T Z F R d V W. rewrite !(sql_numbers _ l d r _ x y V W). now apply fraction_eval.
Qed.

(** A decimal or float above the range of the integer's type is equal to that type's
    largest value. *)
Theorem c96_saturates_refuted l r (f : bool) n k t lo hi x y :
  integer_type t -> range t = Some (lo, hi) -> (hi + 1) * 2 ^ Z.of_nat k <= n ->
  let d := if f then VFloat n k else VDec n k in
  number d = Some x -> number (integer t hi) = Some y ->
  sql Ceq l d r (integer t hi) = Some (Some true) /\ holds Cgt x y.
Proof.
  intros T R L d V W. rewrite !(sql_numbers _ l d r _ x y V W). now apply (saturates_eval f n k t lo hi).
Qed.

(** The same two numbers compared in the two orders: [z < d] is true and [d > z] is
    not. *)
Theorem c96_asymmetric_refuted l r n k t z :
  integer_type t -> z = Z.quot n (2 ^ Z.of_nat k) -> fits t z -> short 53 z ->
  0 < n -> Z.rem n (2 ^ Z.of_nat k) <> 0 ->
  sql Clt l (integer t z) r (VDec n k) = Some (Some true) /\
  sql Cgt r (VDec n k) l (integer t z) = Some (Some false).
Proof.
  intros T Z F S Hn R. destruct (number_integer t z T) as (y & Hy & _).
  rewrite (sql_numbers _ l _ r _ y _ Hy (number_float false n k)).
  rewrite (sql_numbers _ r _ l _ _ y (number_float false n k) Hy). now apply asymmetric_eval.
Qed.

(** A BIGINT that needs more than 53 bits is equal to a decimal that is another number;
    equality is not transitive. *)
Theorem c96_bigint_refuted l r z : Z.abs z < 2 ^ 62 -> ~ short 53 z ->
  exists z', z' <> z /\
    sql Ceq l (VBig z) r (VDec z' 0) = Some (Some true) /\
    sql Ceq l (VDec z' 0) r (VBig z') = Some (Some true) /\
    sql Ceq l (VBig z) r (VBig z') = Some (Some false).
Proof.
  intros L S. destruct (bigint_eval z L S) as (z' & H). exists z'. now rewrite !sql_numeric.
Qed.

(** A decimal on the left of a float is rounded to a float first: it is equal to every
    float it rounds to. *)
Theorem c96_float_refuted l r n k m j x y : f32 n k = (m, j) ->
  number (VDec n k) = Some x -> number (VFloat m j) = Some y -> ~ holds Ceq x y ->
  sql Ceq l (VDec n k) r (VFloat m j) = Some (Some true).
Proof. intros E V W N. rewrite sql_numeric by reflexivity. now apply (float_eval n k m j x y). Qed.

(** A number and a text: 10 > '9' is true if the text is the literal and false if the
    number is. *)
Theorem c96_text_refuted :
  sql Cgt false (VTiny 10) true (VVar [57%N]) = Some (Some true) /\
  sql Cgt true (VTiny 10) false (VVar [57%N]) = Some (Some false).
Proof. split; reflexivity. Qed.

(** ** Concrete cases *)
Example c96_comparable_ex : comparable (VTiny 5) (VDec 11 1) /\
  sql Clt true (VTiny 5) false (VDec 11 1) = Some (Some true) /\ comparable (VBig 300) (VTiny 5) /\
  sql Cgt false (VBig 300) true (VTiny 5) = Some (Some true).
Proof.
  repeat split; try reflexivity.
  - apply cmp_int_dec with (z := 5); [reflexivity|now left|]. exists 5, 0. cbn. lia.
  - apply cmp_ints with (x := 300) (y := 5); try reflexivity; cbn; unfold fits, integer_type; cbn; auto; lia.
Qed.
(** 5.5 = 5, and not 5.5 > 5. *)
Example c96_fraction_ex :
  sql Ceq false (VDec 11 1) true (VTiny 5) = Some (Some true) /\ sql Cgt false (VDec 11 1) true (VTiny 5) = Some (Some false).
Proof. split; reflexivity. Qed.
(** 1000.5 = 127. *)
Example c96_saturates_ex : sql Ceq false (VDec 2001 1) true (VTiny 127) = Some (Some true).
Proof. reflexivity. Qed.
(** 9007199254740993 = 9007199254740992.0. *)
Example c96_bigint_ex :
  sql Ceq false (VBig 9007199254740993) true (VDec 9007199254740992 0) = Some (Some true).
Proof. reflexivity. Qed.
(** 0.1 is rounded to the float 0.1, which is a different number. *)
Example c96_float_ex : f32 3602879701896397 55 = (13421773, 27%nat) ->
  sql Ceq false (VDec 3602879701896397 55) true (VFloat 13421773 27) = Some (Some true).
Proof.
  intros E. eapply c96_float_refuted; [exact E|reflexivity|reflexivity|].
  cbn. unfold Qeq. cbn. discriminate.
Qed.
End Props.

Print Assumptions c96_comparable_partial.
Print Assumptions c96_null.
Print Assumptions c96_fraction_refuted.
Print Assumptions c96_saturates_refuted.
Print Assumptions c96_asymmetric_refuted.
Print Assumptions c96_bigint_refuted.
Print Assumptions c96_float_refuted.
Print Assumptions c96_text_refuted.
