(** * Fractional arithmetic and AVG: theorems *)
From Coq Require Import ZArith NArith QArith Qabs Lqa Lia.
From stdpp Require Import list.
From Verif Require Import CastSpec CastModel CastProofs NumSpec NumProps FltSpec FltModel FltProofs.
Local Open Scope Z_scope.

(** A whole number with p bits is converted exactly. *)
Lemma whole_short p z : 0 <= p -> binary p (inject_Z z) -> short p z.
Proof.
  intros Hp (n & k & (m & e & He & -> & Hm) & Hx).
  pose proof (FltProofs.pow2_pos (Z.of_nat k) ltac:(lia)) as P. pose proof (inj_pos _ P) as QP.
  assert (E : z * 2 ^ Z.of_nat k = m * 2 ^ e).
  { apply inject_Z_injective. rewrite inject_Z_mult, Hx. field. lra. }
  clear Hx. destruct (Z.le_gt_cases (Z.of_nat k) e) as [H | H].
  - exists m, (e - Z.of_nat k). split; [lia|]. split; [|exact Hm].
    replace (2 ^ e) with (2 ^ (e - Z.of_nat k) * 2 ^ Z.of_nat k) in E by (rewrite <- Z.pow_add_r by lia; f_equal; lia). nia.
  - exists z, 0. split; [lia|]. split; [lia|].
    replace (2 ^ Z.of_nat k) with (2 ^ (Z.of_nat k - e) * 2 ^ e) in E by (rewrite <- Z.pow_add_r by lia; f_equal; lia).
    pose proof (FltProofs.pow2_pos e He) as Pe. pose proof (FltProofs.pow2_pos (Z.of_nat k - e) ltac:(lia)) as Pd.
    assert (E2 : z * 2 ^ (Z.of_nat k - e) = m) by nia. subst m. rewrite Z.abs_mul in Hm. rewrite (Z.abs_eq (2 ^ _)) in Hm by lia. nia.
Qed.

Lemma held64 v x : number v = Some x -> held TDec v -> exists p, as_f64 v = Some p /\ (q_of p == x)%Q.
Proof.
  intros Hn (y & Hy & B). assert (y = x) by congruence. subst y. cbn [precision] in B.
  destruct v; cbn in Hn; try discriminate; injection Hn as <-; cbn [as_f64]; eexists; (split; [reflexivity|]);
    try (rewrite (short_round 53 _ ltac:(lia) (whole_short 53 _ ltac:(lia) B)); unfold q_of; cbn [fst snd];
         change (inject_Z (2 ^ Z.of_nat 0)) with 1%Q; field); reflexivity.
Qed.
Lemma held32 v x : number v = Some x -> (forall n k, v <> VDec n k) -> held TFloat v -> exists p, as_f32 v = Some p /\ (q_of p == x)%Q.
Proof.
  intros Hn Hd (y & Hy & B). assert (y = x) by congruence. subst y. cbn [precision] in B.
  destruct v; cbn in Hn; try discriminate; injection Hn as <-; cbn [as_f32];
    try (exfalso; eapply Hd; reflexivity); eexists; (split; [reflexivity|]);
    try (rewrite (short_round 24 _ ltac:(lia) (whole_short 24 _ ltac:(lia) B)); unfold q_of; cbn [fst snd];
         change (inject_Z (2 ^ Z.of_nat 0)) with 1%Q; field); reflexivity.
Qed.

(** C99: an operation with a DECIMAL or FLOAT operand gives the number nearest to the exact result that the result type has,
    and an error for a division by zero (only), if the operands are numbers the result type holds (every DECIMAL, FLOAT,
    INTEGER, SMALLINT and TINYINT in the case of DECIMAL). Missing: larger BIGINTs, and for FLOAT larger INTEGERs, which are
    rounded before the operation; NULLs; and results beyond the range of the exponents. *)
Theorem c99_arith_partial op v w x y :
  number v = Some x -> number w = Some y -> fractional v \/ fractional w ->
  held (result_type v w) v -> held (result_type v w) w ->
  match exact op x y with
  | Some r => exists u z, arith op v w = Some u /\ type_of u = result_type v w /\ number u = Some z /\
      nearest (precision (result_type v w)) r z
  | None => arith op v w = None
  end.
Proof.
  intros Hv Hw Hf Kv Kw.
  assert (D : (result_type v w = TDec /\ arith op v w = at64 op v w) \/
              (result_type v w = TFloat /\ arith op v w = at32 op v w /\ (forall n k, v <> VDec n k) /\ (forall n k, w <> VDec n k))).
  { destruct v, w; cbn in Hv, Hw; try discriminate; cbn;
      try (left; split; reflexivity); try (right; split; [reflexivity|]; split; [reflexivity|]; split; intros; discriminate);
      destruct Hf as [[|]|[|]]; discriminate. }
  destruct D as [(T & E) | (T & E & Dv & Dw)]; rewrite E, T in *; clear E.
  - destruct (held64 v x Hv Kv) as (p & Ep & Qp). destruct (held64 w y Hw Kw) as (q & Eq & Qq).
    unfold at64. rewrite Ep, Eq. pose proof (fop_nearest 53 op p q ltac:(lia)) as N. pose proof (exact_proper op _ _ _ _ Qp Qq) as X.
    destruct (exact op (q_of p) (q_of q)) as [r|], (exact op x y) as [r'|]; try contradiction.
    + destruct N as (z & Ez & N). rewrite Ez. exists (dec z), (q_of z). split; [reflexivity|]. split; [reflexivity|]. split; [destruct z; reflexivity|].
      cbn [precision]. rewrite <- X. exact N.
    + rewrite N. reflexivity.
  - destruct (held32 v x Hv Dv Kv) as (p & Ep & Qp). destruct (held32 w y Hw Dw Kw) as (q & Eq & Qq).
    unfold at32. rewrite Ep, Eq. pose proof (fop_nearest 24 op p q ltac:(lia)) as N. pose proof (exact_proper op _ _ _ _ Qp Qq) as X.
    destruct (exact op (q_of p) (q_of q)) as [r|], (exact op x y) as [r'|]; try contradiction.
    + destruct N as (z & Ez & N). rewrite Ez. exists (flt z), (q_of z). split; [reflexivity|]. split; [reflexivity|]. split; [destruct z; reflexivity|].
      cbn [precision]. rewrite <- X. exact N.
    + rewrite N. reflexivity.
Qed.
Print Assumptions c99_arith_partial.

(** 0.5 * 3 as a DECIMAL, and a division by zero. *)
Example c99_ex :
  held TDec (VDec 1 1) /\ held TDec (VInt 3) /\ (exact Times (1 # 2) 3 = Some (3 # 2))%Q /\
  arith Times (VDec 1 1) (VInt 3) = Some (VDec 6755399441055744 52) /\ (number (VDec 6755399441055744 52) = Some (inject_Z 6755399441055744 / inject_Z (2 ^ 52)))%Q /\
  (inject_Z 6755399441055744 / inject_Z (2 ^ 52) == 3 # 2)%Q /\
  arith Over (VFloat 1 1) (VTiny 0) = None /\ exact Over (1 # 2) 0 = None.
Proof.
  split; [exists (inject_Z 1 / inject_Z (2 ^ 1))%Q; split; [reflexivity|]; apply (binary_whole 53 1 1); lia|].
  split; [exists (inject_Z 3); split; [reflexivity|]; rewrite <- (Qmult_1_r (inject_Z 3)); exact (binary_whole 53 3 0 ltac:(lia) ltac:(lia))|].
  vm_compute. auto 10.
Qed.

(** A whole number that is not zero is closer to 1 or -1 than to 0. *)
Lemma not_zero p z : 1 <= p -> z <> 0 -> ~ nearest p (inject_Z z) 0%Q.
Proof.
  intros Hp Hz (_ & N).
  assert (B : binary p (inject_Z (Z.sgn z) / inject_Z (2 ^ Z.of_nat 0))%Q).
  { apply binary_whole; [lia|]. apply Z.lt_le_trans with (2 ^ 1); [lia|]. apply Z.pow_le_mono_r; lia. }
  specialize (N _ B). change (inject_Z (2 ^ Z.of_nat 0)) with 1%Q in N.
  assert (E : (inject_Z (Z.sgn z) / 1 - inject_Z z == inject_Z (Z.sgn z - z))%Q) by (unfold Z.sub; rewrite inject_Z_plus, inject_Z_opp; field).
  assert (E0 : (0 - inject_Z z == inject_Z (- z))%Q) by (rewrite inject_Z_opp; ring).
  rewrite E, E0 in N. unfold Qabs, inject_Z, Qle in N. cbn in N. lia.
Qed.

(** C99 is false for BIGINTs beyond 53 bits: they are rounded first. For every BIGINT that a DECIMAL cannot hold there is a
    DECIMAL from which it differs, but the difference comes out as 0. *)
Theorem c99_bigint_refuted z :
  fits TBig z -> ~ short 53 z ->
  exists d u, type_of d = TDec /\ held TDec d /\ arith Minus (VBig z) d = Some u /\ number u = Some 0%Q /\
    forall x y, number (VBig z) = Some x -> number d = Some y -> ~ (x - y == 0)%Q /\ ~ nearest 53 (x - y)%Q 0%Q.
Proof.
  intros _ S. set (r := round_bits 53 z).
  assert (Hr : short 53 r) by (apply round_short; lia).
  assert (N : r <> z) by (intros E; apply S; rewrite <- E; exact Hr).
  exists (VDec r 0), (VDec 0 0). split; [reflexivity|]. split; [|split; [|split; [reflexivity|]]].
  - eexists. split; [reflexivity|]. exists r, O. split; [exact Hr|reflexivity].
  - cbn [arith]. unfold at64. cbn [as_f64]. fold r. unfold fop. cbn [fst snd]. rewrite Z.sub_diag. reflexivity.
  - intros x y Hx Hy. cbn in Hx, Hy. injection Hx as <-. injection Hy as <-.
    assert (E : (inject_Z z - inject_Z r / 1 == inject_Z (z - r))%Q) by (unfold Z.sub; rewrite inject_Z_plus, inject_Z_opp; field).
    rewrite E. split; [|apply not_zero; lia].
    change 0%Q with (inject_Z 0). rewrite inject_Z_injective. lia.
Qed.
Print Assumptions c99_bigint_refuted.
(** The same with INTEGERs and FLOAT. *)
Theorem c99_float_refuted z :
  fits TInt z -> ~ short 24 z ->
  exists d u, type_of d = TFloat /\ held TFloat d /\ arith Minus (VInt z) d = Some u /\ number u = Some 0%Q /\
    forall x y, number (VInt z) = Some x -> number d = Some y -> ~ (x - y == 0)%Q /\ ~ nearest 24 (x - y)%Q 0%Q.
Proof.
  intros _ S. set (r := round_bits 24 z).
  assert (Hr : short 24 r) by (apply round_short; lia).
  assert (N : r <> z) by (intros E; apply S; rewrite <- E; exact Hr).
  exists (VFloat r 0), (VFloat 0 0). split; [reflexivity|]. split; [|split; [|split; [reflexivity|]]].
  - eexists. split; [reflexivity|]. exists r, O. split; [exact Hr|reflexivity].
  - cbn [arith]. unfold at32. cbn [as_f32]. fold r. unfold fop. cbn [fst snd]. rewrite Z.sub_diag. reflexivity.
  - intros x y Hx Hy. cbn in Hx, Hy. injection Hx as <-. injection Hy as <-.
    assert (E : (inject_Z z - inject_Z r / 1 == inject_Z (z - r))%Q) by (unfold Z.sub; rewrite inject_Z_plus, inject_Z_opp; field).
    rewrite E. split; [|apply not_zero; lia].
    change 0%Q with (inject_Z 0). rewrite inject_Z_injective. lia.
Qed.
Print Assumptions c99_float_refuted.
Example c99_refuted_ex : fits TBig (2 ^ 53 + 1) /\ ~ short 53 (2 ^ 53 + 1) /\ fits TInt (2 ^ 24 + 1) /\ ~ short 24 (2 ^ 24 + 1).
Proof.
  split; [cbn; lia|]. split; [|split; [cbn; lia|]]; intros H; apply short_round in H; [|lia| |lia]; vm_compute in H; discriminate.
Qed.

(** An operation with a NULL operand is an error, where SQL's answer is NULL. *)
Theorem c99_null_refuted op v t : arith op v (VNull t) = None /\ arith op (VNull t) v = None.
Proof. split; [destruct v|destruct v]; reflexivity. Qed.
Print Assumptions c99_null_refuted.

Lemma nearest_two p r y y' : nearest p r y -> nearest p r y' -> (y == y' \/ y + y' == 2 * r)%Q.
Proof.
  intros (B & N) (B' & N'). specialize (N _ B'). specialize (N' _ B).
  destruct (Qlt_le_dec y r), (Qlt_le_dec y' r); repeat match goal with H : context [Qabs (?a - ?b)] |- _ =>
    first [rewrite (Qabs_pos (a - b)) in H by lra | rewrite (Qabs_neg (a - b)) in H by lra] end; [left|right|right|left]; lra.
Qed.
Lemma pow2_mod5 j : 2 ^ Z.of_nat j mod 5 <> 0.
Proof.
  assert (H : 2 ^ Z.of_nat j mod 5 = 1 \/ 2 ^ Z.of_nat j mod 5 = 2 \/ 2 ^ Z.of_nat j mod 5 = 3 \/ 2 ^ Z.of_nat j mod 5 = 4); [|lia].
  induction j as [|j IH]; [left; reflexivity|]. rewrite Nat2Z.inj_succ, Z.pow_succ_r by lia. rewrite <- Zmult_mod_idemp_r.
  destruct IH as [-> | [-> | [-> | ->]]]; cbn; auto.
Qed.
Lemma tenth p a x : 1 <= p -> a mod 5 <> 0 -> nearest p (inject_Z a / 10)%Q x -> (x == q_of (fl p a 10))%Q.
Proof.
  intros Hp Ha N. pose proof (fl_nearest p a 10 Hp ltac:(lia)) as N'. change (inject_Z 10) with 10%Q in N'.
  destruct (nearest_two _ _ _ _ N N') as [E | E]; [exact E|]. exfalso.
  destruct N as ((n & k & _ & Ex) & _). destruct N' as ((m & j & _ & Ey) & _). rewrite Ex, Ey in E.
  pose proof (FltProofs.pow2_pos (Z.of_nat k) ltac:(lia)) as P. pose proof (inj_pos _ P) as QP.
  pose proof (FltProofs.pow2_pos (Z.of_nat j) ltac:(lia)) as P'. pose proof (inj_pos _ P') as QP'.
  assert (E2 : a * 2 ^ Z.of_nat (k + j) = 5 * (n * 2 ^ Z.of_nat j + m * 2 ^ Z.of_nat k)).
  { apply inject_Z_injective. rewrite Nat2Z.inj_add, Z.pow_add_r by lia. rewrite !inject_Z_mult, inject_Z_plus, !inject_Z_mult.
    change (inject_Z 5) with 5%Q. assert (E3 : (inject_Z a == 5 * (inject_Z n / inject_Z (2 ^ Z.of_nat k) + inject_Z m / inject_Z (2 ^ Z.of_nat j)))%Q) by (rewrite E; field).
    rewrite E3. field. split; lra. }
  assert (D : (5 | a * 2 ^ Z.of_nat (k + j))) by (exists (n * 2 ^ Z.of_nat j + m * 2 ^ Z.of_nat k); lia).
  apply Znumtheory.prime_mult in D; [|apply Znumtheory.prime_intro; [lia|]; intros q Hq; assert (C : q = 1 \/ q = 2 \/ q = 3 \/ q = 4) by lia; apply Znumtheory.Zgcd_1_rel_prime; destruct C as [-> | [-> | [-> | ->]]]; reflexivity].
  destruct D as [D | D]; [apply Ha|apply (pow2_mod5 (k + j))]; apply Z.mod_divide; auto; lia.
Qed.

(** DECIMAL is binary: for any DECIMALs nearest to 0.1, 0.7 and 0.8, the sum of the first two is not the third. *)
Theorem c99_decimal_refuted a b c x y z u :
  type_of a = TDec -> number a = Some x -> nearest 53 (1 # 10) x ->
  type_of b = TDec -> number b = Some y -> nearest 53 (7 # 10) y ->
  type_of c = TDec -> number c = Some z -> nearest 53 (8 # 10) z ->
  arith Plus a b = Some u -> exists w, number u = Some w /\ ~ (w == z)%Q.
Proof.
  intros Ta Na Xa Tb Nb Xb Tc Nc Xc Hu.
  apply (tenth 53 1) in Xa; [|lia|discriminate]. apply (tenth 53 7) in Xb; [|lia|discriminate]. apply (tenth 53 8) in Xc; [|lia|discriminate].
  destruct a as [t| | | | | |n k| | | | | | |]; try discriminate Ta; [discriminate Na|].
  destruct b as [t| | | | | |m j| | | | | | |]; try discriminate Tb; [discriminate Nb|].
  cbn [arith] in Hu. unfold at64 in Hu. cbn [as_f64] in Hu.
  pose proof (fop_nearest 53 Plus (n, k) (m, j) ltac:(lia)) as N. cbn [exact] in N. destruct N as (w & Ew & N). rewrite Ew in Hu. cbn in Hu. injection Hu as <-.
  exists (q_of w). split; [destruct w; reflexivity|]. intros E. rewrite E, Xc in N.
  injection Na as Na. injection Nb as Nb. assert (Ea : (q_of (n, k) == x)%Q) by (rewrite <- Na; reflexivity).
  assert (Eb : (q_of (m, j) == y)%Q) by (rewrite <- Nb; reflexivity). rewrite Ea, Eb, Xa, Xb in N.
  destruct N as (_ & N). specialize (N (q_of (match fop 53 Plus (fl 53 1 10) (fl 53 7 10) with Some r => r | None => (0, O) end))).
  assert (B : binary 53 (q_of (match fop 53 Plus (fl 53 1 10) (fl 53 7 10) with Some r => r | None => (0, O) end))).
  { pose proof (fop_nearest 53 Plus (fl 53 1 10) (fl 53 7 10) ltac:(lia)) as M. cbn [exact] in M. destruct M as (r & -> & (M & _)). exact M. }
  specialize (N B). vm_compute in N. apply N. reflexivity.
Qed.
Print Assumptions c99_decimal_refuted.
(** There are such DECIMALs. *)
Example c99_decimal_ex :
  nearest 53 (1 # 10) (q_of (fl 53 1 10)) /\ nearest 53 (7 # 10) (q_of (fl 53 7 10)) /\ nearest 53 (8 # 10) (q_of (fl 53 8 10)) /\
  exists u, arith Plus (dec (fl 53 1 10)) (dec (fl 53 7 10)) = Some u.
Proof.
  split; [exact (fl_nearest 53 1 10 ltac:(lia) ltac:(lia))|]. split; [exact (fl_nearest 53 7 10 ltac:(lia) ltac:(lia))|].
  split; [exact (fl_nearest 53 8 10 ltac:(lia) ltac:(lia))|]. eexists. vm_compute. reflexivity.
Qed.

(** ** AVG *)
Lemma of_type_all t l : Forall (of_type t) l -> forall t', Forall (fun v => type_of v = t') l -> l <> [] -> t = t'.
Proof. intros H t' H' Hne. destruct l as [|v l]; [done|]. apply Forall_cons in H, H'. destruct H as ((T & _) & _), H' as (T' & _). congruence. Qed.

Lemma divided x c : Z.of_nat c < 2 ^ 53 -> (0 < c)%nat ->
  exists y, fop 53 Over x (round_bits 53 (Z.of_nat c), O) = Some y /\ nearest 53 (q_of x / inject_Z (Z.of_nat c))%Q (q_of y).
Proof.
  intros Hc Hp. rewrite round_small by lia.
  pose proof (fop_nearest 53 Over x (Z.of_nat c, O) ltac:(lia)) as N. cbn [exact] in N.
  assert (E : (q_of (Z.of_nat c, O) == inject_Z (Z.of_nat c))%Q) by (unfold q_of; cbn [fst snd]; change (inject_Z (2 ^ Z.of_nat 0)) with 1%Q; field).
  pose proof (inj_pos (Z.of_nat c) ltac:(lia)) as P.
  destruct (Qeq_bool (q_of (Z.of_nat c, O)) 0) eqn:Z.
  - apply Qeq_bool_eq in Z. exfalso. lra.
  - destruct N as (y & Ey & N). exists y. split; [exact Ey|]. rewrite <- E. exact N.
Qed.

Lemma finish_mean {R} (e : R -> option val) rows t s :
  column t e rows -> averageable (args e rows) -> slot_ok (Avg e) rows s -> mean_of (args e rows) (finish (Avg e) s).
Proof.
  intros HC (HL & HA) (Hc & Hs). pose proof (args_typed t e rows HC) as A. destruct HC as (Ht & _).
  destruct s as [v c]. cbn [fst snd] in Hc, Hs. set (l := args e rows) in *. clearbody l. change (finish (Avg e) (v, c)) with (finish (Avg (fun _ : unit => None)) (v, c)). clear rows e.
  destruct (decide (l = [])) as [-> | Hne].
  { cbn in Hs. injection Hs as <-. cbn in Hc. subst c. cbn. eexists. reflexivity. }
  assert (Lp : (0 < length l)%nat) by (destruct l; [done|cbn; lia]).
  assert (G : forall x, (v = VInt x.1 /\ x.2 = O /\ Z.abs x.1 < 2 ^ 53 \/ v = VBig x.1 /\ x.2 = O /\ Z.abs x.1 < 2 ^ 53 \/ v = VDec x.1 x.2) -> (q_of x == qsum l)%Q ->
              mean_of l (finish (Avg (fun _ : unit => None)) (v, c))).
  { intros x Hv Hq. destruct (divided x (length l) HL Lp) as (y & Ey & N). unfold finish. cbn [fst snd]. subst c.
    rewrite (proj2 (Z.ltb_lt _ _)) by lia.
    assert (F : exists p, is_null v = false /\ match v with VInt z | VBig z => Some (round_bits 53 z, O) | VDec n k => Some (n, k) | _ => None end = Some p /\ p = x).
    { destruct x as [n k]. cbn [fst snd] in Hv. destruct Hv as [(-> & -> & B) | [(-> & -> & B) | ->]]; eexists; (split; [reflexivity|]); (split; [reflexivity|]);
        try rewrite round_small by lia; reflexivity. }
    destruct F as (p & -> & -> & ->). cbn [negb andb]. rewrite Ey.
    destruct l as [|v0 l]; [done|]. cbn [mean_of]. exists (q_of y). split; [destruct y; reflexivity|]. split; [reflexivity|].
    unfold count. rewrite <- Hq. exact N. }
  assert (Int : forall t', t' = TInt \/ t' = TBig -> Forall (fun v => type_of v = t') l -> forall lo hi, range t' = Some (lo, hi) -> lo <= zsum l <= hi ->
    Z.abs (zsum l) < 2 ^ 53 -> mean_of l (finish (Avg (fun _ : unit => None)) (v, c))).
  { intros t' Ht' F lo hi Er Hr Hb. pose proof (of_type_all _ _ A _ F Hne) as <-.
    destruct (run_sum_int t l Ht' A Hne) as (z & E & _ & Hz). rewrite Hs in E. injection E as ->.
    assert (z = zsum l) by (rewrite (wrap_id t (zsum l) lo hi Er Hr) in Hz; tauto). subst z.
    apply (G (zsum l, O)).
    - destruct Ht' as [-> | ->]; [left|right; left]; cbn; auto.
    - rewrite (qsum_zsum t l Ht' A). unfold q_of. cbn [fst snd]. change (inject_Z (2 ^ Z.of_nat 0)) with 1%Q. field. }
  destruct HA as [(F & L & U) | [(F & B) | (F & k & zs & HZ & HB)]].
  - pose proof (of_type_all _ _ A _ F Hne) as ->. rewrite (qsum_zsum TInt l (or_introl eq_refl) A) in L, U. rewrite <- Zle_Qle in L, U.
    apply (Int TInt (or_introl eq_refl) F _ _ eq_refl); lia.
  - pose proof (of_type_all _ _ A _ F Hne) as ->. rewrite (qsum_zsum TBig l (or_intror eq_refl) A) in B.
    assert (B2 : Z.abs (zsum l) < 2 ^ 53) by (unfold Qlt, Qabs, inject_Z in B; cbn [Qnum Qden] in B; lia).
    apply (Int TBig (or_intror eq_refl) F _ _ eq_refl); lia.
  - pose proof (of_type_all _ _ A _ F Hne) as ->.
    destruct (run_sum_dec l k zs A Hne HZ HB) as (n & j & E & Q & _). rewrite Hs in E. injection E as ->.
    apply (G (n, j)); [auto|exact Q].
Qed.

(** C100: AVG in a query with GROUP BY (and other SUM, COUNT and AVG aggregates). One row comes out for each value of the
    GROUP BY expressions, and its AVG is the DECIMAL nearest to the mean of the argument's values in the rows of the group
    that are not NULL, NULL if there are none, if the column is an INTEGER, BIGINT or DECIMAL column whose values' sum fits
    ([averageable]). Missing: the columns of other types, larger sums, DISTINCT and FILTER, for which it is false (below). *)
Theorem c100_avg_partial {R K} `{EqDecision K} (key : R -> option K) (aggs : list (agg R)) rows :
  Forall (fun r => exists k, key r = Some k) rows ->
  Forall (fun a => match a with
                   | Avg e => exists t, column t e rows /\ forall k, averageable (args e (group key k rows))
                   | Sum e => exists t, column t e rows
                   | Count _ => True
                   end) aggs ->
  (exists out, answer key aggs rows out) /\
  forall out, answer key aggs rows out ->
    NoDup (map fst out) /\
    (forall k, k ∈ map fst out <-> exists r, r ∈ rows /\ key r = Some k) /\
    forall k vs, (k, vs) ∈ out -> length vs = length aggs /\
      forall i e, aggs !! i = Some (Avg e) -> exists v, vs !! i = Some v /\ mean_of (args e (group key k rows)) v.
Proof.
  intros Hk HA.
  assert (T : Forall (fun a => typed a ([] ++ rows)) aggs).
  { eapply Forall_impl; [exact HA|]. intros [e|e|e]; cbn; [intros (t & H & _); eauto|done|done]. }
  destruct (loop_ok key aggs rows [] [] Hk T) as (gs & E & ND & KS & HS).
  { constructor. }
  { intros k. split; [intros H; by apply elem_of_nil in H|]. intros (r & H & _). by apply elem_of_nil in H. }
  { intros k ss H. by apply elem_of_nil in H. }
  cbn [app] in KS, HS. split; [exists (map (fun g => (g.1, zip_with finish aggs g.2)) gs), gs; split; [exact E|reflexivity]|].
  intros out (gs' & E' & P). rewrite E in E'. injection E' as <-.
  assert (M : map fst (map (fun g : K * list slot => (g.1, zip_with finish aggs g.2)) gs) = map fst gs) by (rewrite map_map; reflexivity).
  assert (PM : map fst out ≡ₚ map fst gs) by (rewrite P, M; reflexivity).
  split; [rewrite PM; exact ND|]. split; [intros k; rewrite PM; exact (KS k)|].
  intros k vs H. rewrite P in H. apply elem_of_list_fmap in H. destruct H as ([k' ss] & H & Hg). cbn in H. injection H as -> ->.
  specialize (HS k' ss Hg). pose proof (Forall2_length _ _ _ HS) as L. split; [rewrite zip_with_length; lia|].
  intros i e Hi. destruct (Forall2_lookup_l _ _ _ _ _ HS Hi) as (s & Es & Hs).
  exists (finish (Avg e) s). split; [rewrite lookup_zip_with, Hi; cbn; rewrite Es; reflexivity|].
  pose proof (Forall_lookup_1 _ _ _ _ HA Hi) as (t & HC & HV). apply (finish_mean e _ t s); [|apply HV|exact Hs].
  pose proof (typed_group (Avg e) rows key k' (ex_intro _ t HC)) as (t' & HC'). destruct HC as (Ht & HC). split; [exact Ht|].
  apply Forall_forall. intros r Hr. rewrite Forall_forall in HC. apply HC. unfold group in Hr. apply elem_of_list_In in Hr. apply filter_In in Hr.
  apply elem_of_list_In, Hr.
Qed.
Print Assumptions c100_avg_partial.

(** Two groups, one with a NULL: the means are 3/2 and 5. *)
Example c100_ex :
  let rows := [(1, VInt 1); (2, VInt 5); (1, VInt 2); (1, VNull TInt)] in
  let key := fun r : Z * val => Some r.1 in let e := fun r : Z * val => Some r.2 in
  column TInt e rows /\ (forall k, averageable (args e (group key k rows))) /\
  args e (group key 1 rows) = [VInt 1; VInt 2] /\
  exists out, answer key [Avg e; Count e] rows out /\
    out = [(1, [VDec 6755399441055744 52; VBig 3]); (2, [VDec 5629499534213120 50; VBig 1])] /\
    (inject_Z 6755399441055744 / inject_Z (2 ^ 52) == 3 # 2)%Q.
Proof.
  cbn zeta. split.
  { split; [left; unfold integer_type; auto|].
    assert (I : forall z, of_type TInt (VInt z)) by (intros z; split; [reflexivity|]; intros [? E]; discriminate).
    apply Forall_cons; split; [exists (VInt 1); auto|]. apply Forall_cons; split; [exists (VInt 5); auto|].
    apply Forall_cons; split; [exists (VInt 2); auto|]. apply Forall_cons; split; [|constructor].
    exists (VNull TInt). split; [reflexivity|]. left. eexists. reflexivity. }
  split.
  { intros k. unfold group. cbn [List.filter fst]. repeat case_bool_decide; cbn; (split; [cbn; lia|]); left; (split; [repeat constructor|]); cbn; split; discriminate. }
  split; [reflexivity|]. eexists. split; [eexists; split; [vm_compute; reflexivity|]; vm_compute; reflexivity|]. split; [reflexivity|]. vm_compute. reflexivity.
Qed.

(** AVG without GROUP BY over no rows is NULL. *)
Theorem c100_no_rows {R} (aggs : list (agg R)) i e : aggs !! i = Some (Avg e) ->
  exists v, answer_no_rows aggs !! i = Some v /\ mean_of (args e []) v.
Proof.
  intros H. exists vnull. split; [|eexists; reflexivity]. unfold answer_no_rows. rewrite lookup_zip_with, H. cbn.
  change (map empty_slot aggs) with (empty_slot <$> aggs). rewrite list_lookup_fmap, H. reflexivity.
Qed.
Print Assumptions c100_no_rows.

(** For columns of the other numeric types AVG is NULL, whatever the rows. *)
Theorem c100_type_refuted {R K} `{EqDecision K} (key : R -> option K) e t rows out :
  t = TTiny \/ t = TSmall \/ t = TFloat ->
  column t e rows -> Forall (fun r => exists k, key r = Some k) rows -> answer key [Avg e] rows out ->
  forall k vs, (k, vs) ∈ out -> exists v, vs = [v] /\ null v.
Proof.
  intros Ht HC Hk (gs' & E' & P) k vs Hin.
  destruct (loop_ok key [Avg e] rows [] [] Hk) as (gs & E & ND & KS & HS).
  { apply Forall_cons. split; [exists t; exact HC|constructor]. }
  { constructor. }
  { intros k'. split; [intros H; by apply elem_of_nil in H|]. intros (r & H & _). by apply elem_of_nil in H. }
  { intros k' ss H. by apply elem_of_nil in H. }
  rewrite E in E'. injection E' as <-. rewrite P in Hin. apply elem_of_list_fmap in Hin. destruct Hin as ([k' ss] & H & Hg). cbn [fst snd] in H. injection H as -> ->.
  specialize (HS k' ss Hg). apply Forall2_cons_inv_l in HS. destruct HS as ([v c] & ss' & (Hc & Hs) & HN & ->). apply Forall2_nil_inv_l in HN. subst ss'.
  exists (finish (Avg e) (v, c)). split; [reflexivity|].
  assert (HG : column t e (group key k' ([] ++ rows))).
  { destruct HC as (Hn & HC). split; [exact Hn|]. apply Forall_forall. intros r Hr. rewrite Forall_forall in HC. apply HC. unfold group in Hr.
    apply elem_of_list_In in Hr. apply filter_In in Hr. apply elem_of_list_In, Hr. }
  pose proof (args_typed t e _ HG) as A. cbn [fst snd] in Hc, Hs.
  destruct (decide (args e (group key k' ([] ++ rows)) = [])) as [Z | Z].
  - rewrite Z in Hs. cbn in Hs. injection Hs as <-. unfold finish. cbn. rewrite andb_false_r. eexists. reflexivity.
  - destruct (run_sum_typed t _ (proj1 HC) A Z) as (u & Eu & Tu & Nu). rewrite Hs in Eu. injection Eu as ->.
    unfold finish. cbn [fst snd]. destruct u; cbn in Tu; subst t; try (destruct Ht as [|[|]]; discriminate);
      destruct ((0 <? c) && _); eexists; reflexivity.
Qed.
Print Assumptions c100_type_refuted.
Notation whole := (fun _ : val => Some tt).
Notation self := (fun v : val => Some v).
Example c100_type_ex :
  column TSmall self [VSmall 1; VSmall 3] /\ exists out, answer whole [Avg self] [VSmall 1; VSmall 3] out /\ out = [(tt, [VNull TBool])].
Proof.
  split; [split; [left; right; left; reflexivity|repeat constructor; eexists; (split; [reflexivity|]); right; split; try reflexivity; intros [? E]; discriminate]|].
  eexists. split; [eexists; split; [vm_compute; reflexivity|reflexivity]|]. reflexivity.
Qed.

(** A sum of INTEGERs beyond the range wraps around: the mean of two positive numbers is negative. *)
Theorem c100_overflow_refuted : exists a b v y, fits TInt a /\ fits TInt b /\ 0 < a /\ 0 < b /\
  answer whole [Avg self] [VInt a; VInt b] [(tt, [v])] /\ number v = Some y /\ (y < 0)%Q /\ ~ mean_of [VInt a; VInt b] v.
Proof.
  exists (2 ^ 31 - 1), 1. eexists _, _. split; [cbn; lia|]. split; [cbn; lia|]. split; [lia|]. split; [lia|].
  split; [eexists; split; [vm_compute; reflexivity|vm_compute; reflexivity]|]. split; [vm_compute; reflexivity|]. split; [reflexivity|].
  intros (y & Ey & _ & (_ & N)). vm_compute in Ey. injection Ey as <-. specialize (N 0%Q (binary_zero 53 ltac:(lia))). vm_compute in N. apply N. reflexivity.
Qed.
Print Assumptions c100_overflow_refuted.

(** A sum of BIGINTs beyond 53 bits is rounded before the division: the mean of three equal numbers is not that number,
    although a DECIMAL holds it. *)
Theorem c100_bigint_refuted : exists a v y, held TDec (VBig a) /\
  answer whole [Avg self] [VBig a; VBig a; VBig a] [(tt, [v])] /\ number v = Some y /\ ~ (y == inject_Z a)%Q /\
  ~ mean_of [VBig a; VBig a; VBig a] v.
Proof.
  exists (2 ^ 52 - 1). eexists _, _.
  assert (B : binary 53 (inject_Z (2 ^ 52 - 1))).
  { rewrite <- (Qmult_1_r (inject_Z (2 ^ 52 - 1))). exact (binary_whole 53 (2 ^ 52 - 1) 0 ltac:(lia) ltac:(lia)). }
  split; [eexists; split; [reflexivity|exact B]|].
  split; [eexists; split; [vm_compute; reflexivity|vm_compute; reflexivity]|]. split; [vm_compute; reflexivity|]. split; [vm_compute; discriminate|].
  intros (y & Ey & _ & (_ & N)). vm_compute in Ey. injection Ey as <-. specialize (N _ B). vm_compute in N. apply N. reflexivity.
Qed.
Print Assumptions c100_bigint_refuted.

(** DECIMALs are added in the order in which the rows come: the mean of the same rows in two orders is 0 and about 1/3. *)
Theorem c100_order_refuted : exists rows rows' v v' y y', rows ≡ₚ rows' /\ Forall (fun v => held TDec v /\ type_of v = TDec) rows /\
  answer whole [Avg self] rows [(tt, [v])] /\ answer whole [Avg self] rows' [(tt, [v'])] /\
  number v = Some y /\ number v' = Some y' /\ ~ (y == y')%Q /\ ~ mean_of rows v.
Proof.
  exists [VDec (2 ^ 53) 0; VDec 1 0; VDec (- 2 ^ 53) 0], [VDec (2 ^ 53) 0; VDec (- 2 ^ 53) 0; VDec 1 0]. eexists _, _, _, _.
  assert (B : forall z, Z.abs z < 2 ^ 53 -> held TDec (VDec z 0)).
  { intros z Hz. eexists. split; [reflexivity|]. apply (binary_whole 53 z 0); [lia|exact Hz]. }
  assert (B2 : forall z, z = 2 ^ 53 \/ z = - 2 ^ 53 -> held TDec (VDec z 0)).
  { intros z Hz. eexists. split; [reflexivity|]. exists z, O. split; [|reflexivity]. destruct Hz as [-> | ->]; [exists 1, 53|exists (-1), 53]; cbn; lia. }
  split; [apply perm_skip; apply perm_swap|].
  split; [apply Forall_cons; split; [split; [apply B2; auto|reflexivity]|]; apply Forall_cons; split; [split; [apply B; lia|reflexivity]|];
          apply Forall_cons; split; [split; [apply B2; auto|reflexivity]|constructor]|].
  split; [eexists; split; [vm_compute; reflexivity|vm_compute; reflexivity]|].
  split; [eexists; split; [vm_compute; reflexivity|vm_compute; reflexivity]|].
  split; [vm_compute; reflexivity|]. split; [vm_compute; reflexivity|]. split; [vm_compute; discriminate|].
  intros (y & Ey & _ & (_ & N)). vm_compute in Ey. injection Ey as <-.
  specialize (N _ (binary_whole 53 1 2 ltac:(lia) ltac:(lia))). vm_compute in N. apply N. reflexivity.
Qed.
Print Assumptions c100_order_refuted.

(** DISTINCT and FILTER change nothing: the answer is that of the call without them. *)
Theorem c100_modifiers_refuted {R K} `{EqDecision K} (key : R -> option K) fn d e f rows out :
  answer key [plan_call (Call fn d e f)] rows out <-> answer key [plan_call (Call fn false e None)] rows out.
Proof. destruct fn; reflexivity. Qed.
Print Assumptions c100_modifiers_refuted.
(** So AVG(DISTINCT x) over 1, 1, 4 is 2 and not 5/2, AVG(x) FILTER (WHERE x > 1) over 1, 4 is 5/2 and not 4, and
    COUNT(DISTINCT x) over 1, 1 is 2 and not 1. *)
Theorem c100_distinct_refuted : exists v w u,
  answer whole [plan_call (Call FAvg true self None)] [VInt 1; VInt 1; VInt 4] [(tt, [v])] /\ ~ mean_of [VInt 1; VInt 4] v /\
  answer whole [plan_call (Call FAvg false self (Some (fun x => match x with VInt z => 1 <? z | _ => false end)))] [VInt 1; VInt 4] [(tt, [w])] /\ ~ mean_of [VInt 4] w /\
  answer whole [plan_call (Call FCount true self None)] [VInt 1; VInt 1] [(tt, [u])] /\ u <> VBig 1.
Proof.
  eexists _, _, _.
  assert (B4 : binary 53 (4 # 1)) by exact (binary_whole 53 4 0 ltac:(lia) ltac:(lia)).
  split; [eexists; split; [vm_compute; reflexivity|vm_compute; reflexivity]|].
  split; [intros (y & Ey & _ & (_ & N)); vm_compute in Ey; injection Ey as <-; specialize (N _ (binary_whole 53 5 1 ltac:(lia) ltac:(lia))); vm_compute in N; apply N; reflexivity|].
  split; [eexists; split; [vm_compute; reflexivity|vm_compute; reflexivity]|].
  split; [intros (y & Ey & _ & (_ & N)); vm_compute in Ey; injection Ey as <-; specialize (N _ (binary_whole 53 4 0 ltac:(lia) ltac:(lia))); vm_compute in N; apply N; reflexivity|].
  split; [eexists; split; [vm_compute; reflexivity|vm_compute; reflexivity]|]. discriminate.
Qed.
Print Assumptions c100_distinct_refuted.
