(** * Proofs about casts *)
From Coq Require Import ZArith NArith Lia.
From stdpp Require Import list.
From Verif Require Import CastSpec CastModel.
Local Open Scope Z_scope.

Lemma in_range_fits t z : in_range t z = true <-> fits t z.
Proof.
  unfold in_range, fits. destruct (range t) as [[lo hi]|]; [|done]. rewrite andb_true_iff, !Z.leb_le. lia.
Qed.

(** Printing and parsing. *)
Lemma digits_spec fuel : forall n, (n < 10 ^ N.of_nat fuel)%N -> (0 < fuel)%nat ->
  digits fuel n <> [] /\ forallb is_digit (digits fuel n) = true /\
  (forall a, fold_left (fun a c => a * 10 + (c - 48))%N (digits fuel n) a = a * 10 ^ N.of_nat (length (digits fuel n)) + n)%N.
Proof.
  induction fuel as [|fuel IH]; intros n L P; [lia|]. cbn [digits].
  destruct (n <? 10)%N eqn:E.
  - apply N.ltb_lt in E. split; [done|]. split.
    + cbn [forallb]. unfold is_digit. rewrite !andb_true_iff, !N.leb_le. split; [lia|done].
    + intros a. cbn [fold_left length]. change (N.of_nat 1) with 1%N. rewrite N.pow_1_r. lia.
  - apply N.ltb_ge in E.
    rewrite Nat2N.inj_succ, N.pow_succ_r' in L.
    assert (n / 10 < 10 ^ N.of_nat fuel)%N as L2 by (apply N.div_lt_upper_bound; lia).
    assert (0 < fuel)%nat as P2. { destruct fuel; [|lia]. cbn in L2. assert (1 <= n / 10)%N by (apply N.div_le_lower_bound; lia). lia. }
    destruct (IH _ L2 P2) as (A & B & C). split; [|split].
    + intros X. apply app_nil in X as [_ X]. done.
    + rewrite forallb_app, B. cbn [forallb andb]. unfold is_digit. pose proof (N.mod_lt n 10 ltac:(lia)) as M.
      set (r := (n mod 10)%N) in *. clearbody r. rewrite !andb_true_iff, !N.leb_le. split; [lia|done].
    + intros a. rewrite fold_left_app, C. cbn [fold_left]. rewrite app_length. cbn [length].
      pose proof (N.div_mod n 10 ltac:(lia)) as D.
      replace (N.of_nat (length (digits fuel (n / 10)) + 1)) with (N.succ (N.of_nat (length (digits fuel (n / 10))))) by lia.
      rewrite N.pow_succ_r'. set (p := (10 ^ N.of_nat (length (digits fuel (n / 10))))%N) in *. clearbody p.
      set (q := (n / 10)%N) in *. set (r := (n mod 10)%N) in *. clearbody q r. nia.
Qed.
Lemma value_digits n : (n < 10 ^ 20)%N -> value_of (digits 20 n) = Some (Z.of_N n).
Proof.
  intros L. destruct (digits_spec 20 n L ltac:(lia)) as (A & B & C). unfold value_of.
  destruct (digits 20 n) as [|c s] eqn:E; [done|]. rewrite B. f_equal. f_equal. rewrite C. lia.
Qed.
Lemma digits_head n : (n < 10 ^ 20)%N -> exists c s, digits 20 n = c :: s /\ c <> 43%N /\ c <> 45%N.
Proof.
  intros L. destruct (digits_spec 20 n L ltac:(lia)) as (A & B & _). destruct (digits 20 n) as [|c s]; [done|].
  exists c, s. split; [done|]. cbn [forallb] in B. apply andb_true_iff in B as [B _]. unfold is_digit in B.
  apply andb_true_iff in B as [B _]. apply N.leb_le in B. lia.
Qed.
Lemma fits_bound t z : fits t z -> - 2 ^ 64 < z < 2 ^ 64.
Proof. unfold fits, range. destruct t; try done; lia. Qed.
Lemma plain_head c s t : c <> 43%N -> c <> 45%N ->
  match c :: s with
  | 43%N :: s => value_of s
  | 45%N :: s' => match t with TTs => value_of (c :: s) | _ => Z.opp <$> value_of s' end
  | _ => value_of (c :: s)
  end = value_of (c :: s).
Proof.
  intros A B. destruct c as [|p]; [done|].
  do 6 (destruct p as [p|p|]; try done).
Qed.
Lemma parse_show t z : fits t z -> parse t (show z) = Some z.
Proof.
  intros F. pose proof (fits_bound t z F) as Bz. unfold parse, show.
  destruct (z <? 0) eqn:Z0.
  - apply Z.ltb_lt in Z0.
    assert (Z.to_N (- z) < 10 ^ 20)%N as L by lia.
    assert (t <> TTs) as T. { intros ->. cbn in F. lia. }
    assert (match t with TTs => value_of (45%N :: digits 20 (Z.to_N (- z))) | _ => Z.opp <$> value_of (digits 20 (Z.to_N (- z))) end
            = Z.opp <$> value_of (digits 20 (Z.to_N (- z)))) as -> by by destruct t.
    rewrite value_digits by done. cbn [fmap option_fmap option_map]. rewrite Z2N.id by lia. rewrite Z.opp_involutive.
    apply in_range_fits in F. by rewrite F.
  - apply Z.ltb_ge in Z0.
    assert (Z.to_N z < 10 ^ 20)%N as L by lia.
    destruct (digits_head _ L) as (c & s & E & C1 & C2). rewrite E, plain_head by done. rewrite <- E.
    rewrite value_digits by done. rewrite Z2N.id by lia. apply in_range_fits in F. by rewrite F.
Qed.

(** Small numbers are exact in floating point. *)
Lemma round_small p z : 0 < p -> Z.abs z < 2 ^ p -> round_bits p z = z.
Proof.
  intros P L. unfold round_bits.
  assert (Z.max 0 (Z.log2 (Z.abs z) + 1 - p) = 0) as ->.
  { destruct (Z.eq_dec z 0) as [->|N]; [change (Z.log2 (Z.abs 0)) with 0; lia|].
    apply (Z.log2_lt_pow2 (Z.abs z) p ltac:(lia)) in L. lia. }
  rewrite Z.pow_0_r, Z.div_1_r, Z.mod_1_r, !Z.mul_1_r. change (1 <? 2 * 0) with false. change (1 =? 2 * 0) with false.
  cbn [orb andb]. rewrite Z.mul_comm. apply Z.abs_sgn.
Qed.
Lemma clamp_fits t z : fits t z -> clamp t z = z.
Proof. unfold fits, clamp. destruct (range t) as [[lo hi]|]; [lia|done]. Qed.
Lemma clamp_in t z : integer_type t -> fits t (clamp t z).
Proof. unfold fits, clamp. intros [->|[->|[->| ->]]]; cbn [range]; lia. Qed.
