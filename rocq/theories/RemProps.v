(** * C97: [%] is the remainder and [||] the concatenation *)
From Coq Require Import ZArith NArith QArith Lia.
From stdpp Require Import list.
From Verif Require Import CastSpec CastModel CastProofs NumSpec RemSpec RemModel.
Local Open Scope Z_scope.

(** Two INTEGERs: the remainder, unless the divisor is zero or the quotient overflows. *)
Theorem c97_mod_integer_partial a b : b <> 0 -> ~ (a = - 2 ^ 31 /\ b = -1) ->
  exists r, sql_mod (VInt a) (VInt b) = Gives (VInt r) /\ remainder a b r.
Proof.
  intros B N. exists (Z.rem a b). split.
  - unfold sql_mod, modulo. cbn [type_of arith_types is_zero].
    assert (b =? 0 = false) as -> by lia.
    destruct ((a =? - 2 ^ 31) && (b =? -1)) eqn:E; [|reflexivity].
    exfalso. apply N. apply andb_prop in E. lia.
  - split; [|split].
    + exists (Z.quot a b). apply Z.quot_rem, B.
    + apply Z.rem_bound_abs, B.
    + apply Z.rem_sign_mul, B.
Qed.
(** The remainder is unique, so this fixes the answer. *)
Theorem c97_remainder_unique a b r r' : remainder a b r -> remainder a b r' -> r = r'.
Proof.
  intros ((q & Q) & R & S) ((q' & Q') & R' & S').
  assert (E : r - r' = b * (q' - q)) by lia.
  destruct (Z.eq_dec q q') as [<-|D]; [lia|exfalso].
  assert (Z.abs b <= Z.abs (r - r')) by (rewrite E, Z.abs_mul; nia).
  destruct (Z.lt_trichotomy a 0) as [A|[A|A]]; [| |].
  - assert (r <= 0) by nia. assert (r' <= 0) by nia. lia.
  - (* a = 0: both are multiples of b *)
    subst a. assert (R0 : Z.abs r = Z.abs b * Z.abs q) by (rewrite <- Z.abs_mul; lia).
    assert (R1 : Z.abs r' = Z.abs b * Z.abs q') by (rewrite <- Z.abs_mul; lia).
    assert (Z.abs q = 0).
    { destruct (Z.le_gt_cases 1 (Z.abs q)) as [G|G]; [|lia].
      pose proof (Z.mul_le_mono_nonneg_l 1 (Z.abs q) (Z.abs b) (Z.abs_nonneg b) G). lia. }
    assert (Z.abs q' = 0).
    { destruct (Z.le_gt_cases 1 (Z.abs q')) as [G|G]; [|lia].
      pose proof (Z.mul_le_mono_nonneg_l 1 (Z.abs q') (Z.abs b) (Z.abs_nonneg b) G). lia. }
    lia.
  - assert (0 <= r) by nia. assert (0 <= r') by nia. lia.
Qed.
(** A zero divisor or a NULL INTEGER: NULL. *)
Theorem c97_mod_null a : sql_mod (VInt a) (VInt 0) = Gives (VNull TInt) /\
  sql_mod (VNull TInt) (VInt a) = Gives (VNull TInt) /\ sql_mod (VInt a) (VNull TInt) = Gives (VNull TInt).
Proof.
  split; [reflexivity|]. split; [|reflexivity].
  unfold sql_mod, modulo. cbn. now destruct (a =? 0).
Qed.

(** [x % c] with a number [c] of up to 32767 written in the statement is never a number,
    whatever the type and value of [x]. *)
Theorem c97_mod_literal_refuted t a c v : integer_type t -> Z.abs c <= 32767 -> literal c = Some v ->
  ~ is_number (sql_mod (integer t a) v).
Proof.
  intros T C L (w & x & E & X). unfold literal in L.
  destruct (in_range TTiny c) eqn:E1.
  - injection L as <-. unfold sql_mod, modulo in E.
    destruct T as [-> | [-> | [-> | ->]]]; cbn in E; try discriminate;
      destruct (c =? 0); injection E as <-; discriminate.
  - destruct (in_range TSmall c) eqn:E2.
    + injection L as <-. unfold sql_mod, modulo in E.
      destruct T as [-> | [-> | [-> | ->]]]; cbn in E; try discriminate;
        destruct (c =? 0); injection E as <-; discriminate.
    + exfalso. unfold in_range in E2. cbn in E2. lia.
Qed.
(** So is [x % y] for operands of any two integer types that are not both INTEGER. *)
Theorem c97_mod_types_refuted t u a b : integer_type t -> integer_type u -> ~ (t = TInt /\ u = TInt) ->
  ~ is_number (sql_mod (integer t a) (integer u b)).
Proof.
  intros T U N (w & x & E & X). unfold sql_mod, modulo in E.
  destruct T as [-> | [-> | [-> | ->]]], U as [-> | [-> | [-> | ->]]]; cbn in E;
    try discriminate; try (now apply N); destruct (b =? 0); injection E as <-; discriminate.
Qed.
(** The smallest INTEGER by -1: not 0, but a panic. *)
Theorem c97_mod_panics_refuted : sql_mod (VInt (- 2 ^ 31)) (VInt (-1)) = Panics /\
  fits TInt (- 2 ^ 31) /\ remainder (- 2 ^ 31) (-1) 0.
Proof.
  split; [reflexivity|]. split; [unfold fits; cbn; lia|].
  split; [exists (2 ^ 31); lia|]. cbn. lia.
Qed.

(** VARCHARs are concatenated; lengths add up and both can be read back. *)
Theorem c97_concat s t : exists u, sql_concat (VVar s) (VVar t) = Gives (VVar u) /\
  take (length s) u = s /\ drop (length s) u = t.
Proof. exists (s ++ t). split; [reflexivity|]. now rewrite take_app, drop_app. Qed.
(** A NULL operand is an error, not NULL. *)
Theorem c97_concat_null_refuted s :
  sql_concat (VNull TVar) (VVar s) = Fails /\ sql_concat (VVar s) (VNull TVar) = Fails.
Proof. now split. Qed.
(** A CHAR operand is an error. *)
Theorem c97_concat_char_refuted s t :
  sql_concat (VChar s) (VVar t) = Fails /\ sql_concat (VVar s) (VChar t) = Fails /\
  sql_concat (VChar s) (VChar t) = Fails.
Proof. now repeat split. Qed.

Example c97_mod_integer_ex : sql_mod (VInt (-7)) (VInt 3) = Gives (VInt (-1)) /\
  sql_mod (VInt 7) (VInt (-3)) = Gives (VInt 1).
Proof. split; reflexivity. Qed.
(** 7 % 3, 70000 % 3 and a BIGINT column % 3 are NULL, 7 % 300 is an error; 70001 % 70000 is 1. *)
Example c97_mod_literal_ex : literal 3 = Some (VTiny 3) /\ literal 300 = Some (VSmall 300) /\
  sql_mod (VTiny 7) (VTiny 3) = Gives (VNull TInt) /\ sql_mod (VInt 70000) (VTiny 3) = Gives (VNull TInt) /\
  sql_mod (VBig 7) (VTiny 3) = Gives (VNull TInt) /\ sql_mod (VTiny 7) (VSmall 300) = Fails /\
  literal 70000 = Some (VInt 70000) /\ sql_mod (VInt 70001) (VInt 70000) = Gives (VInt 1).
Proof. repeat split; reflexivity. Qed.
Example c97_concat_ex : sql_concat (VVar [97%N]) (VVar [98%N; 99%N]) = Gives (VVar [97%N; 98%N; 99%N]).
Proof. reflexivity. Qed.

Print Assumptions c97_mod_integer_partial.
Print Assumptions c97_remainder_unique.
Print Assumptions c97_mod_null.
Print Assumptions c97_mod_literal_refuted.
Print Assumptions c97_mod_types_refuted.
Print Assumptions c97_mod_panics_refuted.
Print Assumptions c97_concat.
Print Assumptions c97_concat_null_refuted.
Print Assumptions c97_concat_char_refuted.
