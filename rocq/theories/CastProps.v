(** * Casts: theorems *)
From Coq Require Import ZArith NArith Lia.
From stdpp Require Import list.
From Verif Require Import CastSpec CastModel CastProofs.
Local Open Scope Z_scope.

(** C76. Between the integer types, a cast succeeds exactly when the number fits, and then keeps it. *)
Theorem cast_integers sd rd rf f32 ch v t z :
  sane v -> integer_type (type_of v) -> integer_type t -> whole v = Some z ->
  (fits t z -> exists w, cast_to sd rd rf f32 ch v t = Some w /\ type_of w = t /\ whole w = Some z) /\
  (~ fits t z -> cast_to sd rd rf f32 ch v t = None).
Proof.
  intros Sv Iv It W. specialize (Sv _ W).
  destruct v; cbn in W; try discriminate; injection W as <-; cbn [type_of] in Sv, Iv; try (by destruct Iv as [?|[?|[?|?]]]).
  all: unfold cast_to; cbn [type_of]; destruct (decide (_ = t)) as [<-|Ne]; [split; [intros _; by eexists|done]|].
  all: unfold cast_int.
  all: destruct It as [->|[->|[->| ->]]]; try done; cbn [width Nat.ltb Nat.leb].
  all: try (split; [intros _; by eexists|intros X; exfalso; apply X; cbn in *; lia]).
  all: destruct (in_range _ z0) eqn:E || destruct (in_range _ z) eqn:E; (split; [intros F|intros F]); try (by eexists); try done.
  all: try (apply in_range_fits in E; done).
  all: try (apply in_range_fits in F; congruence).
Qed.
Print Assumptions cast_integers.
Example cast_integers_ex sd rd rf f32 ch :
  cast_to sd rd rf f32 ch (VBig (-128)) TTiny = Some (VTiny (-128)) /\ cast_to sd rd rf f32 ch (VBig 128) TTiny = None.
Proof. done. Qed.

(** A whole number written as text and read back with its own type is the same value; and a boolean too. *)
Theorem cast_text_round_trip sd rd rf f32 ch v t :
  sane v -> (exists z, whole v = Some z) \/ (exists b, v = VBool b) -> t = TVar \/ t = TChar ->
  exists s, cast_to sd rd rf f32 ch v t = Some s /\ type_of s = t /\ cast_to sd rd rf f32 ch s (type_of v) = Some v.
Proof.
  intros Sv [[z W]|[b ->]] T.
  - pose proof (Sv _ W) as F.
    assert (cast_to sd rd rf f32 ch v t = Some (if decide (t = TVar) then VVar (show z) else VChar (show z))) as E.
    { destruct v; cbn in W; try discriminate; injection W as <-; by destruct T as [->| ->]. }
    eexists. split; [exact E|]. split; [by destruct T as [->| ->]|].
    assert (forall s, cast_text rd rf ch s (type_of v) =
            cast_to sd rd rf f32 ch (if decide (t = TVar) then VVar s else VChar s) (type_of v)) as <-.
    { intros s. destruct v; cbn in W; try discriminate; by destruct T as [->| ->]. }
    destruct v; cbn in W; try discriminate; injection W as <-; cbn [type_of] in *;
      unfold cast_text; by rewrite parse_show.
  - destruct T as [->| ->], b; (eexists; split; [reflexivity|split; [reflexivity|vm_compute; reflexivity]]).
Qed.
Print Assumptions cast_text_round_trip.
Example cast_text_round_trip_ex sd rd rf f32 ch :
  cast_to sd rd rf f32 ch (VBig (-1207)) TVar = Some (VVar [45; 49; 50; 48; 55]%N) /\
  cast_to sd rd rf f32 ch (VVar [45; 49; 50; 48; 55]%N) TBig = Some (VBig (-1207)).
Proof. split; [|]; vm_compute; reflexivity. Qed.

(** A cast of NULL is NULL of the new type; a cast to the value's own type changes nothing; and the result of any successful
    cast is of the requested type, in range. *)
Theorem cast_typed sd rd rf f32 ch v t w :
  (forall ty s z, ch ty s = Some z -> fits ty z) -> sane v ->
  cast_to sd rd rf f32 ch v t = Some w -> type_of w = t /\ sane w.
Proof.
  intros Hch Sv. unfold cast_to. destruct (decide (type_of v = t)) as [<-|Ne]; [by intros [= <-]|].
  assert (forall ty z, fits ty z -> type_of (mk_whole ty z) = ty /\ sane (mk_whole ty z)) as MK.
  { intros ty z F. destruct ty; try done; (split; [done|]); intros z' [= <-]; exact F. }
  assert (forall s ty z, parse ty s = Some z -> fits ty z) as PF.
  { intros s ty z E. unfold parse in E.
    match type of E with match ?r with _ => _ end = _ => destruct r as [z0|] end; [|done].
    destruct (in_range ty z0) eqn:X; [|done]. injection E as <-. by apply in_range_fits. }
  assert (forall x, Some x = Some w -> type_of x = t -> whole x = None -> type_of w = t /\ sane w) as TRIV.
  { intros x [= <-] A B. split; [done|]. intros z C. congruence. }
  assert (forall z, fits t z -> Some (mk_whole t z) = Some w -> type_of w = t /\ sane w) as WH.
  { intros z F [= <-]. by apply MK. }
  assert (forall s, cast_text rd rf ch s t = Some w -> type_of w = t /\ sane w) as TX.
  { intros s E. unfold cast_text in E. destruct t.
    all: try (apply (TRIV _ E eq_refl eq_refl)).
    all: try (apply fmap_Some in E as (y & E & ->); apply MK; by apply (PF s)).
    all: try (apply fmap_Some in E as (y & E & ->); split; [done|]; intros z C; done).
    all: destruct (parse _ s) as [z|] eqn:P;
      [apply (WH z); [by apply (PF s)|exact E]|apply fmap_Some in E as (y & E & ->); apply MK; by apply (Hch _ s)]. }
  assert (forall sty z, (sty = TTiny \/ sty = TSmall \/ sty = TInt \/ sty = TBig) -> sty <> t -> fits sty z ->
            cast_int sty z t = Some w -> type_of w = t /\ sane w) as IN.
  { intros sty z I N F E. unfold cast_int in E. destruct t; try done.
    all: try (apply (TRIV _ E eq_refl eq_refl)).
    all: destruct I as [->|[->|[->| ->]]]; try done; cbn [width Nat.ltb Nat.leb] in E.
    all: try (apply (WH z); [|exact E]; cbn in *; lia).
    all: try (destruct (in_range _ z) eqn:X; [|done]; apply (WH z); [by apply in_range_fits|exact E]).
    all: destruct (0 <=? z) eqn:X; [|done]; apply Z.leb_le in X; apply (WH z); [cbn in *; lia|exact E]. }
  assert (forall z, integer_type t -> Some (mk_whole t (clamp t z)) = Some w -> type_of w = t /\ sane w) as CL.
  { intros z I [= <-]. apply MK. by apply clamp_in. }
  destruct v as [ty|b|z|z|z|z|n k|n k|s|s|z|z|z|z]; cbn [type_of] in Ne.
  all: try (intros E; by apply (TX _ E)).
  all: try (pose proof (Sv z eq_refl) as F; cbn [type_of] in F).
  - intros E. by apply (TRIV _ E eq_refl eq_refl).
  - intros E. destruct t; try done; try (apply (TRIV _ E eq_refl eq_refl));
      (apply (WH (if b then 1 else 0)); [destruct b; cbn; lia|exact E]).
  - intros E. apply (IN TTiny z); auto.
  - intros E. apply (IN TSmall z); auto.
  - intros E. apply (IN TInt z); auto.
  - intros E. apply (IN TBig z); auto.
  - intros E. destruct t; try done; try (apply (TRIV _ E eq_refl eq_refl)); apply (CL _ ltac:(unfold integer_type; auto) E).
  - intros E. destruct t; try done; try (apply (TRIV _ E eq_refl eq_refl)); apply (CL _ ltac:(unfold integer_type; auto) E).
  - intros E. destruct t; try done; try (apply (TRIV _ E eq_refl eq_refl)).
    + destruct (z <=? 2 ^ 31 - 1) eqn:X; [|done]. apply Z.leb_le in X. apply (WH z); [cbn in *; lia|exact E].
    + apply (WH (if z <? 2 ^ 63 then z else z - 2 ^ 64)); [|exact E].
      destruct (z <? 2 ^ 63) eqn:X; [apply Z.ltb_lt in X|apply Z.ltb_ge in X]; cbn in *; lia.
  - intros E. destruct t; try done; try (apply (TRIV _ E eq_refl eq_refl)); (apply (WH z); [cbn in *; lia|exact E]).
  - intros E. destruct t; try done; try (apply (TRIV _ E eq_refl eq_refl)); (apply (WH z); [cbn in *; lia|exact E]).
  - intros E. destruct t; try done; try (apply (TRIV _ E eq_refl eq_refl)).
    + destruct (in_range TInt z) eqn:X; [|done]. apply (WH z); [by apply in_range_fits|exact E].
    + apply (WH z); [cbn in *; lia|exact E].
Qed.
Print Assumptions cast_typed.
Theorem cast_null_own sd rd rf f32 ch v t :
  cast_to sd rd rf f32 ch (VNull t) (type_of v) = Some (VNull (type_of v)) /\
  cast_to sd rd rf f32 ch v (type_of v) = Some v.
Proof.
  unfold cast_to. cbn [type_of]. rewrite (decide_True (P := type_of v = type_of v)) by done.
  split; [|done]. by destruct (decide (t = type_of v)) as [->|].
Qed.
Print Assumptions cast_null_own.
Example cast_typed_ex sd rd rf f32 ch :
  cast_to sd rd rf f32 ch (VTs 1700000000) TInt = Some (VInt 1700000000) /\
  cast_to sd rd rf f32 ch (VNull TVar) TInt = Some (VNull TInt).
Proof. done. Qed.

(** C76, numbers through floating point: an integer below 2^53 in size goes to a decimal and back unchanged (2^24 for a
    float). Missing: larger integers, and fractions, where the cast changes the number without an error (see the next
    theorem). *)
Theorem cast_decimal_partial sd rd rf f32 ch v z t :
  integer_type (type_of v) -> whole v = Some z -> sane v ->
  (t = TDec /\ Z.abs z < 2 ^ 53) \/ (t = TFloat /\ Z.abs z < 2 ^ 24) ->
  exists d, cast_to sd rd rf f32 ch v t = Some d /\ (d = VDec z 0 \/ d = VFloat z 0) /\
    cast_to sd rd rf f32 ch d (type_of v) = Some v.
Proof.
  intros I W Sv T. pose proof (Sv _ W) as F.
  assert (trunc z 0 = z) as TR. { unfold trunc. apply Z.quot_1_r. }
  assert (clamp (type_of v) (trunc z 0) = z) as CL. { rewrite TR. by apply clamp_fits. }
  destruct T as [[-> B]|[-> B]].
  - exists (VDec z 0). destruct v; cbn in W; try discriminate; injection W as ->; try (by destruct I as [?|[?|[?|?]]]).
    all: split; [by unfold cast_to, cast_int; cbn [type_of decide cty_dec]; rewrite round_small|].
    all: split; [auto|]; unfold cast_to; cbn [type_of] in *; rewrite CL; done.
  - exists (VFloat z 0). destruct v; cbn in W; try discriminate; injection W as ->; try (by destruct I as [?|[?|[?|?]]]).
    all: split; [by unfold cast_to, cast_int; cbn [type_of decide cty_dec]; rewrite round_small|].
    all: split; [auto|]; unfold cast_to; cbn [type_of] in *; rewrite CL; done.
Qed.
Print Assumptions cast_decimal_partial.
Example cast_decimal_partial_ex sd rd rf f32 ch :
  cast_to sd rd rf f32 ch (VBig (2 ^ 53 - 1)) TDec = Some (VDec (2 ^ 53 - 1) 0) /\
  cast_to sd rd rf f32 ch (VDec (2 ^ 53 - 1) 0) TBig = Some (VBig (2 ^ 53 - 1)).
Proof. split; vm_compute; reflexivity. Qed.

(** C76 fails in full: these casts succeed and change the number. 2^53 + 1 as a decimal and back; 2^24 + 1 as a float;
    300 as a decimal to a tiny integer (127); a timestamp of 2^63 to a big integer (negative). *)
Theorem cast_keeps_value_refuted sd rd rf f32 ch :
  (exists d, cast_to sd rd rf f32 ch (VBig (2 ^ 53 + 1)) TDec = Some d /\
     cast_to sd rd rf f32 ch d TBig = Some (VBig (2 ^ 53))) /\
  (exists d, cast_to sd rd rf f32 ch (VInt (2 ^ 24 + 1)) TFloat = Some d /\
     cast_to sd rd rf f32 ch d TInt = Some (VInt (2 ^ 24))) /\
  cast_to sd rd rf f32 ch (VDec 300 0) TTiny = Some (VTiny 127) /\
  cast_to sd rd rf f32 ch (VTs (2 ^ 63)) TBig = Some (VBig (- 2 ^ 63)).
Proof.
  split; [eexists; split; [reflexivity|vm_compute; reflexivity]|].
  split; [eexists; split; [reflexivity|vm_compute; reflexivity]|]. split; vm_compute; reflexivity.
Qed.
Print Assumptions cast_keeps_value_refuted.

(** More generally, a decimal or float too large for an integer type becomes that type's largest number. *)
Theorem cast_decimal_saturates sd rd rf f32 ch n k t hi lo :
  integer_type t -> range t = Some (lo, hi) -> hi * 2 ^ Z.of_nat k <= n ->
  exists w, cast_to sd rd rf f32 ch (VDec n k) t = Some w /\ whole w = Some hi.
Proof.
  intros I R H.
  assert (hi <= trunc n k) as L.
  { unfold trunc. apply Z.quot_le_lower_bound; [apply Z.pow_pos_nonneg; lia|]. lia. }
  assert (lo <= hi) as LH. { destruct I as [->|[->|[->| ->]]]; injection R as <- <-; lia. }
  assert (clamp t (trunc n k) = hi) as C. { unfold clamp. rewrite R. lia. }
  destruct I as [->|[->|[->| ->]]]; (eexists; split; [unfold cast_to; cbn [type_of decide cty_dec]; reflexivity|]);
    cbn [mk_whole whole]; by rewrite C.
Qed.
Print Assumptions cast_decimal_saturates.

(** C77. The same CAST in a WHERE clause and in a join condition: where the WHERE clause's cast gives a value and is not a
    decimal turned into an integer, the join condition's cast gives the same one. Missing: see the next theorem. *)
Theorem cast_join_agrees_partial sd rd rf f32 ch v t w :
  cast_evaluate v t = Some w -> ~ (type_of v = TDec /\ t = TInt) ->
  cast_evaluate_join sd rd rf f32 ch v t = Some w.
Proof.
  unfold cast_evaluate_join, cast_to. intros E N.
  destruct v as [t0| | | | | | | | | | | | |].
  { cbn in *. injection E as <-. by destruct (decide (t0 = t)) as [->|]. }
  all: destruct t; try done; try (exfalso; apply N; split; done).
Qed.
Print Assumptions cast_join_agrees_partial.
Example cast_join_agrees_partial_ex sd rd rf f32 ch :
  cast_evaluate (VInt 7) TDec = Some (VDec 7 0) /\ cast_evaluate_join sd rd rf f32 ch (VInt 7) TDec = Some (VDec 7 0).
Proof. split; vm_compute; reflexivity. Qed.
(** CAST(2.5 AS INTEGER) is 3 in a WHERE clause and 2 in a join condition; CAST('5' AS INTEGER) and
    CAST(1::smallint AS INTEGER) are errors in a WHERE clause and 5 and 1 in a join condition. *)
Theorem cast_join_agrees_refuted sd rd rf f32 ch :
  cast_evaluate (VDec 5 1) TInt = Some (VInt 3) /\ cast_evaluate_join sd rd rf f32 ch (VDec 5 1) TInt = Some (VInt 2) /\
  cast_evaluate (VVar [53]%N) TInt = None /\ cast_evaluate_join sd rd rf f32 ch (VVar [53]%N) TInt = Some (VInt 5) /\
  cast_evaluate (VSmall 1) TInt = None /\ cast_evaluate_join sd rd rf f32 ch (VSmall 1) TInt = Some (VInt 1).
Proof. repeat split; vm_compute; reflexivity. Qed.
Print Assumptions cast_join_agrees_refuted.
(** The rounding in a WHERE clause is to the nearest whole number, halves away from zero, clamped to the integers. *)
Theorem cast_where_rounds n k :
  exists z, cast_evaluate (VDec n k) TInt = Some (VInt z) /\
    (fits TInt (round_half n k) -> 2 * Z.abs (z * 2 ^ Z.of_nat k - n) <= 2 ^ Z.of_nat k).
Proof.
  eexists. split; [reflexivity|]. intros F. rewrite clamp_fits by done. unfold round_half.
  set (m := 2 ^ Z.of_nat k). assert (0 < m) as M by (apply Z.pow_pos_nonneg; lia). clearbody m. clear F.
  pose proof (Z.div_mod (2 * Z.abs n + m) (2 * m) ltac:(lia)) as D.
  pose proof (Z.mod_pos_bound (2 * Z.abs n + m) (2 * m) ltac:(lia)) as B.
  set (q := (2 * Z.abs n + m) `div` (2 * m)) in *. set (r := (2 * Z.abs n + m) `mod` (2 * m)) in *. clearbody q r.
  assert (- m <= 2 * (q * m - Z.abs n) <= m) as X by nia.
  destruct (Z.sgn_spec n) as [[N ->]|[[N ->]|[N ->]]]; nia.
Qed.
Print Assumptions cast_where_rounds.
Example cast_where_rounds_ex : cast_evaluate (VDec (-7) 1) TInt = Some (VInt (-4)) /\ cast_evaluate (VDec 9 2) TInt = Some (VInt 2).
Proof. split; vm_compute; reflexivity. Qed.
