(** C50, C54: expressions, three-valued logic and integer arithmetic. *)
From Coq Require Import String ZArith List Bool Lia.
From Verif Require Import ExprModel ExprSpec ExprProofs.
Import ListNotations.
Open Scope Z_scope.

(** C50. For every predicate built from comparisons, AND, OR, NOT, IS [NOT]
    NULL/TRUE/FALSE/UNKNOWN and COALESCE over columns and constants, and every row: if
    SQL gives the predicate a value [v], the row passes exactly when [v] is TRUE. *)
Theorem c50_where_logic : forall e r v,
  logical e -> Forall stored_val r -> stored_consts e -> sem e r = Some v ->
  where_pass e r = true <-> v = VBool true.
Proof.
  intros e r v L R C E. unfold where_pass.
  destruct (eval_sem e r v R C (logical_supported e r L) E) as [-> _].
  destruct v as [|b| | |]; split; congruence.
Qed.
Print Assumptions c50_where_logic.

Definition row50 : row := [VInt Integer 7; VNull; VVar "ab"].
(** [NOT (c1 = 3 OR c0 < 10)]: UNKNOWN OR TRUE is TRUE, so the row is dropped; and
    [c0 BETWEEN 5 AND 9 AND c1 IS NULL] keeps it. *)
Definition pred50 : expr :=
  EAnd (e_between false (ECol 0) (EConst (VInt Integer 5)) (EConst (VInt BigInt 9)))
       (EIs IsNull false (ECol 1)).
Example c50_where_logic_ex :
  logical pred50 /\ Forall stored_val row50 /\ stored_consts pred50 /\
  sem pred50 row50 = Some (VBool true) /\ where_pass pred50 row50 = true /\
  sem (ENot (EOr (ECmp Eq (ECol 1) (EConst (VInt Integer 3))) (ECmp Lt (ECol 0) (EConst (VInt Integer 10)))))
    row50 = Some (VBool false) /\
  sem (ENot (ECmp Eq (ECol 1) (EConst (VInt Integer 3)))) row50 = Some VNull.
Proof.
  repeat (split; [cbn; repeat (constructor; try exact I); unfold fits; cbn; lia|]).
  repeat (split; [reflexivity|]). reflexivity.
Qed.

(** C50, all expression forms. Missing: the four situations [supported] leaves out, in
    which the engine differs from SQL (the [_refuted] theorems below). *)
Theorem c50_where_partial : forall e r v,
  supported e r -> Forall stored_val r -> stored_consts e -> sem e r = Some v ->
  eval e r = Ok v /\ (where_pass e r = true <-> v = VBool true).
Proof.
  intros e r v S R C E. unfold where_pass.
  destruct (eval_sem e r v R C S E) as [-> _]. split; [reflexivity|].
  destruct v as [|b| | |]; split; congruence.
Qed.
Print Assumptions c50_where_partial.

Definition pred50b : expr :=
  ECase (ECmp Gt (EArith Mul (ECol 0) (EConst (VInt Integer 3))) (EConst (VInt Integer 20)))
        (EIn true (ECol 2) [VVar "x"; VVar "y"])
        (EDistinct false (ECol 1) (ECast (ECol 0) (TInt BigInt))).
Example c50_where_partial_ex :
  supported pred50b row50 /\ Forall stored_val row50 /\ stored_consts pred50b /\
  sem pred50b row50 = Some (VBool true) /\ where_pass pred50b row50 = true.
Proof.
  split.
  - cbn. repeat match goal with |- _ /\ _ => split end; try exact I; try congruence.
    + intros x [= <-]. repeat constructor.
    + intros x [= <-]. cbn. auto.
    + intros x y [= <-] [= <-]. exact I.
  - repeat (split; [cbn; repeat (constructor; try exact I); unfold fits; cbn; lia|]).
    split; reflexivity.
Qed.

(** C50 is false of the engine as it stands. [c1 + 1 = 2 OR TRUE] is TRUE in SQL when
    c1 is NULL; the engine reports an error inside and drops the row. *)
Theorem c50_null_arith_refuted : exists e r,
  Forall stored_val r /\ stored_consts e /\ sem e r = Some (VBool true) /\ where_pass e r = false.
Proof.
  exists (EOr (ECmp Eq (EArith Add (ECol 0) (EConst (VInt Integer 1))) (EConst (VInt Integer 2)))
              (EConst (VBool true))), [VNull].
  repeat split; try reflexivity; cbn; try lia. repeat constructor.
Qed.
Print Assumptions c50_null_arith_refuted.

(** [CASE WHEN c0 = 1 THEN FALSE ELSE TRUE END] takes the ELSE branch when c0 is NULL;
    the engine fails and drops the row. *)
Theorem c50_case_unknown_refuted : exists c t f r,
  Forall stored_val r /\ stored_consts (ECase c t f) /\
  sem (ECase c t f) r = Some (VBool true) /\ where_pass (ECase c t f) r = false.
Proof.
  exists (ECmp Eq (ECol 0) (EConst (VInt Integer 1))), (EConst (VBool false)), (EConst (VBool true)), [VNull].
  repeat split; try reflexivity; cbn; try lia. repeat constructor.
Qed.
Print Assumptions c50_case_unknown_refuted.

(** [c = 'a'] holds but [c IN ('a')] does not, when c is a CHAR column and the literal a
    VARCHAR. *)
Theorem c50_in_char_refuted : exists a v r,
  where_pass (ECmp Eq a (EConst v)) r = true /\ where_pass (EIn false a [v]) r = false /\
  sem (EIn false a [v]) r = Some (VBool true).
Proof. exists (ECol 0), (VVar "a"), [VChar "a"]. repeat split; reflexivity. Qed.
Print Assumptions c50_in_char_refuted.

(** [a IS DISTINCT FROM b] says TRUE for an INTEGER 1 and a BIGINT 1, which are equal. *)
Theorem c50_distinct_width_refuted : exists a b r,
  Forall stored_val r /\ where_pass (ECmp Eq a b) r = true /\
  where_pass (EDistinct false a b) r = true /\ sem (EDistinct false a b) r = Some (VBool false).
Proof.
  exists (ECol 0), (ECol 1), [VInt Integer 1; VInt BigInt 1].
  repeat split; try reflexivity. repeat constructor; cbn; lia.
Qed.
Print Assumptions c50_distinct_width_refuted.

(** C50. BETWEEN on integers of any width, read directly. *)
Theorem c50_between : forall neg i lo hi r t x t1 l t2 h,
  nth_error r i = Some (VInt t x) -> nth_error r lo = Some (VInt t1 l) ->
  nth_error r hi = Some (VInt t2 h) -> Forall stored_val r ->
  where_pass (e_between neg (ECol i) (ECol lo) (ECol hi)) r = true <->
  (if neg then x < l \/ h < x else l <= x <= h).
Proof.
  intros neg i lo hi r t x t1 l t2 h Hx Hl Hh R.
  assert (S : exists v, sem (e_between neg (ECol i) (ECol lo) (ECol hi)) r = Some v /\
              (v = VBool true <-> if neg then x < l \/ h < x else l <= x <= h)).
  { destruct neg; cbn [e_between sem]; rewrite Hx, Hl, Hh; cbn;
      eexists; (split; [reflexivity|]);
      destruct (Z.compare_spec x l), (Z.compare_spec x h); cbn; split; intros H1; try reflexivity;
      try discriminate H1; lia. }
  destruct S as (v & Sv & Iv).
  rewrite <- Iv. apply c50_where_logic; auto; destruct neg; cbn; tauto.
Qed.
Print Assumptions c50_between.

Example c50_between_ex :
  let r := [VInt Integer 7; VInt SmallInt 5; VInt BigInt 9] in
  Forall stored_val r /\ where_pass (e_between false (ECol 0) (ECol 1) (ECol 2)) r = true /\
  where_pass (e_between true (ECol 0) (ECol 1) (ECol 2)) r = false.
Proof. cbn. repeat split. repeat constructor; unfold fits; cbn; lia. Qed.

(** C54. Whatever integer arithmetic returns is the exact mathematical result in the
    wider operand type, and it fits that type: the result never wraps around. *)
Theorem c54_arith_exact : forall op a b r v,
  eval (EArith op a b) r = Ok v ->
  exists t x u y z, eval a r = Ok (VInt t x) /\ eval b r = Ok (VInt u y) /\
    exact op x y = Some z /\ fits (join t u) z /\ v = VInt (join t u) z.
Proof.
  intros op a b r v. cbn [eval].
  destruct (eval a r) as [xa|]; [|discriminate]. destruct (eval b r) as [xb|]; [|discriminate].
  cbn [bind]. apply perform_arith_inv.
Qed.
Print Assumptions c54_arith_exact.

(** C54. And it fails only on division by zero, on a result that does not fit, or on
    operands that are not integers. *)
Theorem c54_arith_total : forall op a b r t x u y z,
  eval a r = Ok (VInt t x) -> eval b r = Ok (VInt u y) ->
  exact op x y = Some z -> fits (join t u) z ->
  eval (EArith op a b) r = Ok (VInt (join t u) z).
Proof.
  intros op a b r t x u y z Ha Hb E F. cbn [eval]. rewrite Ha, Hb. cbn [bind].
  apply perform_arith_ok; assumption.
Qed.
Print Assumptions c54_arith_total.

Example c54_arith_ex :
  eval (EArith Add (ECol 0) (ECol 1)) [VInt Integer 2147483647; VInt BigInt 1] = Ok (VInt BigInt 2147483648) /\
  eval (EArith Add (ECol 0) (ECol 1)) [VInt Integer 2147483647; VInt Integer 1] = Err /\
  eval (EArith Div (ECol 0) (ECol 1)) [VInt TinyInt (-128); VInt TinyInt (-1)] = Err /\
  eval (EArith Div (ECol 0) (ECol 1)) [VInt TinyInt (-7); VInt TinyInt 2] = Ok (VInt TinyInt (-3)).
Proof. repeat split; reflexivity. Qed.

(** C54. Unary minus is exact except on the least value of the type. *)
Theorem c54_neg_partial : forall a r t x,
  eval a r = Ok (VInt t x) -> fits t (- x) -> eval (ENeg a) r = Ok (VInt t (- x)).
Proof.
  intros a r t x H F. cbn [eval]. rewrite H. cbn. rewrite (wrap_fits _ _ F). reflexivity.
Qed.
Print Assumptions c54_neg_partial.

Example c54_neg_ex : eval (ENeg (ECol 0)) [VInt Integer 2147483647] = Ok (VInt Integer (-2147483647))
  /\ fits Integer (-2147483647).
Proof. split; [reflexivity|unfold fits; cbn; lia]. Qed.

(** C54. There it wraps: [-(-2147483648)] is [-2147483648] in a release build. *)
Theorem c54_neg_refuted : exists r x,
  Forall stored_val r /\ r = [VInt Integer x] /\ x < 0 /\ eval (ENeg (ECol 0)) r = Ok (VInt Integer x).
Proof.
  exists [VInt Integer (-2147483648)], (-2147483648).
  repeat split. repeat constructor; cbn; lia.
Qed.
Print Assumptions c54_neg_refuted.
