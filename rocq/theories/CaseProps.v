(** * C111: CASE takes the first branch whose test is true *)
From Coq Require Import ZArith.
From stdpp Require Import base list numbers.
From Verif Require Import VordSpec VordModel VordProps CaseSpec CaseModel.
Local Open Scope nat_scope.

Lemma new_inv b w t e c : case_new b w t e = Some c -> length w = length t /\ w <> [] /\ cbase c = b /\ cwhens c = w /\ cthens c = t /\ celse c = e /\
  children c = match b with Some e => [e] | None => [] end ++ w ++ t ++ match e with Some e => [e] | None => [] end.
Proof.
  unfold case_new. destruct (Nat.eqb_spec (length w) (length t)) as [L|]; [|done]. cbn [negb]. destruct w; [done|].
  destruct (determine_return_type t e); [|done]. intros [= <-]. done.
Qed.

(** A list of tests, as a relation between the conditions and their truth. *)
Lemma branches_takes run b thens els whens tests k i e :
  (forall v, b = Some v -> False) ->
  Forall2 (fun w t => exists v, run w = OVal v /\ truth_of v = Some t) whens tests ->
  Forall (fun t => t <> TUnknown) (take (S i) tests) ->
  takes tests i -> thens !! (k + i) = Some e -> branches run b thens els k whens = run e.
Proof.
  intros B F. destruct b as [v|]; [by destruct (B v)|]. clear B. revert k i. induction F as [|w t whens tests (v & R & T) _ IH]; intros k i U [H1 H2] E; [done|].
  cbn [branches]. rewrite R. destruct v as [ty s x]. cbn [truth_of] in T.
  destruct i as [|i].
  - injection H1 as ->. destruct x as [[]| | | | | | |]; try done. destruct (Z.eqb z 0); [done|]. cbn [negb]. rewrite Nat.add_0_r in E. by rewrite E.
  - cbn [take] in U. apply Forall_cons_1 in U as [U0 U]. assert (t = TFalse) as -> by (destruct t; try done; exfalso; by apply (H2 0 TTrue ltac:(lia))).
    destruct x as [[]| | | | | | |]; try done. destruct (Z.eqb z 0); [|done]. cbn [negb].
    apply (IH (S k) i); [done| |by rewrite <- E, <- plus_n_Sm]. split; [done|]. intros j t L J. apply (H2 (S j)); [lia|done].
Qed.
Lemma branches_none run thens els whens tests k :
  Forall2 (fun w t => exists v, run w = OVal v /\ truth_of v = Some t) whens tests ->
  Forall (fun t => t <> TUnknown) tests -> takes_none tests ->
  branches run None thens els k whens = match els with Some e => run e | None => OVal null_value end.
Proof.
  intros F. revert k. induction F as [|w t whens tests (v & R & T) _ IH]; intros k U H; [done|].
  apply Forall_cons_1 in U as [U0 U]. apply Forall_cons_1 in H as [H0 H]. assert (t = TFalse) as -> by (by destruct t).
  cbn [branches]. rewrite R. destruct v as [ty s x]. cbn [truth_of] in T.
  destruct x as [[]| | | | | | |]; try done. destruct (Z.eqb z 0); [|done]. cbn [negb]. by apply IH.
Qed.

(** CASE WHEN: with conditions that are TRUE or FALSE, up to the one taken, the CASE is the THEN of the first TRUE
    one, whatever the other branches would come out as; without a TRUE one it is the ELSE, or NULL. *)
Theorem c111_searched_partial run whens thens els c tests :
  case_new None whens thens els = Some c ->
  Forall2 (fun w t => exists v, run w = OVal v /\ truth_of v = Some t) whens tests ->
  (forall i e, takes tests i -> Forall (fun t => t <> TUnknown) (take (S i) tests) -> thens !! i = Some e -> case_run run c = run e) /\
  (takes_none tests -> Forall (fun t => t <> TUnknown) tests -> case_run run c = match els with Some e => run e | None => OVal null_value end).
Proof.
  intros (_ & _ & B & W & T & E & _)%new_inv F. unfold case_run. rewrite B, W, T, E. split.
  - intros i e H U L. by apply (branches_takes run None thens els whens tests 0 i).
  - intros H U. by apply (branches_none run thens els whens tests 0).
Qed.
Print Assumptions c111_searched_partial.

(** The conditions after the one taken are not evaluated: they may fail or panic. *)
Theorem c111_lazy run ws w rest thens els c e v :
  case_new None (ws ++ w :: rest) thens els = Some c ->
  Forall (fun w => exists v, run w = OVal v /\ truth_of v = Some TFalse) ws ->
  run w = OVal v -> truth_of v = Some TTrue -> thens !! length ws = Some e ->
  case_run run c = run e.
Proof.
  intros (_ & _ & B & W & T & E & _)%new_inv F R V L. unfold case_run. rewrite B, W, T, E. clear c B W T E.
  assert (forall k, thens !! (k + length ws) = Some e -> branches run None thens els k (ws ++ w :: rest) = run e) as G; [|by apply (G 0)].
  clear L. induction F as [|x ws (u & X & U) _ IH]; intros k L; cbn [app branches].
  - rewrite R. destruct v as [ty s y]. cbn [truth_of] in V. destruct y as [[]| | | | | | |]; try done. destruct (Z.eqb z 0); [done|]. cbn [negb].
    cbn in L. rewrite Nat.add_0_r in L. by rewrite L.
  - rewrite X. destruct u as [ty s y]. cbn [truth_of] in U. destruct y as [[]| | | | | | |]; try done. destruct (Z.eqb z 0); [|done]. cbn [negb].
    apply IH. rewrite <- L. cbn. f_equal. lia.
Qed.
Print Assumptions c111_lazy.

Definition tb (b : bool) : value := Val 0 None (XInt KBoolean (if b then 1 else 0)).
Definition ti (z : Z) : value := Val 3 None (XInt KInteger z).
Definition cst (v : value) : expr := literal_expr v.
Definition failing (ty : nat) : expr := Expr ty (fun _ => OErr) (fun _ _ => OPanic).
(** CASE WHEN false THEN 1 WHEN true THEN 2 WHEN fails THEN fails ELSE 4 END *)
Example c111_searched_ex :
  exists c, case_new None [cst (tb false); cst (tb true); failing 0] [cst (ti 1); cst (ti 2); failing 3] (Some (cst (ti 4))) = Some c /\
  evaluate c 0 [] = OVal (ti 2) /\ evaluate_join c [] [] = OVal (ti 2).
Proof. eexists. done. Qed.

(** A condition that is NULL fails the statement, where SQL goes on to the next branch. *)
Theorem c111_unknown_refuted run ws w rest thens els c v :
  case_new None (ws ++ w :: rest) thens els = Some c ->
  Forall (fun w => exists v, run w = OVal v /\ truth_of v = Some TFalse) ws ->
  run w = OVal v -> truth_of v = Some TUnknown -> case_run run c = OErr.
Proof.
  intros (_ & _ & B & W & T & E & _)%new_inv F R V. unfold case_run. rewrite B, W, T, E. clear c B W T E. generalize 0.
  induction F as [|x ws (u & X & U) _ IH]; intros k; cbn [app branches].
  - rewrite R. destruct v as [ty s y]. cbn [truth_of] in V. by destruct y as [[]| | | | | | |]; try destruct (Z.eqb z 0).
  - rewrite X. destruct u as [ty s y]. cbn [truth_of] in U. destruct y as [[]| | | | | | |]; try done. destruct (Z.eqb z 0); [|done]. cbn [negb]. apply IH.
Qed.
Print Assumptions c111_unknown_refuted.
Example c111_unknown_ex :
  exists c, case_new None [cst null_value; cst (tb true)] [cst (ti 1); cst (ti 2)] None = Some c /\ evaluate c 0 [] = OErr /\ takes [TUnknown; TTrue] 1.
Proof.
  eexists. split; [done|]. split; [done|]. split; [done|]. intros j t L J. destruct j; [|lia]. injection J as <-. done.
Qed.

Lemma bytes_eqb_spec s t : bytes_eqb s t = bool_decide (s = t).
Proof.
  revert t. induction s as [|a s IH]; intros [|b t]; try done. cbn [bytes_eqb]. rewrite IH. destruct (N.eqb_spec a b) as [->|N0]; cbn.
  - apply bool_decide_ext. split; [by intros ->|by intros [= ->]].
  - symmetry. apply bool_decide_eq_false. congruence.
Qed.
Lemma same_veq a b t : same_type a b -> sql_equals a b t -> (veq a b = true <-> t = TTrue) /\ t <> TUnknown.
Proof.
  destruct 1 as [ty s s' k z z'|ty s s' k u u']; intros E; cbn [veq is_null andb]; rewrite !Nat.eqb_refl; cbn [negb andb].
  - inversion E as [x y X Y|x y X Y|[X|X]]; subst; cbn in *; try done. destruct k; try done; injection X as ->; injection Y as ->; by destruct (Z.eqb x y).
  - inversion E as [x y X Y|x y X Y|[X|X]]; subst; cbn in *; try done. rewrite bytes_eqb_spec. destruct k; try done; injection X as ->; injection Y as ->; by destruct (bool_decide (x = y)).
Qed.

(** CASE x WHEN: with numbers or texts of one type the CASE is the THEN of the first value equal to x. *)
Theorem c111_simple_partial run base whens thens els c b tests :
  case_new (Some base) whens thens els = Some c -> run base = OVal b ->
  Forall2 (fun w t => exists v, run w = OVal v /\ same_type b v /\ sql_equals b v t) whens tests ->
  (forall i e, takes tests i -> thens !! i = Some e -> case_run run c = run e) /\
  (takes_none tests -> case_run run c = match els with Some e => run e | None => OVal null_value end).
Proof.
  intros (_ & _ & B & W & T & E & _)%new_inv R F. unfold case_run. rewrite B, W, T, E, R. clear c B W T E. split.
  - intros i e H L. assert (thens !! (0 + i) = Some e) as L' by done. clear L. revert i H L'. generalize 0 as k.
    induction F as [|w t whens tests (v & V & S1 & S2) _ IH]; intros k i [H1 H2] L; [done|].
    cbn [branches]. rewrite V. destruct (same_veq _ _ _ S1 S2) as [Q _]. destruct i as [|i].
    + injection H1 as ->. rewrite (proj2 Q eq_refl). rewrite Nat.add_0_r in L. by rewrite L.
    + destruct (veq b v) eqn:X. { exfalso. apply (H2 0 t); [lia|done|]. by apply Q. }
      apply (IH (S k) i); [|by rewrite <- L, <- plus_n_Sm]. split; [done|]. intros j u J1 J2. apply (H2 (S j)); [lia|done].
  - intros H. generalize 0 as k. induction F as [|w t whens tests (v & V & S1 & S2) _ IH]; intros k; [done|].
    apply Forall_cons_1 in H as [H0 H]. cbn [branches]. rewrite V. destruct (same_veq _ _ _ S1 S2) as [Q _].
    destruct (veq b v) eqn:X; [|by apply IH]. exfalso. apply H0. by apply Q.
Qed.
Print Assumptions c111_simple_partial.
Example c111_simple_ex :
  exists c, case_new (Some (cst (ti 5))) [cst (ti 4); cst (ti 5)] [cst (tb false); cst (tb true)] None = Some c /\ evaluate c 0 [] = OVal (tb true) /\
  same_type (ti 5) (ti 4) /\ sql_equals (ti 5) (ti 4) TFalse /\ same_type (ti 5) (ti 5) /\ sql_equals (ti 5) (ti 5) TTrue /\ takes [TFalse; TTrue] 1.
Proof.
  eexists. split; [done|]. split; [done|]. split; [constructor|]. split; [by apply (EqNum _ _ 5 4)|]. split; [constructor|]. split; [by apply (EqNum _ _ 5 5)|].
  split; [done|]. intros j t L J. destruct j; [|lia]. injection J as <-. done.
Qed.

(** NULL matches NULL in CASE x WHEN NULL, where x = NULL is unknown. *)
Theorem c111_null_refuted run base w whens e thens els c b v :
  case_new (Some base) (w :: whens) (e :: thens) els = Some c -> run base = OVal b -> null b -> run w = OVal v -> null v ->
  case_run run c = run e /\ sql_equals b v TUnknown.
Proof.
  intros (_ & _ & B & W & T & E & _)%new_inv R NB V NV. unfold case_run. rewrite B, W, T, E, R. cbn [branches]. rewrite V.
  destruct b as [ty s []], v as [ty' s' []]; try done. split; [done|]. constructor. by left.
Qed.
Print Assumptions c111_null_refuted.

(** A value of another type never matches, though it is the same number or text: a literal up to 127 is a TINYINT, so
    CASE x WHEN 1 never finds the 1 of an INTEGER or BIGINT column. *)
Theorem c111_types_refuted run base whens thens els c ty s x :
  case_new (Some base) whens thens els = Some c -> run base = OVal (Val ty s x) -> x <> XNull ->
  Forall (fun w => exists ty' s' y, run w = OVal (Val ty' s' y) /\ ty' <> ty) whens ->
  case_run run c = match els with Some e => run e | None => OVal null_value end.
Proof.
  intros (_ & _ & B & W & T & E & _)%new_inv R X F. unfold case_run. rewrite B, W, T, E, R. clear c B W T E. generalize 0 as k.
  induction F as [|w whens (ty' & s' & y & V & D) _ IH]; intros k; [done|]. cbn [branches]. rewrite V.
  assert (veq (Val ty s x) (Val ty' s' y) = false) as ->; [|by apply IH].
  assert (is_null x = false) as I by by destruct x. cbn [veq]. rewrite I. cbn [andb]. destruct (Nat.eqb_spec ty ty') as [->|]; [done|]. done.
Qed.
Theorem c111_literal_refuted z v e els c :
  (0 <= z <= 127)%Z -> literal z = Some v -> case_new (Some (cst (ti z))) [cst v] [e] els = Some c ->
  sql_equals (ti z) v TTrue /\ forall row, evaluate c 0 row = match els with Some e => ev e row | None => OVal null_value end.
Proof.
  intros Z0 L C. assert (v = Val 1 None (XInt KTinyInt z)) as ->.
  { unfold literal in L. assert (Z.leb (-128) z && Z.leb z 127 = true) as K by (apply andb_true_iff; split; apply Z.leb_le; lia). rewrite K in L. congruence. }
  split.
  - assert (TTrue = if Z.eqb z z then TTrue else TFalse) as -> by (by rewrite Z.eqb_refl). by apply EqNum.
  - intros row. unfold evaluate. assert (length row <? 0 = false) as -> by done.
    rewrite (c111_types_refuted (fun e => ev e row) _ _ _ _ _ _ _ _ C eq_refl); [done..|]. repeat constructor. by eexists _, _, _.
Qed.
Print Assumptions c111_types_refuted.
Print Assumptions c111_literal_refuted.
Example c111_literal_ex : exists v c, literal 1 = Some v /\ case_new (Some (cst (ti 1))) [cst v] [cst (tb true)] None = Some c /\ evaluate c 0 [] = OVal null_value.
Proof. eexists _, _. done. Qed.

(** A CASE is accepted exactly when it has as many THEN as WHEN, at least one, and all results have one type. *)
Theorem c111_accepted base whens thens els :
  (exists c, case_new base whens thens els = Some c) <->
  whens <> [] /\ length whens = length thens /\
  exists ty, Forall (fun e => ety e = ty) thens /\ forall e, els = Some e -> ety e = ty.
Proof.
  unfold case_new. destruct (Nat.eqb_spec (length whens) (length thens)) as [L|L]; cbn [negb]; [|split; [by intros [? ?]|by intros (_ & ? & _)]].
  destruct whens as [|w whens]; [split; [by intros [? ?]|by intros [? _]]|]. destruct thens as [|t thens]; [done|].
  assert (determine_return_type (t :: thens) els = Some (ety t) /\ Forall (fun e => ety e = ety t) thens /\ (forall e, els = Some e -> ety e = ety t) \/
          determine_return_type (t :: thens) els = None /\ ~ (Forall (fun e => ety e = ety t) thens /\ (forall e, els = Some e -> ety e = ety t))) as K.
  { unfold determine_return_type. cbn [map app]. destruct (forallb _ _) eqn:A.
    - left. split; [done|]. rewrite forallb_app in A. apply andb_true_iff in A as [A1 A2]. split.
      + rewrite forallb_forall in A1. apply Forall_forall. intros x X. symmetry. apply Nat.eqb_eq, A1, in_map. done.
      + intros e ->. cbn in A2. rewrite andb_true_r in A2. by apply Nat.eqb_eq in A2.
    - right. split; [done|]. intros [B1 B2]. apply not_true_iff_false in A. apply A. rewrite forallb_app. apply andb_true_iff. split.
      + apply forallb_forall. intros x (e & <- & X)%in_map_iff. rewrite Forall_forall in B1. apply Nat.eqb_eq. symmetry. by apply B1.
      + destruct els as [e|]; [|done]. cbn. rewrite (B2 e eq_refl). by rewrite Nat.eqb_refl. }
  destruct K as [(K1 & K2 & K3)|(K1 & K2)]; rewrite K1; split.
  - intros _. split; [done|]. split; [done|]. exists (ety t). split; [by constructor|done].
  - intros _. by eexists.
  - by intros [? ?].
  - intros (_ & _ & ty & F & E). exfalso. apply K2. apply Forall_cons_1 in F as [<- F]. done.
Qed.
Print Assumptions c111_accepted.
(** So ELSE NULL, and results of different size, are refused: THEN 1 ELSE 1000, THEN 'x' ELSE NULL. *)
Theorem c111_refused_refuted base w e v1 v2 :
  literal 1 = Some v1 -> literal 1000 = Some v2 -> ety e <> 20 ->
  case_new base [w] [literal_expr v1] (Some (literal_expr v2)) = None /\ case_new base [w] [e] (Some (literal_expr null_value)) = None.
Proof.
  intros [= <-] [= <-] E. split; [done|]. unfold case_new. cbn. destruct (ety e =? 20) eqn:X; [by apply Nat.eqb_eq in X|done].
Qed.
Print Assumptions c111_refused_refuted.
Example c111_refused_ex : ety (cst (ti 1)) <> 20. Proof. done. Qed.

(** Rewriting the subexpressions of a CASE rewrites each in its own place. *)
Theorem c111_rewrite f base whens thens els c :
  case_new base whens thens els = Some c ->
  clone_with_children c (map f (children c)) = case_new (f <$> base) (map f whens) (map f thens) (f <$> els) /\
  clone_with_children c (children c) = Some c.
Proof.
  intros H. destruct (new_inv _ _ _ _ _ H) as (L & _ & B & W & T & E & C).
  assert (forall f, clone_with_children c (map f (children c)) = case_new (f <$> base) (map f whens) (map f thens) (f <$> els)) as G.
  { intros g. unfold clone_with_children. rewrite B, W, C.
    assert (forall y, take (length whens) (map g whens ++ y) = map g whens) as X1.
    { intros y. rewrite take_app_le by (rewrite map_length; lia). apply take_ge. rewrite map_length. lia. }
    assert (forall y, drop (length whens) (map g whens ++ y) = y) as X2.
    { intros y. rewrite drop_app_alt; [done|]. by rewrite map_length. }
    assert (take (length whens) (map g thens ++ map g (match els with Some e => [e] | None => [] end)) = map g thens) as X3.
    { rewrite L. rewrite take_app_le by (rewrite map_length; lia). apply take_ge. rewrite map_length. lia. }
    assert ((map g whens ++ map g thens ++ map g (match els with Some e => [e] | None => [] end)) !! (length whens + length whens) = g <$> els) as X4.
    { rewrite app_assoc, lookup_app_r by (rewrite app_length, !map_length; lia). rewrite app_length, !map_length, <- L, Nat.sub_diag. by destruct els. }
    destruct base as [b|]; rewrite !map_app.
    - cbn [map app fmap option_fmap option_map]. cbn [length]. rewrite !app_length, !map_length, <- L.
      assert (S (length whens + (length whens + length (match els with Some e => [e] | None => [] end))) <? 1 + length whens + length whens = false) as -> by (apply Nat.ltb_ge; lia).
      cbn [drop Nat.add]. rewrite ?drop_0, X1, X2, X3. rewrite lookup_cons. by rewrite X4.
    - cbn [map app fmap option_fmap option_map]. rewrite !app_length, !map_length, <- L.
      assert ((length whens + (length whens + length (match els with Some e => [e] | None => [] end))) <? 0 + length whens + length whens = false) as -> by (apply Nat.ltb_ge; lia).
      cbn [Nat.add]. rewrite drop_0. by rewrite X1, X2, X3, X4. }
  split; [apply G|]. rewrite <- H. specialize (G id). rewrite !map_id in G. rewrite G. by rewrite !option_fmap_id.
Qed.
Print Assumptions c111_rewrite.
Example c111_rewrite_ex : exists c, case_new (Some (cst (ti 5))) [cst (ti 4)] [cst (ti 1)] (Some (cst (ti 2))) = Some c /\ length (children c) = 4.
Proof. eexists. done. Qed.

(** A CASE over a row with fewer values than the schema has columns panics; over any other row, and in a join, the conditions decide. *)
Theorem c111_rows c columns row l r :
  evaluate c columns row = (if columns <=? length row then case_run (fun e => ev e row) c else OPanic) /\
  evaluate_join c l r = case_run (fun e => evj e l r) c.
Proof. unfold evaluate. rewrite Nat.ltb_antisym. by destruct (columns <=? length row). Qed.
Print Assumptions c111_rows.
