(** * Proofs about expressions *)
From Coq Require Import String ZArith List Bool Lia ZifyBool.
From Verif Require Import ExprModel ExprSpec.
Import ListNotations.
Open Scope Z_scope.

Lemma in_range_fits t z : in_range t z = true <-> fits t z.
Proof. unfold in_range, fits. lia. Qed.

Lemma by_order_holds op c : by_order op c = holds op c.
Proof. destruct op, c; reflexivity. Qed.

Lemma bool_compare_spec a b : bool_compare a b = Z.compare (Z.b2z a) (Z.b2z b).
Proof. destruct a, b; reflexivity. Qed.

Lemma wider_join t u : wider t u = join t u.
Proof. destruct t, u; reflexivity. Qed.

Lemma of_truth_stored z : stored_val (of_truth z).
Proof. unfold of_truth. destruct (z =? 2), (z =? 0); exact I. Qed.

(** A value fits one of two integer types' ranges both ways: the wider type holds both. *)
Lemma fits_wider t u x y :
  fits t x -> fits u y -> in_range u x = true \/ in_range t y = true.
Proof.
  rewrite !in_range_fits. unfold fits.
  destruct t, u; cbn [bits]; intros; lia.
Qed.

Lemma of_cmpbool_of_bool b : of_cmpbool (of_bool b) = VBool b.
Proof. destruct b; reflexivity. Qed.

Lemma tid_eqb_int t u : tid_eqb (TInt t) (TInt u) = true <-> t = u.
Proof. destruct t, u; cbn; split; congruence. Qed.

Lemma comparison_spec op x y v :
  stored_val x -> stored_val y ->
  sql_cmp op x y = Some v ->
  bind (perform_comparison op x y) (fun c => Ok (of_cmpbool c)) = Ok v /\ stored_val v.
Proof.
  intros Hx Hy. unfold sql_cmp, perform_comparison.
  destruct x as [|b|t z|s|s], y as [|b'|t' z'|s'|s'];
    cbn [is_null orb type_of sql_order option_map]; intros [= <-]; try (split; [reflexivity|exact I]).
  - cbn. rewrite of_cmpbool_of_bool, by_order_holds, bool_compare_spec. split; [reflexivity|exact I].
  - destruct (tid_eqb (TInt t) (TInt t')) eqn:E.
    + cbn. rewrite of_cmpbool_of_bool, by_order_holds. split; [reflexivity|exact I].
    + cbn [cast_to]. destruct (fits_wider t t' z z' Hx Hy) as [F|F].
      * rewrite F. cbn. rewrite of_cmpbool_of_bool, by_order_holds. split; [reflexivity|exact I].
      * destruct (in_range t' z); [|rewrite F];
          cbn; rewrite of_cmpbool_of_bool, by_order_holds; (split; [reflexivity|exact I]).
  - cbn. rewrite of_cmpbool_of_bool, by_order_holds. split; [reflexivity|exact I].
  - cbn. rewrite of_cmpbool_of_bool, by_order_holds. split; [reflexivity|exact I].
  - cbn. rewrite of_cmpbool_of_bool, by_order_holds. split; [reflexivity|exact I].
  - cbn. rewrite of_cmpbool_of_bool, by_order_holds. split; [reflexivity|exact I].
Qed.

Lemma truth_cases v z :
  truth v = Some z -> (v = VNull /\ z = 1) \/ (exists b, v = VBool b /\ z = if b then 2 else 0).
Proof.
  destruct v; cbn; intros E; try discriminate E.
  - left. split; congruence.
  - right. exists b. split; congruence.
Qed.

Lemma and_spec x y a b :
  truth x = Some a -> truth y = Some b ->
  of_cmpbool (perform_and (as_cmpbool x) (as_cmpbool y)) = of_truth (Z.min a b).
Proof.
  intros Hx Hy.
  apply truth_cases in Hx as [[-> ->]|(p & -> & ->)];
  apply truth_cases in Hy as [[-> ->]|(q & -> & ->)];
    try destruct p; try destruct q; reflexivity.
Qed.

Lemma or_spec x y a b :
  truth x = Some a -> truth y = Some b ->
  of_cmpbool (perform_or (as_cmpbool x) (as_cmpbool y)) = of_truth (Z.max a b).
Proof.
  intros Hx Hy.
  apply truth_cases in Hx as [[-> ->]|(p & -> & ->)];
  apply truth_cases in Hy as [[-> ->]|(q & -> & ->)];
    try destruct p; try destruct q; reflexivity.
Qed.

Lemma not_spec x a : truth x = Some a -> perform_not x = Ok (of_truth (2 - a)).
Proof.
  intros Hx. apply truth_cases in Hx as [[-> ->]|(p & -> & ->)]; [reflexivity|].
  destruct p; reflexivity.
Qed.

Lemma arith_spec op x y v :
  x <> VNull -> y <> VNull -> sql_arith op x y = Some v ->
  perform_arith op x y = Ok v /\ stored_val v.
Proof.
  intros Nx Ny. destruct x, y; cbn [sql_arith]; try congruence.
  unfold perform_arith. rewrite wider_join.
  set (z1 := match op with Add => _ | Sub => _ | Mul => _ | Div => _ end).
  replace z1 with (exact op z z0) by (destruct op; reflexivity).
  destruct (exact op z z0) as [w|]; [|discriminate].
  fold (in_range (join t t0) w).
  destruct (in_range (join t t0) w) eqn:R; [|discriminate].
  intros [= <-]. split; [reflexivity|]. apply in_range_fits in R. exact R.
Qed.

(** The running answer of the IN loop. *)
Definition in_result (t : Z) (has_null : bool) : val :=
  of_truth (if has_null then Z.max t 1 else t).

Lemma compare_eq_spec x v c :
  is_null x = false -> same_kind x v -> sql_cmp Eq x v = Some c ->
  exists b, of_cmpbool (compare_op Eq x v) = c /\ truth c = Some b /\ (b = 0 \/ b = 1 \/ b = 2).
Proof.
  intros Nx K. unfold sql_cmp. rewrite Nx. cbn [orb].
  destruct x as [|b|t z|s|s], v as [|b'|t' z'|s'|s']; try discriminate Nx; cbn [is_null sql_order option_map];
    try (destruct K); intros [= <-]; cbn [compare_op of_cmpbool];
    rewrite ?of_cmpbool_of_bool, ?by_order_holds, ?bool_compare_spec;
    try (exists 1; cbn; tauto);
    match goal with |- context [VBool ?h] => exists (if h then 2 else 0); cbn; destruct h; tauto end.
Qed.

Lemma sql_in_range x l t : sql_in x l = Some t -> 0 <= t.
Proof.
  revert t. induction l as [|v l IH]; cbn [sql_in]; intros t.
  - intros [= <-]. lia.
  - destruct (sql_cmp Eq x v) as [c|]; [|discriminate].
    destruct (sql_in x l) as [d|]; [|discriminate].
    destruct (truth c) as [a|]; [|discriminate]. intros [= <-]. specialize (IH d eq_refl). lia.
Qed.

Lemma sql_in_range2 x l t : sql_in x l = Some t -> t = 0 \/ t = 1 \/ t = 2.
Proof.
  revert t. induction l as [|v l IH]; cbn [sql_in]; intros t.
  - intros [= <-]. auto.
  - destruct (sql_cmp Eq x v) as [c|]; [|discriminate].
    destruct (sql_in x l) as [d|]; [|discriminate].
    destruct (truth c) as [a|] eqn:E; [|discriminate].
    intros H. assert (t = Z.max a d) as -> by congruence. specialize (IH d eq_refl).
    apply truth_cases in E as [[_ ->]|(b & _ & ->)]; [|destruct b]; lia.
Qed.

Lemma in_list_spec x l t h :
  is_null x = false -> Forall (same_kind x) l -> sql_in x l = Some t ->
  in_list x l h = in_result t h.
Proof.
  intros Nx. revert t h. induction l as [|v l IH]; intros t h K; cbn [sql_in in_list].
  - intros H. assert (t = 0) as -> by congruence. destruct h; reflexivity.
  - apply Forall_inv in K as Kv. apply Forall_inv_tail in K.
    destruct (sql_cmp Eq x v) as [c|] eqn:C; [|discriminate].
    destruct (sql_in x l) as [d|] eqn:D; [|discriminate].
    destruct (compare_eq_spec _ _ _ Nx Kv C) as (b & E & T & _). rewrite T.
    intros H. assert (t = Z.max b d) as -> by congruence.
    pose proof (sql_in_range2 _ _ _ D) as R.
    destruct (compare_op Eq x v); cbn [of_cmpbool] in E; subst c; cbn in T;
      assert (b = match b with 0 => 0 | _ => b end) as _ by (destruct b; reflexivity).
    + assert (b = 0) as -> by congruence.
      rewrite (IH d h K eq_refl). unfold in_result. destruct h; f_equal; lia.
    + assert (b = 2) as -> by congruence. unfold in_result.
      replace (if h then Z.max (Z.max 2 d) 1 else Z.max 2 d) with 2 by (destruct h; lia). reflexivity.
    + assert (b = 1) as -> by congruence.
      rewrite (IH d true K eq_refl). unfold in_result. f_equal. destruct h; lia.
Qed.

Lemma sql_in_null l t : sql_in VNull l = Some t -> l <> [] -> t = 1.
Proof.
  revert t. induction l as [|v l IH]; intros t; [congruence|]. intros H _. cbn in H.
  destruct (sql_in VNull l) as [d|] eqn:D; [|discriminate].
  assert (t = Z.max 1 d) as -> by congruence.
  destruct l; [cbn in D; assert (d = 0) by congruence; lia|].
  rewrite (IH d eq_refl); [lia|congruence].
Qed.

Lemma string_compare_refl s : String.compare s s = Datatypes.Eq.
Proof.
  induction s as [|c s IH]; [reflexivity|]. cbn. unfold Ascii.compare. rewrite N.compare_refl. exact IH.
Qed.

Lemma distinct_spec x y d :
  same_type x y -> sql_distinct x y = Some d -> is_distinct x y = d.
Proof.
  intros K. unfold sql_distinct.
  destruct x as [|b|t z|s|s], y as [|b'|t' z'|s'|s']; cbn [is_null sql_order option_map];
    try (destruct K); intros [= <-]; cbn [is_distinct val_eqb]; try reflexivity.
  - destruct b, b'; reflexivity.
  - rewrite N.eqb_refl. cbn [andb]. destruct (Z.compare_spec z z'); cbn [holds].
    + subst. rewrite Z.eqb_refl. reflexivity.
    + destruct (Z.eqb_spec z z'); [lia|reflexivity].
    + destruct (Z.eqb_spec z z'); [lia|reflexivity].
  - destruct (String.eqb_spec s s') as [->|N].
    + rewrite string_compare_refl. reflexivity.
    + destruct (String.compare s s') eqn:C; try reflexivity.
      apply compare_eq_iff in C. congruence.
  - destruct (String.eqb_spec s s') as [->|N].
    + rewrite string_compare_refl. reflexivity.
    + destruct (String.compare s s') eqn:C; try reflexivity.
      apply compare_eq_iff in C. congruence.
Qed.

Lemma cast_spec x t v :
  stored_val x -> cast_supported x t -> sql_cast x t = Some v ->
  perform_cast x t = Ok v /\ stored_val v.
Proof.
  intros W S.
  destruct x as [|b|u z|s|s], t as [|u'| |]; cbn [sql_cast]; intros E; try discriminate E;
    try (assert (v = VNull) as -> by congruence; split; [reflexivity|exact I]);
    try (injection E as <-; split; [reflexivity|exact I]).
  fold (in_range u' z) in E. destruct (in_range u' z) eqn:R; [|discriminate].
  assert (v = VInt u' z) as -> by congruence. apply in_range_fits in R.
  split; [|exact R]. destruct S as [->|[-> ->]]; [|reflexivity].
  destruct u'; reflexivity.
Qed.

Lemma is_spec c x neg b :
  sql_is c x = Some b -> perform_is c neg x = Ok (VBool (xorb neg b)).
Proof.
  destruct c, x as [|p|t z|s|s]; cbn; intros E; try discriminate E;
    try (injection E as <-; destruct neg; reflexivity);
    injection E as <-; destruct p, neg; reflexivity.
Qed.

Lemma wrap_fits t z : fits t z -> wrap t z = z.
Proof.
  unfold fits, wrap. intros H. rewrite Z.mod_small; [lia|].
  destruct t; cbn [bits] in *; lia.
Qed.

Lemma neg_spec x v : sql_neg x = Some v -> perform_neg x = Ok v /\ stored_val v.
Proof.
  destruct x as [|b|t z|s|s]; cbn [sql_neg]; intros E; try discriminate E.
  - injection E as <-. split; [reflexivity|exact I].
  - destruct ((_ <=? _) && _) eqn:R; [|discriminate].
    assert (v = VInt t (- z)) as -> by congruence.
    assert (F : fits t (- z)) by (unfold fits; lia).
    cbn [perform_neg stored_val]. rewrite (wrap_fits _ _ F). auto.
Qed.

(** Comparisons, logic, NULL tests and COALESCE over columns and constants. *)
Lemma logical_supported e r : logical e -> supported e r.
Proof. induction e; cbn; tauto. Qed.

Theorem eval_sem e r v :
  Forall stored_val r -> stored_consts e -> supported e r ->
  sem e r = Some v -> eval e r = Ok v /\ stored_val v.
Proof.
  intros Hr. revert v. induction e; cbn [stored_consts supported sem eval]; intros v0 Hc Hs E.
  - rewrite E. split; [reflexivity|].
    apply nth_error_In in E. rewrite Forall_forall in Hr. auto.
  - injection E as <-. auto.
  - destruct Hc as [C1 C2], Hs as (S1 & S2 & N1 & N2).
    destruct (sem e1 r) as [x|]; [|discriminate]. destruct (sem e2 r) as [y|]; [|discriminate].
    cbn [obind] in E. destruct (IHe1 _ C1 S1 eq_refl) as [-> _]. destruct (IHe2 _ C2 S2 eq_refl) as [-> _].
    cbn [bind]. apply arith_spec; congruence.
  - destruct Hc as [C1 C2], Hs as (S1 & S2).
    destruct (sem e1 r) as [x|]; [|discriminate]. destruct (sem e2 r) as [y|]; [|discriminate].
    cbn [obind] in E. destruct (IHe1 _ C1 S1 eq_refl) as [-> W1]. destruct (IHe2 _ C2 S2 eq_refl) as [-> W2].
    cbn [bind]. apply comparison_spec; assumption.
  - destruct Hc as [C1 C2], Hs as (S1 & S2).
    destruct (sem e1 r) as [x|]; [|discriminate]. cbn [obind] in E.
    destruct (truth x) as [a|] eqn:T1; [|discriminate]. cbn [obind] in E.
    destruct (sem e2 r) as [y|]; [|discriminate]. cbn [obind] in E.
    destruct (truth y) as [b|] eqn:T2; [|discriminate].
    destruct (IHe1 _ C1 S1 eq_refl) as [-> _]. destruct (IHe2 _ C2 S2 eq_refl) as [-> _].
    cbn [bind]. rewrite (and_spec _ _ _ _ T1 T2).
    assert (v0 = of_truth (Z.min a b)) as -> by (cbn [obind] in E; congruence).
    split; [reflexivity|apply of_truth_stored].
  - destruct Hc as [C1 C2], Hs as (S1 & S2).
    destruct (sem e1 r) as [x|]; [|discriminate]. cbn [obind] in E.
    destruct (truth x) as [a|] eqn:T1; [|discriminate]. cbn [obind] in E.
    destruct (sem e2 r) as [y|]; [|discriminate]. cbn [obind] in E.
    destruct (truth y) as [b|] eqn:T2; [|discriminate].
    destruct (IHe1 _ C1 S1 eq_refl) as [-> _]. destruct (IHe2 _ C2 S2 eq_refl) as [-> _].
    cbn [bind]. rewrite (or_spec _ _ _ _ T1 T2).
    assert (v0 = of_truth (Z.max a b)) as -> by (cbn [obind] in E; congruence).
    split; [reflexivity|apply of_truth_stored].
  - destruct (sem e r) as [x|]; [|discriminate]. cbn [obind] in E.
    destruct (truth x) as [a|] eqn:T1; [|discriminate].
    destruct (IHe _ Hc Hs eq_refl) as [-> _]. cbn [bind]. rewrite (not_spec _ _ T1).
    assert (v0 = of_truth (2 - a)) as -> by (cbn [obind] in E; congruence).
    split; [reflexivity|apply of_truth_stored].
  - destruct (sem e r) as [x|]; [|discriminate]. cbn [obind] in E.
    destruct (IHe _ Hc Hs eq_refl) as [-> _]. cbn [bind]. apply neg_spec. exact E.
  - destruct (sem e r) as [x|]; [|discriminate]. cbn [obind] in E.
    destruct (sql_is c x) as [b|] eqn:T1; [|discriminate].
    destruct (IHe _ Hc Hs eq_refl) as [-> _]. cbn [bind]. rewrite (is_spec _ _ neg _ T1).
    injection E as <-. split; [reflexivity|exact I].
  - destruct Hc as [C1 C2], Hs as (S1 & NE & K).
    destruct (sem e r) as [x|]; [|discriminate]. cbn [obind] in E. specialize (K x eq_refl).
    destruct (sql_in x l) as [t|] eqn:T; [|discriminate]. cbn [option_map] in E.
    destruct (IHe _ C1 S1 eq_refl) as [-> _]. cbn [bind].
    assert (check_in x l = of_truth t) as ->.
    { destruct (is_null x) eqn:Nx.
      - destruct x; try discriminate Nx. cbn [check_in].
        rewrite (sql_in_null _ _ T NE). reflexivity.
      - replace (check_in x l) with (in_list x l false) by (destruct x; try reflexivity; discriminate Nx).
        rewrite (in_list_spec x l t false Nx K T). reflexivity. }
    pose proof (sql_in_range2 _ _ _ T) as R.
      injection E as <-. split; [|destruct neg; apply of_truth_stored].
      destruct neg; [|reflexivity].
      destruct R as [R|[R|R]]; rewrite R; reflexivity.
  - destruct Hc as [C1 C2], Hs as (S1 & S2 & K).
    destruct (sem e1 r) as [x|]; [|discriminate]. destruct (sem e2 r) as [y|]; [|discriminate].
    cbn [obind] in E. specialize (K x y eq_refl eq_refl).
    destruct (sql_distinct x y) as [d|] eqn:D; [|discriminate].
    destruct (IHe1 _ C1 S1 eq_refl) as [-> _]. destruct (IHe2 _ C2 S2 eq_refl) as [-> _].
    cbn [bind]. rewrite (distinct_spec _ _ _ K D). injection E as <-. split; [reflexivity|exact I].
  - destruct Hc as (C1 & C2 & C3), Hs as (S1 & S2 & S3 & N).
    destruct (sem e1 r) as [x|]; [|discriminate]. cbn [obind] in E.
    destruct (truth x) as [a|] eqn:T1; [|discriminate]. cbn [obind] in E.
    destruct (IHe1 _ C1 S1 eq_refl) as [-> _]. cbn [bind].
    apply truth_cases in T1 as [[-> ->]|(b & -> & ->)]; [congruence|].
    destruct b; cbn in E; [apply IHe2|apply IHe3]; assumption.
  - destruct Hc as [C1 C2], Hs as (S1 & S2).
    destruct (sem e1 r) as [x|]; [|discriminate]. cbn [obind] in E.
    destruct (IHe1 _ C1 S1 eq_refl) as [-> W]. cbn [bind].
    destruct x; cbn [is_null] in E; try (injection E as <-; split; [reflexivity|exact W]).
    apply IHe2; assumption.
  - destruct Hs as (S1 & K).
    destruct (sem e r) as [x|]; [|discriminate]. cbn [obind] in E. specialize (K x eq_refl).
    destruct (IHe _ Hc S1 eq_refl) as [-> W]. cbn [bind]. apply cast_spec; assumption.
Qed.

Lemma perform_arith_inv op xa xb v :
  perform_arith op xa xb = Ok v ->
  exists t x u y z, Ok xa = Ok (VInt t x) /\ Ok xb = Ok (VInt u y) /\
    exact op x y = Some z /\ fits (join t u) z /\ v = VInt (join t u) z.
Proof.
  destruct xa as [|b|t x|s|s], xb as [|b'|u y|s'|s']; cbn [perform_arith]; try discriminate.
  intros H. exists t, x, u, y.
  assert (X : forall o, match o with Some z => if in_range (wider t u) z then Ok (VInt (wider t u) z) else Err | None => Err end = Ok v ->
     exists z, o = Some z /\ fits (join t u) z /\ v = VInt (join t u) z).
  { intros [z|] E; [|discriminate]. exists z. rewrite wider_join in E.
    destruct (in_range (join t u) z) eqn:R; [|discriminate].
    apply in_range_fits in R. split; [reflexivity|]. split; [exact R|congruence]. }
  apply X in H as (z & E & F & ->). exists z. repeat split; try assumption; try reflexivity.
  all: apply F.
Qed.

Lemma perform_arith_ok op t x u y z :
  exact op x y = Some z -> fits (join t u) z ->
  perform_arith op (VInt t x) (VInt u y) = Ok (VInt (join t u) z).
Proof.
  intros E F. apply in_range_fits in F. unfold perform_arith. unfold exact in E. rewrite E.
  rewrite wider_join, F. reflexivity.
Qed.
