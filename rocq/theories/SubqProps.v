(** * C84, C85: quantified comparisons, IN lists and subqueries *)
From Coq Require Import String ZArith List Bool Lia Permutation.
From Verif Require Import ExprModel ExprSpec ExprProofs SubqModel SubqSpec SubqProofs.
Import ListNotations.
Open Scope Z_scope.

(** ** C84: ANY, ALL and IN over a list mean the disjunction or conjunction *)

(** [x op ANY (l)] is the disjunction of the comparisons, in every row.  Partial: the
    operands are those the engine evaluates as SQL does (C50), and VARCHAR and CHAR are
    not compared with each other. *)
Theorem c84_any_partial : forall d op x l r v vs a,
  Forall stored_val r -> stored_consts x -> supported x r -> sem x r = Some v ->
  Forall stored_consts l -> Forall (fun e => supported e r) l -> values l r = Some vs ->
  Forall (same_kind v) vs -> sql_any op v vs = Some a ->
  exists p, parse_cond d (CAny op x l) = Some p /\ eval_cond p r = Ok a /\
    (cond_pass p r = true <-> a = VBool true).
Proof.
  intros d op x l r v vs a R C S E Cl Sl El K A.
  exists (PAny op x l). split; [reflexivity|].
  assert (H : eval_cond (PAny op x l) r = Ok a).
  { cbn [eval_cond]. destruct (eval_sem x r v) as [-> _]; try assumption. cbn [bind].
    rewrite (eval_array_ok l r vs); try assumption. cbn [bind].
    unfold sql_any in A. destruct (each op v vs) as [ts|] eqn:Et; [|discriminate].
    injection A as <-. apply each_ok in Et; [|assumption]. subst ts.
    rewrite any_loop_ok. f_equal. f_equal.
    pose proof (disj_bounds _ (tr_bounds (compare_op op v) vs)). lia. }
  split; [exact H|]. unfold cond_pass. rewrite H.
  destruct a as [|[]| | |]; split; congruence.
Qed.
Print Assumptions c84_any_partial.

(** 3 > ANY (ARRAY[NULL, b, 7]) in a row with b = 2 is TRUE although the first comparison
    is UNKNOWN. *)
Example c84_any_ex :
  let l := [EConst VNull; ECol 1; EConst (VInt BigInt 7)] in
  let r := [VInt Integer 3; VInt TinyInt 2] in
  values l r = Some [VNull; VInt TinyInt 2; VInt BigInt 7] /\
  sql_any Gt (VInt Integer 3) [VNull; VInt TinyInt 2; VInt BigInt 7] = Some (VBool true) /\
  Forall (same_kind (VInt Integer 3)) [VNull; VInt TinyInt 2; VInt BigInt 7] /\
  Forall (fun e => supported e r) l /\
  eval_cond (PAny Gt (ECol 0) l) r = Ok (VBool true) /\
  eval_cond (PAny Eq (ECol 0) l) r = Ok VNull.
Proof. repeat split; repeat constructor. Qed.

(** [x op ALL (l)] is the conjunction of the comparisons, provided no UNKNOWN comparison
    comes before a FALSE one.  Partial as above. *)
Theorem c84_all_partial : forall d op x l r v vs ts,
  Forall stored_val r -> stored_consts x -> supported x r -> sem x r = Some v ->
  Forall stored_consts l -> Forall (fun e => supported e r) l -> values l r = Some vs ->
  Forall (same_kind v) vs -> each op v vs = Some ts ->
  (forall l1 l2, ts = l1 ++ 1 :: l2 -> ~ In 0 l2) ->
  exists p, parse_cond d (CAll op x l) = Some p /\ eval_cond p r = Ok (of_truth (conj ts)).
Proof.
  intros d op x l r v vs ts R C S E Cl Sl El K A N.
  exists (PAll op x l). split; [reflexivity|].
  cbn [eval_cond]. destruct (eval_sem x r v) as [-> _]; try assumption. cbn [bind].
  rewrite (eval_array_ok l r vs); try assumption. cbn [bind].
  apply each_ok in A; [|assumption].
  assert (L : no_late_false ts).
  { clear - N. induction ts as [|t ts IH]; cbn; [exact I|]. split.
    - intros ->. apply (N [] ts). reflexivity.
    - apply IH. intros l1 l2 ->. apply (N (t :: l1) l2). reflexivity. }
  subst ts. rewrite all_loop_ok by assumption. reflexivity.
Qed.
Print Assumptions c84_all_partial.

(** Without NULLs ALL is exact. *)
Theorem c84_all_no_null_partial : forall d op x l r v vs a,
  Forall stored_val r -> stored_consts x -> supported x r -> sem x r = Some v ->
  Forall stored_consts l -> Forall (fun e => supported e r) l -> values l r = Some vs ->
  Forall (same_kind v) vs -> v <> VNull -> ~ In VNull vs -> sql_all op v vs = Some a ->
  exists p, parse_cond d (CAll op x l) = Some p /\ eval_cond p r = Ok a.
Proof.
  intros d op x l r v vs a R C S E Cl Sl El K Nv Nvs A.
  unfold sql_all in A. destruct (each op v vs) as [ts|] eqn:Et; [|discriminate]. injection A as <-.
  eapply c84_all_partial; try eassumption.
  intros l1 l2 Ht. exfalso. clear - Et Ht Nv Nvs.
  assert (In 1 ts) as H by (rewrite Ht; apply in_or_app; right; left; reflexivity).
  clear Ht l1 l2. revert ts Et H. induction vs as [|y vs IH]; intros ts Et H; cbn in Et.
  - injection Et as <-. contradiction H.
  - destruct (obind (sql_cmp op v y) truth) as [t|] eqn:Ec; [|discriminate].
    destruct (each op v vs) as [ts'|]; [|discriminate]. injection Et as <-.
    destruct H as [->|H].
    + unfold sql_cmp in Ec. cbn in Nvs.
      replace (is_null v) with false in Ec by (destruct v; try reflexivity; exfalso; apply Nv; reflexivity).
      replace (is_null y) with false in Ec by (destruct y; try reflexivity; exfalso; apply Nvs; left; reflexivity).
      cbn in Ec. destruct (sql_order v y) as [c|]; [|discriminate]. cbn in Ec.
      destruct (holds op c); discriminate.
    + apply (IH ltac:(cbn in Nvs; tauto) ts' eq_refl H).
Qed.
Print Assumptions c84_all_no_null_partial.

Example c84_all_ex :
  let vs := [VInt Integer 9; VInt TinyInt 2; VNull] in
  each Lt (VInt Integer 3) vs = Some [2; 0; 1] /\
  eval_cond (PAll Lt (ECol 0) (map EConst vs)) [VInt Integer 3] = Ok (VBool false) /\
  eval_cond (PAll Lt (ECol 0) (map EConst [VInt Integer 9; VNull])) [VInt Integer 3] = Ok VNull.
Proof. repeat split. Qed.

(** With a NULL before it, a FALSE comparison is not noticed: whatever follows the first
    UNKNOWN comparison, the answer is NULL. *)
Theorem c84_all_null_first_refuted :
  (forall op x l1 y l2 r v ws,
     eval x r = Ok v -> eval_array (l1 ++ y :: l2) r = Ok ws ->
     forall vs w us, ws = vs ++ w :: us -> Forall (fun z => compare_op op v z = CmpTrue) vs ->
     compare_op op v w = CmpNull -> eval_cond (PAll op x (l1 ++ y :: l2)) r = Ok VNull) /\
  exists op x l r v vs,
    sem x r = Some v /\ values l r = Some vs /\ sql_all op v vs = Some (VBool false) /\
    eval_cond (PAll op x l) r = Ok VNull.
Proof.
  split.
  - intros op x l1 y l2 r v ws Ex Ea vs w us -> F Ew. cbn [eval_cond]. rewrite Ex. cbn [bind].
    rewrite Ea. cbn [bind]. rewrite all_loop_null; auto.
  - exists Lt, (ECol 0), [EConst VNull; EConst (VInt Integer 2)], [VInt Integer 3], (VInt Integer 3),
      [VNull; VInt Integer 2]. repeat split.
Qed.
Print Assumptions c84_all_null_first_refuted.

(** So the order of the list matters, and NOT (x op ALL l) keeps or drops a row
    according to it. *)
Theorem c84_all_order_refuted : exists op x l l' r,
  Permutation l l' /\
  eval_cond (PAll op x l) r = Ok (VBool false) /\ eval_cond (PAll op x l') r = Ok VNull.
Proof.
  exists Lt, (ECol 0), [EConst (VInt Integer 2); EConst VNull], [EConst VNull; EConst (VInt Integer 2)],
    [VInt Integer 3].
  split; [constructor|repeat split].
Qed.
Print Assumptions c84_all_order_refuted.

(** [x IN (c1, ..., cn)] and its negation over constants. *)
Theorem c84_in_constants_partial : forall d neg x cs r v a,
  Forall stored_val r -> stored_consts x -> supported x r -> sem x r = Some v ->
  Forall stored_val cs -> cs <> [] -> Forall (same_kind v) cs -> sql_in_list neg v cs = Some a ->
  exists p, parse_cond d (CIn neg x (map EConst cs)) = Some p /\ eval_cond p r = Ok a /\
    (cond_pass p r = true <-> a = VBool true).
Proof.
  intros d neg x cs r v a R C S E Cc N K A.
  exists (PExpr (EIn neg x cs)). split.
  { cbn. do 3 f_equal. rewrite map_map. cbn. apply map_id. }
  assert (H : eval_cond (PExpr (EIn neg x cs)) r = Ok a).
  { cbn. destruct (eval_sem x r v) as [-> _]; try assumption. cbn [bind].
    unfold sql_in_list in A. destruct (each Eq v cs) as [ts|] eqn:Et; [|discriminate].
    injection A as <-. apply each_ok in Et; [|assumption].
    assert (B : 0 <= disj ts <= 2).
    { subst ts. apply disj_bounds, (tr_bounds (compare_op Eq v)). }
    assert (Hc : check_in v cs = of_truth (disj ts)).
    { unfold check_in. destruct v; try (rewrite in_list_any, any_loop_ok; subst ts; f_equal; lia).
      subst ts. destruct cs as [|c cs]; [contradiction|]. clear.
      assert (disj (map (fun y => tr (compare_op Eq VNull y)) (c :: cs)) = 1) as ->; [|reflexivity].
      induction cs as [|c' cs IH]; [reflexivity|].
      unfold disj in *. cbn in *. lia. }
    rewrite Hc. destruct neg; [|reflexivity].
    assert (disj ts = 0 \/ disj ts = 1 \/ disj ts = 2) as [-> | [-> | ->]] by lia; reflexivity. }
  split; [exact H|]. unfold cond_pass. rewrite H.
  destruct a as [|[]| | |]; split; congruence.
Qed.
Print Assumptions c84_in_constants_partial.

Example c84_in_ex :
  sql_in_list true (VInt Integer 3) [VInt BigInt 1; VInt Integer 4] = Some (VBool true) /\
  sql_in_list false (VInt Integer 3) [VInt BigInt 1; VNull] = Some VNull /\
  eval_cond (PExpr (EIn true (ECol 0) [VInt BigInt 1; VInt Integer 4])) [VInt Integer 3] = Ok (VBool true).
Proof. repeat split. Qed.

(** An item of the list that is not a bare constant -- a negative number, a column, a
    sum -- is replaced with NULL.  So a list of such items never answers TRUE or FALSE,
    and NOT IN never answers TRUE as soon as one item is such. *)
Theorem c84_in_expressions_refuted :
  (forall d x l r p b, l <> [] -> (forall e c, In e l -> e <> EConst c) ->
     parse_cond d (CIn false x l) = Some p -> eval_cond p r <> Ok (VBool b)) /\
  (forall d x l e r p, In e l -> (forall c, e <> EConst c) ->
     parse_cond d (CIn true x l) = Some p -> cond_pass p r = false) /\
  (exists x l r,  (* -1 IN (-1) *)
     sem x r = Some (VInt Integer (-1)) /\ values l r = Some [VInt Integer (-1)] /\
     sql_in_list false (VInt Integer (-1)) [VInt Integer (-1)] = Some (VBool true) /\
     forall d p, parse_cond d (CIn false x l) = Some p -> cond_pass p r = false).
Proof.
  split; [|split].
  - intros d x l r p b N H Hp. injection Hp as <-. cbn.
    assert (Hm : map list_item l = repeat VNull (length l)).
    { clear N. induction l as [|e l IH]; [reflexivity|]. cbn. f_equal.
      - destruct e; try reflexivity. exfalso. apply (H (EConst v) v); [left; reflexivity|reflexivity].
      - apply IH. intros e' c I'. apply H. right. exact I'. }
    rewrite Hm. destruct (eval x r) as [v|]; cbn; [|discriminate].
    assert (Hl : forall n, in_list v (repeat VNull n) true = VNull).
    { induction n as [|n IH]; [reflexivity|]. cbn. destruct v; exact IH. }
    destruct l as [|e l]; [contradiction|]. destruct v; cbn; rewrite ?Hl; discriminate.
  - intros d x l e r p I H Hp. injection Hp as <-. unfold cond_pass. cbn.
    destruct (eval x r) as [v|]; cbn; [|reflexivity].
    assert (Hn : In VNull (map list_item l)).
    { apply in_map_iff. exists e. split; [|exact I]. destruct e; try reflexivity. exfalso. eapply H. reflexivity. }
    assert (Hl : forall m null, null = true \/ In VNull m ->
       in_list v m null = VNull \/ in_list v m null = VBool true).
    { induction m as [|y m IH]; intros null [->|Hi]; cbn; auto.
      - contradiction Hi.
      - destruct (compare_op Eq v y); auto.
      - destruct Hi as [->|Hi].
        + replace (compare_op Eq v VNull) with CmpNull by (destruct v; reflexivity). auto.
        + destruct (compare_op Eq v y); auto. }
    unfold check_in. destruct v; try reflexivity;
      (destruct (Hl _ false (or_intror Hn)) as [->| ->]; reflexivity).
  - exists (ECol 0), [ENeg (EConst (VInt Integer 1))], [VInt Integer (-1)].
    repeat split. intros d p Hp. injection Hp as <-. reflexivity.
Qed.
Print Assumptions c84_in_expressions_refuted.

(** ** C85: a subquery in a condition reads its own table *)

(** The full property is [cond_pass] agreeing with [sql_exists], with [sql_in_list] over
    [sub_values] and with [sql_cmp] to [sql_scalar].  It is refuted: the answer of a
    statement does not depend on the rows of any table but the outer one, however they
    differ. *)
Theorem c85_subquery_blind_refuted :
  (forall d d' t c,
     d t = d' t -> (forall s, option_map fst (d s) = option_map fst (d' s)) ->
     run_select d t c = run_select d' t c) /\
  (exists d d' t q r,
     d t = d' t /\ (forall s, option_map fst (d s) = option_map fst (d' s)) /\
     sql_exists false d q = false /\ sql_exists false d' q = true /\
     run_select d t (CExists false q) = Some [r] /\ run_select d' t (CExists false q) = Some [r]).
Proof.
  split.
  - intros d d' t c Ht Hs. unfold run_select. rewrite Ht.
    replace (parse_cond d' c) with (parse_cond d c); [reflexivity|].
    assert (P : forall q, parse_subquery d q = parse_subquery d' q).
    { intros q. unfold parse_subquery. specialize (Hs (sfrom q)).
      destruct (d (sfrom q)) as [[n rs]|], (d' (sfrom q)) as [[n' rs']|]; cbn in Hs; try discriminate; [|reflexivity].
      injection Hs as <-. reflexivity. }
    destruct c; cbn; try reflexivity; rewrite P; reflexivity.
  - set (q := {| sitem := IExpr (ECol 0); sfrom := 1%nat; swhere := EConst (VBool true) |}).
    exists (fun s => match s with 0%nat => Some (1%nat, [[VInt Integer 5]]) | 1%nat => Some (1%nat, []) | _ => None end),
      (fun s => match s with 0%nat => Some (1%nat, [[VInt Integer 5]]) | 1%nat => Some (1%nat, [[VInt Integer 8]]) | _ => None end),
      0%nat, q, [VInt Integer 5].
    repeat split. intros [|[|s]]; reflexivity.
Qed.
Print Assumptions c85_subquery_blind_refuted.

(** [EXISTS (SELECT e FROM s ...)] keeps every row of the outer table on which [e]
    evaluates, even if [s] is empty, and NOT EXISTS keeps none, whatever [s] holds. *)
Theorem c85_exists_constant_refuted : forall d t q e rows neg out,
  d t = Some rows -> sitem q = IExpr e -> run_select d t (CExists neg q) = Some out ->
  out = if neg then [] else filter (fun r => match eval e r with Ok _ => true | Err => false end) (snd rows).
Proof.
  intros d t q e [n rs] neg out Ht Hi. unfold run_select. rewrite Ht. cbn [parse_cond].
  unfold parse_subquery. destruct (d (sfrom q)) as [[m rs']|]; [|discriminate].
  destruct (cols_ok m (item_expr (sitem q))); [|discriminate]. cbn [option_map]. intros H.
  injection H as <-. rewrite Hi. cbn [snd].
  assert (E : forall r, cond_pass (PExists neg (subquery_type (IExpr e), IExpr e)) r =
    if neg then false else match eval e r with Ok _ => true | Err => false end).
  { intros r. unfold cond_pass. cbn. destruct (eval e r); destruct neg; reflexivity. }
  clear Ht. induction rs as [|r rs IH]; cbn [filter]; [destruct neg; reflexivity|].
  rewrite E, IH. destruct neg; [reflexivity|]. destruct (eval e r); reflexivity.
Qed.
Print Assumptions c85_exists_constant_refuted.

Example c85_exists_constant_ex :
  let d : db := fun s => match s with
    | 0%nat => Some (1%nat, [[VInt Integer 5]; [VNull]]) | 1%nat => Some (1%nat, []) | _ => None end in
  let q := {| sitem := IExpr (ECol 0); sfrom := 1%nat; swhere := EConst (VBool true) |} in
  sql_exists true d q = true /\ run_select d 0 (CExists true q) = Some [] /\
  run_select d 0 (CExists false q) = Some [[VInt Integer 5]; [VNull]].
Proof. repeat split. Qed.

(** [x IN (SELECT c FROM s)] compares [x] with the column of the outer row that has the
    position [c] has in [s]: it keeps a row the subquery does not contain and drops
    one it does contain. *)
Theorem c85_in_subquery_refuted : exists d t q x r1 r2,
  option_map snd (d t) = Some [r1; r2] /\
  sub_values d q = Some [VInt Integer 7] /\
  sem x r1 = Some (VInt Integer 1) /\ sem x r2 = Some (VInt Integer 7) /\
  run_select d t (CInSub false x q) = Some [r1].
Proof.
  exists (fun s => match s with
     | 0%nat => Some (2%nat, [[VInt Integer 1; VInt Integer 1]; [VInt Integer 2; VInt Integer 7]])
     | 1%nat => Some (1%nat, [[VInt Integer 7]]) | _ => None end),
   0%nat, {| sitem := IExpr (ECol 0); sfrom := 1%nat; swhere := EConst (VBool true) |}, (ECol 1),
   [VInt Integer 1; VInt Integer 1], [VInt Integer 2; VInt Integer 7].
  repeat split.
Qed.
Print Assumptions c85_in_subquery_refuted.

(** [x op (SELECT c FROM s ...)] over a column, and any condition on an aggregate
    subquery, keeps no row of any table. *)
Theorem c85_scalar_refuted : forall d t c out,
  match c with
  | CCmpSub _ _ q => match sitem q with IExpr _ | IAgg _ => True | IFun _ => False end
  | CInSub _ _ q | CExists _ q => match sitem q with IAgg _ => True | _ => False end
  | _ => False
  end ->
  run_select d t c = Some out -> out = [].
Proof.
  intros d t c out Hc. unfold run_select. destruct (d t) as [[n rs]|]; [|discriminate].
  destruct (parse_cond d c) as [p|] eqn:Hp; [|discriminate]. intros H. injection H as <-.
  assert (Q : forall q s, parse_subquery d q = Some s -> s = (subquery_type (sitem q), sitem q)).
  { intros q s. unfold parse_subquery. destruct (d (sfrom q)) as [[m rs']|]; [|discriminate].
    destruct (cols_ok _ _); [|discriminate]. congruence. }
  assert (E : forall r, cond_pass p r = false).
  { intros r. unfold cond_pass.
    destruct c as [| | | |neg x q|neg q|op x q]; try contradiction; cbn in Hp;
      destruct (parse_subquery d q) as [s|] eqn:Es; try discriminate; injection Hp as <-;
      apply Q in Es; subst s; destruct (sitem q) as [e|e|e]; try contradiction; cbn.
    - destruct (eval x r); reflexivity.
    - reflexivity.
    - destruct (eval x r) as [v|]; cbn; [|reflexivity]. destruct (eval e r); cbn; [|reflexivity].
      destruct v; reflexivity.
    - destruct (eval x r); reflexivity. }
  induction rs as [|r rs IH]; cbn; [reflexivity|]. rewrite E. exact IH.
Qed.
Print Assumptions c85_scalar_refuted.

(** The subquery selects the one row 7 and the outer table holds a 7, but nothing is kept. *)
Example c85_scalar_ex :
  let d : db := fun s => match s with
    | 0%nat => Some (1%nat, [[VInt Integer 7]]) | 1%nat => Some (1%nat, [[VInt Integer 7]]) | _ => None end in
  let q := {| sitem := IExpr (ECol 0); sfrom := 1%nat; swhere := EConst (VBool true) |} in
  sql_scalar d q = Some (VInt Integer 7) /\ run_select d 0 (CCmpSub Eq (ECol 0) q) = Some [].
Proof. repeat split. Qed.

(** What is left: a subquery whose select list is a constant and which selects at least
    one row is answered correctly, for EXISTS and for IN, in every row. *)
Theorem c85_constant_item_partial : forall d t n rows q c x,
  d t = Some (n, rows) -> sitem q = IExpr (EConst c) -> d (sfrom q) <> None ->
  sub_rows d q <> [] ->
  (forall neg, run_select d t (CExists neg q) =
     Some (filter (fun _ => sql_exists neg d q) rows)) /\
  (Forall (Forall stored_val) rows -> stored_val c -> stored_consts x ->
   Forall (fun r => supported x r /\ exists v, sem x r = Some v /\ same_kind v c /\
      sql_in_list false v [c] <> None) rows ->
   forall neg, run_select d t (CInSub neg x q) =
     Some (filter (fun r => match sem x r, sub_values d q with
                            | Some v, Some vs => match sql_in_list neg v vs with
                                                 | Some (VBool true) => true | _ => false end
                            | _, _ => false end) rows)).
Proof.
  intros d t n rows q c x Ht Hi Hd Hn.
  assert (Hp : parse_subquery d q = Some (SInList, IExpr (EConst c))).
  { unfold parse_subquery. destruct (d (sfrom q)) as [[m rs]|]; [|contradiction]. rewrite Hi. reflexivity. }
  split.
  - intros neg. unfold run_select. rewrite Ht. cbn [parse_cond]. rewrite Hp. cbn [option_map]. f_equal.
    apply filter_ext. intros r. unfold cond_pass, sql_exists. cbn.
    destruct (sub_rows d q); [contradiction|]. destruct neg; reflexivity.
  - intros R Sc Cx F neg. unfold run_select. rewrite Ht. cbn [parse_cond]. rewrite Hp. cbn [option_map]. f_equal.
    assert (V : sub_values d q = Some (repeat c (length (sub_rows d q)))).
    { unfold sub_values. rewrite Hi. generalize (sub_rows d q). induction l as [|r l IH]; cbn; [reflexivity|].
      rewrite IH. reflexivity. }
    rewrite V. clear Ht V Hp.
    induction rows as [|r rows IH]; [reflexivity|].
    inversion R as [|? ? R1 R2]; inversion F as [|? ? [Sx (v & Ev & K & N)] F2]; subst.
    cbn [filter]. rewrite (IH R2 F2).
    match goal with |- (if ?a then _ else _) = (if ?b then _ else _) => assert (a = b) as -> end; [|reflexivity].
    rewrite Ev. destruct (sub_rows d q) as [|r0 rs]; [contradiction|]. cbn [length].
    destruct (sql_in_list false v [c]) as [a|] eqn:A; [|contradiction]. clear N.
    unfold sql_in_list in A. destruct (each Eq v [c]) as [ts|] eqn:Et; [|discriminate].
    assert (Es : each Eq v (repeat c (S (length rs))) = Some (repeat (tr (compare_op Eq v c)) (S (length rs)))).
    { pose proof (each_ok Eq v [c] ts ltac:(constructor; auto) Et) as ->. cbn in Et.
      destruct (obind (sql_cmp Eq v c) truth) as [z|] eqn:Ez; [|discriminate]. injection Et as ->.
      generalize (S (length rs)). intros k. induction k as [|k IHk]; [reflexivity|].
      cbn [repeat each]. rewrite Ez, IHk. reflexivity. }
    unfold sql_in_list. rewrite Es. cbn [option_map].
    rewrite disj_repeat by (destruct (compare_op Eq v c); cbn; lia).
    assert (Hc : check_in v [c] = of_truth (tr (compare_op Eq v c))).
    { unfold check_in. destruct v; try reflexivity; cbn [in_list];
        (match goal with |- context [compare_op Eq ?w c] => destruct (compare_op Eq w c) end; reflexivity). }
    unfold cond_pass. cbn [eval_cond]. destruct (eval_sem x r v) as [-> _]; try assumption.
    cbn [bind eval_subquery fst snd item_expr eval in_subquery]. rewrite Hc.
    destruct (compare_op Eq v c); destruct neg; reflexivity.
Qed.
Print Assumptions c85_constant_item_partial.

Example c85_constant_item_ex :
  let d : db := fun s => match s with
    | 0%nat => Some (1%nat, [[VInt Integer 7]; [VInt Integer 8]])
    | 1%nat => Some (1%nat, [[VInt Integer 3]; [VInt Integer 4]]) | _ => None end in
  let q := {| sitem := IExpr (EConst (VInt Integer 7)); sfrom := 1%nat;
              swhere := ECmp Gt (ECol 0) (EConst (VInt Integer 3)) |} in
  sub_rows d q = [[VInt Integer 4]] /\
  run_select d 0 (CInSub true (ECol 0) q) = Some [[VInt Integer 8]] /\
  run_select d 0 (CExists false q) = Some [[VInt Integer 7]; [VInt Integer 8]].
Proof. repeat split. Qed.
