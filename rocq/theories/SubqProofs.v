(** * Lemmas about quantified comparisons and subqueries *)
From Coq Require Import String ZArith List Bool Lia.
From Verif Require Import ExprModel ExprSpec ExprProofs SubqModel SubqSpec.
Import ListNotations.
Open Scope Z_scope.

(** compare_op agrees with the SQL comparison on values of the same kind. *)
Lemma compare_op_sql : forall op x y a,
  same_kind x y -> sql_cmp op x y = Some a -> of_cmpbool (compare_op op x y) = a.
Proof.
  intros op x y a K E.
  destruct x as [|[]|t z|s|s], y as [|[]|u w|s'|s']; cbn in *; try contradiction; try discriminate;
    try (injection E as <-; try reflexivity).
  all: try (destruct op; reflexivity).
  - destruct (z ?= w), op; reflexivity.
  - destruct (String.compare s s'), op; reflexivity.
  - destruct (String.compare s s'), op; reflexivity.
Qed.

Definition tr (c : cmpbool) : Z := match c with CmpFalse => 0 | CmpNull => 1 | CmpTrue => 2 end.

Lemma truth_of_cmpbool : forall c, truth (of_cmpbool c) = Some (tr c).
Proof. destruct c; reflexivity. Qed.

Lemma each_ok : forall op x l ts,
  Forall (same_kind x) l -> each op x l = Some ts -> ts = map (fun y => tr (compare_op op x y)) l.
Proof.
  intros op x. induction l as [|y l IH]; intros ts K E; cbn in *.
  - congruence.
  - inversion K as [|? ? K1 K2]; subst.
    destruct (sql_cmp op x y) as [a|] eqn:Ea; [|discriminate]. cbn in E.
    destruct (truth a) as [t|] eqn:Et; [|discriminate].
    destruct (each op x l) as [ts'|]; [|discriminate]. injection E as <-.
    rewrite (IH ts' K2 eq_refl). apply compare_op_sql in Ea; [|assumption]. subst a.
    rewrite truth_of_cmpbool in Et. congruence.
Qed.

Lemma disj_bounds : forall ts, Forall (fun t => 0 <= t <= 2) ts -> 0 <= disj ts <= 2.
Proof. induction 1; cbn; [lia|]. unfold disj in *. cbn. lia. Qed.
Lemma conj_bounds : forall ts, Forall (fun t => 0 <= t <= 2) ts -> 0 <= conj ts <= 2.
Proof. induction 1; cbn; [lia|]. unfold conj in *. cbn. lia. Qed.

Lemma tr_bounds : forall (f : val -> cmpbool) l, Forall (fun t => 0 <= t <= 2) (map (fun y => tr (f y)) l).
Proof. intros f l. induction l; cbn; constructor; auto. destruct (f a); cbn; lia. Qed.

Lemma any_loop_ok : forall op x l null,
  any_loop op x l null =
  of_truth (Z.max (if null then 1 else 0) (disj (map (fun y => tr (compare_op op x y)) l))).
Proof.
  intros op x. induction l as [|y l IH]; intros null; cbn [any_loop map disj fold_right].
  - destruct null; reflexivity.
  - pose proof (disj_bounds _ (tr_bounds (compare_op op x) l)) as B. unfold disj in *.
    destruct (compare_op op x y); cbn [tr].
    + rewrite IH. f_equal. lia.
    + replace (Z.max _ _) with 2 by (destruct null; lia). reflexivity.
    + rewrite IH. f_equal. destruct null; lia.
Qed.

Lemma in_list_any : forall x l null, in_list x l null = any_loop Eq x l null.
Proof.
  intros x. induction l as [|y l IH]; intros null; cbn; [reflexivity|].
  destruct (compare_op Eq x y); auto.
Qed.

(** UNKNOWN is never followed by FALSE. *)
Fixpoint no_late_false (ts : list Z) : Prop :=
  match ts with
  | [] => True
  | t :: r => (t = 1 -> ~ In 0 r) /\ no_late_false r
  end.

Lemma conj_no_false : forall ts,
  Forall (fun t => 0 <= t <= 2) ts -> ~ In 0 ts -> 1 <= conj ts <= 2.
Proof.
  induction 1 as [|t ts H F IH]; intros N; cbn; [lia|].
  cbn in N. assert (t <> 0) by (intro; subst; tauto).
  assert (1 <= conj ts <= 2) by (apply IH; tauto). unfold conj in *. lia.
Qed.

Lemma all_loop_ok : forall op x l,
  no_late_false (map (fun y => tr (compare_op op x y)) l) ->
  all_loop op x l = of_truth (conj (map (fun y => tr (compare_op op x y)) l)).
Proof.
  intros op x. induction l as [|y l IH]; intros N; cbn [all_loop map conj fold_right] in *; [reflexivity|].
  destruct N as [N1 N2]. specialize (IH N2).
  pose proof (conj_bounds _ (tr_bounds (compare_op op x) l)) as B.
  destruct (compare_op op x y); cbn [tr] in *.
  - unfold conj in B. replace (Z.min _ _) with 0 by lia. reflexivity.
  - rewrite IH. f_equal. unfold conj in *. lia.
  - specialize (N1 eq_refl).
    pose proof (conj_no_false _ (tr_bounds (compare_op op x) l) N1) as B2. unfold conj in B2.
    replace (Z.min _ _) with 1 by lia. reflexivity.
Qed.

(** The first comparison that is not TRUE decides. *)
Lemma all_loop_null : forall op x l1 y l2,
  Forall (fun z => compare_op op x z = CmpTrue) l1 -> compare_op op x y = CmpNull ->
  all_loop op x (l1 ++ y :: l2) = VNull.
Proof.
  intros op x l1 y l2 F E. induction F as [|z l H F IH]; cbn.
  - rewrite E. reflexivity.
  - rewrite H. exact IH.
Qed.

Lemma eval_array_ok : forall l r vs,
  Forall stored_val r -> Forall stored_consts l -> Forall (fun e => supported e r) l ->
  values l r = Some vs -> eval_array l r = Ok vs.
Proof.
  induction l as [|e l IH]; intros r vs R C S E; cbn in *; [congruence|].
  inversion C; inversion S; subst.
  destruct (sem e r) as [v|] eqn:Ev; [|discriminate].
  destruct (values l r) as [vs'|] eqn:El; [|discriminate]. injection E as <-.
  destruct (eval_sem e r v) as [-> _]; try assumption. cbn.
  rewrite (IH r vs'); try assumption. reflexivity.
Qed.

Lemma values_consts : forall vs r, values (map EConst vs) r = Some vs.
Proof. induction vs as [|v vs IH]; intros r; cbn; [reflexivity|]. rewrite IH. reflexivity. Qed.

Lemma disj_repeat : forall t n, 0 <= t -> disj (repeat t (S n)) = t.
Proof.
  intros t n H. induction n as [|n IH].
  - cbn. lia.
  - change (repeat t (S (S n))) with (t :: repeat t (S n)). unfold disj in *. cbn [fold_right] in *.
    rewrite IH. lia.
Qed.
