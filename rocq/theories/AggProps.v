(** * GROUP BY and aggregates: C49 *)
From Coq Require Import String ZArith Lia.
From stdpp Require Import list.
From Verif Require Import ExprModel ExecModel AggModel AggSpec AggProofs.
Local Open Scope Z_scope.

Lemma agg_init_ok keys aggs rows : rows <> [] \/ keys <> [] ->
  Forall (fun r => exists k, has_key keys r k) rows ->
  (forall k, Forall (fun a => agg_fine a (group keys k rows) /\ counts_no_null a (group keys k rows)) aggs) ->
  exists gs, agg_init keys aggs (map Row rows) = GOk gs /\ gs_ok keys aggs rows gs.
Proof.
  intros Hne Hk Hf. destruct (loop_ok keys aggs rows [] [] (gs_ok_nil keys aggs) Hk) as (gs & E & Hg).
  - intros k. eapply Forall_impl; [apply (Hf k)|]. intros a [H _]. by apply fine_ok.
  - exists gs. split; [|done]. unfold agg_init. rewrite E. destruct rows as [|r rows]; [|done]. destruct keys; [|done]. by destruct Hne.
Qed.

Lemma group_ne keys k rows : (exists r, r ∈ rows /\ has_key keys r k) -> group keys k rows <> [].
Proof.
  intros (r & Hr & Hk) E. assert (r ∈ group keys k rows) as Hin.
  { unfold group. apply elem_of_list_In, filter_In. split; [by apply elem_of_list_In|]. by destruct (has_key_dec keys r k). }
  rewrite E in Hin. by apply elem_of_nil in Hin.
Qed.

(** C49, partial: over rows that can be aggregated (the sums of one integer type, and in range;
    extremes of comparable values; no NULL in a counted expression), if there is a row or a GROUP
    BY, the executor answers, and every answer has exactly one row per distinct key, the key
    followed by each aggregate of that group's rows.  Missing: COUNT of a NULL, SUM over no rows,
    overflow, and errors; see the refutations. *)
Theorem c49_groups_partial : forall keys aggs rows,
  rows <> [] \/ keys <> [] ->
  Forall (fun r => exists k, has_key keys r k) rows ->
  (forall k, Forall (fun a => agg_fine a (group keys k rows) /\ counts_no_null a (group keys k rows)) aggs) ->
  (exists out, agg_answer keys aggs (map Row rows) out) /\
  forall out, agg_answer keys aggs (map Row rows) out ->
    exists gs : list (list val * list val),
      out = map (fun g => Row (g.1 ++ g.2)) gs /\
      NoDup (map fst gs) /\
      (forall k, k ∈ map fst gs <-> exists r, r ∈ rows /\ has_key keys r k) /\
      (forall k vs, (k, vs) ∈ gs -> Forall2 (fun a v => agg_means a (group keys k rows) v) aggs vs).
Proof.
  intros keys aggs rows Hne Hk Hf. destruct (agg_init_ok keys aggs rows Hne Hk Hf) as (gs & E & Hnd & Hks & Hvs). split.
  - eexists. by apply (ans_ok _ _ _ gs gs).
  - intros out H. inversion H as [gs' gs2 E' Hp|E']; [|congruence]. assert (gs' = gs) by congruence. subst gs'. exists gs2. split; [done|].
    split; [|split].
    + change (NoDup (fst <$> gs2)). by rewrite Hp.
    + intros k. rewrite <- Hks. change (k ∈ fst <$> gs2 <-> k ∈ fst <$> gs). by rewrite Hp.
    + intros k vs Hin. rewrite Hp in Hin. pose proof (Hvs k vs Hin) as Hv.
      assert (Hr : exists r, r ∈ rows /\ has_key keys r k). { apply Hks. apply elem_of_list_fmap. by exists (k, vs). }
      specialize (Hf k). clear -Hv Hf Hr. pose proof (group_ne _ _ _ Hr) as Hg. clear Hr. revert Hf. induction Hv as [|a v aggs vs Hs _ IH]; intros Hf; constructor.
      * inversion Hf as [|? ? [? ?] ?]; subst. by apply agg_state_means.
      * apply IH. by inversion Hf.
Qed.
Print Assumptions c49_groups_partial.

(** With no rows and no GROUP BY there is one row; its counts are 0 and its extremes NULL. *)
Theorem c49_no_rows_partial : forall aggs out, agg_answer [] aggs [] out ->
  exists vs, out = [Row vs] /\ Forall2 (fun a v => match a with AgSum _ => True | _ => agg_means a [] v end) aggs vs.
Proof.
  intros aggs out H. inversion H as [gs gs2 E Hp|E]; [|done]. unfold agg_init in E. cbn in E. injection E as <-.
  apply Permutation_singleton_r in Hp. subst gs2. eexists. split; [done|].
  clear. induction aggs as [|a aggs IH]; constructor; [by destruct a|done].
Qed.
Print Assumptions c49_no_rows_partial.

Local Definition r1 : list row :=
  [[VVar "a"; VInt Integer 5]; [VVar "b"; VInt Integer 7]; [VVar "a"; VNull]; [VNull; VInt Integer 1]; [VVar "a"; VInt Integer (-2)]; [VNull; VInt Integer 3]].
Local Definition aggs2 : list agg := [AgCountStar; AgSum (ECol 1); AgMin (ECol 1); AgMax (ECol 1)].

Example c49_ex :
  agg_init [ECol 0] aggs2 (map Row r1) =
    GOk [([VVar "a"], [VInt BigInt 3; VInt Integer 3; VInt Integer (-2); VInt Integer 5]);
         ([VVar "b"], [VInt BigInt 1; VInt Integer 7; VInt Integer 7; VInt Integer 7]);
         ([VNull], [VInt BigInt 2; VInt Integer 4; VInt Integer 1; VInt Integer 3])] /\
  group [ECol 0] [VVar "a"] r1 = [[VVar "a"; VInt Integer 5]; [VVar "a"; VNull]; [VVar "a"; VInt Integer (-2)]] /\
  Forall (fun r => exists k, has_key [ECol 0] r k) r1 /\
  Forall (fun a => agg_fine a (group [ECol 0] [VVar "a"] r1) /\ counts_no_null a (group [ECol 0] [VVar "a"] r1)) aggs2.
Proof.
  split; [reflexivity|]. split; [reflexivity|]. split; [repeat constructor; eexists; repeat constructor|].
  replace (group [ECol 0] [VVar "a"] r1) with [[VVar "a"; VInt Integer 5]; [VVar "a"; VNull]; [VVar "a"; VInt Integer (-2)]] by reflexivity.
  constructor; [done|]. constructor.
  { split; [|done]. cbn. split; [repeat constructor; by eexists|]. exists Integer. split; [repeat constructor; by eexists|done]. }
  assert (forall v w, v ∈ [VInt Integer 5; VInt Integer (-2)] -> w ∈ [VInt Integer 5; VInt Integer (-2)] -> comparable v w).
  { intros v w Hv Hw. repeat (apply elem_of_cons in Hv as [->|Hv]; [repeat (apply elem_of_cons in Hw as [->|Hw]; [done|]); by apply elem_of_nil in Hw|]).
    by apply elem_of_nil in Hv. }
  constructor; [split; [cbn; split; [repeat constructor; by eexists|done]|done]|].
  constructor; [split; [cbn; split; [repeat constructor; by eexists|done]|done]|]. constructor.
Qed.

(** COUNT(x) counts the rows where x is NULL. *)
Theorem c49_count_null_refuted : exists e rows out,
  agg_answer [] [AgCount e] (map Row rows) out /\ args e rows = [] /\ out = [Row [VInt BigInt 1]].
Proof.
  exists (ECol 0), [[VNull]]. eexists. split; [|split; [reflexivity|reflexivity]].
  apply (ans_ok _ _ _ [([], [VInt BigInt 1])] [([], [VInt BigInt 1])]); reflexivity.
Qed.
Print Assumptions c49_count_null_refuted.

(** SUM wraps when the column's type is too small for the sum. *)
Theorem c49_sum_overflow_refuted : exists e rows out,
  agg_answer [] [AgSum e] (map Row rows) out /\ zsum (args e rows) = 2 ^ 31 /\ out = [Row [VInt Integer (- 2 ^ 31)]].
Proof.
  exists (ECol 0), [[VInt Integer (2 ^ 31 - 1)]; [VInt Integer 1]]. eexists. split; [|split; [reflexivity|reflexivity]].
  apply (ans_ok _ _ _ [([], [VInt Integer (- 2 ^ 31)])] [([], [VInt Integer (- 2 ^ 31)])]); reflexivity.
Qed.
Print Assumptions c49_sum_overflow_refuted.

(** SUM over no rows is 0, not NULL. *)
Theorem c49_sum_empty_refuted : exists e out,
  agg_answer [] [AgSum e] [] out /\ out = [Row [VInt Integer 0]] /\ agg_means (AgSum e) [] VNull.
Proof.
  exists (ECol 0). eexists. split; [|split; [reflexivity|done]].
  apply (ans_ok _ _ _ [([], [VInt Integer 0])] [([], [VInt Integer 0])]); reflexivity.
Qed.
Print Assumptions c49_sum_empty_refuted.

(** An aggregate that cannot be computed makes the later ones wrong, silently: SUM of booleans
    before COUNT( * ) leaves the count at 1. *)
Theorem c49_error_skips_refuted : exists e rows out,
  agg_answer [] [AgSum e; AgCountStar] (map Row rows) out /\ length rows = 3%nat /\ out = [Row [VBool true; VInt BigInt 1]].
Proof.
  exists (ECol 0), [[VBool true]; [VBool true]; [VBool false]]. eexists. split; [|split; [reflexivity|reflexivity]].
  apply (ans_ok _ _ _ [([], [VBool true; VInt BigInt 1])] [([], [VBool true; VInt BigInt 1])]); reflexivity.
Qed.
Print Assumptions c49_error_skips_refuted.

(** A child that fails gives an empty answer instead of the error. *)
Theorem c49_child_error_refuted : exists keys aggs rows out,
  agg_answer keys aggs (map Row rows ++ [Fail]) out /\ rows <> [] /\ out = [].
Proof. exists [], [AgCountStar], [[VInt Integer 1]], []. split; [by apply ans_fail|done]. Qed.
Print Assumptions c49_child_error_refuted.
