(** C47 and C57: nested-loop joins and their conditions. *)
From Coq Require Import String ZArith List Bool Arith Lia Permutation.
From Verif Require Import ExprModel ExecModel ExecSpec ExecProofs JoinModel JoinSpec JoinProofs.
Import ListNotations.
Local Open Scope nat_scope.

Lemma joins_total k pred L R : k <> JCross ->
  (forall l r, In l L -> In r R -> pred l r <> Err) ->
  forall l r, In l L -> In r R -> pair_joins k pred l r = Ok (is_true_on pred l r).
Proof.
  intros Hk H l r Hl Hr. specialize (H l r Hl Hr). unfold pair_joins, on_true, is_true_on.
  destruct k; try congruence; (destruct (pred l r) as [[]|]; [reflexivity..|congruence]).
Qed.

Lemma emit_inner pred rw L R k : k <> JLeft ->
  flat_map (emit k rw (is_true_on pred) R) L = inner_rows (is_true_on pred) L R.
Proof.
  intros Hk. unfold inner_rows. induction L as [|l L IH]; [reflexivity|]. cbn. rewrite IH. f_equal.
  unfold emit. destruct k; try congruence; apply app_nil_r.
Qed.

(** C47. INNER JOIN: exactly the pairs on which the condition is TRUE, with their
    multiplicities (and in left-then-right order). *)
Theorem c47_inner : forall pred lw rw L R out,
  (forall l r, In l L -> In r R -> pred l r <> Err) ->
  drains (jstep JInner pred lw rw (map Row R)) (jinit (map Row L)) out <->
  out = map Row (inner_rows (is_true_on pred) L R).
Proof.
  intros pred lw rw L R out H.
  pose proof (join_runs JInner pred lw rw (map Row R) (is_true_on pred) R L eq_refl
                (joins_total JInner pred L R ltac:(discriminate) H)) as D.
  rewrite emit_inner in D by discriminate. cbn in D.
  replace (flat_map (saved JInner (is_true_on pred) R) L) with (@nil row) in D
    by (clear; induction L; auto).
  cbn in D. rewrite app_nil_r in D.
  split; [intros D2; exact (drains_fun _ _ _ D2 _ D)|intros ->; exact D].
Qed.
Print Assumptions c47_inner.

(** C47. CROSS JOIN: every pair. *)
Theorem c47_cross : forall pred lw rw L R out,
  drains (jstep JCross pred lw rw (map Row R)) (jinit (map Row L)) out <->
  out = map Row (cross_rows L R).
Proof.
  intros pred lw rw L R out.
  pose proof (join_runs JCross pred lw rw (map Row R) (fun _ _ => true) R L eq_refl (fun _ _ _ _ => eq_refl)) as D.
  cbn in D. replace (flat_map (saved JCross (fun _ _ => true) R) L) with (@nil row) in D
    by (clear; induction L; auto).
  cbn in D. rewrite app_nil_r in D.
  replace (flat_map (emit JCross rw (fun _ _ => true) R) L) with (cross_rows L R) in D.
  - split; [intros D2; exact (drains_fun _ _ _ D2 _ D)|intros ->; exact D].
  - unfold cross_rows. clear. induction L as [|l L IH]; [reflexivity|]. cbn. rewrite IH. f_equal.
    unfold emit. rewrite app_nil_r. f_equal. clear. induction R as [|r R IH]; [reflexivity|]. cbn. f_equal. exact IH.
Qed.
Print Assumptions c47_cross.

(** C47. LEFT JOIN: the bag of joined pairs and NULL-padded partnerless left rows. *)
Theorem c47_left : forall pred lw rw L R out,
  (forall l r, In l L -> In r R -> pred l r <> Err) ->
  drains (jstep JLeft pred lw rw (map Row R)) (jinit (map Row L)) out ->
  exists rows, out = map Row rows /\ Permutation rows (left_rows (is_true_on pred) rw L R).
Proof.
  intros pred lw rw L R out H D2.
  pose proof (join_runs JLeft pred lw rw (map Row R) (is_true_on pred) R L eq_refl
                (joins_total JLeft pred L R ltac:(discriminate) H)) as D.
  eexists. split; [exact (drains_fun _ _ _ D2 _ D)|]. clear. cbn.
  replace (flat_map (saved JLeft (is_true_on pred) R) L) with (@nil row) by (clear; induction L; auto).
  cbn. rewrite app_nil_r. unfold left_rows.
  induction L as [|l L IH]; [reflexivity|]. cbn. rewrite IH. unfold emit. clear IH.
  destruct (existsb (is_true_on pred l) R); cbn.
  - rewrite app_nil_r, <- app_assoc. reflexivity.
  - rewrite <- !app_assoc. apply Permutation_app_head. unfold pad_right, nulls. cbn.
    apply (Permutation_middle (inner_rows (is_true_on pred) L R)).
Qed.
Print Assumptions c47_left.

(** C47. RIGHT JOIN, when the left side is not empty and no two partnerless right rows are
    equal: the bag of joined pairs and NULL-padded partnerless right rows. Missing: the
    other cases, where it is false (below). *)
Theorem c47_right_partial : forall pred lw rw L R out,
  (forall l r, In l L -> In r R -> pred l r <> Err) ->
  L <> [] -> NoDup (lonely_right (is_true_on pred) L R) ->
  drains (jstep JRight pred lw rw (map Row R)) (jinit (map Row L)) out <->
  out = map Row (right_rows (is_true_on pred) lw L R).
Proof.
  intros pred lw rw L R out H HL N.
  pose proof (join_runs JRight pred lw rw (map Row R) (is_true_on pred) R L eq_refl
                (joins_total JRight pred L R ltac:(discriminate) H)) as D.
  rewrite emit_inner in D by discriminate. unfold final_unr in D.
  rewrite (lonely_first_occ JRight (is_true_on pred) eq_refl R L HL), first_occ_nodup in D by exact N.
  replace (flat_map (saved JRight (is_true_on pred) R) L) with (@nil row) in D by (clear; induction L; auto).
  cbn [map] in D. rewrite app_nil_r in D.
  split; [intros D2; exact (drains_fun _ _ _ D2 _ D)|intros ->; exact D].
Qed.
Print Assumptions c47_right_partial.

Lemma saved_lonely pred R L : flat_map (saved JFull (is_true_on pred) R) L = lonely_left (is_true_on pred) L R.
Proof.
  induction L as [|l L IH]; [reflexivity|]. cbn. rewrite IH. unfold saved.
  destruct (existsb (is_true_on pred l) R); reflexivity.
Qed.

(** C47. FULL JOIN, under the same conditions. Missing: the other cases. *)
Theorem c47_full_partial : forall pred lw rw L R out,
  (forall l r, In l L -> In r R -> pred l r <> Err) ->
  L <> [] -> NoDup (lonely_right (is_true_on pred) L R) ->
  drains (jstep JFull pred lw rw (map Row R)) (jinit (map Row L)) out <->
  out = map Row (full_rows (is_true_on pred) lw rw L R).
Proof.
  intros pred lw rw L R out H HL N.
  pose proof (join_runs JFull pred lw rw (map Row R) (is_true_on pred) R L eq_refl
                (joins_total JFull pred L R ltac:(discriminate) H)) as D.
  rewrite emit_inner in D by discriminate. unfold final_unr in D.
  rewrite (lonely_first_occ JFull (is_true_on pred) eq_refl R L HL), first_occ_nodup in D by exact N.
  rewrite saved_lonely in D.
  split; [intros D2; exact (drains_fun _ _ _ D2 _ D)|intros ->; exact D].
Qed.
Print Assumptions c47_full_partial.

(** C47. In the remaining cases the outer joins lose rows and do nothing else wrong: what
    they return is a part of the correct bag that contains all joined pairs. *)
Theorem c47_right_full_sound : forall pred lw rw L R out,
  (forall l r, In l L -> In r R -> pred l r <> Err) ->
  (drains (jstep JRight pred lw rw (map Row R)) (jinit (map Row L)) out ->
   exists pads lost, out = map Row (inner_rows (is_true_on pred) L R ++ map (pad_left lw) pads) /\
     Permutation (lonely_right (is_true_on pred) L R) (pads ++ lost)) /\
  (drains (jstep JFull pred lw rw (map Row R)) (jinit (map Row L)) out ->
   exists pads lost, out = map Row (inner_rows (is_true_on pred) L R ++ map (pad_left lw) pads ++
                                    map (pad_right rw) (lonely_left (is_true_on pred) L R)) /\
     Permutation (lonely_right (is_true_on pred) L R) (pads ++ lost)).
Proof.
  intros pred lw rw L R out H.
  assert (P : forall l : list row, exists lost, Permutation l (first_occurrences row_eq_dec l ++ lost)).
  { induction l as [|x l [lost IH]]; [exists []; reflexivity|]. cbn.
    assert (Q : forall q : list row, exists q2, Permutation q (filter (fun y => if row_eq_dec x y then false else true) q ++ q2)).
    { induction q as [|y q [q2 IHq]]; [exists []; reflexivity|]. cbn. destruct (row_eq_dec x y).
      - exists (y :: q2). rewrite IHq at 1. apply Permutation_middle.
      - exists q2. cbn. rewrite IHq at 1. reflexivity. }
    destruct (Q (first_occurrences row_eq_dec l)) as [q2 Hq]. exists (q2 ++ lost).
    cbn. constructor. rewrite IH at 1. rewrite Hq at 1. rewrite <- app_assoc. reflexivity. }
  destruct (list_eq_dec row_eq_dec L []) as [->|HL].
  - split; intros D2.
    + pose proof (join_runs JRight pred lw rw (map Row R) (is_true_on pred) R [] eq_refl ltac:(intros ? ? [])) as D.
      exists [], (lonely_right (is_true_on pred) [] R). split; [exact (drains_fun _ _ _ D2 _ D)|reflexivity].
    + pose proof (join_runs JFull pred lw rw (map Row R) (is_true_on pred) R [] eq_refl ltac:(intros ? ? [])) as D.
      exists [], (lonely_right (is_true_on pred) [] R). split; [exact (drains_fun _ _ _ D2 _ D)|reflexivity].
  - destruct (P (lonely_right (is_true_on pred) L R)) as [lost HP].
    split; intros D2; exists (first_occurrences row_eq_dec (lonely_right (is_true_on pred) L R)), lost; (split; [|exact HP]).
    + pose proof (join_runs JRight pred lw rw (map Row R) (is_true_on pred) R L eq_refl
                    (joins_total JRight pred L R ltac:(discriminate) H)) as D.
      rewrite emit_inner in D by discriminate. unfold final_unr in D.
      rewrite (lonely_first_occ JRight (is_true_on pred) eq_refl R L HL) in D.
      replace (flat_map (saved JRight (is_true_on pred) R) L) with (@nil row) in D by (clear; induction L; auto).
      cbn [map] in D. rewrite app_nil_r in D. exact (drains_fun _ _ _ D2 _ D).
    + pose proof (join_runs JFull pred lw rw (map Row R) (is_true_on pred) R L eq_refl
                    (joins_total JFull pred L R ltac:(discriminate) H)) as D.
      rewrite emit_inner in D by discriminate. unfold final_unr in D.
      rewrite (lonely_first_occ JFull (is_true_on pred) eq_refl R L HL), saved_lonely in D.
      exact (drains_fun _ _ _ D2 _ D).
Qed.
Print Assumptions c47_right_full_sound.

(** C47. Errors are not swallowed: if the join ends without one, the left child did not
    fail, no condition failed to evaluate on any pair, and the right child did not fail
    either (unless there was no left row to join it with). *)
Theorem c47_errors_reported : forall k pred lw rw left right out,
  drains (jstep k pred lw rw right) (jinit left) out -> ~ In Fail out ->
  ~ In Fail left /\
  forall l, In (Row l) left ->
    ~ In Fail right /\ (k <> JCross -> forall r, In (Row r) right -> pred l r <> Err).
Proof.
  intros k pred lw rw left right out D NF.
  destruct (no_fail k pred lw rw right _ _ D NF eq_refl) as (A & B & _). split; [exact A|].
  intros l Hl. destruct (B l Hl) as [C E]. split; [exact C|]. intros Hk r Hr X.
  apply (E r Hr). unfold pair_joins, on_true. rewrite X. destruct k; congruence.
Qed.
Print Assumptions c47_errors_reported.

(** ** Examples *)
Definition ir (l : list Z) : row := map (VInt Integer) l.
(** [ON a.c0 = b.c0], evaluated on the two rows. *)
Definition eq0 (l r : row) : res val := eval_join 2 (JEq (JCol 0 0) (JCol 1 2)) l r.
Definition L47 : list row := [ir [1; 10]%Z; ir [2; 20]%Z; ir [2; 21]%Z].
Definition R47 : list row := [ir [2; 7]%Z; ir [2; 7]%Z; ir [3; 8]%Z; [VNull; VNull]].

Example c47_ex :
  (forall l r, In l L47 -> In r R47 -> eq0 l r <> Err) /\ L47 <> [] /\
  NoDup (lonely_right (is_true_on eq0) L47 R47) /\
  drains (jstep JFull eq0 2 2 (map Row R47)) (jinit (map Row L47))
    (map Row [ir [2; 20; 2; 7]%Z; ir [2; 20; 2; 7]%Z; ir [2; 21; 2; 7]%Z; ir [2; 21; 2; 7]%Z;
              [VNull; VNull] ++ ir [3; 8]%Z; [VNull; VNull; VNull; VNull];
              ir [1; 10]%Z ++ [VNull; VNull]]).
Proof.
  assert (T : forall l r, In l L47 -> In r R47 -> eq0 l r <> Err).
  { intros l r Hl Hr. cbn in Hl, Hr. repeat destruct Hl as [<-|Hl]; try destruct Hl;
      repeat destruct Hr as [<-|Hr]; try destruct Hr; cbn; discriminate. }
  assert (N : NoDup (lonely_right (is_true_on eq0) L47 R47)).
  { vm_compute. constructor; [intros [X|[]]; discriminate X|]. constructor; [intros []|constructor]. }
  split; [exact T|]. split; [discriminate|]. split; [exact N|].
  apply c47_full_partial; [exact T|discriminate|exact N|reflexivity].
Qed.

(** C47 is false of the code: RIGHT JOIN with an empty left side returns nothing. *)
Theorem c47_right_empty_left_refuted : exists pred lw rw R,
  drains (jstep JRight pred lw rw (map Row R)) (jinit (map Row [])) [] /\
  right_rows (is_true_on pred) lw [] R <> [].
Proof.
  exists eq0, 2, 2, R47. split; [|discriminate].
  eapply dr_tau; [reflexivity|]. eapply dr_tau; [reflexivity|]. eapply dr_done. reflexivity.
Qed.
Print Assumptions c47_right_empty_left_refuted.

(** C47 is false of the code: of two equal partnerless right rows only one is returned. *)
Theorem c47_right_duplicates_refuted : exists pred lw rw L R out,
  (forall l r, In l L -> In r R -> pred l r <> Err) /\ L <> [] /\
  drains (jstep JRight pred lw rw (map Row R)) (jinit (map Row L)) out /\
  length out < length (right_rows (is_true_on pred) lw L R).
Proof.
  exists eq0, 2, 2, [ir [1; 10]%Z], [ir [3; 8]%Z; ir [3; 8]%Z], [Row ([VNull; VNull] ++ ir [3; 8]%Z)].
  split; [|split; [discriminate|split]].
  - intros l r [<-|[]] [<-|[<-|[]]]; cbn; discriminate.
  - eapply dr_tau; [reflexivity|]. eapply dr_tau; [reflexivity|]. eapply dr_tau; [reflexivity|].
    eapply dr_tau; [reflexivity|]. eapply dr_tau; [reflexivity|].
    eapply dr_row; [reflexivity|]. eapply dr_tau; [reflexivity|]. eapply dr_done. reflexivity.
  - cbn. lia.
Qed.
Print Assumptions c47_right_duplicates_refuted.

(** ** C57, the join condition *)

(** A condition the planner accepts, with each equality's first operand a column of the
    left table and its second a column of the right one (and a right column called "d.id"
    the first of its table). *)
Fixpoint sided (did : nat -> bool) (lw : nat) (e : expr) : Prop :=
  match e with
  | ECmp ExprModel.Eq (ECol i) (ECol j) => i < lw /\ lw <= j /\ (did j = true -> j = lw)
  | EAnd a b => sided did lw a /\ sided did lw b
  | _ => False
  end.

(** C57, for conditions written left-table-first: the planned condition has on every pair
    of rows the value the written condition has on the joined row. Missing: conditions
    written the other way round or about one table only, where it is false (below). *)
Theorem c57_on_condition_partial : forall did lw e l r,
  sided did lw e -> length l = lw ->
  exists je, extract_join_keys did e = Some je /\ eval_join lw je l r = eval e (l ++ r).
Proof.
  intros did lw e l r Hs Hl. induction e; try destruct Hs.
  - destruct op, e1, e2; try destruct Hs. destruct H0 as [H0 H1]. cbn. eexists. split; [reflexivity|]. cbn.
    rewrite nth_error_app1 by lia. rewrite (nth_error_app2 l r) by lia. rewrite Hl.
    destruct (did i0) eqn:D.
    + rewrite (H1 eq_refl), Nat.sub_diag.
      destruct (lw <=? 0) eqn:Z; [apply Nat.leb_le in Z; replace (0 - lw) with 0 by lia|]; reflexivity.
    + replace (lw <=? i0) with true by (symmetry; apply Nat.leb_le; lia). reflexivity.
  - destruct (IHe1 H) as (j1 & E1 & V1). destruct (IHe2 H0) as (j2 & E2 & V2).
    cbn. rewrite E1, E2. eexists. split; [reflexivity|]. cbn. rewrite V1, V2. reflexivity.
Qed.
Print Assumptions c57_on_condition_partial.

Example c57_ex : sided (fun _ => false) 2 (EAnd (ECmp ExprModel.Eq (ECol 0) (ECol 2)) (ECmp ExprModel.Eq (ECol 1) (ECol 3))) /\
  exists je, extract_join_keys (fun _ => false) (EAnd (ECmp ExprModel.Eq (ECol 0) (ECol 2)) (ECmp ExprModel.Eq (ECol 1) (ECol 3))) = Some je /\
    eval_join 2 je (ir [1; 5]%Z) (ir [1; 5]%Z) = Ok (VBool true) /\
    eval_join 2 je (ir [1; 5]%Z) (ir [1; 6]%Z) = Ok (VBool false).
Proof. split; [cbn; repeat split; try lia; discriminate|]. eexists. split; [reflexivity|]. split; reflexivity. Qed.

(** C57 is false of the code: [ON b.y = a.x] fails at run time although [ON a.x = b.y]
    joins the rows. *)
Theorem c57_swapped_refuted : exists lw l r je,
  extract_join_keys (fun _ => false) (ECmp ExprModel.Eq (ECol 1) (ECol 0)) = Some je /\
  eval_join lw je l r = Err /\
  eval (ECmp ExprModel.Eq (ECol 1) (ECol 0)) (l ++ r) = Ok (VBool true) /\ length l = lw.
Proof.
  exists 1, (ir [5]%Z), (ir [5]%Z). eexists. split; [reflexivity|]. split; [reflexivity|]. split; reflexivity.
Qed.
Print Assumptions c57_swapped_refuted.

(** C57 is false of the code: [ON a.x = a.y] is evaluated as [a.x = b.<column of that
    number>], so a pair on which the condition is FALSE is joined. *)
Theorem c57_one_table_refuted : exists lw l r je,
  extract_join_keys (fun _ => false) (ECmp ExprModel.Eq (ECol 0) (ECol 1)) = Some je /\
  eval_join lw je l r = Ok (VBool true) /\
  eval (ECmp ExprModel.Eq (ECol 0) (ECol 1)) (l ++ r) = Ok (VBool false) /\ length l = lw.
Proof.
  exists 2, (ir [5; 6]%Z), (ir [0; 5]%Z). eexists. split; [reflexivity|]. split; [reflexivity|]. split; reflexivity.
Qed.
Print Assumptions c57_one_table_refuted.
