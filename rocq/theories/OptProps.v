(** * The optimizer: C56 *)
From Coq Require Import List Bool Arith ZArith Permutation Lia.
From Verif Require Import ExprModel ExecModel ExecProofs TopnModel OptModel OptSpec.
Import ListNotations.
Open Scope nat_scope.

(** ** One node on equivalent children *)
Lemma same_refl d p : same_answers d p p. Proof. unfold same_answers. tauto. Qed.
Lemma same_trans d p q r : same_answers d p q -> same_answers d q r -> same_answers d p r.
Proof. unfold same_answers. intros H1 H2 out. rewrite H1. apply H2. Qed.

Lemma same_filter d e p q : same_answers d p q -> same_answers d (PFilter e p) (PFilter e q).
Proof. intros H out. split; intros A; inversion A; subst; econstructor; eauto; apply H; assumption. Qed.
Lemma same_project d e p q : same_answers d p q -> same_answers d (PProject e p) (PProject e q).
Proof. intros H out. split; intros A; inversion A; subst; econstructor; eauto; apply H; assumption. Qed.
Lemma same_sort d e p q : same_answers d p q -> same_answers d (PSort e p) (PSort e q).
Proof. intros H out. split; intros A; inversion A; subst; econstructor; eauto; apply H; assumption. Qed.
Lemma same_limit d e p q : same_answers d p q -> same_answers d (PLimit e p) (PLimit e q).
Proof. intros H out. split; intros A; inversion A; subst; econstructor; eauto; apply H; assumption. Qed.
Lemma same_topn d k e p q : same_answers d p q -> same_answers d (PTopN k e p) (PTopN k e q).
Proof. intros H out. split; intros A; inversion A; subst; econstructor; eauto; apply H; assumption. Qed.
Lemma same_unary d f p q : same_answers d p q -> same_answers d (PUnary f p) (PUnary f q).
Proof. intros H out. split; intros A; inversion A; subst; econstructor; eauto; apply H; assumption. Qed.
Lemma same_binary d f p q p2 q2 : same_answers d p q -> same_answers d p2 q2 -> same_answers d (PBinary f p p2) (PBinary f q q2).
Proof. intros H H2 out. split; intros A; inversion A; subst; econstructor; eauto; first [apply H|apply H2]; assumption. Qed.

(** ** Filters *)

(** A child's answer as rows, and whether it ended in a failure. *)
Fixpoint rows_before (l : list (item row)) : list row * bool :=
  match l with
  | [] => ([], false)
  | Fail :: _ => ([], true)
  | Row r :: l => let '(rs, f) := rows_before l in (r :: rs, f)
  end.

Lemma filter_out e l out : produces (filter_next e) l out <->
  out = map Row (filter (where_pass e) (fst (rows_before l))) ++ tail (snd (rows_before l)).
Proof.
  assert (H : produces (filter_next e) l (map Row (filter (where_pass e) (fst (rows_before l))) ++ tail (snd (rows_before l)))).
  { induction l as [|[r|] l IH]; cbn.
    - eapply p_done. reflexivity.
    - destruct (rows_before l) as [rs f]. cbn in *. destruct (where_pass e r) eqn:E; cbn.
      + eapply p_row; [cbn; rewrite E; reflexivity|exact IH].
      + inversion IH as [? ? H E1|? ? H E1|? ? ? ? H ? E1]; subst.
        * eapply p_done. cbn. rewrite E. eassumption.
        * eapply p_fail. cbn. rewrite E. eassumption.
        * eapply p_row; [cbn; rewrite E; eassumption|assumption].
    - eapply p_fail. reflexivity. }
  split; [intros P; apply (produces_fun _ _ _ P _ H)|intros ->; exact H].
Qed.


Lemma produces_stops {S} (next : S -> outcome row * S) st out : produces next st out -> stops out.
Proof. induction 1; cbn; auto. Qed.

Lemma map_stops rows : stops (map Row rows).
Proof. induction rows; cbn; auto. Qed.

Lemma answers_stops d p out : answers d p out -> stops out.
Proof. induction 1; try (eapply produces_stops; eassumption); try apply map_stops; assumption. Qed.

Lemma stops_split l : stops l -> l = map Row (fst (rows_before l)) ++ tail (snd (rows_before l)).
Proof.
  induction l as [|[r|] l IH]; cbn; [reflexivity| |intros ->; reflexivity].
  intros H. specialize (IH H). destruct (rows_before l). cbn in *. congruence.
Qed.

Lemma rows_before_app rows f : rows_before (map Row rows ++ tail f) = (rows, f).
Proof. induction rows as [|r rows IH]; cbn; [destruct f; reflexivity|]. rewrite IH. reflexivity. Qed.

Lemma same_true d c : same_answers d (PFilter (EConst (VBool true)) c) c.
Proof.
  assert (Hf : forall l, filter (where_pass (EConst (VBool true))) l = l).
  { induction l as [|r l IH]; [reflexivity|]. cbn [filter]. rewrite IH. reflexivity. }
  intros out. split.
  - intros A. inversion A as [| |e c' l out' Ac P| | | | | |]; subst. apply filter_out in P. rewrite Hf in P.
    rewrite <- (stops_split l (answers_stops _ _ _ Ac)) in P. subst. exact Ac.
  - intros A. econstructor; [exact A|]. apply filter_out. rewrite Hf. apply stops_split. exact (answers_stops _ _ _ A).
Qed.

Lemma where_pass_and a b r : where_pass (EAnd a b) r = where_pass a r && where_pass b r.
Proof.
  unfold where_pass. cbn [eval]. destruct (eval a r) as [x|]; [|reflexivity]. cbn [bind].
  destruct (eval b r) as [y|]; cbn [bind]; [|destruct x as [|[]| | |]; reflexivity].
  destruct x as [|[]| | |], y as [|[]| | |]; reflexivity.
Qed.

Lemma same_and d a b c : same_answers d (PFilter (EAnd a b) c) (PFilter a (PFilter b c)).
Proof.
  assert (Hf : forall l, filter (where_pass (EAnd a b)) l = filter (where_pass a) (filter (where_pass b) l)).
  { induction l as [|r l IH]; [reflexivity|]. cbn [filter]. rewrite where_pass_and, IH.
    destruct (where_pass b r); cbn [filter]; destruct (where_pass a r); reflexivity. }
  intros out. split.
  - intros A. inversion A as [| |e c' l out' Ac P| | | | | |]; subst. apply filter_out in P.
    econstructor; [econstructor; [exact Ac|]; apply filter_out; reflexivity|]. apply filter_out.
    rewrite rows_before_app. cbn [fst snd]. rewrite <- Hf. exact P.
  - intros A. inversion A as [| |e c' l out' Ac P| | | | | |]; subst. inversion Ac as [| |e c' l2 out' Ac2 P2| | | | | |]; subst.
    apply filter_out in P, P2. subst l. rewrite rows_before_app in P. cbn [fst snd] in P.
    econstructor; [exact Ac2|]. apply filter_out. rewrite Hf. exact P.
Qed.

Lemma same_sym d p q : same_answers d p q -> same_answers d q p.
Proof. intros H out. symmetry. apply H. Qed.

Lemma push_down_ok d : forall c e, same_answers d (push_down e c) (PFilter e c).
Proof.
  induction c; intros e0; cbn [push_down]; try apply same_refl.
  eapply same_trans; [apply IHc|]. apply same_and.
Qed.

(** ** The phases *)
Lemma is_true_eq e : is_true e = true -> e = EConst (VBool true).
Proof. destruct e as [|[|[]| | |]| | | | | | | | | | | |]; cbn; congruence. Qed.

Lemma prune_ok d p : no_nested_projection p -> same_answers d (prune p) p.
Proof.
  induction p as [t|t|e p IH|es p IH|s p IH|n p IH|k s p IH|f p IH|f a IHa b IHb]; cbn; intros H; try apply same_refl.
  - destruct (is_true e) eqn:E; [|apply same_filter; auto]. apply is_true_eq in E. subst. apply same_sym, same_true.
  - destruct H as (Hn & _ & H). destruct es; [congruence|]. apply same_project. auto.
  - apply same_sort. auto.
  - apply same_limit. auto.
  - apply same_topn. auto.
  - apply same_unary. auto.
  - destruct H. apply same_binary; auto.
Qed.

Lemma prune_not_project p : ~ is_project (below_true p) -> ~ is_project (prune p).
Proof.
  destruct p as [t|t|e p|es p|s p|n p|k s p|f p|f a b]; cbn; try tauto.
  destruct e as [|[|[]| | |]| | | | | | | | | | | |]; cbn; try tauto. destruct p; cbn; tauto.
Qed.

(** No projection directly above another. *)
Fixpoint flat (p : plan) : Prop :=
  match p with
  | PScan _ | PIndexScan _ => True
  | PProject es c => ~ is_project c /\ flat c
  | PFilter _ c | PSort _ c | PLimit _ c | PTopN _ _ c | PUnary _ c => flat c
  | PBinary _ a b => flat a /\ flat b
  end.

Lemma below_flat p : no_nested_projection p -> flat p.
Proof.
  induction p as [t|t|e p IH|es p IH|s p IH|n p IH|k s p IH|f p IH|f a IHa b IHb]; cbn; auto.
  - intros (_ & Hb & H). split; [|auto]. intros Hp. apply Hb. destruct p; cbn in *; try contradiction; exact I.
  - intros []. auto.
Qed.

Lemma prune_flat p : no_nested_projection p -> flat (prune p).
Proof.
  induction p as [t|t|e p IH|es p IH|s p IH|n p IH|k s p IH|f p IH|f a IHa b IHb]; cbn; auto.
  - intros H. destruct (is_true e); [apply below_flat; exact H|cbn; auto].
  - intros (Hn & Hb & H). destruct es; [congruence|]. cbn. split; [apply prune_not_project; exact Hb|auto].
  - intros []. auto.
Qed.

Lemma rewrite_ok d p : flat p -> same_answers d (rewrite_plan p) p.
Proof.
  induction p as [t|t|e p IH|es p IH|s p IH|n p IH|k s p IH|f p IH|f a IHa b IHb]; cbn [rewrite_plan flat]; intros H; try apply same_refl.
  - apply push_down_ok.
  - destruct H as [Hp H]. destruct p; cbn in Hp; try tauto; apply same_project; auto.
  - apply same_sort. auto.
  - apply same_limit. auto.
  - apply same_topn. auto.
  - apply same_unary. auto.
  - destruct H. apply same_binary; auto.
Qed.

Lemma index_opt_none ix p : (forall t, In t (scans p) -> ix t = false) -> index_opt ix p = p.
Proof.
  induction p as [t|t|e p IH|es p IH|s p IH|n p IH|k s p IH|f p IH|f a IHa b IHb]; cbn [index_opt scans]; intros H;
    try (rewrite IH by exact H; reflexivity); try reflexivity.
  - rewrite H by (left; reflexivity). reflexivity.
  - rewrite IHa, IHb by (intros t Ht; apply H, in_or_app; tauto). reflexivity.
Qed.

(** C56, partial: as the engine calls it (no TopN rewriting), the optimizer changes no answer of
    a plan with no projection directly above another, over tables without an index on their first
    column.  Missing: the conditions; each is needed, see the refutations. *)
Theorem c56_optimize_partial : forall d p,
  no_nested_projection p -> (forall t, In t (scans p) -> indexed d t = false) ->
  same_answers d (optimize false (indexed d) p) p.
Proof.
  intros d p Hn Hi. unfold optimize. rewrite index_opt_none by exact Hi.
  eapply same_trans; [apply rewrite_ok, prune_flat, Hn|]. apply prune_ok, Hn.
Qed.
Print Assumptions c56_optimize_partial.

(** SELECT a, b FROM t WHERE b > 1 (in which a filter on TRUE was left) ORDER BY b DESC LIMIT 2. *)
Local Definition plan1 : plan :=
  PLimit 2 (PSort [(ECol 1, true)] (PProject [ECol 0; ECol 1]
    (PFilter (EConst (VBool true)) (PFilter (ECmp Gt (ECol 1) (EConst (VInt Integer 1%Z))) (PFilter (ENot (EIs IsNull false (ECol 0))) (PScan 0)))))).
Local Definition db1 : db :=
  Db (fun t => match t with
               | 0 => [[VInt Integer 1%Z; VInt Integer 5%Z]; [VInt Integer 2%Z; VInt Integer 1%Z]; [VNull; VInt Integer 9%Z]; [VInt Integer 4%Z; VInt Integer 7%Z]]
               | _ => [] end) (fun _ => None).

Example c56_ex :
  no_nested_projection plan1 /\ (forall t, In t (scans plan1) -> indexed db1 t = false) /\
  optimize false (indexed db1) plan1 =
    PLimit 2 (PSort [(ECol 1, true)] (PProject [ECol 0; ECol 1]
      (PFilter (EAnd (ECmp Gt (ECol 1) (EConst (VInt Integer 1%Z))) (ENot (EIs IsNull false (ECol 0)))) (PScan 0)))) /\
  answers db1 plan1 [Row [VInt Integer 4%Z; VInt Integer 7%Z]; Row [VInt Integer 1%Z; VInt Integer 5%Z]].
Proof.
  split; [cbn; repeat split; congruence || tauto|]. split; [intros t _; reflexivity|]. split; [reflexivity|].
  unfold plan1. eapply a_limit; [eapply a_sort; [eapply a_project; [eapply a_filter; [eapply a_filter; [eapply a_filter; [apply a_scan|]|]|]|]|]|].
  1-3: apply filter_out; reflexivity.
  - cbn. eapply p_row; [reflexivity|]. eapply p_row; [reflexivity|]. eapply p_done; reflexivity.
  - cbn. eapply p_row; [reflexivity|]. eapply p_row; [reflexivity|]. eapply p_done; reflexivity.
  - cbn. eapply p_row; [reflexivity|]. eapply p_row; [reflexivity|]. eapply p_done; reflexivity.
Qed.

(** A projection above another is dropped. *)
Theorem c56_projection_refuted : exists d p out,
  (forall t, indexed d t = false) /\ answers d p out /\ ~ answers d (optimize false (indexed d) p) out.
Proof.
  exists db1, (PProject [ECol 1] (PProject [ECol 0; ECol 1] (PLimit 1 (PScan 0)))), [Row [VInt Integer 5%Z]].
  split; [reflexivity|]. split.
  - eapply a_project; [eapply a_project; [eapply a_limit; [apply a_scan|]|]|].
    + cbn. eapply p_row; [reflexivity|]. eapply p_done; reflexivity.
    + cbn. eapply p_row; [reflexivity|]. eapply p_done; reflexivity.
    + cbn. eapply p_row; [reflexivity|]. eapply p_done; reflexivity.
  - cbn. intros A. inversion A as [| | |es c l out' Ac P| | | | |]; subst.
    inversion Ac as [| | | | |n c l2 out' As P2| | |]; subst. inversion As; subst.
    cbn in P2. inversion P2 as [? ? E|? ? E|? ? ? ? E P3]; subst; cbn in E; try discriminate. injection E as <- <-.
    inversion P3 as [? ? E|? ? E|? ? ? ? E P4]; subst; cbn in E; try discriminate.
    inversion P as [? ? E2|? ? E2|? ? ? ? E2 P5]; subst; cbn in E2; discriminate.
Qed.
Print Assumptions c56_projection_refuted.

(** A scan of a table with an index on its first column reads the index, which has only the rows
    the table had when the index was made. *)
Theorem c56_index_refuted : exists d t r out,
  let d2 := insert_row t r (create_index t d) in
  answers d2 (PScan t) out /\ ~ answers d2 (optimize false (indexed d2) (PScan t)) out /\
  answers d2 (optimize false (indexed d2) (PScan t)) [].
Proof.
  exists (Db (fun _ => []) (fun _ => None)), 0, [VInt Integer 1%Z], [Row [VInt Integer 1%Z]]. cbv zeta. split; [|split].
  - apply (a_scan (insert_row 0 [VInt Integer 1%Z] (create_index 0 (Db (fun _ => []) (fun _ => None)))) 0).
  - cbn. intros A. inversion A as [|t rows E H| | | | | | |]; subst. cbn in E. injection E as <-. discriminate.
  - cbn. apply (a_index (insert_row 0 [VInt Integer 1%Z] (create_index 0 (Db (fun _ => []) (fun _ => None)))) 0 []). reflexivity.
Qed.
Print Assumptions c56_index_refuted.

Lemma insert_by_perm {T} cmp (x : T) l : Permutation (insert_by cmp x l) (x :: l).
Proof. induction l as [|y l IH]; cbn; [apply Permutation_refl|]. destruct (cmp x y); try apply Permutation_refl. rewrite IH. apply perm_swap. Qed.
Lemma sort_by_perm {T} cmp (l : list T) : Permutation (sort_by cmp l) l.
Proof. induction l as [|x l IH]; cbn; [apply Permutation_refl|]. rewrite insert_by_perm, IH. apply Permutation_refl. Qed.

(** Right after the index was made, a scan through it returns the table's rows (in key order). *)
Theorem c56_fresh_index_partial : forall d t out,
  d_index d t = None ->
  answers (create_index t d) (optimize false (indexed (create_index t d)) (PScan t)) out ->
  exists rows, out = map Row rows /\ Permutation rows (d_rows d t).
Proof.
  intros d t out Hn A.
  assert (Hi : d_index (create_index t d) t = Some (sort_by by_first (d_rows d t))).
  { unfold create_index. rewrite Hn. cbn. unfold upd. rewrite Nat.eqb_refl. reflexivity. }
  unfold optimize in A. cbn in A. unfold indexed in A. rewrite Hi in A. cbn in A.
  inversion A as [|t' rows E| | | | | | |]; subst. rewrite Hi in E. injection E as <-. eexists. split; [reflexivity|]. apply sort_by_perm.
Qed.
Print Assumptions c56_fresh_index_partial.

(** With the TopN rule switched on, ORDER BY over LIMIT loses the direction. *)
Theorem c56_topn_refuted : exists d p out out2,
  (forall t, indexed d t = false) /\ no_nested_projection p /\ answers d p out /\
  answers d (optimize true (indexed d) p) out2 /\ out <> out2 /\ ~ answers d (optimize true (indexed d) p) out.
Proof.
  exists (Db (fun _ => [[VInt Integer 1%Z]; [VInt Integer 2%Z]; [VInt Integer 3%Z]]) (fun _ => None)),
    (PSort [(ECol 0, false)] (PLimit 2 (PScan 0))).
  exists [Row [VInt Integer 1%Z]; Row [VInt Integer 2%Z]], [Row [VInt Integer 2%Z]; Row [VInt Integer 1%Z]].
  split; [reflexivity|]. split; [cbn; tauto|]. split; [|split; [|split; [congruence|]]].
  - eapply a_sort; [eapply a_limit; [apply a_scan|]|].
    + cbn. eapply p_row; [reflexivity|]. eapply p_row; [reflexivity|]. eapply p_done; reflexivity.
    + cbn. eapply p_row; [reflexivity|]. eapply p_row; [reflexivity|]. eapply p_done; reflexivity.
  - cbn. eapply (a_topn _ _ _ _ [Row [VInt Integer 1%Z]; Row [VInt Integer 2%Z]]); [eapply a_limit; [apply a_scan|]|reflexivity|].
    + cbn. eapply p_row; [reflexivity|]. eapply p_row; [reflexivity|]. eapply p_done; reflexivity.
    + cbn. eapply p_row; [reflexivity|]. eapply p_row; [reflexivity|]. eapply p_done; reflexivity.
  - cbn. intros A. inversion A as [| | | | | |k s c l st out' Ac E0 P| |]; subst.
    inversion Ac as [| | | | |n c l2 out' As P2| | |]; subst. inversion As; subst.
    cbn in P2. inversion P2 as [? ? E|? ? E|? ? ? ? E P3]; subst; cbn in E; try discriminate. injection E as <- <-.
    inversion P3 as [? ? E|? ? E|? ? ? ? E P4]; subst; cbn in E; try discriminate. injection E as <- <-.
    inversion P4 as [? ? E|? ? E|? ? ? ? E P5]; subst; cbn in E; try discriminate.
    cbn in E0. injection E0 as <-.
    inversion P as [? ? E2|? ? E2|? ? ? ? E2 P6]; subst; cbn in E2; discriminate.
Qed.
Print Assumptions c56_topn_refuted.
