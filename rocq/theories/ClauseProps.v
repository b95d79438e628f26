(** * C106: every clause of a statement that changes data is obeyed or refused *)
From Coq Require Import ZArith String Lia.
From stdpp Require Import base list strings.
From Verif Require Import ClauseSpec ClauseModel.
Local Open Scope nat_scope.

Section c106.
  Context {expr row : Type}.
  Context (cols : string -> option (list string)) (parses : string -> expr -> bool).
  Context (truth : expr -> row -> option bool) (answer : expr -> list row) (assign : list (nat * expr) -> row -> row).
  Let run := run_plan truth answer assign.

  Lemma filter_perm (p : row -> bool) (l : list row) :
    Permutation l (List.filter p l ++ List.filter (fun r => negb (p r)) l).
  Proof.
    induction l as [|x l IH]; [constructor|]. cbn. destruct (p x); cbn.
    - constructor. exact IH.
    - etransitivity; [constructor; exact IH|]. apply Permutation_middle.
  Qed.
  Lemma yields_scan t w p : scan_filter parses t w = Some p -> forall r, yields truth p r = selects truth w r.
  Proof.
    unfold scan_filter. destruct w as [e|]; [destruct (parses t e); [|discriminate]|]; intros [= <-] r; reflexivity.
  Qed.

  (** DELETE: without LIMIT an accepted statement deletes exactly the selected rows. *)
  Theorem c106_delete_partial s p before :
    build_delete cols parses s = Some p -> ds_limit s = None -> deletes truth s before (run p before).
  Proof.
    unfold build_delete. destruct (ds_from s) as [|[[t|] [|j]] [|? ?]]; try discriminate.
    destruct (cols t); [|discriminate]. destruct (scan_filter parses t (ds_where s)) as [c|] eqn:E; [|discriminate].
    intros [= <-] L. pose proof (yields_scan _ _ _ E) as Y. unfold deletes. rewrite L.
    exists (kept (selects truth (ds_where s)) before). split; [|split; [|reflexivity]].
    - unfold run, kept; cbn [run_plan].
      rewrite (List.filter_ext (fun r => negb (yields truth c r)) (fun r => negb (selects truth (ds_where s) r)))
        by (intros r; rewrite Y; reflexivity). apply filter_perm.
    - unfold kept. apply Forall_forall. intros r H. apply elem_of_list_In, filter_In in H. tauto.
  Qed.

  (** [s] with other clauses that the planner does not look at. *)
  Theorem c106_delete_dropped_refuted s usng order limit ret :
    build_delete cols parses (DS (ds_from s) (ds_where s) usng order limit ret) = build_delete cols parses s.
  Proof. reflexivity. Qed.

  Lemma filter_length_perm (p : row -> bool) (a b : list row) : Permutation a b -> length (List.filter p a) = length (List.filter p b).
  Proof.
    induction 1 as [|x a b _ IH|x y a|a b c _ IH1 _ IH2]; cbn; [reflexivity| | |congruence].
    - destruct (p x); cbn; congruence.
    - destruct (p x), (p y); reflexivity.
  Qed.
  Lemma flen_le (p : row -> bool) (l : list row) : length (List.filter p l) <= length l.
  Proof. induction l as [|x l IH]; cbn; [lia|]. destruct (p x); cbn; lia. Qed.
  (** LIMIT n: whenever more than n rows are selected, an accepted DELETE does the wrong thing: it leaves
      none of them. *)
  Theorem c106_delete_limit_refuted s p before n :
    build_delete cols parses s = Some p -> ds_limit s = Some n ->
    n < length (kept (selects truth (ds_where s)) before) ->
    ~ deletes truth s before (run p before) /\ kept (selects truth (ds_where s)) (run p before) = [].
  Proof.
    unfold build_delete. destruct (ds_from s) as [|[[t|] [|j]] [|? ?]]; try discriminate.
    destruct (cols t); [|discriminate]. destruct (scan_filter parses t (ds_where s)) as [c|] eqn:E; [|discriminate].
    intros [= <-] L M. pose proof (yields_scan _ _ _ E) as Y.
    assert (Z : kept (selects truth (ds_where s)) (run (PDelete t c) before) = []).
    { unfold run, kept; cbn [run_plan]. clear -Y. induction before as [|x l IH]; [reflexivity|]. cbn. rewrite Y.
      destruct (selects truth (ds_where s) x) eqn:S0; cbn; [exact IH|]. rewrite S0. exact IH. }
    split; [|exact Z]. intros (gone & P & F & Lg). rewrite L in Lg.
    pose proof (filter_length_perm (selects truth (ds_where s)) _ _ P) as Q. rewrite List.filter_app, app_length in Q.
    unfold kept in *. rewrite Z in Q. cbn in Q.
    pose proof (flen_le (selects truth (ds_where s)) gone) as G. lia.
  Qed.

  (** UPDATE, the same way: the names of SET are resolved to columns, [assign'] assigns by name. *)
  Theorem c106_update_partial s p before (assign' : list (string * expr) -> row -> row) :
    build_update cols parses s = Some p -> us_limit s = None ->
    (forall t cs set, t_name (us_table s) = Some t -> cols t = Some cs ->
       Forall2 (fun a b => fst b < length cs /\ cs !! fst b = Some (fst a) /\ snd a = snd b) (us_set s) set ->
       forall r, assign set r = assign' (us_set s) r) ->
    updates truth assign' s before (run p before).
  Proof.
    unfold build_update. destruct (t_name (us_table s)) as [t|] eqn:T; [|discriminate].
    destruct (cols t) as [cs|] eqn:Cs; [|discriminate].
    destruct (scan_filter parses t (us_where s)) as [c|] eqn:E; [|discriminate].
    destruct (build_set parses t cs (us_set s)) as [set|] eqn:B; [|discriminate].
    intros [= <-] L H. pose proof (yields_scan _ _ _ E) as Y.
    assert (CI : forall n l i, col_index n l = Some i -> i < length l /\ l !! i = Some n).
    { intros n l. induction l as [|x l IH]; intros i; cbn; [discriminate|].
      destruct (String.eqb_spec x n) as [->|]; [intros [= <-]; split; [lia|reflexivity]|].
      destruct (col_index n l) as [j|]; cbn; [|discriminate]. intros [= <-]. destruct (IH j eq_refl). split; [lia|assumption]. }
    assert (BS : Forall2 (fun a b => fst b < length cs /\ cs !! fst b = Some (fst a) /\ snd a = snd b) (us_set s) set).
    { clear -B CI. revert set B. induction (us_set s) as [|[n e] rest IH]; intros set B; cbn in B.
      - injection B as <-. constructor.
      - destruct (col_index n cs) as [i|] eqn:I; [|discriminate]. destruct (parses t e); [|discriminate].
        destruct (build_set parses t cs rest) as [r|]; [|discriminate]. injection B as <-.
        constructor; [|apply IH; reflexivity]. cbn. destruct (CI _ _ _ I). auto. }
    specialize (H t cs set eq_refl Cs BS). unfold updates. rewrite L.
    exists (map (selects truth (us_where s)) before). split; [apply map_length|]. split; [|split].
    - unfold run; cbn [run_plan]. clear -Y H. induction before as [|x l IH]; [reflexivity|]. cbn.
      rewrite Y, IH, H. reflexivity.
    - intros i r R W. rewrite list_lookup_fmap, R in W. cbn in W. congruence.
    - unfold kept. clear. induction before as [|x l IH]; [reflexivity|]. cbn.
      destruct (selects truth (us_where s) x); cbn; rewrite IH; reflexivity.
  Qed.
  Theorem c106_update_dropped_refuted s joins from limit ret onc :
    build_update cols parses (US (TR (t_name (us_table s)) joins) (us_set s) (us_where s) from limit ret onc) = build_update cols parses s.
  Proof. reflexivity. Qed.
  (** LIMIT n: all of the selected rows are rewritten; when that changes each of them and there are more
      than n, the statement is not obeyed. *)
  Theorem c106_update_limit_refuted s p before n assign' :
    build_update cols parses s = Some p -> us_limit s = Some n ->
    n < length (kept (selects truth (us_where s)) before) ->
    (forall set r, assign set r <> r) ->
    ~ updates truth assign' s before (run p before).
  Proof.
    unfold build_update. destruct (t_name (us_table s)) as [t|] eqn:T; [|discriminate].
    destruct (cols t) as [cs|] eqn:Cs; [|discriminate].
    destruct (scan_filter parses t (us_where s)) as [c|] eqn:E; [|discriminate].
    destruct (build_set parses t cs (us_set s)) as [set|] eqn:B; [|discriminate].
    intros [= <-] L M NE (which & Lw & Eq & _ & Lf). pose proof (yields_scan _ _ _ E) as Y. rewrite L in Lf.
    unfold run in Eq; cbn [run_plan] in Eq.
    assert (G : length (kept (selects truth (us_where s)) before) <= length (List.filter id which)).
    { clear -Lw Eq Y NE. revert which Lw Eq. induction before as [|x l IH]; intros [|b which] Lw Eq; cbn in *; try lia; try discriminate.
      injection Eq as Eq1 Eq2. specialize (IH which ltac:(lia) Eq2). unfold kept in *. rewrite Y in Eq1.
      destruct (selects truth (us_where s) x); [|destruct b; cbn; lia].
      destruct b; cbn; [lia|]. exfalso. eapply NE, Eq1. }
    lia.
  Qed.

  (** INSERT ... SELECT. *)
  Theorem c106_insert_partial s p before :
    build_insert cols parses s = Some p -> is_limit s = None -> inserts answer s before (run p before).
  Proof.
    unfold build_insert. destruct (cols (is_table s)); [|discriminate]. destruct (parses _ _); [|discriminate].
    intros [= <-] L. unfold inserts. rewrite L. exists (answer (is_query s)), []. rewrite app_nil_r. split; [reflexivity|split; reflexivity].
  Qed.
  Theorem c106_insert_dropped_refuted s order limit onc ret :
    build_insert cols parses (IS (is_table s) (is_query s) order limit onc ret) = build_insert cols parses s.
  Proof. reflexivity. Qed.
  Theorem c106_insert_limit_refuted s p before n :
    build_insert cols parses s = Some p -> is_limit s = Some n -> n < length (answer (is_query s)) ->
    ~ inserts answer s before (run p before).
  Proof.
    unfold build_insert. destruct (cols (is_table s)); [|discriminate]. destruct (parses _ _); [|discriminate].
    intros [= <-] L M (new & rest & Eq & _ & Ln). rewrite L in Ln. unfold run in Eq; cbn [run_plan] in Eq.
    apply app_inv_head in Eq. subst new. lia.
  Qed.

  (** DELETE from several tables or from a join is refused. *)
  Theorem c106_delete_joins_refused s : 
    (length (ds_from s) <> 1 \/ exists t, t ∈ ds_from s /\ t_joins t <> 0) -> build_delete cols parses s = None.
  Proof.
    unfold build_delete. intros [H|(t & I & H)].
    - destruct (ds_from s) as [|[[t|] [|j]] [|? ?]]; try reflexivity. cbn in H. lia.
    - destruct (ds_from s) as [|[[t'|] [|j]] [|? ?]]; try reflexivity.
      apply elem_of_list_singleton in I. subst t. cbn in H. lia.
  Qed.
End c106.

(** DELETE FROM t WHERE x > 1 LIMIT 1 on 1, 2, 3 leaves only 1; without the LIMIT that is right. *)
Local Open Scope string_scope.
Definition cl_cols (t : string) : option (list string) := if String.eqb t "t" then Some ["x"] else None.
Definition cl_truth (k r : Z) : option bool := Some (Z.ltb k r).
Example c106_ex :
  let s lim := DS [TR (Some "t") 0] (Some 1%Z) [] [] lim [] in
  (exists p, build_delete cl_cols (fun _ _ => true) (s (Some 1)) = Some p /\
     run_plan cl_truth (fun _ => []) (fun _ r => r) p [1; 2; 3]%Z = [1]%Z /\
     ~ deletes cl_truth (s (Some 1)) [1; 2; 3]%Z [1]%Z /\ deletes cl_truth (s None) [1; 2; 3]%Z [1]%Z) /\
  (exists p, build_update cl_cols (fun _ _ => true) (US (TR (Some "t") 0) [("x", 5%Z)] (Some 1%Z) [] None [] None) = Some p /\
     run_plan cl_truth (fun _ => []) (fun set r => match set with (_, e) :: _ => e | [] => r end) p [1; 2; 3]%Z = [1; 5; 5]%Z) /\
  build_update cl_cols (fun _ _ => true) (US (TR (Some "t") 0) [("y", 5%Z)] None [] None [] None) = None.
Proof.
  cbn zeta. split; [|split].
  - eexists. split; [reflexivity|]. split; [reflexivity|]. split.
    + pose proof (c106_delete_limit_refuted cl_cols (fun _ _ => true) cl_truth (fun _ => []) (fun _ r => r)
        (DS [TR (Some "t") 0] (Some 1%Z) [] [] (Some 1) []) _ [1; 2; 3]%Z 1 eq_refl eq_refl ltac:(cbn; lia)) as [H _]. exact H.
    + exists [2; 3]%Z. split; [|split; [repeat constructor|reflexivity]].
      apply (Permutation_cons_append [2; 3]%Z 1%Z).
  - eexists. split; reflexivity.
  - reflexivity.
Qed.

Print Assumptions c106_delete_partial.
Print Assumptions c106_delete_dropped_refuted.
Print Assumptions c106_delete_limit_refuted.
Print Assumptions c106_update_partial.
Print Assumptions c106_update_dropped_refuted.
Print Assumptions c106_update_limit_refuted.
Print Assumptions c106_insert_partial.
Print Assumptions c106_insert_dropped_refuted.
Print Assumptions c106_insert_limit_refuted.
Print Assumptions c106_delete_joins_refused.
