(** C43, C44, C46 and the executor part of C50: LIMIT/OFFSET, ORDER BY, DISTINCT, WHERE. *)
From Coq Require Import String Ascii ZArith NArith List Bool Lia Sorted Permutation.
From Verif Require Import Bytes ExprModel ExprSpec ExprProofs ExprProps ExecModel ExecSpec ExecProofs.
Import ListNotations.
Local Open Scope nat_scope.

(** C43. Over any child executor whose drained output is [rows], LIMIT n OFFSET m returns
    rows m+1 .. m+n in order, and nothing else. *)
Theorem c43_limit_offset : forall (S T : Type) n m (child : S -> outcome T * S) s rows out,
  produces child s (map Row rows) ->
  produces (limit_offset_next n m child) (0, (0, s)) out <->
  out = map Row (firstn n (skipn m rows)).
Proof.
  intros S T n m child s rows out P. pose proof (limit_offset_ok n m child s rows P) as Q.
  split; [intros H; exact (produces_fun _ _ _ H _ Q)|intros ->; exact Q].
Qed.
Print Assumptions c43_limit_offset.

(** C43. If the child fails after [rows], the failure is reported unless LIMIT was already
    satisfied before reaching it. *)
Theorem c43_limit_offset_errors : forall (S T : Type) n m (child : S -> outcome T * S) s rows out,
  produces child s (map Row rows ++ [Fail]) ->
  produces (limit_offset_next n m child) (0, (0, s)) out <->
  out = map Row (firstn n (skipn m rows)) ++ (if (0 <? n) && (length rows <? m + n) then [Fail] else []).
Proof.
  intros S T n m child s rows out P. pose proof (limit_offset_fail n m child s rows P) as Q.
  split; [intros H; exact (produces_fun _ _ _ H _ Q)|intros ->; exact Q].
Qed.
Print Assumptions c43_limit_offset_errors.

Example c43_ex :
  produces pull (map Row [10; 20; 30; 40; 50]) (map Row [10; 20; 30; 40; 50]) /\
  produces (limit_offset_next 2 1 pull) (0, (0, map Row [10; 20; 30; 40; 50])) [Row 20; Row 30] /\
  produces pull (map Row [10; 20] ++ [Fail; Row 30]) (map Row [10; 20] ++ [Fail]) /\
  produces (limit_offset_next 2 1 pull) (0, (0, map Row [10; 20] ++ [Fail; Row 30])) [Row 20; Fail].
Proof.
  split; [apply (pull_produces [10;20;30;40;50] [])|].
  split; [apply (c43_limit_offset _ _ 2 1 pull _ [10;20;30;40;50]); [apply (pull_produces _ [])|reflexivity]|].
  split; [apply (pull_produces [10;20] [Row 30])|].
  apply (c43_limit_offset_errors _ _ 2 1 pull _ [10;20]); [apply (pull_produces _ [Row 30])|reflexivity].
Qed.

(** C50, the executor. Draining a WHERE executor over a child that returns [rows] (and then
    fails, if [fails]) returns exactly the rows on which the predicate is TRUE in SQL, in
    order, and passes the failure on. *)
Theorem c50_filter_executor : forall e rows (fails : bool) out,
  logical e -> stored_consts e -> Forall (Forall stored_val) rows ->
  (forall r, In r rows -> sem e r <> None) ->
  produces (filter_next e) (map Row rows ++ if fails then [Fail] else []) out <->
  out = map Row (filter (fun r => match sem e r with Some (VBool b) => b | _ => false end) rows)
        ++ if fails then [Fail] else [].
Proof.
  intros e rows fails out L C F Hs. pose proof (filter_produces e rows fails) as Q.
  replace (filter (fun r => _) rows) with (filter (where_pass e) rows).
  - split; [intros H; exact (produces_fun _ _ _ H _ Q)|intros ->; exact Q].
  - apply filter_ext_in. intros r Hr. rewrite Forall_forall in F.
    destruct (sem e r) as [v|] eqn:E; [|destruct (Hs r Hr E)].
    pose proof (c50_where_logic e r v L (F r Hr) C E) as W. apply eq_true_iff_eq. rewrite W.
    destruct v; split; congruence.
Qed.
Print Assumptions c50_filter_executor.

Example c50_filter_executor_ex :
  let e := ECmp Gt (ECol 0) (EConst (VInt Integer 1)) in
  let rows := [[VInt Integer 1]; [VNull]; [VInt Integer 2]; [VInt Integer 3]] in
  logical e /\ stored_consts e /\ Forall (Forall stored_val) rows /\
  (forall r, In r rows -> sem e r <> None) /\
  produces (filter_next e) (map Row rows ++ [Fail])
    [Row [VInt Integer 2]; Row [VInt Integer 3]; Fail].
Proof.
  cbn zeta. split; [cbn; tauto|]. split; [cbn; unfold fits; cbn; lia|].
  split; [repeat constructor; unfold fits; cbn; lia|].
  assert (Hn : forall r, In r [[VInt Integer 1]; [VNull]; [VInt Integer 2]; [VInt Integer 3]] ->
    sem (ECmp Gt (ECol 0) (EConst (VInt Integer 1))) r <> None).
  { cbn. intros r [<-|[<-|[<-|[<-|[]]]]]; cbn; discriminate. }
  split; [exact Hn|].
  apply (c50_filter_executor _ _ true); [cbn; tauto|cbn; unfold fits; cbn; lia| |exact Hn|reflexivity].
  repeat constructor; unfold fits; cbn; lia.
Qed.

(** C44. Draining ORDER BY over a child that returns [rows]: the output is [rows] sorted by
    the specifications, ties in the child's order (ExecSpec.v). *)
Theorem c44_order_by : forall specs rows out,
  sortable specs rows ->
  produces sort_next (sort_init specs (map Row rows)) out ->
  exists s, out = map Row s /\ is_sorted_version specs rows s.
Proof.
  intros specs rows out S P. unfold sort_init in P.
  rewrite (proj1 (collect_rows rows [])) in P.
  pose proof (sort_next_produces (sort_by (cmp_rows specs) rows) 0) as Q. cbn in Q.
  exists (sort_by (cmp_rows specs) rows).
  split; [exact (produces_fun _ _ _ P _ Q)|apply sort_is_sorted; exact S].
Qed.
Print Assumptions c44_order_by.

(** C44. And it does return: the executor never runs forever. *)
Theorem c44_order_by_terminates : forall specs rows,
  exists out, produces sort_next (sort_init specs (map Row rows)) out.
Proof. intros. eexists. apply sort_next_produces. Qed.
Print Assumptions c44_order_by_terminates.

(** [ORDER BY c0 DESC, c1]. *)
Definition specs44 : list order_by := [(ECol 0, true); (ECol 1, false)].
Definition rows44 : list row :=
  [[VInt Integer 1; VVar "b"; VInt Integer 100]; [VNull; VVar "a"; VInt Integer 101];
   [VInt Integer 2; VVar "z"; VInt Integer 102]; [VInt Integer 1; VVar "a"; VInt Integer 103];
   [VInt Integer 1; VVar "b"; VInt Integer 99]].
Example c44_ex : sortable specs44 rows44 /\
  produces sort_next (sort_init specs44 (map Row rows44))
    (map Row [[VInt Integer 2; VVar "z"; VInt Integer 102]; [VInt Integer 1; VVar "a"; VInt Integer 103];
              [VInt Integer 1; VVar "b"; VInt Integer 100]; [VInt Integer 1; VVar "b"; VInt Integer 99];
              [VNull; VVar "a"; VInt Integer 101]]).
Proof.
  split; [|apply sort_next_produces].
  intros e d [[= <- <-]|[[= <- <-]|[]]]; (split; [intros a Ha|intros a b x y Ha Hb]);
    cbn in Ha; repeat destruct Ha as [<-|Ha]; try destruct Ha; cbn; try (eexists; reflexivity);
    cbn in Hb; repeat destruct Hb as [<-|Hb]; try destruct Hb; cbn; intros [= <-] [= <-]; cbn; auto.
Qed.

(** C44, the error part, is false of the code: when the child fails after some rows, the
    rows read so far are returned as if they were all, and the failure is lost. *)
Theorem c44_child_error_refuted : exists specs rows out,
  sortable specs rows /\ produces sort_next (sort_init specs (map Row rows ++ [Fail])) out /\ ~ In Fail out /\ rows <> [].
Proof.
  exists specs44, rows44, (map Row (sort_by (cmp_rows specs44) rows44)).
  split; [apply c44_ex|]. split; [apply sort_next_produces|]. split; [|discriminate].
  rewrite in_map_iff. intros (x & E & _). discriminate E.
Qed.
Print Assumptions c44_child_error_refuted.

(** C46, for tables without NULLs: DISTINCT returns the first occurrence of every row, in
    order, and passes a failure of the child on. Missing: rows with NULLs, where it is
    false (below). [dbg] is how values of the types without a binary form are printed. *)
Theorem c46_distinct_partial : forall dbg tys rows (fails : bool) out,
  dbg_faithful dbg -> Forall (plain_row dbg tys) rows ->
  produces (distinct_next dbg) (map Row rows ++ (if fails then [Fail] else []), []) out <->
  out = map Row (first_occurrences row_eq_dec rows) ++ if fails then [Fail] else [].
Proof.
  intros dbg tys rows fails out D F. pose proof (distinct_produces dbg rows fails []) as Q.
  rewrite (dedup_all dbg row_eq_dec rows) in Q.
  - split; [intros H; exact (produces_fun _ _ _ H _ Q)|intros ->; exact Q].
  - intros a b Ha Hb. rewrite Forall_forall in F. apply (ser_row_inj dbg tys); auto.
Qed.
Print Assumptions c46_distinct_partial.

(** A faithful printing exists: the number in binary, the string itself. *)
Fixpoint pos_str (p : positive) : string :=
  match p with
  | xH => "1"
  | xO q => String "0" (pos_str q)
  | xI q => String "1" (pos_str q)
  end.
Definition z_str (z : Z) : string :=
  match z with Z0 => "" | Zpos p => String "+" (pos_str p) | Zneg p => String "-" (pos_str p) end.
Definition dbg_ex (v : val) : string :=
  match v with
  | VInt TinyInt z => String "t" (z_str z)
  | VInt SmallInt z => String "s" (z_str z)
  | VChar s => String "c" s
  | _ => ""
  end.
Lemma dbg_ex_faithful : dbg_faithful dbg_ex.
Proof.
  assert (P : forall p q, pos_str p = pos_str q -> p = q).
  { induction p as [p IH|p IH|]; intros [q|q|] E; cbn in E; try congruence;
      try (destruct p; discriminate E); try (destruct q; discriminate E);
      injection E as E; f_equal; auto. }
  assert (Z1 : forall x y, z_str x = z_str y -> x = y).
  { intros [|p|p] [|q|q] E; cbn in E; try discriminate E; try reflexivity;
      injection E as E; f_equal; auto. }
  intros [|a|[] a|a|a] [|b|[] b|b|b]; cbn; try discriminate; intros _ _ E; injection E as E;
    f_equal; auto.
Qed.
Definition rows46 : list row :=
  [[VInt Integer (-1); VVar "ab"; VInt TinyInt 3]; [VInt Integer 7; VVar ""; VInt TinyInt 3];
   [VInt Integer (-1); VVar "ab"; VInt TinyInt 3]; [VInt Integer (-1); VVar "ab"; VInt TinyInt (-3)]].
Example c46_ex :
  dbg_faithful dbg_ex /\ Forall (plain_row dbg_ex [TInt Integer; TVar; TInt TinyInt]) rows46 /\
  produces (distinct_next dbg_ex) (map Row rows46 ++ [Fail], [])
    (map Row [[VInt Integer (-1); VVar "ab"; VInt TinyInt 3]; [VInt Integer 7; VVar ""; VInt TinyInt 3];
              [VInt Integer (-1); VVar "ab"; VInt TinyInt (-3)]] ++ [Fail]).
Proof.
  split; [exact dbg_ex_faithful|]. split.
  - repeat constructor; cbn; unfold fits; cbn; try lia; try discriminate.
  - exact (distinct_produces dbg_ex rows46 true []).
Qed.

(** C46 is false with NULLs: (NULL, -1) and (-1, NULL) have the same bytes, so one of the
    two different rows is dropped. *)
Theorem c46_null_collision_refuted : forall dbg, exists a b,
  a <> b /\ produces (distinct_next dbg) (map Row [a; b], []) [Row a].
Proof.
  intros dbg. exists [VNull; VInt Integer (-1)], [VInt Integer (-1); VNull].
  split; [discriminate|]. exact (distinct_produces dbg
    [[VNull; VInt Integer (-1)]; [VInt Integer (-1); VNull]] false []).
Qed.
Print Assumptions c46_null_collision_refuted.
