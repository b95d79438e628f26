(** C122: every clause of a query is obeyed, or the query is refused. *)
From Coq Require Import Strings.String ZArith List Bool Lia Arith Permutation.
From Verif Require Import ExprModel ExprSpec ExecModel ExecSpec ExecProofs ExecProps NameModel NameSpec NameProofs QrySpec QryModel QryProofs QryProps QclSpec QclModel QclProofs.
Import ListNotations.
Local Open Scope string_scope.
Local Open Scope nat_scope.
Local Open Scope list_scope.

(** C122, for queries of any depth of parentheses, each level with ORDER BY, OFFSET, LIMIT
    and FETCH of its own, around a SELECT of C98: the query is planned, running it ends,
    and it returns the rows the specification says.  Missing, and false: the clauses of
    the theorems below. *)
Theorem c122_obeyed_partial : forall text dbg db q, fine text dbg db q ->
  exists names ans, means db q names ans /\
    forall out, executes text dbg db q out <-> out = map Row ans.
Proof.
  intros text dbg db q F.
  destruct (all_good text dbg db q F) as (its & ans & t & names & p & cols & rows & _ & M & E & _ & _ & Db & R & _).
  exists (map called its), ans. split; [exact M|]. intros out. split.
  - intros (t2 & n2 & p2 & c2 & r2 & E2 & D2 & R2). rewrite E in E2. injection E2 as <- <- <-.
    rewrite Db in D2. injection D2 as <- <-. exact (runs_fun _ _ _ _ R2 _ R).
  - intros ->. exists t, names, p, cols, rows. auto.
Qed.
Print Assumptions c122_obeyed_partial.

(** [((SELECT DISTINCT b AS x FROM t WHERE a < 5 ORDER BY x FETCH FIRST 2 ROWS ONLY) ORDER
    BY x DESC) OFFSET 1] over the table of C98. *)
Definition db122 : database := fun n => if String.eqb n "t" then Some (cols98, rows98) else None.
Definition s122 : select := Select DistinctRows None [IExpr (NCol "b") (Some "x")] None "t"
  (Some (NCmp Lt (NCol "a") (NConst (num 5)))) [] None.
Definition q122 : stmt :=
  Stmt [] (BParens (Stmt [] (BParens (Stmt [] (BSelect s122)
    (Tail [Key (NCol "x") false None] None None [] (Some (Fetch 2 false false)) false)))
    (Tail [Key (NCol "x") true None] None None [] None false)))
    (Tail [] (Some 1) None [] None false).
Example c122_obeyed_ex : fine text98 dbg_ex db122 q122 /\
  executes text98 dbg_ex db122 q122 [Row [num 10]].
Proof.
  destruct c98_distinct_ex as (L & Q & C & Df & Pl & p & Ep & R).
  assert (K : forall d, fine_key text98 [(NCol "b", Some "x")] (Key (NCol "x") d None)).
  { intros d. split; [reflexivity|]. exists "x", 0. split; [reflexivity|]. split.
    - split; [reflexivity|]. intros [|[|j]] H; cbn in H; congruence.
    - intros it [<-|[]] H. discriminate H. }
  split.
  - cbn [q122 fine fine_body]. repeat (split; [reflexivity || (repeat split; fail)|]).
    repeat split; try discriminate.
    + exists cols98, rows98. split; [reflexivity|]. split; [exact L|]. split; [exact Q|]. split; [exact C|].
      intros _. split; [exact Df|]. exists [TInt Integer]. exact Pl.
    + eexists. split; [reflexivity|]. constructor; [apply K|constructor].
    + eexists. split; [reflexivity|]. constructor.
  - exists "t", ["x"]. do 3 eexists. split; [vm_compute; reflexivity|]. split; [reflexivity|].
    eapply rn_offset with (i := map Row [[num 20]; [num 10]]).
    2:{ exact (offset_produces 1 pull _ _ (pull_rows [[num 20]; [num 10]]) 1 0 eq_refl). }
    refine (sort_runs dbg_ex rows98 [(ECol 0, true)] _ [[num 10]; [num 20]] _).
    vm_compute in Ep. injection Ep as <-. exact R.
Qed.

(** C122, for UNION and [TABLE t] (at any depth of parentheses): refused, whatever the
    clauses around them. *)
Theorem c122_refused : forall text dbg db q out, unsupported q -> ~ executes text dbg db q out.
Proof.
  intros text dbg db q out U (t & names & p & cols & rows & E & _).
  rewrite (unsupported_refused text db q U) in E. discriminate E.
Qed.
Print Assumptions c122_refused.

Example c122_refused_ex : unsupported (Stmt [] (BParens (Stmt [] (BUnion (BSelect s122) (BSelect s122)) no_tail)) no_tail).
Proof. exact I. Qed.

(** ** What is false *)

(** C122 is false of WITH, TOP, INTO, QUALIFY, FOR UPDATE, the keys of LIMIT BY and of
    DISTINCT ON, the direction of SORT BY, NULLS FIRST/LAST and PERCENT / WITH TIES: every
    query that has them, at any depth, is planned like the query without them, and so
    returns the same rows. *)
Theorem c122_ignored_refuted : forall text dbg db q,
  plan_query text db q = plan_query text db (bare q) /\
  forall out, executes text dbg db q out <-> executes text dbg db (bare q) out.
Proof.
  intros text dbg db q. split; [symmetry; apply plan_bare|].
  intros out. unfold executes. now rewrite plan_bare.
Qed.
Print Assumptions c122_ignored_refuted.

(** WITH: [WITH n AS (c) SELECT * FROM n] means the rows of [c], but returns those of the
    stored table [n] if there is one, and is refused otherwise; whatever [c] is. *)
Theorem c122_with_refuted : forall text dbg db n c,
  let q := Stmt [(n, c)] (BSelect (star n)) no_tail in
  (forall cols1 ans1, means db c (map Some cols1) ans1 -> NoDup cols1 -> Forall dotless cols1 ->
     Forall (fun r => length r = length cols1) ans1 -> means db q (map Some cols1) ans1) /\
  (forall cols rows, db n = Some (cols, rows) -> NoDup cols -> Forall dotless cols ->
     Forall (fun r => length r = length cols) rows ->
     forall out, executes text dbg db q out <-> out = map Row rows) /\
  (db n = None -> forall out, ~ executes text dbg db q out).
Proof.
  intros text dbg db n c q. split; [|split].
  - intros cols1 ans1 M N D Len. eapply mn_with; [exact M|]. apply star_means; try assumption.
    unfold add_table. now rewrite String.eqb_refl.
  - intros cols rows Db N D Len out. now apply (star_executes text dbg db n cols rows Db N D Len).
  - intros Db out (t & names & p & cols & rows & E & _). cbn [q plan_query plan_body] in E.
    unfold plan_select in E. cbn [star s_from] in E. rewrite Db in E. discriminate E.
Qed.
Print Assumptions c122_with_refuted.

(** [WITH t AS (SELECT ... of C98) SELECT * FROM t]: means the one row of [q122], returns
    the stored table. *)
Example c122_with_ex :
  let q := Stmt [("t", q122)] (BSelect (star "t")) no_tail in
  executes text98 dbg_ex db122 q (map Row rows98) /\ length rows98 = 4 /\
  exists names ans, means db122 q122 names ans /\ map Row ans = [Row [num 10]].
Proof.
  split; [|split; [reflexivity|]].
  - apply (proj1 (proj2 (c122_with_refuted text98 dbg_ex db122 "t" q122)) cols98 rows98);
      [reflexivity|exact cols98_nodup|exact cols98_dotless|repeat constructor|reflexivity].
  - destruct c122_obeyed_ex as [F X].
    destruct (c122_obeyed_partial _ _ _ _ F) as (names & ans & M & U).
    exists names, ans. split; [exact M|]. symmetry. now apply U.
Qed.

(** TOP: [SELECT TOP n * FROM t] means the first [n] rows, and returns all. *)
Theorem c122_top_refuted : forall text dbg db t cols rows n,
  db t = Some (cols, rows) -> NoDup cols -> Forall dotless cols ->
  Forall (fun r => length r = length cols) rows ->
  let q := Stmt [] (BSelect (Select AllRows (Some n) [IStar] None t None [] None)) no_tail in
  means db q (map Some cols) (firstn n rows) /\
  forall out, executes text dbg db q out <-> out = map Row rows.
Proof.
  intros text dbg db t cols rows n Db N D Len q. split.
  - apply mn_top; [reflexivity|]. now apply star_means.
  - intros out. now apply (star_executes text dbg db t cols rows Db N D Len).
Qed.
Print Assumptions c122_top_refuted.

(** DISTINCT ON: [SELECT DISTINCT ON (keys) * FROM t] returns every row of a table
    without duplicate rows; so it breaks the demand as soon as two rows agree in the
    columns of the keys. *)
Theorem c122_distinct_on_refuted : forall text dbg db t cols rows keys tys,
  db t = Some (cols, rows) -> NoDup cols -> Forall dotless cols ->
  Forall (fun r => length r = length cols) rows ->
  dbg_faithful dbg -> Forall (plain_row dbg tys) rows -> NoDup rows ->
  (forall out, executes text dbg db
     (Stmt [] (BSelect (Select (DistinctOn keys) None [IStar] None t None [] None)) no_tail) out <->
     out = map Row rows) /\
  forall js a b, In a rows -> In b rows -> a <> b -> at_columns js a = at_columns js b ->
    ~ demand_distinct_on js rows.
Proof.
  intros text dbg db t cols rows keys tys Db N D Len Df Pl Nd. split.
  - intros out. now apply (star_distinct_executes text dbg db t cols rows Db N D Len _ _ tys Df Pl Nd).
  - intros js a b Ha Hb Ne Eq Dm. unfold demand_distinct_on in Dm.
    assert (X : forall l : list row, NoDup (map (at_columns js) l) -> In a l -> In b l -> a = b).
    { induction l as [|x l IH]; [intros _ []|]. intros H [H1|H1] [H2|H2]; try congruence.
      - exfalso. inversion H as [|? ? Hx _]. apply Hx. subst x. rewrite Eq. now apply in_map.
      - exfalso. inversion H as [|? ? Hx _]. apply Hx. subst x. rewrite <- Eq. now apply in_map.
      - inversion H. auto. }
    apply Ne. now apply (X rows).
Qed.
Print Assumptions c122_distinct_on_refuted.

Example c122_distinct_on_ex :
  let rows := [[num 1; num 2]; [num 1; num 3]] in
  NoDup rows /\ Forall (plain_row dbg_ex [TInt Integer; TInt Integer]) rows /\
  at_columns [0] [num 1; num 2] = at_columns [0] [num 1; num 3].
Proof.
  split; [|split; [|reflexivity]].
  - repeat constructor; cbn; intuition discriminate.
  - repeat constructor; cbn; try discriminate; try lia.
Qed.

(** LIMIT BY: [SELECT * FROM t LIMIT n BY keys] returns the first [n] rows of all; so it
    breaks the demand as soon as a later row has values of its own in the columns of the
    keys. *)
Theorem c122_limit_by_refuted : forall text dbg db t cols rows keys n,
  db t = Some (cols, rows) -> NoDup cols -> Forall dotless cols ->
  Forall (fun r => length r = length cols) rows ->
  (forall out, executes text dbg db
     (Stmt [] (BSelect (star t)) (Tail [] None (Some n) keys None false)) out <->
     out = map Row (firstn n rows)) /\
  forall js r, 0 < n -> In r rows ->
    (forall a, In a (firstn n rows) -> at_columns js a <> at_columns js r) ->
    ~ demand_limit_by n js rows (firstn n rows).
Proof.
  intros text dbg db t cols rows keys n Db N D Len. split.
  - intros out. destruct (star_runs text dbg db t cols rows Db N D Len) as (p & R & Pl & _).
    specialize (Pl (Stmt [] (BSelect (star t)) no_tail) eq_refl).
    assert (E : plan_query text db (Stmt [] (BSelect (star t)) (Tail [] None (Some n) keys None false)) =
                Some (t, cols, PLimit n p)).
    { cbn [plan_query plan_body t_order no_tail] in *.
      destruct (plan_select text db (star t) []) as [[[t0 n0] p0]|]; [|discriminate Pl].
      cbn [option_map apply_limits t_offset t_limit t_fetch no_tail] in *. now injection Pl as -> -> ->. }
    assert (R2 : runs dbg rows (PLimit n p) (map Row (firstn n rows))).
    { eapply rn_limit; [exact R|]. rewrite <- firstn_map.
      pose proof (limit_produces n pull _ _ (pull_rows rows) 0) as X. now rewrite Nat.sub_0_r in X. }
    split.
    + intros (t2 & n2 & p2 & c2 & r2 & E2 & D2 & R3). rewrite E in E2. injection E2 as <- <- <-.
      rewrite Db in D2. injection D2 as <- <-. exact (runs_fun _ _ _ _ R3 _ R2).
    + intros ->. exists t, cols, (PLimit n p), cols, rows. auto.
  - intros js r Hn Hr Own Dm.
    assert (Dec : forall a b : list (option val), {a = b} + {a <> b}).
    { apply list_eq_dec. intros [x|] [y|]; try (right; discriminate); try (left; reflexivity).
      destruct (row_eq_dec [x] [y]) as [E|E]; [left; congruence|right; congruence]. }
    set (g := fun a : row => if Dec (at_columns js a) (at_columns js r) then true else false).
    assert (G : forall a, g a = true <-> at_columns js a = at_columns js r).
    { intros a. unfold g. destruct (Dec (at_columns js a) (at_columns js r)); intuition congruence. }
    assert (E : filter g (firstn n rows) = firstn n (filter g rows)).
    { apply Dm. intros a b Ha. apply G in Ha. rewrite G. rewrite Ha. intuition congruence. }
    assert (E0 : filter g (firstn n rows) = []).
    { destruct (filter g (firstn n rows)) as [|a l] eqn:Ef; [reflexivity|]. exfalso.
      assert (Ha : In a (filter g (firstn n rows))) by (rewrite Ef; now left).
      apply filter_In in Ha as [Ha Hg]. apply G in Hg. now apply (Own a). }
    rewrite E0 in E. assert (Hf : In r (filter g rows)) by (apply filter_In; split; [exact Hr|now apply G]).
    destruct (filter g rows) as [|a l]; [exact Hf|]. destruct n as [|n]; [lia|]. discriminate E.
Qed.
Print Assumptions c122_limit_by_refuted.

Example c122_limit_by_ex :
  let rows := [[num 1; num 2]; [num 2; num 3]] in
  In [num 2; num 3] rows /\
  forall a, In a (firstn 1 rows) -> at_columns [0] a <> at_columns [0] [num 2; num 3].
Proof. split; [cbn; auto|]. intros a [<-|[]]. discriminate. Qed.

(** QUALIFY: [SELECT * FROM t QUALIFY e] returns every row; so it breaks the demand as soon
    as the condition is not true of some row. *)
Theorem c122_qualify_refuted : forall text dbg db t cols rows w e,
  db t = Some (cols, rows) -> NoDup cols -> Forall dotless cols ->
  Forall (fun r => length r = length cols) rows ->
  (forall out, executes text dbg db
     (Stmt [] (BSelect (Select AllRows None [IStar] None t None [] (Some w))) no_tail) out <->
     out = map Row rows) /\
  forall r, In r rows -> eval e r <> Ok (VBool true) -> ~ demand_qualify e rows.
Proof.
  intros text dbg db t cols rows w e Db N D Len. split.
  - intros out. now apply (star_executes text dbg db t cols rows Db N D Len).
  - intros r Hr Ne Dm. unfold demand_qualify in Dm. rewrite Forall_forall in Dm. apply Ne. now apply Dm.
Qed.
Print Assumptions c122_qualify_refuted.

Example c122_qualify_ex : denotes ["a"] (NCmp Gt (NCol "a") (NConst (num 5))) (ECmp Gt (ECol 0) (EConst (num 5))) /\
  eval (ECmp Gt (ECol 0) (EConst (num 5))) [num 1] <> Ok (VBool true).
Proof.
  split; [|discriminate]. repeat constructor. intros [|[|j]] H; cbn in H; congruence.
Qed.

(** SORT BY: [SELECT * FROM t SORT BY c DESC] returns the rows in ascending order. *)
Theorem c122_sort_by_refuted : forall text dbg db t cols rows c i,
  db t = Some (cols, rows) -> NoDup cols -> Forall dotless cols ->
  Forall (fun r => length r = length cols) rows -> (forall j, one_type rows j) ->
  named cols c i ->
  exists s, is_sorted_version [(ECol i, false)] rows s /\
    forall out, executes text dbg db
      (Stmt [] (BSelect (Select AllRows None [IStar] None t None [Key (NCol c) true None] None)) no_tail) out <->
      out = map Row s.
Proof.
  intros text dbg db t cols rows c i Db N D Len Ty Nm.
  destruct (star_runs text dbg db t cols rows Db N D Len) as (p & R & Pl & _).
  specialize (Pl (Stmt [] (BSelect (star t)) no_tail) eq_refl).
  exists (sort_by (cmp_rows [(ECol i, false)]) rows). split.
  - apply sort_is_sorted.
    apply (by_columns_sortable [Key (NCol c) false None] [i] rows (length cols)); [| |exact Ty].
    + intros j [<-|[]]. destruct Nm as [Nm _]. apply nth_error_Some. congruence.
    + now apply Forall_forall.
  - assert (E : plan_query text db
        (Stmt [] (BSelect (Select AllRows None [IStar] None t None [Key (NCol c) true None] None)) no_tail) =
        Some (t, cols, PSort [(ECol i, false)] p)).
    { cbn [plan_query plan_body t_order no_tail] in *. unfold plan_select in *. unfold star in Pl.
      cbn [s_from s_items s_sort_by] in *. rewrite Db in *.
      change (read_select (Select AllRows None [IStar] None t None [Key (NCol c) true None] None) []) with
        (read_select (Select AllRows None [IStar] None t None [] None) []).
      destruct (build_select_plan text cols (read_select (Select AllRows None [IStar] None t None [] None) [])) as [p0|];
        [|discriminate Pl].
      destruct (projection text cols [IStar]) as [proj|]; [|discriminate Pl].
      cbn [apply_sort_by option_map apply_limits t_offset t_limit t_fetch no_tail] in Pl.
      injection Pl as En Ep. rewrite En, Ep. unfold apply_sort_by, parse_with_fallback. cbn [map k_expr parse_expression].
      rewrite (find_name cols c i D Nm). reflexivity. }
    pose proof (sort_runs dbg rows [(ECol i, false)] p rows R) as R2. intros out. split.
    + intros (t2 & n2 & p2 & c2 & r2 & E2 & D2 & R3). rewrite E in E2. injection E2 as <- <- <-.
      rewrite Db in D2. injection D2 as <- <-. exact (runs_fun _ _ _ _ R3 _ R2).
    + intros ->. do 5 eexists. split; [exact E|]. split; [exact Db|]. exact R2.
Qed.
Print Assumptions c122_sort_by_refuted.

Example c122_sort_by_ex : named cols98 "c" 2 /\ (forall j, one_type rows98 j) /\
  map (fun r => nth_error r 2) (sort_by (cmp_rows [(ECol 2, false)]) rows98) =
    map Some [num 7; num 8; num 8; num 9].
Proof.
  split; [|split; [exact rows98_types|reflexivity]].
  split; [reflexivity|]. intros [|[|[|j]]] H; cbn in H; try congruence. now destruct j.
Qed.
