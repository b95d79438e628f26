(** C98: an ungrouped SELECT returns what its clauses say. *)
From Coq Require Import Strings.String Strings.Ascii ZArith List Bool Lia Arith Permutation Sorted.
From Verif Require Import ExprModel ExprSpec ExecModel ExecSpec ExecProofs ExecProps NameModel NameSpec NameProofs QrySpec QryModel QryProofs.
Import ListNotations.
Local Open Scope string_scope.
Local Open Scope nat_scope.
Local Open Scope list_scope.

(** C98, for queries whose sort keys are all names of result columns, or (without
    DISTINCT) all names of other columns of the table: the query is planned, running
    the plan ends, and what it returns is the answer of the specification: the rows
    that satisfy WHERE, as the SELECT list shows them, without duplicates for
    DISTINCT, sorted by the keys, cut to OFFSET, LIMIT and FETCH.  For DISTINCT the
    shown rows have no NULLs (see C46).  Missing, and false: keys that are numbers of
    result columns, keys of both kinds together, NULLS FIRST/LAST, FETCH with PERCENT
    or WITH TIES (all below). *)
Theorem c98_select_partial : forall text dbg cols q rows,
  legal cols q -> quiet text cols q -> computable cols q rows ->
  (q_distinct q = true -> dbg_faithful dbg /\ exists tys, forall kept outs,
     keeps cols (q_where q) rows kept -> Forall2 (shows cols (q_items q)) kept outs ->
     Forall (plain_row dbg tys) outs) ->
  exists p ans, build_query_plan text cols q = Some p /\ answer cols q rows ans /\
    forall out, runs dbg rows p out <-> out = map Row ans.
Proof.
  intros text dbg cols q rows L Q C D.
  destruct (select_ok text dbg cols q rows L Q C D) as (p & ans & E & A & R).
  exists p, ans. split; [exact E|]. split; [exact A|]. intros out. split.
  - intros H. exact (runs_fun _ _ _ _ H _ R).
  - now intros ->.
Qed.
Print Assumptions c98_select_partial.

(** [SELECT b AS x, a + b FROM t WHERE a < 5 ORDER BY c DESC LIMIT 1 OFFSET 1] over
    [t (a, b, c)], and the same with [SELECT DISTINCT b AS x ... ORDER BY x]. *)
Definition num (z : Z) : val := VInt Integer z.
Definition cols98 : list string := ["a"; "b"; "c"].
Definition q98 : query := Query false
  [IExpr (NCol "b") (Some "x"); IExpr (NArith Add (NCol "a") (NCol "b")) None]
  (Some (NCmp Lt (NCol "a") (NConst (num 5)))) [Key (NCol "c") true None] (Some 1) (Some 1) None.
Definition q98d : query := Query true
  [IExpr (NCol "b") (Some "x")] (Some (NCmp Lt (NCol "a") (NConst (num 5)))) [Key (NCol "x") false None] None None
  (Some (Fetch 2 false false)).
Definition rows98 : list row :=
  [[num 1; num 20; num 7]; [num 9; num 21; num 8]; [num 2; num 20; num 9]; [num 3; num 10; num 8]].
Definition text98 (n : nexpr) : string := "(text)".

Ltac dl := unfold dotless; cbn; intuition congruence.

Lemma cols98_nodup : NoDup cols98.
Proof. unfold cols98. repeat (constructor; [cbn; intuition discriminate|]). constructor. Qed.
Lemma cols98_dotless : Forall dotless cols98.
Proof. unfold cols98. repeat (constructor; [dl|]). constructor. Qed.

Lemma rows98_types : forall i, one_type rows98 i.
Proof.
  intros i a b x y Ha Hb Ex Ey. right. right.
  assert (X : forall r v, In r rows98 -> nth_error r i = Some v -> type_of v = Some (TInt Integer)).
  { clear. intros r v H E. apply nth_error_In in E. unfold rows98 in H. cbn in H.
    repeat destruct H as [<-|H]; try destruct H; cbn in E; repeat destruct E as [<-|E]; try destruct E; reflexivity. }
  now rewrite (X a x Ha Ex), (X b y Hb Ey).
Qed.


(** An expression over the columns means what the model parses it to. *)
Lemma den98 n e : denotes cols98 n e -> incl (mentions n) cols98 -> parse_expression cols98 n = Some e.
Proof.
  intros D I. destruct (parse_denotes cols98 n cols98_nodup cols98_dotless I) as (e2 & E & D2).
  now rewrite (denotes_fun _ _ _ D _ D2).
Qed.

Ltac inc := cbn; intros ? H; cbn in H; intuition (subst; cbn; auto).

Lemma w98 q r : (q = q98 \/ q = q98d) -> In r rows98 -> forall it, In it (written_out cols98 (q_items q)) ->
  exists e v, denotes cols98 (fst it) e /\ eval e r = Ok v /\ type_of v = Some (TInt Integer) /\
    stored_val v.
Proof.
  intros Hq Hr it Hit.
  assert (X : fst it = NCol "b" \/ fst it = NArith Add (NCol "a") (NCol "b")).
  { destruct Hq as [-> | ->]; cbn in Hit; intuition (subst; cbn; auto). }
  destruct (parse_denotes cols98 (fst it) cols98_nodup cols98_dotless) as (e & E & D).
  { destruct X as [-> | ->]; inc. }
  exists e. destruct X as [X|X]; rewrite X in *; cbn in E; injection E as <-;
    cbn in Hr; repeat destruct Hr as [<-|Hr]; try destruct Hr; eexists; (split; [exact D|]);
    (split; [reflexivity|]); (split; [reflexivity|]); cbn; unfold fits; cbn; lia.
Qed.

Lemma o98 q kept outs : (q = q98 \/ q = q98d) -> keeps cols98 (q_where q) rows98 kept ->
  Forall2 (shows cols98 (q_items q)) kept outs -> forall o v, In o outs -> In v o ->
  type_of v = Some (TInt Integer) /\ stored_val v.
Proof.
  intros Hq K S o v Ho Hv. destruct (Forall2_in_r _ _ _ _ S Ho) as (r & Hr & Sh).
  apply (keeps_in _ _ _ _ K) in Hr as [Hr _]. unfold shows in Sh.
  destruct (Forall2_in_r _ _ _ _ Sh Hv) as (it & Hit & e & D & E).
  destruct (w98 q r Hq Hr it Hit) as (e2 & v2 & D2 & E2 & T).
  rewrite (denotes_fun _ _ _ D _ D2) in E. rewrite E2 in E. injection E as <-. exact T.
Qed.

Lemma comp98 q : (q = q98 \/ q = q98d) -> computable cols98 q rows98.
Proof.
  intros Hq. split; [repeat constructor|]. split.
  { intros r it Hr _ Hit. destruct (w98 q r Hq Hr it Hit) as (e & v & D & E & _). eauto. }
  split; [apply rows98_types|].
  intros kept outs i K S a b x y Ha Hb Ex Ey. right. right.
  apply nth_error_In in Ex. apply nth_error_In in Ey.
  now rewrite (proj1 (o98 q kept outs Hq K S a x Ha Ex)), (proj1 (o98 q kept outs Hq K S b y Hb Ey)).
Qed.

Lemma legal98 : legal cols98 q98 /\ legal cols98 q98d.
Proof.
  split; split; try exact cols98_nodup; try exact cols98_dotless; try exact I; cbn [q98 q98d q_items q_where q_order q_fetch].
  - intros e a [[= <- <-]|[[= <- <-]|[]]]; (split; [inc|try dl; exact I]).
  - inc.
  - right. split; [reflexivity|]. split; [discriminate|]. intros k [<-|[]]. exists "c".
    split; [reflexivity|]. split; [cbn; auto|]. intros (it & Hit & E). cbn in Hit.
    destruct Hit as [<-|[<-|[]]]; discriminate E.
  - now intros k [<-|[]].
  - intros e a [[= <- <-]|[]]. split; [inc|dl].
  - inc.
  - left. intros k [<-|[]]. exists "x", 0, (NCol "b", Some "x"). split; [reflexivity|].
    split; [reflexivity|]. split; [reflexivity|]. intros [|[|j]] it H; cbn in H; try discriminate; auto.
  - now intros k [<-|[]].
  - split; reflexivity.
Qed.

Lemma quiet98 : quiet text98 cols98 q98 /\ quiet text98 cols98 q98d.
Proof.
  split; intros e a H; cbn in H.
  - destruct H as [[= <- <-]|[[= <- <-]|[]]]; [discriminate|]. intros _. split; [dl|].
    intros k [<-|[]]. discriminate.
  - destruct H as [[= <- <-]|[]]. discriminate.
Qed.

Example c98_ex :
  legal cols98 q98 /\ quiet text98 cols98 q98 /\ computable cols98 q98 rows98 /\
  (exists p, build_query_plan text98 cols98 q98 = Some p /\
     runs (fun _ => "") rows98 p [Row [num 10; num 13]]).
Proof.
  split; [apply legal98|]. split; [apply quiet98|]. split; [apply comp98; auto|].
  eexists. split; [vm_compute; reflexivity|].
  eapply rn_limit with (i := map Row [[num 10; num 13]; [num 20; num 21]]).
  2:{ exact (limit_produces 1 pull _ _ (pull_rows [[num 10; num 13]; [num 20; num 21]]) 0). }
  eapply rn_offset with (i := map Row [[num 20; num 22]; [num 10; num 13]; [num 20; num 21]]).
  2:{ exact (offset_produces 1 pull _ _ (pull_rows [[num 20; num 22]; [num 10; num 13]; [num 20; num 21]]) 1 0 eq_refl). }
  eapply rn_project.
  - apply (sort_runs _ _ _ _ [[num 1; num 20; num 7]; [num 2; num 20; num 9]; [num 3; num 10; num 8]]).
    eapply rn_filter; [apply rn_scan|].
    exact (filter_produces (ECmp Lt (ECol 0) (EConst (num 5))) rows98 false).
  - apply (project_produces _ [[num 2; num 20; num 9]; [num 3; num 10; num 8]; [num 1; num 20; num 7]]).
    repeat constructor.
Qed.

Example c98_distinct_ex :
  legal cols98 q98d /\ quiet text98 cols98 q98d /\ computable cols98 q98d rows98 /\
  dbg_faithful dbg_ex /\
  (forall kept outs, keeps cols98 (q_where q98d) rows98 kept -> Forall2 (shows cols98 (q_items q98d)) kept outs ->
     Forall (plain_row dbg_ex [TInt Integer]) outs) /\
  exists p, build_query_plan text98 cols98 q98d = Some p /\
     runs dbg_ex rows98 p [Row [num 10]; Row [num 20]].
Proof.
  split; [apply legal98|]. split; [apply quiet98|]. split; [apply comp98; auto|].
  split; [apply dbg_ex_faithful|].
  assert (Pl : forall kept outs, keeps cols98 (q_where q98d) rows98 kept ->
     Forall2 (shows cols98 (q_items q98d)) kept outs -> Forall (plain_row dbg_ex [TInt Integer]) outs).
  { intros kept outs K Sh. apply Forall_forall. intros o Ho.
    pose proof (o98 q98d kept outs (or_intror eq_refl) K Sh o) as T.
    destruct (Forall2_in_r _ _ _ _ Sh Ho) as (r & _ & S1). apply shows_length in S1.
    destruct o as [|v [|? ?]]; cbn in S1; try discriminate.
    destruct (T v Ho (or_introl eq_refl)) as [T1 T2].
    repeat constructor; try assumption; destruct v as [|?|[] ?|?|?]; cbn in *; try discriminate; try exact I. }
  split; [exact Pl|].
  eexists. split; [vm_compute; reflexivity|].
  eapply rn_limit with (i := map Row [[num 10]; [num 20]]).
  2:{ exact (limit_produces 2 pull _ _ (pull_rows [[num 10]; [num 20]]) 0). }
  refine (sort_runs dbg_ex rows98 [(ECol 0, false)] _ [[num 20]; [num 10]] _).
  eapply rn_distinct with (i := map Row [[num 20]; [num 20]; [num 10]]).
  2:{ exact (distinct_produces dbg_ex [[num 20]; [num 20]; [num 10]] false []). }
  eapply rn_project.
  - eapply rn_filter; [apply rn_scan|].
    exact (filter_produces (ECmp Lt (ECol 0) (EConst (num 5))) rows98 false).
  - apply (project_produces _ [[num 1; num 20; num 7]; [num 2; num 20; num 9]; [num 3; num 10; num 8]]).
    repeat constructor.
Qed.

(** ** What is false *)

(** C98 is false of sort keys that are numbers of result columns: they are taken for
    constants, and whatever the table holds, [SELECT a FROM t ORDER BY 1] (or any
    list of numbers, in any direction) returns the rows in the order of the table. *)
Theorem c98_position_refuted : forall text dbg a keys rows,
  dotless a -> keys <> [] ->
  (forall k, In k keys -> exists t z, k_expr k = NConst (VInt t z)) ->
  Forall (fun r => length r = 1) rows ->
  exists p, build_query_plan text [a] (Query false [IExpr (NCol a) None] None keys None None None) = Some p /\
    forall out, runs dbg rows p out <-> out = map Row rows.
Proof.
  intros text dbg a keys rows Da Ne Hk Len.
  assert (E : forall names, parse_order_by names keys =
            Some (map (fun k => (match k_expr k with NConst v => EConst v | _ => ECol 0 end, k_desc k)) keys)).
  { intros names. unfold parse_order_by. clear -Hk. induction keys as [|k keys IH]; [reflexivity|].
    destruct (Hk k (or_introl eq_refl)) as (t & z & Ek). cbn [map]. rewrite Ek. cbn [parse_expression option_map all_some].
    rewrite IH; [reflexivity|]. intros k2 H2. apply Hk. now right. }
  set (specs := map (fun k => (match k_expr k with NConst v => EConst v | _ => ECol 0 end, k_desc k)) keys) in *.
  assert (Z : parse_identifier [a] a = Some 0).
  { apply find_name; [repeat constructor; exact Da|]. split; [reflexivity|].
    intros [|[|j]] H; cbn in H; congruence. }
  exists (PSort specs (PProject [ECol 0] PScan)). split.
  - unfold build_query_plan, build_select_plan.
    cbn [q_where q_items q_order q_distinct q_offset q_limit q_fetch projection parse_expression].
    rewrite Z. cbn [option_map map fst snd output_name].
    destruct keys as [|k keys]; [congruence|]. now rewrite E.
  - assert (R : runs dbg rows (PSort specs (PProject [ECol 0] PScan)) (map Row rows)).
    { replace rows with (sort_by (cmp_rows specs) rows) at 2.
      - apply sort_runs. eapply rn_project; [constructor|]. apply project_produces.
        clear -Len. induction Len as [|r rows H F IH]; constructor; [|exact IH].
        destruct r as [|v [|? ?]]; try discriminate H. reflexivity.
      - assert (X : forall x y, cmp_rows specs x y = Datatypes.Eq).
        { intros x y. unfold specs. clear -Hk. induction keys as [|k keys IH]; [reflexivity|].
          destruct (Hk k (or_introl eq_refl)) as (t & z & Ek). cbn [map cmp_rows]. rewrite Ek.
          cbn [eval]. rewrite val_cmp_refl. apply IH. intros k2 H2. apply Hk. now right. }
        clear -X. induction rows as [|r rows IH]; [reflexivity|]. cbn [sort_by]. rewrite IH.
        destruct rows as [|r2 rows]; [reflexivity|]. cbn [insert_by]. now rewrite X. }
    intros out. split; [intros H; exact (runs_fun _ _ _ _ H _ R)|now intros ->].
Qed.
Print Assumptions c98_position_refuted.

Example c98_position_ex :
  let q := Query false [IExpr (NCol "a") None] None [Key (NConst (num 1)) false None] None None None in
  key_means ["a"] (q_items q) (NConst (num 1)) (length ["a"] + 0) /\
  exists p, build_query_plan text98 ["a"] q = Some p /\
    runs dbg_ex [[num 2]; [num 1]] p [Row [num 2]; Row [num 1]].
Proof.
  intros q. split; [apply (km_number ["a"] (q_items q) Integer 1); cbn; lia|].
  destruct (c98_position_refuted text98 dbg_ex "a" [Key (NConst (num 1)) false None] [[num 2]; [num 1]])
    as (p & E & R).
  - dl.
  - discriminate.
  - intros k [<-|[]]. now exists Integer, 1%Z.
  - repeat constructor.
  - exists p. split; [exact E|]. now apply R.
Qed.

(** C98 is false of keys of both kinds together: sorting by an alias and then by a
    column of the table that is not selected is refused ... *)
Theorem c98_mixed_keys_refuted : forall text cols a b x d1 d2,
  NoDup cols -> Forall dotless cols -> In a cols -> In b cols ->
  dotless x -> ~ In x cols ->
  build_query_plan text cols (Query false [IExpr (NCol a) (Some x)] None
    [Key (NCol x) d1 None; Key (NCol b) d2 None] None None None) = None.
Proof.
  intros text cols a b x d1 d2 N D Ha Hb Dx Nx.
  destruct (named_in cols a N Ha) as [i Hi]. destruct (named_in cols b N Hb) as [j Hj].
  assert (Db : dotless b) by (rewrite Forall_forall in D; auto).
  unfold build_query_plan, build_select_plan, parse_order_by.
  cbn [q_where q_items q_order q_distinct projection parse_expression output_name map k_expr k_desc].
  rewrite (find_name _ _ _ D Hi). cbn [option_map map fst snd].
  rewrite (find_none [x] b); [|repeat constructor; exact Dx|exact Db|].
  2:{ intros [->|[]]. contradiction. }
  rewrite (find_none cols x D Dx Nx).
  rewrite (find_name [x] x 0); [|repeat constructor; exact Dx|].
  2:{ split; [reflexivity|]. intros [|[|k]] H; cbn in H; congruence. }
  cbn [option_map all_some]. reflexivity.
Qed.
Print Assumptions c98_mixed_keys_refuted.

Example c98_mixed_keys_ex :
  key_means cols98 [IExpr (NCol "a") (Some "x")] (NCol "x") (length cols98 + 0) /\
  key_means cols98 [IExpr (NCol "a") (Some "x")] (NCol "b") 1 /\
  build_query_plan text98 cols98 (Query false [IExpr (NCol "a") (Some "x")] None
    [Key (NCol "x") false None; Key (NCol "b") false None] None None None) = None.
Proof.
  split.
  - apply (km_out _ _ _ 0 (NCol "a", Some "x")); [reflexivity|reflexivity|].
    intros [|[|k]] it H; cbn in H; try discriminate; auto.
  - split.
    + apply km_col.
      * split; [reflexivity|]. intros [|[|[|[|j]]]] H; cbn in H; congruence.
      * intros it [<-|[]]. discriminate.
    + reflexivity.
Qed.

(** ... and when the alias happens to be the name of a column of the table, the rows
    are sorted by that column instead of by the result column: [SELECT a AS b FROM t
    ORDER BY b, c] sorts by the table's [b] and [c]. *)
Theorem c98_mixed_alias_refuted : forall text dbg a b c rows,
  NoDup [a; b; c] -> Forall dotless [a; b; c] ->
  Forall (fun r => length r = 3) rows -> (forall i, one_type rows i) ->
  exists p s, build_query_plan text [a; b; c] (Query false [IExpr (NCol a) (Some b)] None
      [Key (NCol b) false None; Key (NCol c) false None] None None None) = Some p /\
    is_sorted_version [(ECol 1, false); (ECol 2, false)] rows s /\
    forall out, runs dbg rows p out <-> out = map Row (map (firstn 1) s).
Proof.
  intros text dbg a b c rows N D Len O.
  assert (Da : dotless a /\ dotless b /\ dotless c).
  { rewrite Forall_forall in D. repeat split; apply D; cbn; auto. }
  destruct Da as (Da & Db & Dc).
  assert (Nm : forall x i, nth_error [a; b; c] i = Some x -> parse_identifier [a; b; c] x = Some i).
  { intros x i H. apply find_name; [exact D|]. split; [exact H|]. intros j Hj.
    apply (proj1 (NoDup_nth_error _) N); [apply nth_error_Some; congruence|congruence]. }
  set (specs := [(ECol 1, false); (ECol 2, false)]).
  exists (PProject [ECol 0] (PSort specs PScan)), (sort_by (cmp_rows specs) rows).
  split; [|split].
  - unfold build_query_plan, build_select_plan, parse_order_by.
    cbn [q_where q_items q_order q_distinct q_offset q_limit q_fetch projection parse_expression output_name map k_expr k_desc].
    rewrite (Nm a 0), (Nm b 1), (Nm c 2) by reflexivity. cbn [option_map map fst snd].
    rewrite (find_none [b] c); [|repeat constructor; exact Db|exact Dc|].
    2:{ intros [E|[]]. inversion N as [|? ? _ N2]; subst. inversion N2 as [|? ? X _]; subst. apply X. now left. }
    destruct (parse_identifier [b] b); reflexivity.
  - apply sort_is_sorted. intros e d He.
    assert (Y : exists i, e = ECol i /\ i < 3).
    { destruct He as [[= <- <-]|[[= <- <-]|[]]]; eexists; split; try reflexivity; lia. }
    destruct Y as (i & -> & Hi). cbn. rewrite Forall_forall in Len. split.
    + intros r Hr. destruct (nth_error r i) eqn:E; [eauto|]. apply nth_error_None in E. rewrite (Len r Hr) in E. lia.
    + intros r1 r2 x y H1 H2 E1 E2.
      destruct (nth_error r1 i) as [x1|] eqn:F1; [injection E1 as ->|discriminate].
      destruct (nth_error r2 i) as [y1|] eqn:F2; [injection E2 as ->|discriminate].
      destruct (O i r1 r2 x y H1 H2 F1 F2) as [-> | [-> | E]]; cbn; auto.
  - assert (R : runs dbg rows (PProject [ECol 0] (PSort specs PScan))
                  (map Row (map (firstn 1) (sort_by (cmp_rows specs) rows)))).
    { eapply rn_project; [apply sort_runs; constructor|]. apply project_produces.
      assert (Len2 : Forall (fun r => length r = 3) (sort_by (cmp_rows specs) rows)).
      { eapply Permutation_Forall; [apply sort_perm|exact Len]. }
      clear -Len2. induction Len2 as [|r l H F IH]; cbn; constructor; [|exact IH].
      destruct r as [|v r]; [discriminate H|]. reflexivity. }
    intros out. split; [intros H; exact (runs_fun _ _ _ _ H _ R)|now intros ->].
Qed.
Print Assumptions c98_mixed_alias_refuted.

(** [a] is 2, 1 and the table's [b] is 1, 2: the result column called [b] comes out
    descending. *)
Example c98_mixed_alias_ex :
  NoDup cols98 /\ Forall dotless cols98 /\
  key_means cols98 [IExpr (NCol "a") (Some "b")] (NCol "b") (length cols98 + 0) /\
  is_sorted_version [(ECol 1, false); (ECol 2, false)] [[num 2; num 1; num 0]; [num 1; num 2; num 0]]
    [[num 2; num 1; num 0]; [num 1; num 2; num 0]].
Proof.
  split; [exact cols98_nodup|]. split; [exact cols98_dotless|]. split.
  - apply (km_out _ _ _ 0 (NCol "a", Some "b")); [reflexivity|reflexivity|].
    intros [|[|k]] it H; cbn in H; try discriminate; auto.
  - exact (sort_is_sorted [(ECol 1, false); (ECol 2, false)] [[num 2; num 1; num 0]; [num 1; num 2; num 0]]
      ltac:(intros e d [[= <- <-]|[[= <- <-]|[]]]; (split; [intros a Ha|intros a b x y Ha Hb]);
        cbn in Ha; repeat destruct Ha as [<-|Ha]; try destruct Ha; cbn; try (eexists; reflexivity);
        cbn in Hb; repeat destruct Hb as [<-|Hb]; try destruct Hb; cbn; intros [= <-] [= <-]; cbn; auto)).
Qed.

(** C98 is false of NULLS FIRST and NULLS LAST: they change nothing, so that [ORDER BY
    a NULLS LAST] returns the NULLs first. *)
Definition with_nulls (f : option bool) (q : query) : query :=
  Query (q_distinct q) (q_items q) (q_where q)
    (map (fun k => Key (k_expr k) (k_desc k) f) (q_order q)) (q_offset q) (q_limit q) (q_fetch q).
Theorem c98_nulls_order_refuted :
  (forall text cols q f g,
     build_query_plan text cols (with_nulls f q) = build_query_plan text cols (with_nulls g q)) /\
  forall text dbg, exists p,
    build_query_plan text ["a"] (Query false [IExpr (NCol "a") None] None
      [Key (NCol "a") false (Some false)] None None None) = Some p /\
    runs dbg [[num 1]; [VNull]] p [Row [VNull]; Row [num 1]].
Proof.
  split.
  - intros text cols q f g.
    assert (X : forall h names, parse_order_by names (map (fun k => Key (k_expr k) (k_desc k) h) (q_order q)) =
                                parse_order_by names (q_order q)).
    { intros h names. unfold parse_order_by. now rewrite map_map. }
    unfold build_query_plan, build_select_plan, with_nulls.
    cbn [q_distinct q_items q_where q_order q_offset q_limit q_fetch].
    destruct (match q_where q with Some w => _ | None => _ end) as [before|]; [|reflexivity].
    destruct (projection text cols (q_items q)) as [proj|]; [|reflexivity].
    pose proof (X f (map snd proj)) as X1. pose proof (X g (map snd proj)) as X2.
    pose proof (X f cols) as X3. pose proof (X g cols) as X4.
    destruct (q_order q) as [|k keys]; [reflexivity|]. cbn [map] in *. now rewrite X1, X2, X3, X4.
  - intros text dbg. eexists. split; [reflexivity|].
    refine (sort_runs dbg [[num 1]; [VNull]] [(ECol 0, false)] _ [[num 1]; [VNull]] _).
    eapply rn_project; [constructor|]. apply (project_produces _ [[num 1]; [VNull]]). repeat constructor.
Qed.
Print Assumptions c98_nulls_order_refuted.

(** C98 is false of FETCH with PERCENT or WITH TIES: both words change nothing, so that
    [FETCH FIRST 50 PERCENT ROWS ONLY] returns fifty rows (here: all four of four), and
    [ORDER BY a FETCH FIRST 1 ROWS WITH TIES] one of two tied rows. *)
Definition with_fetch (f : fetch) (q : query) : query :=
  Query (q_distinct q) (q_items q) (q_where q) (q_order q) (q_offset q) (q_limit q) (Some f).
Theorem c98_fetch_refuted :
  (forall text cols q n percent ties,
     build_query_plan text cols (with_fetch (Fetch n percent ties) q) =
     build_query_plan text cols (with_fetch (Fetch n false false) q)) /\
  (forall text dbg rows, Forall (fun r => length r = 1) rows -> length rows <= 50 ->
     exists p, build_query_plan text ["a"] (Query false [IExpr (NCol "a") None] None [] None None
                 (Some (Fetch 50 true false))) = Some p /\
       runs dbg rows p (map Row rows)) /\
  (forall text dbg, exists p,
     build_query_plan text ["a"; "b"] (Query false [IStar] None [Key (NCol "a") false None] None None
       (Some (Fetch 1 false true))) = Some p /\
     runs dbg [[num 7; num 1]; [num 7; num 2]] p [Row [num 7; num 1]]).
Proof.
  split; [|split].
  - reflexivity.
  - intros text dbg rows Len L50. eexists. split; [reflexivity|].
    eapply rn_limit with (i := map Row rows).
    + eapply rn_project; [constructor|]. apply project_produces.
      clear -Len. induction Len as [|r rows H F IH]; constructor; [|exact IH].
      destruct r as [|v [|? ?]]; try discriminate H. reflexivity.
    + pose proof (limit_produces 50 pull _ _ (pull_rows rows) 0) as X. rewrite Nat.sub_0_r in X.
      rewrite firstn_all2 in X by (now rewrite map_length). exact X.
  - intros text dbg. eexists. split; [reflexivity|].
    eapply rn_limit with (i := map Row [[num 7; num 1]; [num 7; num 2]]).
    + refine (sort_runs dbg [[num 7; num 1]; [num 7; num 2]] [(ECol 0, false)] _ [[num 7; num 1]; [num 7; num 2]] _).
      eapply rn_project; [constructor|]. apply (project_produces _ [[num 7; num 1]; [num 7; num 2]]).
      repeat constructor.
    + exact (limit_produces 1 pull _ _ (pull_rows [[num 7; num 1]; [num 7; num 2]]) 0).
Qed.
Print Assumptions c98_fetch_refuted.

(** C98 needs [quiet]: the text of an unnamed item is looked up like a column name.
    [SELECT 'x.b', a FROM t ORDER BY b]: the constant's text ends in the key's name
    after its dot, so the rows are sorted by the constant, that is, not at all. *)
Theorem c98_text_name_refuted : forall text dbg rows,
  text (NConst (VVar "x.b")) = "x.b" -> Forall (fun r => length r = 2) rows ->
  exists p, build_query_plan text ["a"; "b"]
      (Query false [IExpr (NConst (VVar "x.b")) None; IExpr (NCol "a") None] None
         [Key (NCol "b") false None] None None None) = Some p /\
    forall out, runs dbg rows p out <->
      out = map Row (map (fun r => VVar "x.b" :: firstn 1 r) rows).
Proof.
  intros text dbg rows T Len.
  exists (PSort [(ECol 0, false)] (PProject [EConst (VVar "x.b"); ECol 0] PScan)). split.
  - unfold build_query_plan, build_select_plan.
    cbn [q_where q_items q_order q_distinct q_offset q_limit q_fetch projection parse_expression output_name].
    rewrite T. reflexivity.
  - assert (R : runs dbg rows (PSort [(ECol 0, false)] (PProject [EConst (VVar "x.b"); ECol 0] PScan))
                  (map Row (map (fun r => VVar "x.b" :: firstn 1 r) rows))).
    { set (l := map (fun r => VVar "x.b" :: firstn 1 r) rows).
      replace l with (sort_by (cmp_rows [(ECol 0, false)]) l).
      - apply sort_runs. eapply rn_project; [constructor|]. apply project_produces. unfold l.
        clear -Len. induction Len as [|r rows H F IH]; cbn; constructor; [|exact IH].
        destruct r as [|v r]; try discriminate H. reflexivity.
      - unfold l. clear. induction rows as [|r rows IH]; [reflexivity|]. cbn [map sort_by]. rewrite IH.
        destruct rows as [|r2 rows]; reflexivity. }
    intros out. split; [intros H; exact (runs_fun _ _ _ _ H _ R)|now intros ->].
Qed.
Print Assumptions c98_text_name_refuted.

Example c98_text_name_ex :
  key_means ["a"; "b"] [IExpr (NConst (VVar "x.b")) None; IExpr (NCol "a") None] (NCol "b") 1 /\
  (fun _ : nexpr => "x.b") (NConst (VVar "x.b")) = "x.b".
Proof.
  split; [|reflexivity]. apply km_col.
  - split; [reflexivity|]. intros [|[|[|j]]] H; cbn in H; congruence.
  - intros it [<-|[<-|[]]]; discriminate.
Qed.
