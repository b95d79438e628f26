(** Lemmas for C122. *)
From Coq Require Import Strings.String ZArith List Bool Lia Arith Permutation.
From Verif Require Import ExprModel ExprSpec ExecModel ExecSpec ExecProofs NameModel NameSpec NameProofs QrySpec QryModel QryProofs QclSpec QclModel.
Import ListNotations.
Local Open Scope nat_scope.
Local Open Scope list_scope.

Scheme stmt_mut := Induction for stmt Sort Prop
with body_mut := Induction for body Sort Prop.

Lemma slice_in q l (x : row) : In x (slice q l) -> In x l.
Proof.
  unfold slice. assert (F : forall n (m : list row), In x (firstn n m) -> In x m).
  { intros n m H. rewrite <- (firstn_skipn n m). apply in_or_app. now left. }
  assert (S : forall n (m : list row), In x (skipn n m) -> In x m).
  { intros n m H. rewrite <- (firstn_skipn n m). apply in_or_app. now right. }
  intros H. destruct (q_fetch q); [apply F in H|]; (destruct (q_limit q); [apply F in H|]);
    (destruct (q_offset q); [apply S in H|]); exact H.
Qed.

(** The rows of an answer are rows the SELECT list makes. *)
Lemma answer_shown cols q rows ans : Forall (fun r => length r = length cols) rows ->
  answer cols q rows ans ->
  exists kept outs, keeps cols (q_where q) rows kept /\ Forall2 (shows cols (q_items q)) kept outs /\
    incl ans outs.
Proof.
  intros C1 A. destruct A as [kept outs specs wide _ K S _ So|kept outs specs sorted _ K S _ So];
    exists kept, outs; (split; [exact K|]); (split; [exact S|]); intros x Hx; apply slice_in in Hx.
  - apply in_map_iff in Hx as (w & <- & Hw).
    apply (Permutation_in _ (Permutation_sym (sv_perm _ _ _ So))) in Hw.
    apply in_map_iff in Hw as ((r & o) & <- & Hc). cbn [fst snd].
    pose proof (in_combine_l _ _ _ _ Hc) as Hr. pose proof (in_combine_r _ _ _ _ Hc) as Ho.
    rewrite Forall_forall in C1. rewrite <- (C1 r) by now apply (keeps_in _ _ _ _ K).
    rewrite skipn_app, Nat.sub_diag, skipn_all. exact Ho.
  - apply (Permutation_in _ (Permutation_sym (sv_perm _ _ _ So))) in Hx. now apply first_in in Hx.
Qed.

(** The planner's limits on rows. *)
Lemma limits_run dbg rows tl t names p l : runs dbg rows p (map Row l) ->
  exists p2, apply_limits tl (t, names, p) = (t, names, p2) /\ runs dbg rows p2 (map Row (cut tl l)).
Proof.
  intros R. unfold apply_limits, cut, slice. cbn [q_offset q_limit q_fetch].
  eexists. split; [reflexivity|].
  assert (R1 : runs dbg rows (match t_offset tl with Some m => POffset m p | None => p end)
                 (map Row (match t_offset tl with Some m => skipn m l | None => l end))).
  { destruct (t_offset tl) as [m|]; [|exact R]. eapply rn_offset; [exact R|].
    rewrite <- skip_items_rows. apply offset_produces; [apply pull_rows|lia]. }
  revert R1.
  generalize (match t_offset tl with Some m => POffset m p | None => p end) as p1.
  generalize (match t_offset tl with Some m => skipn m l | None => l end) as l1. intros l1 p1 R1.
  assert (R2 : runs dbg rows (match t_limit tl with Some n => PLimit n p1 | None => p1 end)
                 (map Row (match t_limit tl with Some n => firstn n l1 | None => l1 end))).
  { destruct (t_limit tl) as [n|]; [|exact R1]. eapply rn_limit; [exact R1|].
    rewrite <- firstn_map. pose proof (limit_produces n pull _ _ (pull_rows l1) 0) as X.
    now rewrite Nat.sub_0_r in X. }
  revert R2.
  generalize (match t_limit tl with Some n => PLimit n p1 | None => p1 end) as p2.
  generalize (match t_limit tl with Some n => firstn n l1 | None => l1 end) as l2. intros l2 p2 R2.
  destruct (t_fetch tl) as [f|]; [|exact R2]. eapply rn_limit; [exact R2|].
  rewrite <- firstn_map. pose proof (limit_produces (f_quantity f) pull _ _ (pull_rows l2) 0) as X.
  now rewrite Nat.sub_0_r in X.
Qed.

Lemma select_limits text db s tl cols rows0 proj p :
  db (s_from s) = Some (cols, rows0) -> s_sort_by s = [] ->
  projection text cols (s_items s) = Some proj ->
  build_query_plan text cols (whole s tl) = Some p ->
  plan_query text db (Stmt [] (BSelect s) tl) = Some (s_from s, map snd proj, p).
Proof.
  intros Db Sb Pj E. cbn [plan_query plan_body]. unfold plan_select. rewrite Db.
  unfold build_query_plan in E. cbn [whole q_offset q_limit q_fetch] in E.
  assert (Same : build_select_plan text cols (whole s tl) = build_select_plan text cols (read_select s (t_order tl))).
  { unfold build_select_plan, whole, read_select. cbn [q_distinct q_items q_where q_order].
    destruct (s_distinct s); reflexivity. }
  rewrite Same in E. destruct (build_select_plan text cols (read_select s (t_order tl))) as [p0|]; [|discriminate E].
  rewrite Pj, Sb. cbn [apply_sort_by option_map] in *. injection E as <-. reflexivity.
Qed.

(** Sort keys that are names of single result columns are found. *)
Lemma keys_found text its order : Forall dotless (map (name_of text) its) ->
  Forall (fine_key text its) order ->
  exists js, parse_order_by (map (name_of text) its) order = Some (by_columns order js) /\
    Forall2 (fun k i => exists c, k_expr k = NCol c /\ k_nulls_first k = None /\
               one_called (map called its) c i) order js.
Proof.
  intros D F. induction F as [|k order [Nf (c & i & Ek & [Oc Ou] & Tx)] F (js & Ej & Fj)].
  - exists []. split; [reflexivity|constructor].
  - exists (i :: js). split.
    + unfold parse_order_by in *. cbn [map all_some]. rewrite Ek. cbn [parse_expression].
      rewrite (find_name _ c i D); [|].
      * cbn [option_map all_some]. rewrite Ej. reflexivity.
      * split.
        -- rewrite nth_error_map in *. destruct (nth_error its i) as [it|]; [|discriminate Oc].
           cbn [option_map] in *. injection Oc as Oc. f_equal. now apply called_name.
        -- intros j Hj. apply Ou. rewrite nth_error_map in *.
           destruct (nth_error its j) as [it|] eqn:Ei; [|discriminate Hj]. cbn [option_map] in *.
           injection Hj as Hj. f_equal. apply nth_error_In in Ei.
           destruct (called it) as [n|] eqn:Cl.
           ++ rewrite (called_name text it n Cl) in Hj. congruence.
           ++ exfalso. apply (Tx it Ei Cl). rewrite <- Hj.
              destruct it as [e [a|]]; [discriminate Cl|]. destruct e; try discriminate Cl; reflexivity.
    + constructor; [|exact Fj]. exists c. repeat split; assumption.
Qed.

Lemma called_length its c i : one_called (map called its) c i -> i < length its.
Proof.
  intros [H _]. rewrite <- (map_length called its). apply nth_error_Some. congruence.
Qed.

(** ** Every fine query *)
Definition good (text : nexpr -> string) (dbg : val -> string) (db : database) (q : stmt) : Prop :=
  fine text dbg db q ->
  exists its ans t names p cols rows,
    shown_items db q = Some its /\ means db q (map called its) ans /\
    plan_query text db q = Some (t, names, p) /\ names = map (name_of text) its /\
    Forall dotless names /\
    db t = Some (cols, rows) /\ runs dbg rows p (map Row ans) /\
    (forall r, In r ans -> length r = length its) /\ (forall i, one_type ans i).

Lemma proj_names text its proj : Forall2 (fun (it : nexpr * option string) (en : expr * string) =>
    snd en = name_of text it) its proj -> map snd proj = map (name_of text) its.
Proof. induction 1; cbn; congruence. Qed.

Lemma select_good text dbg db ctes s tl : good text dbg db (Stmt ctes (BSelect s) tl).
Proof.
  intros (-> & Ot & Os & cols & rows & Db & L & Q & C & D).
  assert (D2 : q_distinct (whole s tl) = true -> dbg_faithful dbg /\ exists tys, forall kept outs,
     keeps cols (q_where (whole s tl)) rows kept -> Forall2 (shows cols (q_items (whole s tl))) kept outs ->
     Forall (plain_row dbg tys) outs).
  { intros E. apply D. cbn in E. destruct (s_distinct s) as [| |keys] eqn:Ed; [discriminate E|reflexivity|].
    exfalso. destruct Os as (_ & N & _). now apply (N keys). }
  destruct (select_ok text dbg cols (whole s tl) rows L Q C D2) as (p & ans & E & A & R).
  destruct (proj_ok text cols (whole s tl) L) as (proj & Ep & Fp).
  assert (Nm : map snd proj = map (name_of text) (written_out cols (s_items s))).
  { apply proj_names. eapply Forall2_weaken; [|exact Fp]. now intros a b [_ ?]. }
  destruct C as (C1 & C2 & C3 & C4).
  destruct (answer_shown cols (whole s tl) rows ans C1 A) as (kept & outs & K & S & I).
  exists (written_out cols (s_items s)), ans, (s_from s), (map snd proj), p, cols, rows.
  split; [cbn; now rewrite Db|].
  split; [now apply mn_select with (rows := rows)|].
  split; [eapply select_limits; [exact Db|now destruct Os as (_ & _ & _ & ? & _)|exact Ep|exact E]|].
  split; [exact Nm|].
  split.
  { rewrite Nm. apply Forall_forall. intros n Hn. apply in_map_iff in Hn as (it & <- & Hi).
    exact (alias_dotless text cols (whole s tl) L Q it Hi). }
  split; [exact Db|]. split; [exact R|]. split.
  - intros r Hr. apply I in Hr. destruct (Forall2_in_r _ _ _ _ S Hr) as (r0 & _ & Sh).
    now apply shows_length in Sh.
  - intros i a b x y Ha Hb. apply (C4 kept outs i K S); now apply I.
Qed.

Theorem all_good text dbg db q : good text dbg db q.
Proof.
  revert q. apply (stmt_mut (good text dbg db)
    (fun b => forall ctes tl, good text dbg db (Stmt ctes b tl))).
  - intros ctes b IH tl. apply IH.
  - intros s ctes tl. apply select_good.
  - intros q IH ctes tl (-> & Ot & Fi & its0 & Si0 & Fk).
    destruct (IH Fi) as (its & ans & t & names & p & cols & rows & Si & M & E & Nm & Dl & Db & R & Len & Ty).
    assert (its0 = its) by congruence. subst its0. subst names.
    destruct (keys_found text its (t_order tl) Dl Fk) as (js & Ej & Fj).
    set (sorted := sort_by (cmp_rows (by_columns (t_order tl) js)) ans).
    assert (Perm : Permutation ans sorted) by apply sort_perm.
    assert (So : is_sorted_version (by_columns (t_order tl) js) ans sorted).
    { apply sort_is_sorted. apply by_columns_sortable with (m := length its); [|exact Len|exact Ty].
      intros j Hj. destruct (Forall2_in_r _ _ _ _ Fj Hj) as (k & _ & c & _ & _ & Oc).
      exact (called_length _ _ _ Oc). }
    assert (Hp : exists p1, apply_order_by (t_order tl) (t, map (name_of text) its, p) =
                    Some (t, map (name_of text) its, p1) /\ runs dbg rows p1 (map Row sorted)).
    { unfold apply_order_by. unfold sorted. destruct (t_order tl) as [|k keys] eqn:Eo.
      - exists p. split; [reflexivity|]. unfold by_columns. cbn [combine map]. now rewrite sort_by_nil.
      - rewrite Ej. cbn [option_map]. eexists. split; [reflexivity|]. now apply sort_runs. }
    destruct Hp as (p1 & E1 & R1).
    destruct (limits_run dbg rows tl t (map (name_of text) its) p1 sorted R1) as (p2 & E2 & R2).
    exists its, (cut tl sorted), t, (map (name_of text) its), p2, cols, rows.
    split; [exact Si|]. split.
    { eapply mn_parens; [exact M|exact Ot| |exact So].
      pose proof (by_columns_spec _ _ _ Fj) as X. eapply Forall2_weaken; [|exact X].
      intros k sp (j & (c & Ek & Nf & Oc) & ->). exists c, j. auto. }
    split; [cbn [plan_query plan_body]; rewrite E, E1; cbn [option_map]; now rewrite E2|].
    split; [reflexivity|]. split; [exact Dl|]. split; [exact Db|]. split; [exact R2|].
    assert (I : forall r, In r (cut tl sorted) -> In r ans).
    { intros r Hr. apply slice_in in Hr. now apply (Permutation_in _ (Permutation_sym Perm)). }
    split; [intros r Hr; apply Len; auto|]. intros i a b x y Ha Hb. apply (Ty i); auto.
  - intros a _ b _ ctes tl (_ & _ & []).
  - intros t ctes tl (_ & _ & []).
Qed.

(** ** Clauses that are not read *)

Lemma parse_order_by_bare names order :
  parse_order_by names (map (fun k => Key (k_expr k) (k_desc k) None) order) = parse_order_by names order.
Proof. unfold parse_order_by. now rewrite map_map. Qed.

Lemma build_select_bare text cols d items w order o l f :
  build_select_plan text cols (Query d items w (map (fun k => Key (k_expr k) (k_desc k) None) order) o l f) =
  build_select_plan text cols (Query d items w order o l f).
Proof.
  unfold build_select_plan. cbn [q_distinct q_items q_where q_order].
  destruct (match w with Some w => _ | None => _ end) as [before|]; [|reflexivity].
  destruct (projection text cols items) as [proj|]; [|reflexivity].
  pose proof (parse_order_by_bare (map snd proj) order) as X1.
  pose proof (parse_order_by_bare cols order) as X2.
  destruct order as [|k keys]; [reflexivity|]. cbn [map] in *. now rewrite X1, X2.
Qed.

Lemma plan_select_bare text db s order :
  plan_select text db (bare_select s) (map (fun k => Key (k_expr k) (k_desc k) None) order) =
  plan_select text db s order.
Proof.
  unfold plan_select, bare_select, read_select.
  cbn [s_from s_items s_where s_distinct s_sort_by].
  destruct (db (s_from s)) as [[cols rows]|]; [|reflexivity].
  rewrite build_select_bare.
  assert (X : forall names p, apply_sort_by names cols (map (fun k => Key (k_expr k) false None) (s_sort_by s)) p =
                              apply_sort_by names cols (s_sort_by s) p).
  { intros names p. unfold apply_sort_by. destruct (s_sort_by s) as [|k keys]; [reflexivity|].
    cbn [map k_expr]. now rewrite map_map. }
  destruct (s_distinct s);
    (destruct (build_select_plan _ _ _) as [p|]; [|reflexivity]);
    (destruct (projection _ _ _) as [proj|]; [|reflexivity]); now rewrite X.
Qed.

Lemma apply_limits_bare tl r : apply_limits (bare_tail tl) r = apply_limits tl r.
Proof. destruct r as [[t names] p]. unfold apply_limits, bare_tail. cbn. now destruct (t_fetch tl). Qed.

Lemma plan_bare text db q : plan_query text db (bare q) = plan_query text db q.
Proof.
  revert q. apply (stmt_mut (fun q => plan_query text db (bare q) = plan_query text db q)
    (fun b => forall order, plan_body text db (bare_body b) (map (fun k => Key (k_expr k) (k_desc k) None) order) =
                            plan_body text db b order)).
  - intros ctes b IH tl. cbn [bare plan_query]. cbn [bare_tail t_order]. rewrite IH.
    destruct (plan_body text db b (t_order tl)) as [r|]; [|reflexivity]. cbn [option_map].
    f_equal. exact (apply_limits_bare tl r).
  - intros s order. apply plan_select_bare.
  - intros q IH order. cbn [bare_body plan_body]. rewrite IH.
    destruct (plan_query text db q) as [[[t names] p]|]; [|reflexivity].
    unfold apply_order_by. pose proof (parse_order_by_bare names order) as X.
    destruct order as [|k keys]; [reflexivity|]. cbn [map] in *. now rewrite X.
  - reflexivity.
  - reflexivity.
Qed.

Lemma unsupported_refused text db q : unsupported q -> plan_query text db q = None.
Proof.
  revert q. apply (stmt_mut (fun q => unsupported q -> plan_query text db q = None)
    (fun b => unsupported_body b -> forall order, plan_body text db b order = None)).
  - intros ctes b IH tl H. cbn [plan_query]. now rewrite (IH H).
  - intros s [].
  - intros q IH H order. cbn [plan_body]. now rewrite (IH H).
  - reflexivity.
  - reflexivity.
Qed.

(** [SELECT * FROM t] with any of the clauses. *)
Lemma star_projection text cols : NoDup cols -> Forall dotless cols ->
  exists proj, projection text cols [IStar] = Some proj /\ map snd proj = cols /\
    forall r : row, length r = length cols -> eval_all (map fst proj) r = Some r.
Proof.
  intros N D. eexists. split; [reflexivity|]. rewrite app_nil_r. unfold expand_star.
  assert (X : forall k (l : list string), map snd (combine (map ECol (seq k (length l))) l) = l).
  { intros k l. revert k. induction l as [|c l IH]; intros k; cbn; [reflexivity|]. now rewrite IH. }
  split; [apply X|]. intros r Len.
  assert (Y : forall (l : list string) (pre r : row), length r = length l ->
            eval_all (map fst (combine (map ECol (seq (length pre) (length l))) l)) (pre ++ r) = Some r).
  { clear. induction l as [|c l IH]; intros pre r Len; destruct r as [|v r]; try discriminate Len; [reflexivity|].
    cbn [length seq map combine fst eval_all eval].
    rewrite nth_error_app2, Nat.sub_diag by lia. cbn [nth_error].
    specialize (IH (pre ++ [v]) r). rewrite app_length, <- app_assoc in IH. cbn in IH.
    rewrite Nat.add_1_r in IH. rewrite IH by (cbn in Len; lia). reflexivity. }
  exact (Y cols [] r Len).
Qed.

Section Star.
Context (text : nexpr -> string) (dbg : val -> string) (db : database) (t : string).
Context (cols : list string) (rows : list row).
Context (Db : db t = Some (cols, rows)) (N : NoDup cols) (D : Forall dotless cols).
Context (Len : Forall (fun r => length r = length cols) rows).

Lemma star_runs : exists p, runs dbg rows p (map Row rows) /\
  (forall q, bare q = Stmt [] (BSelect (star t)) no_tail -> plan_query text db q = Some (t, cols, p)) /\
  (forall q, bare q = Stmt [] (BSelect (Select DistinctRows None [IStar] None t None [] None)) no_tail ->
     plan_query text db q = Some (t, cols, PDistinct p)).
Proof.
  destruct (star_projection text cols N D) as (proj & Ep & En & Ev).
  exists (PProject (map fst proj) PScan). split; [|split].
  - eapply rn_project; [constructor|]. apply project_produces.
    clear -Len Ev. induction Len as [|r rows H F IH]; constructor; auto.
  - intros q Eq. rewrite <- plan_bare, Eq. cbn [plan_query plan_body no_tail t_order]. unfold plan_select.
    unfold star. cbn [s_from]. rewrite Db. unfold build_select_plan.
    cbn [read_select s_distinct s_items s_where q_where q_items q_distinct q_order]. rewrite Ep.
    cbn [s_sort_by apply_sort_by option_map]. unfold apply_limits. cbn. now rewrite En.
  - intros q Eq. rewrite <- plan_bare, Eq. cbn [plan_query plan_body no_tail t_order]. unfold plan_select.
    cbn [s_from]. rewrite Db. unfold build_select_plan.
    cbn [read_select s_distinct s_items s_where q_where q_items q_distinct q_order]. rewrite Ep.
    cbn [s_sort_by apply_sort_by option_map]. unfold apply_limits. cbn. now rewrite En.
Qed.

Lemma star_executes q out : bare q = Stmt [] (BSelect (star t)) no_tail ->
  executes text dbg db q out <-> out = map Row rows.
Proof.
  intros Eq. destruct star_runs as (p & R & Pl & _). specialize (Pl q Eq). split.
  - intros (t2 & n2 & p2 & c2 & r2 & E2 & D2 & R2). rewrite Pl in E2. injection E2 as <- <- <-.
    rewrite Db in D2. injection D2 as <- <-. exact (runs_fun _ _ _ _ R2 _ R).
  - intros ->. exists t, cols, p, cols, rows. auto.
Qed.

Lemma star_distinct_executes q out tys : dbg_faithful dbg -> Forall (plain_row dbg tys) rows -> NoDup rows ->
  bare q = Stmt [] (BSelect (Select DistinctRows None [IStar] None t None [] None)) no_tail ->
  executes text dbg db q out <-> out = map Row rows.
Proof.
  intros Df Pl Nd Eq. destruct star_runs as (p & R & _ & Pq). specialize (Pq q Eq).
  pose proof (dedup_runs dbg rows p rows tys Df Pl R) as Rd.
  assert (F : first_occurrences row_eq_dec rows = rows).
  { clear -Nd. induction Nd as [|r rows H F IH]; cbn; [reflexivity|]. rewrite IH. f_equal.
    clear -H. induction rows as [|x l IH]; cbn; [reflexivity|].
    destruct (row_eq_dec x r) as [->|Ne]; [exfalso; apply H; now left|].
    destruct (row_eq_dec r x) as [->|Ne2]; [exfalso; apply H; now left|].
    cbn. f_equal. apply IH. intros Hx. apply H. now right. }
  rewrite F in Rd. split.
  - intros (t2 & n2 & p2 & c2 & r2 & E2 & D2 & R2). rewrite Pq in E2. injection E2 as <- <- <-.
    rewrite Db in D2. injection D2 as <- <-. exact (runs_fun _ _ _ _ R2 _ Rd).
  - intros ->. exists t, cols, (PDistinct p), cols, rows. auto.
Qed.

Lemma star_answer : answer cols (whole (star t) no_tail) rows rows.
Proof.
  assert (E : map (skipn (length cols)) (map (fun p : row * row => fst p ++ snd p) (combine rows rows)) = rows).
  { clear -Len. induction Len as [|r rows H F IH]; cbn [combine map fst snd]; [reflexivity|].
    rewrite (IH F). f_equal. rewrite <- H, skipn_app, Nat.sub_diag, skipn_all. reflexivity. }
  rewrite <- E at 2.
  change (map (skipn (length cols)) (map (fun p : row * row => fst p ++ snd p) (combine rows rows))) with
    (slice (whole (star t) no_tail)
      (map (skipn (length cols)) (map (fun p : row * row => fst p ++ snd p) (combine rows rows)))).
  eapply an_all with (kept := rows) (outs := rows) (specs := []); [reflexivity|apply keeps_all| |constructor|].
  - cbn [whole star s_items q_items].
    assert (X : forall r : row, length r = length cols -> shows cols [IStar] r r).
    { intros r Hr. unfold shows. cbn [written_out flat_map]. rewrite app_nil_r.
      assert (Y : forall l pre (pr r0 : row), cols = pre ++ l -> r = pr ++ r0 -> length pr = length pre ->
                Forall2 (fun (it : nexpr * option string) v => exists e, denotes cols (fst it) e /\ eval e r = Ok v)
                  (map (fun c => (NCol c, None)) l) r0).
      { induction l as [|c l IH]; intros pre pr r0 Ec Er Lp.
        - destruct r0 as [|v r0]; [constructor|]. exfalso. rewrite Er, Ec in Hr.
          rewrite !app_length in Hr. cbn in Hr. lia.
        - destruct r0 as [|v r0].
          { exfalso. rewrite Er, Ec in Hr. rewrite !app_length in Hr. cbn in Hr. lia. }
          cbn [map]. constructor.
          + exists (ECol (length pre)). cbn [fst]. split.
            * constructor. split.
              -- rewrite Ec, nth_error_app2, Nat.sub_diag by lia. reflexivity.
              -- intros j Hj. apply (proj1 (NoDup_nth_error cols) N).
                 ++ apply nth_error_Some. congruence.
                 ++ rewrite Hj. rewrite Ec, nth_error_app2, Nat.sub_diag by lia. reflexivity.
            * cbn [eval]. rewrite Er, nth_error_app2, Lp, Nat.sub_diag by lia. reflexivity.
          + apply (IH (pre ++ [c]) (pr ++ [v])).
            * rewrite Ec. now rewrite <- app_assoc.
            * rewrite Er. now rewrite <- app_assoc.
            * rewrite !app_length. cbn. lia. }
      exact (Y cols [] [] r eq_refl eq_refl eq_refl). }
    clear -X Len. induction Len as [|r rows H F IH]; constructor; auto.
  - split; [apply Permutation_refl| |reflexivity].
    generalize (map (fun p : row * row => fst p ++ snd p) (combine rows rows)) as l.
    induction l as [|w l IH]; constructor; [exact IH|]. apply Forall_forall. intros b _ (pre & e & d & post & x & y & H & _). now destruct pre.
Qed.

Lemma star_means : means db (Stmt [] (BSelect (star t)) no_tail) (map Some cols) rows.
Proof.
  replace (map Some cols) with (map called (written_out cols (s_items (star t)))).
  - eapply mn_select; [exact Db| | |exact star_answer].
    + repeat split; discriminate.
    + repeat split.
  - cbn. rewrite app_nil_r, map_map. reflexivity.
Qed.
End Star.
