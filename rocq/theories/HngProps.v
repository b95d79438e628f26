(** C125: HAVING in a query without groups tests the columns it names. *)
From Coq Require Import Strings.String Strings.Ascii ZArith List Bool Lia.
From Verif Require Import ExprModel ExprSpec ExecModel ExecSpec ExecProofs NameModel NameSpec NameProofs QrySpec QryModel QryProofs HngSpec HngModel.
Import ListNotations.
Local Open Scope string_scope.
Local Open Scope nat_scope.
Local Open Scope list_scope.

(** ** What the plan computes *)

Lemma having_runs text dbg cols items w h rows :
  legal cols (without_having items w) -> computable cols (without_having items w) rows ->
  incl (mentions h) cols ->
  exists p cond kept outs, build_having_plan text cols items w h = Some p /\ denotes cols h cond /\
    keeps cols w rows kept /\ Forall2 (shows cols items) kept outs /\
    runs dbg rows p (map Row (filter (where_pass cond) outs)).
Proof.
  intros L C H.
  destruct (scanned_ok dbg cols _ rows L) as (before & kept & E1 & K & R1).
  destruct (proj_ok text cols _ L) as (proj & E2 & F).
  destruct (outs_ok text cols _ rows C proj kept F K) as (outs & S & Ev).
  destruct (parse_denotes cols h (lg_cols _ _ L) (lg_dotless _ _ L) H) as (cond & E3 & D).
  cbn [without_having q_where q_items] in *.
  exists (PFilter cond (PProject (map fst proj) before)), cond, kept, outs.
  split. { unfold build_having_plan. rewrite E1, E2, E3. reflexivity. }
  split; [exact D|]. split; [exact K|]. split; [exact S|].
  eapply rn_filter.
  - eapply rn_project; [exact R1|]. apply project_produces. exact Ev.
  - pose proof (filter_produces cond outs false) as P. now rewrite !app_nil_r in P.
Qed.

(** An expression looks at nothing but the columns it mentions. *)
Lemma eval_local cols n e r o : denotes cols n e ->
  (forall c i, In c (mentions n) -> named cols c i -> nth_error r i = nth_error o i) ->
  eval e r = eval e o.
Proof.
  intros D. induction D as [c i Hn|v|op a b x y _ IHa _ IHb|op a b x y _ IHa _ IHb|a b x y _ IHa _ IHb|a b x y _ IHa _ IHb|a x _ IHa|c neg a x _ IHa];
    intros H; cbn [eval mentions] in *.
  - rewrite (H c i (or_introl eq_refl) Hn). reflexivity.
  - reflexivity.
  - rewrite IHa, IHb; [reflexivity| |]; intros; eapply H; eauto; apply in_or_app; auto.
  - rewrite IHa, IHb; [reflexivity| |]; intros; eapply H; eauto; apply in_or_app; auto.
  - rewrite IHa, IHb; [reflexivity| |]; intros; eapply H; eauto; apply in_or_app; auto.
  - rewrite IHa, IHb; [reflexivity| |]; intros; eapply H; eauto; apply in_or_app; auto.
  - rewrite IHa; [reflexivity|exact H].
  - rewrite IHa; [reflexivity|exact H].
Qed.

Lemma pass_eval e r o : eval e r = eval e o -> where_pass e r = where_pass e o.
Proof. intros E. unfold where_pass. rewrite E. reflexivity. Qed.

Lemma shown_value cols items r o i c a : shows cols items r o ->
  nth_error (written_out cols items) i = Some (NCol c, a) -> forall j, named cols c j ->
  nth_error r j = nth_error o i.
Proof.
  intros S E j N. destruct (Forall2_nth _ _ _ _ _ S E) as (v & Ev & e & D & V).
  inversion D as [c2 i2 N2| | | | | | |]; subst. cbn [fst] in *.
  assert (j = i2) as -> by (apply (proj2 N2); apply N).
  cbn [eval] in V. rewrite Ev. destruct (nth_error r i2); [injection V as ->; reflexivity|discriminate].
Qed.

Lemma filter_shows cols items cond kept outs : Forall2 (shows cols items) kept outs ->
  (forall r o, shows cols items r o -> where_pass cond r = where_pass cond o) ->
  Forall2 (shows cols items) (filter (where_pass cond) kept) (filter (where_pass cond) outs).
Proof.
  intros S H. induction S as [|r o kept outs Sr S IH]; [constructor|]. cbn [filter].
  rewrite (H r o Sr). destruct (where_pass cond o); [constructor|]; assumption.
Qed.

(** ** What holds *)

(** HAVING is obeyed if every column it mentions is shown in the position it has in the table. *)
Theorem c125_in_place_partial text dbg cols items w h rows :
  legal cols (without_having items w) -> computable cols (without_having items w) rows ->
  incl (mentions h) cols -> shown_in_place cols items h ->
  exists p ans, build_having_plan text cols items w h = Some p /\
    having_answer cols items w h rows ans /\ forall out, runs dbg rows p out <-> out = map Row ans.
Proof.
  intros L C H P.
  destruct (having_runs text dbg cols items w h rows L C H) as (p & cond & kept & outs & E & D & K & S & R).
  exists p, (filter (where_pass cond) outs). split; [exact E|]. split.
  - exists kept, (filter (where_pass cond) kept). split; [exact K|]. split; [now apply keeps_filter|].
    apply filter_shows; [exact S|]. intros r o Sr. apply pass_eval. apply (eval_local cols h _ _ _ D).
    intros c i I N. destruct (P c i I N) as [a Ea]. exact (shown_value _ _ _ _ _ _ _ Sr Ea i N).
  - intros out. split; [intros X; exact (runs_fun _ _ _ _ X _ R)|now intros ->].
Qed.

(** In particular for SELECT *. *)
Theorem c125_star text dbg cols w h rows :
  legal cols (without_having [IStar] w) -> computable cols (without_having [IStar] w) rows ->
  incl (mentions h) cols ->
  exists p ans, build_having_plan text cols [IStar] w h = Some p /\
    having_answer cols [IStar] w h rows ans /\ forall out, runs dbg rows p out <-> out = map Row ans.
Proof.
  intros L C H. apply c125_in_place_partial; [exact L|exact C|exact H|].
  intros c i _ [N _]. exists None. cbn. rewrite app_nil_r.
  rewrite nth_error_map, N. reflexivity.
Qed.

(** A name that is no column is refused. *)
Theorem c125_unknown text cols items w c op v : Forall dotless cols -> dotless c -> ~ In c cols ->
  build_having_plan text cols items w (NCmp op (NCol c) (NConst v)) = None.
Proof.
  intros D Dc N. unfold build_having_plan. cbn [parse_expression].
  rewrite (find_none cols c D Dc N). cbn [option_map].
  destruct w as [w|]; [destruct (parse_expression cols w)|]; cbn [option_map]; try reflexivity;
    destruct (projection text cols items); reflexivity.
Qed.

(** ** What does not *)

Lemma legal_column cols c : NoDup cols -> Forall dotless cols -> In c cols ->
  legal cols (without_having [IExpr (NCol c) None] None).
Proof.
  intros N D I. split; cbn [without_having q_items q_where q_order q_fetch q_distinct]; try assumption; try exact Logic.I.
  - intros e a [[= <- <-]|[]]. split; [|exact Logic.I]. intros x [<-|[]]. exact I.
  - left. intros k [].
  - intros k [].
Qed.

Lemma one_shown cols c r o : shows cols [IExpr (NCol c) None] r o -> exists v, o = [v] /\
  forall j, named cols c j -> nth_error r j = Some v.
Proof.
  intros S. pose proof (shown_value cols _ r o 0 c None S eq_refl) as V.
  unfold shows in S. cbn in S. inversion S as [|? v ? ? _ S2]; subst. inversion S2; subst.
  exists v. split; [reflexivity|]. intros j N. rewrite (V j N). reflexivity.
Qed.

(** SELECT b FROM t HAVING a op v, where a is the first column of t, is answered as
    SELECT b FROM t HAVING b op v. *)
Theorem c125_other_column_refuted text dbg a cols b op v rows :
  NoDup (a :: cols) -> Forall dotless (a :: cols) -> In b cols ->
  computable (a :: cols) (without_having [IExpr (NCol b) None] None) rows ->
  exists p ans, build_having_plan text (a :: cols) [IExpr (NCol b) None] None (NCmp op (NCol a) (NConst v)) = Some p /\
    having_answer (a :: cols) [IExpr (NCol b) None] None (NCmp op (NCol b) (NConst v)) rows ans /\
    forall out, runs dbg rows p out <-> out = map Row ans.
Proof.
  intros N D I C.
  pose proof (legal_column (a :: cols) b N D (or_intror I)) as L.
  destruct (having_runs text dbg (a :: cols) [IExpr (NCol b) None] None (NCmp op (NCol a) (NConst v)) rows L C)
    as (p & cond & kept & outs & E & Dn & K & S & R).
  { intros x [<-|[]]. now left. }
  exists p, (filter (where_pass cond) outs). split; [exact E|]. split;
    [|intros out; split; [intros X; exact (runs_fun _ _ _ _ X _ R)|now intros ->]].
  destruct (parse_denotes (a :: cols) (NCmp op (NCol b) (NConst v)) N D) as (other & _ & Do).
  { intros x [<-|[]]. now right. }
  exists kept, (filter (where_pass other) kept). split; [exact K|]. split; [now apply keeps_filter|].
  assert (X : forall r o, shows (a :: cols) [IExpr (NCol b) None] r o -> where_pass other r = where_pass cond o).
  { intros r o Sr. destruct (one_shown _ _ _ _ Sr) as (x & -> & Vx).
    inversion Dn as [| | |? ? ? ? ? Da Dv| | | |]; subst. inversion Da as [? i Na| | | | | | |]; subst.
    inversion Dv; subst. inversion Do as [| | |? ? ? ? ? Db Dw| | | |]; subst.
    inversion Db as [? j Nb| | | | | | |]; subst. inversion Dw; subst.
    assert (i = 0) as -> by (symmetry; apply (proj2 Na); reflexivity).
    unfold where_pass. cbn [eval]. rewrite (Vx j Nb). reflexivity. }
  clear -S X. induction S as [|r o kept outs Sr S IH]; [constructor|]. cbn [filter].
  rewrite (X r o Sr). destruct (where_pass cond o); [constructor|]; assumption.
Qed.

(** SELECT a FROM t HAVING b op v, where b is any column but the first, returns no row, whatever
    the rows of t. *)
Theorem c125_no_rows_refuted text dbg a cols b op v c rows :
  NoDup (a :: cols) -> Forall dotless (a :: cols) -> In b cols -> In c (a :: cols) ->
  computable (a :: cols) (without_having [IExpr (NCol c) None] None) rows ->
  exists p, build_having_plan text (a :: cols) [IExpr (NCol c) None] None (NCmp op (NCol b) (NConst v)) = Some p /\
    forall out, runs dbg rows p out <-> out = [].
Proof.
  intros N D I Ic C.
  pose proof (legal_column (a :: cols) c N D Ic) as L.
  destruct (having_runs text dbg (a :: cols) [IExpr (NCol c) None] None (NCmp op (NCol b) (NConst v)) rows L C)
    as (p & cond & kept & outs & E & Dn & K & S & R).
  { intros x [<-|[]]. now right. }
  exists p. split; [exact E|].
  assert (F : filter (where_pass cond) outs = []).
  { clear -S Dn N I. induction S as [|r o kept outs Sr S IH]; [reflexivity|]. cbn [filter]. rewrite IH.
    destruct (one_shown _ _ _ _ Sr) as (x & -> & _).
    inversion Dn as [| | |? ? ? ? ? Db Dv| | | |]; subst. inversion Db as [? i Nb| | | | | | |]; subst.
    assert (i <> 0).
    { intros ->. destruct Nb as [Nb _]. injection Nb as <-. inversion_clear N. contradiction. }
    unfold where_pass. cbn [eval]. destruct i as [|[|i]]; [contradiction| |]; reflexivity. }
  rewrite F in R. intros out. split; [intros X; exact (runs_fun _ _ _ _ X _ R)|now intros ->].
Qed.

(** ** Examples: t (a, b) with the rows (1, 20) and (9, 2) *)

Definition cols125 : list string := ["a"; "b"].
Definition n125 (z : Z) : val := VInt Integer z.
Definition rows125 : list row := [[n125 1; n125 20]; [n125 9; n125 2]].
Definition over5 (c : string) : nexpr := NCmp Gt (NCol c) (NConst (n125 5)).
Lemma nodup125 : NoDup cols125.
Proof. repeat (constructor; [cbn; intuition discriminate|]). constructor. Qed.
Lemma dotless125 : Forall dotless cols125.
Proof. repeat (constructor; [unfold dotless; cbn; intuition congruence|]). constructor. Qed.

(** SELECT * FROM t HAVING a > 5 *)
Example c125_star_ex : exists p, build_having_plan (fun _ => "") cols125 [IStar] None (over5 "a") = Some p /\
  runs (fun _ => "") rows125 p [Row [n125 9; n125 2]].
Proof.
  eexists. split; [reflexivity|]. eapply rn_filter.
  - eapply rn_project; [constructor|]. apply (project_produces _ rows125 rows125). repeat constructor.
  - exact (filter_produces _ rows125 false).
Qed.
(** SELECT b FROM t HAVING a > 5 returns 20, the b of the row with a = 1. *)
Example c125_other_column_ex : exists p,
  build_having_plan (fun _ => "") cols125 [IExpr (NCol "b") None] None (over5 "a") = Some p /\
  runs (fun _ => "") rows125 p [Row [n125 20]].
Proof.
  eexists. split; [reflexivity|]. eapply rn_filter.
  - eapply rn_project; [constructor|]. apply (project_produces _ rows125 [[n125 20]; [n125 2]]). repeat constructor.
  - exact (filter_produces _ [[n125 20]; [n125 2]] false).
Qed.
(** The hypotheses are met. *)
Example c125_hyp_ex : NoDup cols125 /\ Forall dotless cols125 /\
  computable cols125 (without_having [IExpr (NCol "b") None] None) rows125.
Proof.
  split; [exact nodup125|]. split; [exact dotless125|]. split; [repeat constructor|].
  assert (NB : named cols125 "b" 1).
  { split; [reflexivity|]. intros [|[|j]] H; [discriminate|reflexivity|]. destruct j; discriminate. }
  assert (T : forall i r v, In r rows125 -> nth_error r i = Some v -> type_of v = Some (TInt Integer)).
  { intros i r v H E. apply nth_error_In in E. cbn in H.
    repeat destruct H as [<-|H]; try destruct H; cbn in E; repeat destruct E as [<-|E]; try destruct E; reflexivity. }
  split; [|split].
  - intros r it Hr _ [<-|[]]. exists (ECol 1). cbn in Hr.
    repeat destruct Hr as [<-|Hr]; try destruct Hr; eexists; (split; [constructor; exact NB|reflexivity]).
  - intros i x y vx vy Hx Hy Ex Ey. right. right. rewrite (T i x vx Hx Ex), (T i y vy Hy Ey). reflexivity.
  - intros kept outs i K S x y vx vy Hx Hy Ex Ey. right. right.
    assert (O : forall o v, In o outs -> nth_error o i = Some v -> type_of v = Some (TInt Integer)).
    { intros o v Ho Ev. destruct (Forall2_in_r _ _ _ _ S Ho) as (r & Hr & Sr).
      apply (keeps_in _ _ _ _ K) in Hr as [Hr _]. destruct (one_shown _ _ _ _ Sr) as (z & -> & Vz).
      destruct i as [|i]; [|destruct i; discriminate]. injection Ev as <-. exact (T 1 r z Hr (Vz 1 NB)). }
    rewrite (O x vx Hx Ex), (O y vy Hy Ey). reflexivity.
Qed.

Print Assumptions c125_in_place_partial.
Print Assumptions c125_star.
Print Assumptions c125_unknown.
Print Assumptions c125_other_column_refuted.
Print Assumptions c125_no_rows_refuted.
