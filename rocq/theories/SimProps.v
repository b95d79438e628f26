(** * C110: SIMILAR TO follows the SQL pattern rules *)
From Coq Require Import NArith.
From stdpp Require Import base list sets numbers tactics.
From Verif Require Import SimSpec SimModel.
Local Open Scope N_scope.

Definition nostar (z : list N) : Prop := match z with c :: _ => c <> 42 | [] => True end.

Lemma meta_spec c : is_meta c = false -> c <> 36 /\ c <> 92 /\ c <> 46 /\ c <> 91 /\ c <> 42 /\ c <> 93 /\ c <> 94 /\ c <> 45.
Proof. unfold is_meta. intros H%bool_decide_eq_false. repeat split; intros ->; apply H; unfold meta; set_solver. Qed.

Lemma parse_rescape c z : rparse None (rescape c ++ z) = cons (RChr c) <$> rparse None z.
Proof.
  unfold rescape. destruct (is_meta c) eqn:M; cbn [app rparse].
  - change (92 =? 36) with false. change (92 =? 92) with true. cbn iota. by rewrite M.
  - destruct (meta_spec _ M) as (A1 & A2 & A3 & A4 & _).
    apply N.eqb_neq in A1, A2, A3, A4. by rewrite A1, A2, A3, A4, M.
Qed.
Lemma nostar_rescape c z : nostar (rescape c ++ z).
Proof.
  unfold rescape. destruct (is_meta c) eqn:M; cbn; [done|]. by destruct (meta_spec _ M) as (_ & _ & _ & _ & ? & _).
Qed.

Lemma match_any a t : is_match (RAnyStar :: a) t = true <->
  exists t1 t2, t = t1 ++ t2 /\ Forall (fun c => c <> 10) t1 /\ is_match a t2 = true.
Proof.
  cbn [is_match]. induction t as [|c t IH]; split.
  - intros [H|H]%orb_true_iff; [|done]. by exists [], [].
  - intros (t1 & t2 & E & _ & H). symmetry in E. apply app_eq_nil in E as [-> ->]. by rewrite H.
  - intros [H|H]%orb_true_iff; [by exists [], (c :: t)|].
    apply andb_true_iff in H as [H1 H2]. apply IH in H2 as (t1 & t2 & -> & F & H2).
    exists (c :: t1), t2. split; [done|]. split; [|done]. constructor; [|done]. cbn in H1. intros ->. done.
  - intros (t1 & t2 & E & F & H). destruct t1 as [|d t1]; cbn in E.
    + subst t2. by rewrite H.
    + injection E as <- ->. apply Forall_cons_1 in F as [F1 F2]. apply orb_true_iff. right. apply andb_true_iff. split.
      * cbn. apply N.eqb_neq in F1. by rewrite F1.
      * apply IH. by exists t1, t2.
Qed.
Lemma match_one x a t : x <> RAnyStar -> is_match (x :: a) t = true <-> exists c u, t = c :: u /\ atom_ok x c = true /\ is_match a u = true.
Proof.
  intros N0. assert (is_match (x :: a) t = match t with [] => false | c :: t => atom_ok x c && is_match a t end) as -> by by destruct x.
  destruct t as [|c t]; split.
  - done.
  - by intros (? & ? & ? & _).
  - intros [A B]%andb_true_iff. eauto.
  - intros (d & u & [= <- <-] & A & B). by rewrite A, B.
Qed.
Lemma match_app a b t : is_match (a ++ b) t = true <-> exists t1 t2, t = t1 ++ t2 /\ is_match a t1 = true /\ is_match b t2 = true.
Proof.
  revert t. induction a as [|x a IH]; intros t; cbn [app].
  - split; [by exists [], t|]. intros (t1 & t2 & -> & H & H2). by destruct t1.
  - assert (x = RAnyStar \/ x <> RAnyStar) as [->|X] by (destruct x; auto).
    + rewrite match_any. split.
      * intros (t1 & t2 & -> & F & (u1 & u2 & -> & A & B)%IH). exists (t1 ++ u1), u2. rewrite <- app_assoc. split; [done|]. split; [|done].
        apply match_any. eauto 10.
      * intros (t1 & t2 & -> & (u1 & u2 & -> & F & A)%match_any & B). exists u1, (u2 ++ t2). rewrite <- app_assoc. split; [done|]. split; [done|].
        apply IH. eauto 10.
    + rewrite match_one by done. split.
      * intros (c & u & -> & A & (u1 & u2 & -> & B & C)%IH). exists (c :: u1), u2. split; [done|]. split; [|done]. apply match_one; [done|]. eauto 10.
      * intros (t1 & t2 & -> & (c & u & -> & A & B)%match_one & C); [|done]. exists c, (u ++ t2). split; [done|]. split; [done|]. apply IH. eauto 10.
Qed.

Lemma items_conv e l w : items e l w -> Forall (fun p => fst p = snd p) l ->
  (forall rest, conv e true (w ++ rest) = (w ≫= rescape) ++ conv e true rest) /\ w = map fst l.
Proof.
  induction 1 as [|c l w O _ IH|lo hi l w O1 O2 L _ IH]; intros F.
  - done.
  - apply Forall_cons_1 in F as [_ F]. destruct (IH F) as [A ->]. split; [|done]. intros rest. cbn [app conv].
    destruct (N.eqb_spec c 93) as [->|_]. { destruct O as [_ O]. exfalso. apply O. unfold special. set_solver. }
    rewrite A. by rewrite bind_cons, app_assoc.
  - apply Forall_cons_1 in F as [E _]. cbn in E. lia.
Qed.
Lemma rescape_head c y : exists d y', rescape c ++ y = d :: y' /\ d <> 45 /\ d <> 93 /\ d <> 94.
Proof.
  unfold rescape. destruct (is_meta c) eqn:M; cbn.
  - eexists _, _. split; [done|]. done.
  - eexists _, _. split; [done|]. destruct (meta_spec _ M) as (_ & _ & _ & _ & _ & ? & ? & ?). done.
Qed.
Lemma parse_items neg w acc z :
  rparse (Some (neg, acc)) ((w ≫= rescape) ++ 93 :: z) = cons (RSet neg (acc ++ map (fun c => (c, c)) w)) <$> rparse None z.
Proof.
  revert acc. induction w as [|c w IH]; intros acc.
  - cbn [mbind list_bind app map rparse]. by rewrite app_nil_r.
  - rewrite bind_cons, <- app_assoc. cbn [map].
    assert (rparse (Some (neg, acc)) (rescape c ++ (w ≫= rescape) ++ 93 :: z) = rparse (Some (neg, acc ++ [(c, c)])) ((w ≫= rescape) ++ 93 :: z)) as ->.
    + assert (exists d y, (w ≫= rescape) ++ 93 :: z = d :: y /\ d <> 45) as (d & y & E & D).
      { destruct w as [|x w]; [by exists 93, z|]. rewrite bind_cons, <- app_assoc.
        destruct (rescape_head x ((w ≫= rescape) ++ 93 :: z)) as (d & y & -> & D & _). eauto. }
      rewrite E. unfold rescape. destruct (is_meta c) eqn:M; cbn [app rparse].
      * change (92 =? 93) with false. change (92 =? 92) with true. cbn iota. by rewrite M.
      * destruct (meta_spec _ M) as (_ & A2 & _ & _ & _ & A3 & _). apply N.eqb_neq in A2, A3, D. rewrite A3, A2, M.
        destruct y as [|h y]; [done|]. by rewrite D.
    + rewrite IH. by rewrite <- app_assoc.
Qed.

Lemma in_set_spec l c : in_set l c = true <-> in_ranges l c.
Proof.
  unfold in_set, in_ranges. rewrite existsb_exists. split.
  - intros ([lo hi] & I & [A B]%andb_true_iff). cbn in A, B. apply N.leb_le in A, B. exists lo, hi. by rewrite elem_of_list_In.
  - intros (lo & hi & I & A & B). exists (lo, hi). rewrite <- elem_of_list_In. split; [done|]. cbn. apply N.leb_le in A, B. by rewrite A, B.
Qed.

Lemma simple_atoms e r w : good_escape e -> written e r w -> simple r -> exists a,
  (forall rest, conv e false (w ++ rest) = conv e false w ++ conv e false rest) /\
  (forall z, nostar z -> rparse None (conv e false w ++ z) = app a <$> rparse None z) /\
  (forall z, nostar z -> nostar (conv e false w ++ z)) /\
  (forall t, Forall (fun c => c <> 10) t -> smatch r t <-> is_match a t = true).
Proof.
  intros G. assert (e <> 37 /\ e <> 95 /\ e <> 91) as (G1 & G2 & G3).
  { repeat split; intros ->; apply G; unfold special; set_solver. }
  induction 1 as [|c O|c| | |l w NE I|l w NE I|a b v w Wa IHa Wb IHb|a b v w Wa IHa Wb IHb|a w Wa IHa|c O|a w Wa IHa|c O|a w Wa IHa|c O]; intros S; try done.
  - exists []. split; [done|]. split. { intros z _. cbn. by destruct (rparse None z). } split; [done|].
    intros t _. split; [by inversion 1|]. destruct t; [constructor|done].
  - exists [RChr c].
    assert (forall rest, conv e false (c :: rest) = rescape c ++ conv e false rest) as E.
    { intros rest. cbn [conv]. destruct O as [O1 O2].
      destruct (N.eqb_spec c e); [done|].
      destruct (N.eqb_spec c 37) as [->|_]; [exfalso; apply O2; unfold special; set_solver|].
      destruct (N.eqb_spec c 95) as [->|_]; [exfalso; apply O2; unfold special; set_solver|].
      destruct (N.eqb_spec c 91) as [->|_]; [exfalso; apply O2; unfold special; set_solver|]. done. }
    split. { intros rest. cbn [app]. rewrite !E. cbn [conv]. by rewrite app_nil_r. }
    rewrite E. cbn [conv]. rewrite app_nil_r. split. { intros z _. rewrite parse_rescape. by destruct (rparse None z). }
    split. { intros z _. apply nostar_rescape. }
    intros t _. rewrite match_one by done. split.
    + inversion 1; subst. exists c, []. cbn. by rewrite N.eqb_refl.
    + intros (d & u & -> & D & U). cbn in D. apply N.eqb_eq in D as ->. destruct u; [constructor|done].
  - exists [RChr c].
    assert (forall rest, conv e false (e :: c :: rest) = rescape c ++ conv e false rest) as E.
    { intros rest. cbn [conv]. by rewrite N.eqb_refl. }
    split. { intros rest. cbn [app]. rewrite !E. cbn [conv]. by rewrite app_nil_r. }
    rewrite E. cbn [conv]. rewrite app_nil_r. split. { intros z _. rewrite parse_rescape. by destruct (rparse None z). }
    split. { intros z _. apply nostar_rescape. }
    intros t _. rewrite match_one by done. split.
    + inversion 1; subst. exists c, []. cbn. by rewrite N.eqb_refl.
    + intros (d & u & -> & D & U). cbn in D. apply N.eqb_eq in D as ->. destruct u; [constructor|done].
  - exists [RAny].
    assert (forall rest, conv e false (95 :: rest) = 46 :: conv e false rest) as E.
    { intros rest. cbn [conv]. destruct (N.eqb_spec 95 e); [done|]. done. }
    split. { intros rest. cbn [app]. by rewrite !E. }
    rewrite E. cbn [conv app]. split. { intros z Z. destruct z as [|d z]; [done|]. cbn [nostar] in Z. apply N.eqb_neq in Z.
      remember (d :: z) as y. cbn [rparse]. subst y. rewrite Z. change (46 =? 36) with false. change (46 =? 92) with false. change (46 =? 46) with true. cbn iota. by destruct (rparse None (d :: z)). }
    split. { done. }
    intros t F. rewrite match_one by done. split.
    + inversion 1; subst. exists c, []. apply Forall_cons_1 in F as [F _]. apply N.eqb_neq in F. cbn. by rewrite F.
    + intros (d & u & -> & D & U). destruct u; [constructor|done].
  - exists [RAnyStar].
    assert (forall rest, conv e false (37 :: rest) = 46 :: 42 :: conv e false rest) as E.
    { intros rest. cbn [conv]. destruct (N.eqb_spec 37 e); [done|]. done. }
    split. { intros rest. cbn [app]. by rewrite !E. }
    rewrite E. cbn [conv app]. split. { intros z Z. cbn [rparse]. change (46 =? 36) with false. change (46 =? 92) with false. change (46 =? 46) with true. change (42 =? 42) with true. cbn iota. by destruct (rparse None z). }
    split. { done. }
    intros t F. rewrite match_any. split; [|constructor]. intros _. exists t, []. by rewrite app_nil_r.
  - destruct S as [_ S]. destruct (items_conv _ _ _ I S) as [C W]. exists [RSet false l].
    assert (forall rest, conv e false (91 :: (w ++ [93]) ++ rest) = 91 :: (w ≫= rescape) ++ 93 :: conv e false rest) as E.
    { intros rest. cbn [conv]. destruct (N.eqb_spec 91 e); [done|]. change (91 =? 37) with false. change (91 =? 95) with false. change (91 =? 91) with true. cbn iota.
      rewrite <- app_assoc. rewrite C. done. }
    assert (conv e false (91 :: w ++ [93]) = 91 :: (w ≫= rescape) ++ [93]) as E0.
    { specialize (E []). rewrite app_nil_r in E. by rewrite E. }
    split. { intros rest. cbn [app] in *. rewrite E, E0. cbn. by rewrite <- app_assoc. }
    rewrite E0. split.
    { intros z _. cbn [app]. rewrite <- app_assoc. cbn [app].
      assert (rparse None (91 :: (w ≫= rescape) ++ 93 :: z) = rparse (Some (false, [])) ((w ≫= rescape) ++ 93 :: z)) as ->.
      { destruct w as [|x w]; [by destruct l|]. rewrite bind_cons, <- app_assoc.
        destruct (rescape_head x ((w ≫= rescape) ++ 93 :: z)) as (d & y & -> & _ & D1 & D2). apply N.eqb_neq in D1, D2.
        remember (d :: y) as q. cbn [rparse]. change (91 =? 36) with false. change (91 =? 92) with false. change (91 =? 46) with false. change (91 =? 91) with true. cbn iota.
        subst q. by rewrite D2, D1. }
      rewrite parse_items. cbn [app]. assert (map (fun c => (c, c)) w = l) as ->.
      { subst w. rewrite map_map. clear -S. induction S as [|[x y] l E _ IH]; [done|]. cbn in *. by rewrite IH, E. }
      by destruct (rparse None z). }
    split. { done. }
    intros t _. rewrite match_one by done. split.
    + inversion 1; subst. exists c, []. cbn [atom_ok xorb]. split; [done|]. split; [|done]. cbn. apply in_set_spec in H1. by rewrite H1.
    + intros (d & u & -> & D & U). destruct u; [|done]. constructor. apply in_set_spec. cbn in D. by destruct (in_set l d).
  - by destruct S.
  - destruct S as [Sa Sb]. destruct (IHa Sa) as (x & A1 & A2 & A3 & A4). destruct (IHb Sb) as (y & B1 & B2 & B3 & B4).
    exists (x ++ y). split. { intros rest. rewrite <- app_assoc. rewrite A1, B1, A1. by rewrite app_assoc. }
    rewrite A1. split. { intros z Z. rewrite <- app_assoc. rewrite A2 by auto. rewrite B2 by auto. destruct (rparse None z); [|done]. cbn. by rewrite app_assoc. }
    split. { intros z Z. rewrite <- app_assoc. auto. }
    intros t F. rewrite match_app. split.
    + inversion 1; subst. apply Forall_app in F as [F1 F2]. eexists _, _. split; [done|]. split; [by apply A4|by apply B4].
    + intros (t1 & t2 & -> & M1 & M2). apply Forall_app in F as [F1 F2]. constructor; [by apply A4|by apply B4].
Qed.

(** The answer of value SIMILAR TO pattern is right if the pattern has no alternatives, repetitions, ranges and negated classes and the value no line feed. *)
Theorem c110_similar_partial e r w t negated :
  good_escape e -> written e r w -> simple r -> Forall (fun c => c <> 10) t ->
  exists b, similar (Some [e]) negated (OText t) (OText w) = ABool b /\ (b = true <-> if negated then ~ smatch r t else smatch r t).
Proof.
  intros G W S F. destruct (simple_atoms e r w G W S) as (a & _ & P & _ & M). specialize (M t F).
  unfold similar. cbn [convert shown regex_new app]. change (94 =? 94) with true. cbn iota. rewrite P by done. cbn [rparse fmap option_fmap option_map].
  change (36 =? 36) with true. cbn iota. cbn. rewrite app_nil_r. eexists. split; [done|].
  destruct negated; [|exact (iff_sym M)]. destruct (is_match a t); cbn; split; try done.
  - intros H. exfalso. by apply H, M.
  - intros _ X. by apply M in X.
Qed.
(** Without ESCAPE the escape character is the backslash. *)
Theorem c110_default_escape negated v p : similar None negated v p = similar (Some [92]) negated v p.
Proof. done. Qed.
Print Assumptions c110_similar_partial.
Print Assumptions c110_default_escape.
(** 'ab%' SIMILAR TO '_[bc]\%%': *)
Example c110_ex : good_escape 92 /\
  written 92 (SSeq SOne (SSeq (SClass false [(98, 98); (99, 99)]) (SSeq (SLit 37) SMany))) [95; 91; 98; 99; 93; 92; 37; 37] /\
  simple (SSeq SOne (SSeq (SClass false [(98, 98); (99, 99)]) (SSeq (SLit 37) SMany))) /\
  smatch (SSeq SOne (SSeq (SClass false [(98, 98); (99, 99)]) (SSeq (SLit 37) SMany))) [97; 98; 37] /\
  similar None false (OText [97; 98; 37]) (OText [95; 91; 98; 99; 93; 92; 37; 37]) = ABool true /\
  similar None true (OText [97; 98; 37]) (OText [95; 91; 98; 99; 93; 92; 37; 37]) = ABool false.
Proof.
  assert (forall c, c ∈ [98; 99] -> ordinary 92 c) as O.
  { intros c H. split; [|unfold special]; set_solver. }
  split. { unfold good_escape, special. set_solver. }
  split. { apply (WSeq _ _ _ [95] [91; 98; 99; 93; 92; 37; 37]); [constructor|].
    apply (WSeq _ _ _ [91; 98; 99; 93] [92; 37; 37]).
    { apply (WClass _ _ [98; 99]); [done|]. repeat constructor; apply O; set_solver. }
    apply (WSeq _ _ _ [92; 37] [37]); constructor. }
  split. { repeat constructor. }
  split. { apply (MSeq _ _ [97] [98; 37]); [constructor|]. apply (MSeq _ _ [98] [37]); [|apply (MSeq _ _ [37] []); constructor].
    constructor. exists 98, 98. split; [set_solver|]. lia. }
  done.
Qed.

(** A value that has a line feed matches no pattern % and no pattern _. *)
Theorem c110_line_feed_refuted t : 10 ∈ t ->
  similar None false (OText t) (OText [37]) = ABool false /\ smatch SMany t /\
  similar None false (OText [10]) (OText [95]) = ABool false /\ smatch SOne [10].
Proof.
  intros H. split; [|repeat split; constructor]. unfold similar.
  change (convert None (shown (OText [37]))) with (Some [94; 46; 42; 36]). cbn iota. change (regex_new [94; 46; 42; 36]) with (Some [RAnyStar]). cbn iota. cbn [shown].
  destruct (is_match [RAnyStar] t) eqn:M; [|done]. apply match_any in M as (t1 & t2 & -> & F & M). destruct t2; [|done]. rewrite app_nil_r in H.
  exfalso. apply elem_of_list_In in H. rewrite Forall_forall in F. by apply (F 10 H).
Qed.
Print Assumptions c110_line_feed_refuted.

Lemma conv_lits e w : Forall (fun c => c <> e /\ c <> 37 /\ c <> 95 /\ c <> 91) w -> conv e false w = w ≫= rescape.
Proof.
  induction 1 as [|c w (A & B & C & D) _ IH]; [done|]. cbn [conv]. apply N.eqb_neq in A, B, C, D. by rewrite A, B, C, D, IH, bind_cons.
Qed.
Lemma parse_lits w z : rparse None ((w ≫= rescape) ++ z) = app (map RChr w) <$> rparse None z.
Proof.
  induction w as [|c w IH]. { cbn. by destruct (rparse None z). }
  rewrite bind_cons, <- app_assoc, parse_rescape, IH. by destruct (rparse None z).
Qed.
Lemma match_lits w t : is_match (map RChr w) t = bool_decide (t = w).
Proof.
  revert t. induction w as [|c w IH]; intros t; [by destruct t|]. cbn [map is_match]. destruct t as [|d t]; [done|].
  rewrite IH. cbn [atom_ok]. destruct (N.eqb_spec d c) as [->|N0]; cbn.
  - apply bool_decide_ext. split; [by intros ->|by intros [= ->]].
  - symmetry. apply bool_decide_eq_false. intros [= E _]. done.
Qed.
(** A pattern without % _ [ and the escape character is compared as it is: | * + ? ( ) { } have no meaning. *)
Theorem c110_operators_refuted e w t negated :
  Forall (fun c => c <> e /\ c <> 37 /\ c <> 95 /\ c <> 91) w ->
  similar (Some [e]) negated (OText t) (OText w) = ABool (xorb negated (bool_decide (t = w))).
Proof.
  intros F. unfold similar. cbn [convert shown regex_new app]. change (94 =? 94) with true. cbn iota.
  rewrite conv_lits by done. rewrite parse_lits. cbn. rewrite app_nil_r, match_lits. by destruct negated, (bool_decide (t = w)).
Qed.
Print Assumptions c110_operators_refuted.
(** So a repetition and an alternative are not found. *)
Theorem c110_repetition_refuted c d n : ordinary 92 c -> ordinary 92 d ->
  similar None false (OText (replicate n c)) (OText [c; 42]) = ABool false /\ smatch (SStar (SLit c)) (replicate n c) /\
  similar None false (OText [c]) (OText [40; c; 124; d; 41]) = ABool false /\ smatch (SAlt (SLit c) (SLit d)) [c].
Proof.
  intros [O1 O2] [O3 O4].
  assert (forall c, c <> 92 -> c ∉ special -> c <> 92 /\ c <> 37 /\ c <> 95 /\ c <> 91) as K.
  { intros x X Y. repeat split; [done|..]; intros ->; apply Y; unfold special; set_solver. }
  rewrite !c110_default_escape. rewrite !c110_operators_refuted.
  - split. { rewrite xorb_false_l. f_equal. apply bool_decide_eq_false. intros E. destruct n as [|[|[|n]]]; try done.
      cbn in E. injection E as ->. apply O2. unfold special. set_solver. }
    split. { induction n as [|n IH]; [constructor|]. apply (MStarS _ [c]); [constructor|done]. }
    split; [|by constructor; constructor]. rewrite xorb_false_l. f_equal. by apply bool_decide_eq_false.
  - repeat constructor; try done; by apply K.
  - repeat constructor; try done; by apply K.
Qed.
Print Assumptions c110_repetition_refuted.

(** A range lo-hi in a class has only lo, - and hi; a class [^c] has ^ and c. *)
Theorem c110_class_refuted lo hi c : ordinary 92 lo -> ordinary 92 hi -> lo < c -> c < hi -> c <> 45 ->
  similar None false (OText [c]) (OText [91; lo; 45; hi; 93]) = ABool false /\ smatch (SClass false [(lo, hi)]) [c] /\
  similar None false (OText [lo]) (OText [91; 94; lo; 93]) = ABool true /\ ~ smatch (SClass true [(lo, lo)]) [lo] /\
  (c <> 94 -> similar None false (OText [c]) (OText [91; 94; lo; 93]) = ABool false /\ smatch (SClass true [(lo, lo)]) [c]).
Proof.
  intros [O1 O2] [O3 O4] L H C.
  assert (forall x, x ∉ special -> x <> 93) as K. { intros x Y ->. apply Y. unfold special. set_solver. }
  assert (forall w t, Forall (fun c => c <> 93) w -> w <> [] ->
    similar None false (OText [t]) (OText (91 :: w ++ [93])) = ABool (in_set (map (fun c => (c, c)) w) t)) as E.
  { intros w t F NE. unfold similar. cbn [convert shown regex_new app]. change (94 =? 94) with true. cbn iota.
    assert (conv 92 false (91 :: w ++ [93]) = 91 :: (w ≫= rescape) ++ [93]) as ->.
    { cbn [conv]. change (91 =? 92) with false. change (91 =? 37) with false. change (91 =? 95) with false. change (91 =? 91) with true. cbn iota. f_equal.
      clear NE. induction F as [|x w X _ IH]; [done|]. cbn [app conv]. apply N.eqb_neq in X. rewrite X, IH. by rewrite bind_cons, app_assoc. }
    cbn [app]. rewrite <- app_assoc. cbn [app].
    assert (rparse None (91 :: (w ≫= rescape) ++ [93; 36]) = rparse (Some (false, [])) ((w ≫= rescape) ++ [93; 36])) as ->.
    { destruct w as [|x w]; [done|]. rewrite bind_cons, <- app_assoc.
      destruct (rescape_head x ((w ≫= rescape) ++ [93; 36])) as (d & y & -> & _ & D1 & D2). apply N.eqb_neq in D1, D2.
      remember (d :: y) as q. cbn [rparse]. change (91 =? 36) with false. change (91 =? 92) with false. change (91 =? 46) with false. change (91 =? 91) with true. cbn iota.
      subst q. by rewrite D2, D1. }
    rewrite parse_items. cbn. fold (in_set (map (fun c => (c, c)) w) t). by destruct (in_set (map (fun c => (c, c)) w) t). }
  assert (forall x l, in_set (map (fun c => (c, c)) l) x = true <-> x ∈ l) as J.
  { intros x l. rewrite in_set_spec. unfold in_ranges. split.
    - intros (a & b & (y & [= -> ->] & I)%elem_of_list_fmap & A & B). assert (x = y) as -> by lia. done.
    - intros I. exists x, x. split; [|lia]. apply elem_of_list_fmap. eauto. }
  assert (Forall (fun c => c <> 93) [lo; 45; hi] /\ Forall (fun c => c <> 93) [94; lo]) as [Q1 Q2] by (split; repeat constructor; auto; done).
  pose proof (E [lo; 45; hi] c Q1 ltac:(done)) as E1. pose proof (fun t => E [94; lo] t Q2 ltac:(done)) as E2.
  cbn [app] in E1, E2. rewrite E1, !E2.
  split. { f_equal. apply not_true_iff_false. rewrite J, !elem_of_cons, elem_of_nil. lia. }
  split. { constructor. exists lo, hi. split; [set_solver|lia]. }
  split. { f_equal. apply J. set_solver. }
  split. { inversion 1; subst. match goal with X : ~ in_ranges _ _ |- _ => apply X end. exists lo, lo. split; [set_solver|lia]. }
  intros C2. split. { f_equal. apply not_true_iff_false. rewrite J, !elem_of_cons, elem_of_nil. lia. }
  constructor. intros (a & b & [= -> ->]%elem_of_list_singleton & A & B). lia.
Qed.
Print Assumptions c110_class_refuted.
Example c110_class_ex : ordinary 92 97 /\ ordinary 92 122 /\ similar None false (OText [98]) (OText [91; 97; 45; 122; 93]) = ABool false.
Proof. split; [|split; [|done]]; (split; [|unfold special]; set_solver). Qed.

(** NULL is compared as the text NULL: the answer is TRUE or FALSE, never unknown. *)
Theorem c110_null_refuted esc negated v p :
  similar esc negated ONull p = similar esc negated (OText [78; 85; 76; 76]) p /\
  similar esc negated v ONull = similar esc negated v (OText [78; 85; 76; 76]) /\
  similar None false ONull (OText [78; 37]) = ABool true.
Proof. done. Qed.
Print Assumptions c110_null_refuted.

(** ESCAPE '' panics unless the pattern is empty. *)
Theorem c110_empty_escape_refuted negated v c w : similar (Some []) negated v (OText (c :: w)) = APanic.
Proof. done. Qed.
Print Assumptions c110_empty_escape_refuted.
