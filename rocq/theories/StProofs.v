(** Lemmas for StProps.v. *)
From Coq Require Import ZArith String Lia.
From stdpp Require Import base list strings gmap.
From Verif Require Import InsSpec StSpec InsModel InsProofs.
Local Open Scope Z_scope.

(** What is assumed of the casts beside [cast_ok]: a cast that succeeds gives a value of the type asked for. *)
Definition cast_types (cast : IVal -> ITy -> option IVal) : Prop :=
  forall v ty u, of_type (v_ty v) v -> cast v ty = Some u -> of_type ty u.

Lemma cast_ints_types : cast_types cast_ints.
Proof.
  intros v ty u [_ H]. unfold cast_ints. case_bool_decide as E.
  { intros X. assert (u = v) as -> by congruence. by rewrite <- E. }
  destruct (is_null v). { intros X. assert (u = mkV ty PNull) as -> by congruence. split; [done|]. by destruct ty. }
  destruct (v_pay v) as [|z|s]; try congruence.
  destruct (int_range (v_ty v)); [|congruence]. destruct (int_range ty) as [[lo hi]|] eqn:R; [|congruence].
  destruct ((lo <=? z) && (z <=? hi)) eqn:B; [|congruence]. intros X.
  assert (u = mkV ty (PNum z)) as -> by congruence. split; [done|].
  apply andb_prop in B. destruct B as [B1 B2]. apply Z.leb_le in B1, B2.
  destruct ty; cbn in R |- *; try congruence; assert (lo = lo) by done;
    injection R as E1 E2; subst; lia.
Qed.

Lemma null_of_type ty : of_type ty (mkV ty PNull).
Proof. split; [done|]. by destruct ty. Qed.

Lemma Forall2_of (A B : Type) (R : A -> B -> Prop) (l : list A) (k : list B) :
  length k = length l -> (forall i a b, l !! i = Some a -> k !! i = Some b -> R a b) -> Forall2 R l k.
Proof. intros L H. apply Forall2_same_length_lookup. split; [done|]. done. Qed.

Lemma wrap32_range z : - 2 ^ 31 <= wrap32 z < 2 ^ 31.
Proof. unfold wrap32. pose proof (Z.mod_pos_bound (z + 2147483648) 4294967296 ltac:(lia)). lia. Qed.

Lemma expand_cols_range now cols : forall nx vals r nx' ks, - 2 ^ 31 <= nx < 2 ^ 31 ->
  expand_cols now nx cols vals = (r, nx', ks) ->
  - 2 ^ 31 <= nx' < 2 ^ 31 /\ forall k, k ∈ ks -> - 2 ^ 31 <= k < 2 ^ 31.
Proof.
  induction cols as [|c cs IH]; intros nx vals r nx' ks B E; cbn [expand_cols] in E.
  - assert (nx' = nx) as -> by congruence. assert (ks = []) as -> by congruence.
    split; [done|]. intros k Hk. by apply elem_of_nil in Hk.
  - destruct (match vals with v :: _ => is_null v && c_pk c | [] => c_pk c end).
    + destruct (expand_cols now (wrap32 (nx + 1)) cs (tail vals)) as [[r1 nx1] ks1] eqn:E1.
      assert (nx' = nx1) as -> by congruence. assert (ks = nx :: ks1) as -> by congruence.
      destruct (IH _ _ _ _ _ (wrap32_range _) E1) as [H1 H2]. split; [done|].
      intros k Hk. apply elem_of_cons in Hk. destruct Hk as [->|Hk]; [done|auto].
    + destruct (match vals with v :: _ => Some v | [] => missing_value now c end).
      * destruct (expand_cols now nx cs (tail vals)) as [[r1 nx1] ks1] eqn:E1.
        assert (nx' = nx1) as -> by congruence. assert (ks = ks1) as -> by congruence. by eapply IH.
      * assert (nx' = nx) as -> by congruence. assert (ks = []) as -> by congruence.
        split; [done|]. intros k Hk. by apply elem_of_nil in Hk.
Qed.

Lemma expand_range now cols nx vals r nx' ks : - 2 ^ 31 <= nx < 2 ^ 31 ->
  expand now nx cols vals = (r, nx', ks) ->
  - 2 ^ 31 <= nx' < 2 ^ 31 /\ forall k, k ∈ ks -> - 2 ^ 31 <= k < 2 ^ 31.
Proof.
  unfold expand. intros B. destruct (length cols <? length vals)%nat; [|by apply expand_cols_range].
  intros E. assert (nx' = nx) as -> by congruence. assert (ks = []) as -> by congruence.
  split; [done|]. intros k Hk. by apply elem_of_nil in Hk.
Qed.

Section Typed.
Context (cast : IVal -> ITy -> option IVal) (OK : cast_ok cast) (CT : cast_types cast).

Definition tinv (w : World) : Prop :=
  - 2 ^ 31 <= w_next w < 2 ^ 31
  /\ forall t tb, w_tabs w !! t = Some tb ->
       (forall c, c ∈ t_cols tb -> c_pk c = true -> c_ty c = TInt) /\ rows_typed (t_cols tb) (t_rows tb).

Lemma tinv_init : tinv w_init.
Proof. split; [cbn; lia|]. intros t tb H. cbn in H. by rewrite lookup_empty in H. Qed.

Lemma tinv_add t row nx ks w tb : w_tabs w !! t = Some tb -> - 2 ^ 31 <= nx < 2 ^ 31 ->
  Forall2 (fun c v => of_type (c_ty c) v) (t_cols tb) row ->
  tinv w -> tinv (add_row t row (with_keys nx ks w)).
Proof.
  intros T B F [_ W]. unfold add_row. cbn [with_keys w_tabs]. rewrite T. split; [done|].
  intros t' tb'. cbn [w_tabs]. destruct (decide (t = t')) as [->|N].
  - rewrite lookup_insert. intros H. injection H as <-. cbn [t_cols t_rows].
    destruct (W _ _ T) as [W1 W2]. split; [done|].
    intros r Hr. apply elem_of_app in Hr. destruct Hr as [Hr|Hr]; [by apply W2|].
    apply elem_of_list_singleton in Hr. by subst.
  - rewrite lookup_insert_ne by done. apply W.
Qed.

Lemma heap_range fits now t vals w : - 2 ^ 31 <= w_next w < 2 ^ 31 ->
  - 2 ^ 31 <= w_next (snd (heap_insert_values fits now t vals w)) < 2 ^ 31.
Proof.
  intros B. unfold heap_insert_values. destruct (w_tabs w !! t) as [tb|] eqn:T; [|done].
  destruct (expand now (w_next w) (t_cols tb) vals) as [[r nx] ks] eqn:E.
  destruct (expand_range _ _ _ _ _ _ _ B E) as [B1 _].
  destruct r as [row|]; [|done]. destruct (fits row); [|done].
  unfold add_row. cbn [with_keys w_tabs]. by rewrite T.
Qed.

Lemma txn_range fits now t vals w : - 2 ^ 31 <= w_next w < 2 ^ 31 ->
  - 2 ^ 31 <= w_next (snd (txn_insert_values fits now t vals w)) < 2 ^ 31.
Proof.
  intros B. unfold txn_insert_values. destruct (w_tabs w !! t) as [tb|] eqn:T; [|done].
  destruct (expand now (w_next w) (t_cols tb) vals) as [[r nx] ks] eqn:E.
  destruct (expand_range _ _ _ _ _ _ _ B E) as [B1 _].
  destruct r as [row|]; [|done]. by apply heap_range.
Qed.

Lemma txn_insert_tinv fits now t vals w tb : w_tabs w !! t = Some tb ->
  Forall2 (fun c v => of_type (c_ty c) v) (t_cols tb) vals ->
  tinv w -> tinv (snd (txn_insert_values fits now t vals w)).
Proof.
  intros T F W. pose proof (txn_range fits now t vals w (proj1 W)) as B.
  destruct (txn_insert_values fits now t vals w) as [[] w'] eqn:E; cbn [snd] in *.
  - destruct (txn_insert_true _ _ _ _ _ _ E) as (tb' & row & nx & ks & T' & X & _ & ->).
    assert (tb' = tb) as -> by congruence.
    destruct (expand_range _ _ _ _ _ _ _ (proj1 W) X) as [B1 B2].
    eapply tinv_add; [done|done| |done].
    apply expand_spec in X. destruct X as [[L Sp] _].
    apply Forall2_of; [done|]. intros i c v Hc Hv. specialize (Sp i c v Hc Hv).
    destruct (Forall2_lookup_l _ _ _ _ _ F Hc) as (g & Hg & Og). rewrite Hg in Sp.
    destruct (is_null g && c_pk c) eqn:G; [|by subst].
    destruct Sp as (k & -> & Hk). apply andb_prop in G. destruct G as [_ P].
    destruct W as [_ W]. destruct (W _ _ T) as [W1 _].
    rewrite (W1 c (elem_of_list_lookup_2 _ _ _ Hc) P). split; [done|]. exact (B2 k Hk).
  - apply txn_insert_false in E. split; [done|]. intros t' tb'. rewrite E. apply W.
Qed.

Lemma cast_or_null_typed v ty : of_type (v_ty v) v -> of_type ty (cast_or_null cast v ty).
Proof.
  intros H. unfold cast_or_null. destruct (cast v ty) as [u|] eqn:E; [by eapply CT|apply null_of_type].
Qed.

Lemma by_position_typed vals target : (forall v, v ∈ vals -> of_type (v_ty v) v) ->
  Forall2 (fun c v => of_type (c_ty c) v) target (by_position cast vals target).
Proof.
  revert vals. induction target as [|c cs IH]; intros vals H; [constructor|].
  cbn [by_position]. destruct vals as [|v vals].
  - constructor; [apply null_of_type|apply IH; done].
  - constructor; [apply cast_or_null_typed; apply H; left|]. apply IH. intros u Hu. apply H. by right.
Qed.

Lemma map_values_typed vals src target : (forall v, v ∈ vals -> of_type (v_ty v) v) ->
  Forall2 (fun c v => of_type (c_ty c) v) target (map_values cast vals src target).
Proof.
  intros H. unfold map_values. destruct (by_name src target); [|by apply by_position_typed].
  induction target as [|c cs IH]; [constructor|]. cbn [map]. constructor; [|done].
  unfold value_by_name. destruct (col_index (c_name c) src) as [i|]; [|apply null_of_type].
  destruct (vals !! i) as [v|] eqn:E; [|apply null_of_type].
  apply cast_or_null_typed, H. by eapply elem_of_list_lookup_2.
Qed.

Lemma insert_loop_tinv fits now t src rows : forall w,
  (forall r v, r ∈ rows -> v ∈ r -> of_type (v_ty v) v) ->
  tinv w -> tinv (snd (insert_loop cast fits now t src rows w)).
Proof.
  induction rows as [|vals rows IH]; intros w H W; [done|]. cbn [insert_loop].
  destruct (w_tabs w !! t) as [tb|] eqn:T; [|done].
  destruct (fk_check _ _ _); [|done].
  pose proof (txn_insert_tinv fits now t (map_values cast vals src (t_cols tb)) w tb T
    (map_values_typed vals src (t_cols tb) (fun v Hv => H vals v (elem_of_list_here _ _) Hv)) W) as W1.
  destruct (txn_insert_values _ _ _ _ _) as [[] w1]; [|done].
  apply IH; [|done]. intros r v Hr Hv. apply (H r v); [by right|done].
Qed.

Lemma eval_row_typed src : forall vals ev, (forall v, v ∈ vals -> of_type (v_ty v) v) ->
  eval_row cast src vals = Some ev -> forall u, u ∈ ev -> of_type (v_ty u) u.
Proof.
  induction src as [|c cs IH]; intros vals ev H E u Hu.
  { cbn in E. assert (ev = []) as -> by congruence. by apply elem_of_nil in Hu. }
  destruct vals as [|v vals]; cbn [eval_row] in E.
  { assert (ev = []) as -> by congruence. by apply elem_of_nil in Hu. }
  destruct (if bool_decide (v_ty v = c_ty c) then Some v else cast v (c_ty c)) as [x|] eqn:X; [|done].
  destruct (eval_row cast cs vals) as [ev1|] eqn:E1; cbn in E; [|done].
  assert (ev = x :: ev1) as -> by congruence.
  apply elem_of_cons in Hu. destruct Hu as [->|Hu].
  - case_bool_decide.
    + assert (x = v) as -> by congruence. apply H. left.
    + assert (Q : of_type (c_ty c) x) by (eapply CT; [apply H; left|done]).
      pose proof (proj1 Q) as Q1. by rewrite Q1.
  - apply (IH vals ev1); [|done|done]. intros y Hy. apply H. by right.
Qed.

Lemma eval_rows_typed src rows ev : (forall r v, r ∈ rows -> v ∈ r -> of_type (v_ty v) v) ->
  eval_rows cast src rows = Some ev -> forall r v, r ∈ ev -> v ∈ r -> of_type (v_ty v) v.
Proof.
  intros H E r v Hr Hv. apply eval_rows_spec in E.
  apply elem_of_list_lookup in Hr. destruct Hr as [i Hi].
  destruct (Forall2_lookup_r _ _ _ _ _ E Hi) as (r0 & Hr0 & Er).
  eapply (eval_row_typed src r0 r); [|done|done].
  intros u Hu. apply (H r0 u); [by eapply elem_of_list_lookup_2|done].
Qed.

Definition src_rows (s : Src) : list (list IVal) := match s with SVals rows => rows | SSel _ rows => rows end.

Lemma insert_sql_tinv fits now t names src w :
  (forall r v, r ∈ src_rows src -> v ∈ r -> of_type (v_ty v) v) ->
  tinv w -> tinv (snd (insert_sql cast fits now t names src w)).
Proof.
  intros H W. unfold insert_sql. destruct (w_tabs w !! t) as [tb|] eqn:T; [|done].
  destruct (match names with [] => Some (t_cols tb) | _ :: _ => listed names (t_cols tb) end) as [vs|]; [|done].
  destruct src as [rows|scols rows]; cbn [src_rows] in H.
  - destruct (forallb _ rows); [|done]. destruct (eval_rows cast vs rows) as [ev|] eqn:E; [|done].
    apply insert_loop_tinv; [|done]. by eapply eval_rows_typed.
  - case_bool_decide; [|done]. destruct (forallb _ rows); [|done]. by apply insert_loop_tinv.
Qed.

Lemma assign_all_typed cols asg old : 
  (forall i f v c, (i, f) ∈ asg -> f old = Some v -> cols !! i = Some c -> of_type (c_ty c) v) ->
  forall row row', Forall2 (fun c v => of_type (c_ty c) v) cols row ->
  assign_all asg old row = Some row' -> Forall2 (fun c v => of_type (c_ty c) v) cols row'.
Proof.
  induction asg as [|[i f] rest IH]; intros H row row' F E; cbn [assign_all] in E; [congruence|].
  destruct (i <? length row)%nat; [|done]. destruct (f old) as [v|] eqn:V; [|done].
  eapply IH; [|clear IH|exact E].
  - intros j g u c Hj. apply H. by right.
  - apply Forall2_of; [rewrite insert_length; symmetry; by eapply Forall2_length|].
    intros j c u Hc Hu. destruct (decide (i = j)) as [->|N].
    + assert (Lj : (j < length row)%nat).
      { apply lookup_lt_Some in Hu. by rewrite insert_length in Hu. }
      rewrite list_lookup_insert in Hu by done. assert (u = v) as -> by congruence.
      eapply H; [left|done|done].
    + rewrite list_lookup_insert_ne in Hu by done.
      by eapply (Forall2_lookup_lr _ _ _ _ _ _ F).
Qed.

Lemma update_rows_typed cols fits pick asg rows : rows_typed cols rows ->
  (forall r i f v c, r ∈ rows -> (i, f) ∈ asg -> f r = Some v -> cols !! i = Some c -> of_type (c_ty c) v) ->
  rows_typed cols (snd (update_rows fits pick asg rows)).
Proof.
  induction rows as [|x rows IH]; intros R H; [done|].
  assert (RX : rows_typed cols rows) by (intros r Hr; apply R; by right).
  assert (HX : forall r i f v c, r ∈ rows -> (i, f) ∈ asg -> f r = Some v -> cols !! i = Some c -> of_type (c_ty c) v).
  { intros r i f v c Hr. apply H. by right. }
  specialize (IH RX HX). cbn [update_rows]. destruct (pick x).
  - destruct (assign_all asg x x) as [x'|] eqn:A; [|done]. destruct (fits x'); [|done].
    destruct (update_rows fits pick asg rows) as [b rs]. cbn [snd] in *.
    intros r Hr. apply elem_of_cons in Hr. destruct Hr as [->|Hr]; [|by apply IH].
    eapply assign_all_typed; [|apply R; left|exact A].
    intros i f v c. apply H. left.
  - destruct (update_rows fits pick asg rows) as [b rs]. cbn [snd] in *.
    intros r Hr. apply elem_of_cons in Hr. destruct Hr as [->|Hr]; [|by apply IH]. apply R. left.
Qed.
End Typed.

Lemma update_const i v rows : (forall r : list IVal, r ∈ rows -> (i < length r)%nat) ->
  update_rows (fun _ => true) (fun _ => true) [(i, fun _ => Some v)] rows = (true, map (<[i := v]>) rows).
Proof.
  induction rows as [|r rows IH]; intros H; [done|]. cbn [update_rows assign_all map].
  assert (Lr : (i <? length r)%nat = true) by (apply Nat.ltb_lt, H; left). rewrite Lr.
  rewrite IH; [done|]. intros x Hx. apply H. by right.
Qed.
