(** * C119: the values of a column are of its type

    The specification is StSpec.v, the statements are InsModel.v's. *)
From Coq Require Import ZArith String Lia.
From stdpp Require Import base list strings gmap.
From Verif Require Import InsSpec StSpec InsModel InsProofs StProofs.
Local Open Scope Z_scope.

(** What is asked of a statement, [tabs] being the tables before it: keys are declared INTEGER; the values an INSERT is given are
    well formed, of whatever type; the expressions of an UPDATE give, on the rows of the table, values of the type of the
    column they are assigned to.  The table's own API, which takes rows as they are, is left out. *)
Definition statement_ok (tabs : string -> option (list ICol * list (list IVal))) (o : IOp) : Prop :=
  match o with
  | OCreate _ cols => forall c, c ∈ cols -> c_pk c = true -> c_ty c = TInt
  | OInsert _ _ _ _ (SVals rows) => forall r v, r ∈ rows -> v ∈ r -> of_type (v_ty v) v
  | OInsert _ _ _ _ (SSel _ rows) => forall r v, r ∈ rows -> v ∈ r -> of_type (v_ty v) v
  | OUpdate _ _ asg t => forall cols rows, tabs t = Some (cols, rows) ->
      forall r i f v c, r ∈ rows -> (i, f) ∈ asg -> f r = Some v -> cols !! i = Some c -> of_type (c_ty c) v
  | ODelete _ _ => True
  | OValues _ _ _ _ => False
  | OBulk _ _ _ _ => False
  end.

(** In every history of such statements, failed ones included, every stored value is of its column's type. *)
Theorem c119_typed_partial : forall cast os, cast_ok cast -> cast_types cast ->
  (forall before o after, os = before ++ o :: after -> statement_ok (the_tabs (irun cast before w_init)) o) ->
  forall t cols rows, the_tabs (irun cast os w_init) t = Some (cols, rows) -> rows_typed cols rows.
Proof.
  intros cast os OK CT H. enough (W : tinv (irun cast os w_init)).
  { intros t cols rows HT. unfold the_tabs in HT. destruct (w_tabs _ !! t) as [tb|] eqn:T; [|done].
    cbn in HT. assert (cols = t_cols tb) as -> by congruence. assert (rows = t_rows tb) as -> by congruence.
    by apply (proj2 W t tb). }
  induction os as [|o os IH] using rev_ind; [exact tinv_init|].
  assert (W : tinv (irun cast os w_init)).
  { apply IH. intros before x after ->. apply (H before x (after ++ [o])). by rewrite <- app_assoc. }
  specialize (H os o [] eq_refl). unfold irun in *. rewrite fold_left_app. cbn [fold_left].
  set (w := fold_left _ os w_init) in *. clearbody w. clear IH.
  destruct o as [t cols|fits now t names src|fits now t vals|fits now t rows|fits pick asg t|pick t];
    cbn [istep statement_ok] in *; try done.
  - unfold create_sql. destruct (w_tabs w !! t) eqn:T; [done|]. destruct (fks_exist w cols); [|done].
    split; [apply W|]. intros t' tb'. cbn [snd w_tabs]. destruct (decide (t = t')) as [->|N].
    + rewrite lookup_insert. intros X. injection X as <-. cbn. split; [done|]. intros r Hr. by apply elem_of_nil in Hr.
    + rewrite lookup_insert_ne by done. apply W.
  - apply insert_sql_tinv; [done| |done]. by destruct src.
  - unfold update_sql. destruct (w_tabs w !! t) as [tb|] eqn:T; [|done].
    specialize (H (t_cols tb) (t_rows tb)). unfold the_tabs in H. rewrite T in H. specialize (H eq_refl).
    pose proof (update_rows_typed (t_cols tb) fits pick asg (t_rows tb) (proj2 (proj2 W _ _ T)) H) as U.
    destruct (update_rows fits pick asg (t_rows tb)) as [b rs]. cbn [snd] in *.
    split; [apply W|]. intros t' tb'. cbn [w_tabs]. destruct (decide (t = t')) as [->|N].
    + rewrite lookup_insert. intros X. injection X as <-. cbn. split; [|done]. apply (proj2 W _ _ T).
    + rewrite lookup_insert_ne by done. apply W.
  - unfold delete_sql. destruct (w_tabs w !! t) as [tb|] eqn:T; [|done]. cbn [snd].
    split; [apply W|]. intros t' tb'. cbn [w_tabs]. destruct (decide (t = t')) as [->|N].
    + rewrite lookup_insert. intros X. injection X as <-. cbn. split; [apply (proj2 W _ _ T)|].
      intros r Hr. apply elem_of_list_In, filter_In in Hr.
      apply (proj2 (proj2 W _ _ T)). apply elem_of_list_In, Hr.
    + rewrite lookup_insert_ne by done. apply W.
Qed.
Print Assumptions c119_typed_partial.

(** A history that meets the hypotheses: a TINYINT column takes 5, given as an INTEGER, and is updated to 6. *)
Definition ex_tcols : list ICol :=
  [mkC "k" TInt true true false None None None; mkC "a" TTiny false false false None None None].
Definition ex_hist : list IOp :=
  [OCreate "t" ex_tcols;
   OInsert (fun _ => true) 0 "t" ["a"%string] (SVals [[mkV TInt (PNum 5)]]);
   OInsert (fun _ => true) 0 "t" ["a"%string] (SVals [[mkV TInt (PNum 1000)]]);
   OUpdate (fun _ => true) (fun _ => true) [(1%nat, fun _ => Some (mkV TTiny (PNum 6)))] "t"].
Example c119_typed_ex :
  the_tabs (irun cast_ints (take 3 ex_hist) w_init) "t" = Some (ex_tcols, [[mkV TInt (PNum 1); mkV TTiny (PNum 5)]])
  /\ the_tabs (irun cast_ints ex_hist w_init) "t" = Some (ex_tcols, [[mkV TInt (PNum 1); mkV TTiny (PNum 6)]])
  /\ cast_ok cast_ints /\ cast_types cast_ints
  /\ (forall before o after, ex_hist = before ++ o :: after ->
        statement_ok (the_tabs (irun cast_ints before w_init)) o).
Proof.
  split; [vm_compute; reflexivity|]. split; [vm_compute; reflexivity|].
  split; [exact cast_ints_ok|]. split; [exact cast_ints_types|].
  intros before o after E. unfold ex_hist in E.
  destruct before as [|b1 [|b2 [|b3 [|b4 rest]]]].
  - cbn [app] in E. assert (o = OCreate "t" ex_tcols) as -> by congruence. cbn.
    intros c Hc. unfold ex_tcols in Hc. rewrite !elem_of_cons, elem_of_nil in Hc.
    destruct Hc as [->|[->|[]]]; done.
  - cbn [app] in E. injection E as _ <- _. cbn. intros r v Hr Hv.
    apply elem_of_list_singleton in Hr. subst r. apply elem_of_list_singleton in Hv. subst v. split; [done|]. cbn. lia.
  - cbn [app] in E. injection E as _ _ <- _. cbn. intros r v Hr Hv.
    apply elem_of_list_singleton in Hr. subst r. apply elem_of_list_singleton in Hv. subst v. split; [done|]. cbn. lia.
  - cbn [app] in E. injection E as <- <- <- <- _. cbn [statement_ok]. intros cols rows HT r i f v c Hr Hi Hf Hc.
    assert (X : Some (cols, rows) = Some (ex_tcols, [[mkV TInt (PNum 1); mkV TTiny (PNum 5)]]))
      by (rewrite <- HT; vm_compute; reflexivity).
    injection X as -> _. apply elem_of_list_singleton in Hi. injection Hi as -> ->.
    cbn in Hc. assert (c = mkC "a" TTiny false false false None None None) as -> by congruence.
    assert (v = mkV TTiny (PNum 6)) as -> by congruence. split; [done|]. cbn. lia.
  - exfalso. apply (f_equal length) in E. rewrite app_length in E. cbn in E. lia.
Qed.

(** UPDATE does not convert: a value of any other type is stored as it is, in any column of any table.  No hypothesis of the
    theorem above can be left out for it. *)
Theorem c119_update_refuted : forall t w cols rows i c v,
  the_tabs w t = Some (cols, rows) -> rows <> [] -> rows_typed cols rows -> cols !! i = Some c -> v_ty v <> c_ty c ->
  exists w' rows', update_sql (fun _ => true) (fun _ => true) [(i, fun _ => Some v)] t w = (true, w')
    /\ the_tabs w' t = Some (cols, rows') /\ length rows' = length rows
    /\ (forall r, r ∈ rows' -> r !! i = Some v) /\ ~ rows_typed cols rows'.
Proof.
  intros t w cols rows i c v HT NE R Hc NT. unfold the_tabs in HT.
  destruct (w_tabs w !! t) as [tb|] eqn:T; [|done]. cbn in HT.
  assert (cols = t_cols tb) as -> by congruence. assert (rows = t_rows tb) as -> by congruence.
  assert (L : forall r, r ∈ t_rows tb -> (i < length r)%nat).
  { intros r Hr. specialize (R r Hr). rewrite <- (Forall2_length _ _ _ R). by eapply lookup_lt_Some. }
  unfold update_sql. rewrite T. rewrite (update_const i v (t_rows tb) L).
  eexists _, _. split; [reflexivity|]. unfold the_tabs. cbn [w_tabs]. rewrite lookup_insert. cbn.
  split; [reflexivity|]. split; [by rewrite map_length|].
  assert (A : forall r, r ∈ map (<[i := v]>) (t_rows tb) -> r !! i = Some v).
  { intros r Hr. apply elem_of_list_fmap in Hr. destruct Hr as (r0 & -> & Hr0).
    apply list_lookup_insert. by apply L. }
  split; [exact A|]. intros R'. destruct (t_rows tb) as [|r0 rest] eqn:E; [done|].
  assert (Hin : <[i := v]> r0 ∈ map (<[i := v]>) (r0 :: rest)) by (cbn [map]; left).
  specialize (R' _ Hin). destruct (Forall2_lookup_lr _ _ _ _ _ _ R' Hc (A _ Hin)) as [X _]. by apply NT.
Qed.
Print Assumptions c119_update_refuted.

Example c119_update_ex :
  let w := irun cast_ints (take 2 ex_hist) w_init in
  the_tabs (snd (update_sql (fun _ => true) (fun _ => true) [(1%nat, fun _ => Some (mkV TText (PText "x")))] "t" w)) "t"
  = Some (ex_tcols, [[mkV TInt (PNum 1); mkV TText (PText "x")]]).
Proof. vm_compute. reflexivity. Qed.

(** A value that its column's type has no place for makes INSERT with VALUES fail ... *)
Theorem c119_values_refused : forall cast fits now t w cols rows v c i given, cast_ok cast ->
  the_tabs w t = Some (cols, rows) -> given !! i = Some v -> cols !! i = Some c -> cast v (c_ty c) = None ->
  length given = length cols ->
  insert_sql cast fits now t [] (SVals [given]) w = (false, w).
Proof.
  intros cast fits now t w cols rows v c i given OK HT Hv Hc N L. unfold the_tabs in HT.
  destruct (w_tabs w !! t) as [tb|] eqn:T; [|done]. cbn in HT.
  assert (cols = t_cols tb) as -> by congruence. unfold insert_sql. rewrite T.
  cbn [forallb]. rewrite L, Nat.eqb_refl. cbn [andb eval_rows].
  destruct (eval_row cast (t_cols tb) given) as [ev|] eqn:E; [|done].
  destruct (eval_row_spec _ _ _ _ OK L E) as [_ H]. destruct (H i c v Hc Hv) as (u & _ & X). congruence.
Qed.
Print Assumptions c119_values_refused.

(** ... and INSERT ... SELECT store a NULL in its place, in every table without keys and references, and succeed. *)
Theorem c119_select_null_refuted : forall cast t w cols rows row v c i,
  the_tabs w t = Some (cols, rows) -> NoDup (map c_name cols) ->
  (forall d, d ∈ cols -> c_pk d = false /\ c_fk d = None) ->
  length row = length cols -> row !! i = Some v -> cols !! i = Some c -> cast v (c_ty c) = None ->
  exists w' stored, insert_sql cast (fun _ => true) 0 t [] (SSel cols [row]) w = (true, w')
    /\ the_tabs w' t = Some (cols, rows ++ [stored]) /\ stored !! i = Some (mkV (c_ty c) PNull).
Proof.
  intros cast t w cols rows row v c i HT ND PK L Hv Hc N. unfold the_tabs in HT.
  destruct (w_tabs w !! t) as [tb|] eqn:T; [|done]. cbn in HT.
  assert (cols = t_cols tb) as -> by congruence. assert (rows = t_rows tb) as -> by congruence.
  unfold insert_sql. rewrite T. rewrite bool_decide_eq_true_2 by done. cbn [forallb].
  rewrite L, Nat.eqb_refl. cbn [andb insert_loop]. rewrite T.
  set (m := map_values cast row (t_cols tb) (t_cols tb)).
  assert (NEc : t_cols tb <> []) by (intros Z0; by rewrite Z0 in Hc).
  assert (Lm : length m = length (t_cols tb)).
  { unfold m, map_values. rewrite by_name_listed by done. by rewrite map_length. }
  assert (Hm : m !! i = Some (mkV (c_ty c) PNull)).
  { unfold m. rewrite (map_values_listed _ _ _ _ _ _ NEc ltac:(done) Hc). unfold value_by_name.
    rewrite (col_index_names (c_name c) (t_cols tb) i c ND Hc eq_refl), Hv. unfold cast_or_null. by rewrite N. }
  assert (FK : forall l vals, (forall d, d ∈ l -> c_fk d = None) -> fk_check w l vals = true).
  { clear. induction l as [|d l IH]; intros vals H; [done|]. cbn [fk_check]. rewrite (H d) by left.
    apply IH. intros e He. apply H. by right. }
  rewrite FK by (intros d Hd; by apply PK).
  assert (X : forall now nx, expand now nx (t_cols tb) m = (Some m, nx, [])).
  { intros now nx. unfold expand. rewrite Lm, Nat.ltb_irrefl. apply expand_cols_full; [done|].
    intros j d u Hd Hu. rewrite (proj1 (PK d (elem_of_list_lookup_2 _ _ _ Hd))). apply andb_false_r. }
  unfold txn_insert_values. rewrite T, X. unfold heap_insert_values. cbn [with_keys w_tabs]. rewrite T, X.
  eexists _, m. split; [reflexivity|]. split; [|exact Hm].
  unfold the_tabs. rewrite (add_row_tabs t m _ tb) by done. by rewrite lookup_insert.
Qed.
Print Assumptions c119_select_null_refuted.

(** The two together: a TINYINT column is updated to 1000, which is then copied as NULL. *)
Example c119_copy_ex :
  let cols := [mkC "a" TTiny false false false None None None] in
  let w := irun cast_ints
    [OCreate "t" cols; OCreate "u" cols;
     OInsert (fun _ => true) 0 "t" [] (SVals [[mkV TInt (PNum 5)]]);
     OUpdate (fun _ => true) (fun _ => true) [(0%nat, fun _ => Some (mkV TInt (PNum 1000)))] "t"] w_init in
  the_tabs w "t" = Some (cols, [[mkV TInt (PNum 1000)]])
  /\ cast_ints (mkV TInt (PNum 1000)) TTiny = None
  /\ fst (insert_sql cast_ints (fun _ => true) 0 "t" [] (SVals [[mkV TInt (PNum 1000)]]) w) = false
  /\ the_tabs (snd (insert_sql cast_ints (fun _ => true) 0 "u" [] (SSel cols [[mkV TInt (PNum 1000)]]) w)) "u"
     = Some (cols, [[mkV TTiny PNull]]).
Proof. vm_compute. split; [done|]. split; [done|]. split; done. Qed.

(** A generated key is an INTEGER whatever its column is. *)
Theorem c119_key_refuted : forall cast t w n ty, w_tabs w !! t = Some (mkT [mkC n ty true true false None None None] []) ->
  ty <> TInt -> cast_ok cast ->
  exists w' k, insert_sql cast (fun _ => true) 0 t [] (SVals [[mkV ty PNull]]) w = (true, w')
    /\ the_tabs w' t = Some ([mkC n ty true true false None None None], [[mkV TInt (PNum k)]])
    /\ ~ rows_typed [mkC n ty true true false None None None] [[mkV TInt (PNum k)]].
Proof.
  intros cast t w n ty T NT OK. unfold insert_sql. rewrite T. cbn [t_cols forallb length Nat.eqb andb eval_rows eval_row].
  rewrite bool_decide_eq_true_2 by done. cbn [fmap option_fmap option_map insert_loop]. rewrite T. cbn [t_cols].
  assert (M : map_values cast [mkV ty PNull] [mkC n ty true true false None None None] [mkC n ty true true false None None None]
    = [mkV ty PNull]).
  { unfold map_values, by_name. cbn [forallb col_index c_name]. rewrite String.eqb_refl. cbn [andb map c_name c_ty].
    unfold value_by_name. cbn [col_index c_name]. rewrite String.eqb_refl. cbn [lookup list_lookup].
    unfold cast_or_null. pose proof (proj1 OK (mkV ty PNull)) as E. cbn [v_ty] in E. by rewrite E. }
  rewrite M. cbn [fk_check c_fk tail]. 
  destruct (txn_insert_values (fun _ => true) 0 t [mkV ty PNull] w) as [b w'] eqn:X.
  assert (Q : b = true /\ the_tabs w' t = Some ([mkC n ty true true false None None None], [[mkV TInt (PNum (w_next w))]])).
  { revert X. unfold txn_insert_values. rewrite T. cbn. unfold heap_insert_values. cbn [with_keys w_tabs]. rewrite T. cbn.
    intros X. injection X as <- <-. split; [done|]. unfold the_tabs, add_row. cbn [with_keys w_tabs]. rewrite T. cbn.
    by rewrite lookup_insert. }
  destruct Q as [-> Q]. exists w', (w_next w). split; [done|]. split; [done|].
  intros R. specialize (R _ (elem_of_list_here _ _)). inversion R as [|? ? ? ? [Y _] _]; subst. cbn in Y. congruence.
Qed.
Print Assumptions c119_key_refuted.

Example c119_key_ex :
  the_tabs (irun cast_ints [OCreate "t" [mkC "k" TText true true false None None None];
                            OInsert (fun _ => true) 0 "t" [] (SVals [[mkV TText PNull]])] w_init) "t"
  = Some ([mkC "k" TText true true false None None None], [[mkV TInt (PNum 1)]]).
Proof. vm_compute. reflexivity. Qed.
