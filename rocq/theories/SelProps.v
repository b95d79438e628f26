(** C94: a SELECT list with aggregates shows, for every group, the values of
    its items. *)
From Coq Require Import Strings.String Strings.Ascii ZArith List Arith Bool Lia.
From Verif Require Import NameSpec NameModel NameProofs NameProps SelSpec SelModel SelProofs.
Import ListNotations.
Open Scope string_scope.

Lemma sql_fn_name f : sql_name f = fn_name f.
Proof. now destruct f. Qed.

Lemma starts_with_inv p s : starts_with p s = true -> exists r, s = p ++ r.
Proof.
  revert s. induction p as [|a p IH]; intros s H; [now exists s|].
  destruct s as [|b s]; cbn in H; [discriminate|].
  apply andb_prop in H as [E H]. apply Ascii.eqb_eq in E. subst b.
  destruct (IH s H) as [r ->]. now exists r.
Qed.

Lemma legal_witem cols gs it : legal_item cols gs it ->
  (forall f a, i_expr it = SAgg f a -> forall g, In g gs -> g <> sql_name f /\
    (forall s, g <> (sql_name f ++ "_" ++ s)%string) /\
    (forall s, g <> (sql_name f ++ "(" ++ s)%string)) ->
  exists w, it = wsyn w /\ witem_ok cols gs w.
Proof.
  intros H Hc. destruct it as [e al]. unfold legal_item in H. cbn in H.
  assert (W : forall f a, e = SAgg f (option_map Bare a) ->
    match a with Some c => In c cols | None => f = Count end ->
    exists w, {| i_expr := e; i_as := al |} = wsyn w /\ witem_ok cols gs w).
  { intros f a -> Ha. exists (WAgg f a al). split; [reflexivity|]. split; [assumption|].
    intros g Hg. destruct (Hc f _ eq_refl g Hg) as (A & B & C).
    rewrite sql_fn_name in *. split; [assumption|].
    split.
    - destruct (starts_with (fn_name f ++ "(") g) eqn:E; [|reflexivity].
      apply starts_with_inv in E as [r E]. rewrite append_assoc in E. now destruct (C r).
    - destruct (starts_with (fn_name f ++ "_") g) eqn:E; [|reflexivity].
      apply starts_with_inv in E as [r E]. rewrite append_assoc in E. now destruct (B r). }
  destruct e as [[c|t c]|f [[c|t c]|]|e z]; try contradiction.
  - destruct H as [H ->]. now exists (WCol c).
  - now apply (W f (Some c)).
  - now apply (W f None).
Qed.

Lemma legal_witems cols gs items : Forall (legal_item cols gs) items -> no_clash gs items ->
  exists ws, items = map wsyn ws /\ Forall (witem_ok cols gs) ws.
Proof.
  induction items as [|it items IH]; intros H Hc; [exists []; now split|].
  inversion H; subst.
  destruct (legal_witem cols gs it) as (w & -> & Hw); [assumption| |].
  - intros f a E g Hg. apply Hc; [|assumption]. unfold functions. cbn. rewrite E. now left.
  - destruct IH as (ws & -> & Hws); [assumption| |].
    + intros f g Hf Hg. apply Hc; [|assumption]. unfold functions. cbn.
      apply in_app_iff. now right.
    + exists (w :: ws). split; [reflexivity|]. now constructor.
Qed.

Lemma from_single t : t_alias t = None -> from_columns [t] = t_cols t.
Proof. intros H. unfold from_columns. cbn. unfold scan_columns. rewrite H. apply app_nil_r. Qed.

Lemma bare_at t c : t_alias t = None -> In c (t_cols t) ->
  unqualified_at (scope_of [t]) c (idx (t_cols t) c).
Proof.
  intros Ha Hc. exists (t_table t). unfold qualified_at, scope_of, slots. cbn.
  rewrite app_nil_r, Ha, nth_error_map, (idx_nth _ _ Hc). reflexivity.
Qed.

Lemma witem_means t gs w : t_alias t = None -> incl gs (t_cols t) ->
  witem_ok (t_cols t) gs w ->
  means (scope_of [t]) (i_expr (wsyn w))
    (match w with
     | WCol c => Column (idx (t_cols t) c)
     | WAgg _ _ _ => Aggregate (spec_agg (t_cols t) w)
     end).
Proof.
  intros Ha HI Hw. destruct w as [c|f a al]; cbn [wsyn i_expr spec_agg].
  - constructor. apply bare_at; [assumption|]. now apply HI.
  - destruct Hw as [Hw _]. destruct a as [c|]; cbn [option_map]; constructor.
    now apply bare_at.
Qed.

Lemma witem_value_col cols gs ws c g : In c gs ->
  nth (idx gs c) (grouped_row cols gs ws g) None = nth (idx cols c) (snd g) None.
Proof.
  intros H. unfold grouped_row. rewrite app_nth1 by (rewrite map_length; now apply idx_lt).
  apply nth_of_nth_error. rewrite nth_error_map, (idx_nth _ _ H). reflexivity.
Qed.

Lemma witem_value_agg cols gs ws k w g : nth_error (waggs ws) k = Some w ->
  nth (length gs + k) (grouped_row cols gs ws g) None = fst g (spec_agg cols w).
Proof.
  intros H. unfold grouped_row. rewrite app_nth2; rewrite map_length; [|lia].
  replace (length gs + k - length gs) with k by lia.
  apply nth_of_nth_error. now rewrite nth_error_map, H.
Qed.

(** Columns show the group's value wherever they stand in the list, and there
    is one row for every group. *)
Theorem c94_columns_partial t gs items :
  legal_from [t] -> t_alias t = None -> NoDup gs -> gs <> [] -> incl gs (t_cols t) ->
  Forall (legal_item (t_cols t) gs) items -> no_clash gs items ->
  exists p, plan_select (from_columns [t]) items (map Bare gs) None = Some p /\
    forall rows groups, Forall2 (fun g out =>
      length out = length items /\
      forall i c, nth_error items i = Some (Item (SCol (Bare c)) None) ->
        exists k, unqualified_at (scope_of [t]) c k /\
          nth_error out i = Some (nth k (snd g) None)) groups (run p rows groups).
Proof.
  intros HL Ha HN Hne HI HF HC. rewrite (from_single t Ha).
  destruct (legal_witems _ _ _ HF HC) as (ws & -> & Hws).
  rewrite (plan_witems _ _ _ HN HI Hws) by (now left).
  eexists. split; [reflexivity|]. intros rows groups.
  rewrite (run_witems _ _ _ rows groups HN HI Hws).
  assert (G : forall f, (forall g : group, length (f g) = length (map wsyn ws) /\
      forall i c, nth_error (map wsyn ws) i = Some (Item (SCol (Bare c)) None) ->
        exists k, unqualified_at (scope_of [t]) c k /\
          nth_error (f g) i = Some (nth k (snd g) None)) ->
      Forall2 (fun g out => length out = length (map wsyn ws) /\
      forall i c, nth_error (map wsyn ws) i = Some (Item (SCol (Bare c)) None) ->
        exists k, unqualified_at (scope_of [t]) c k /\
          nth_error out i = Some (nth k (snd g) None)) groups (map f groups)).
  { intros f Hf. induction groups as [|g groups IH]; cbn; constructor; auto. }
  apply G. clear G. intros g. rewrite !map_length, targets_length. split; [reflexivity|].
  intros i c Hi. rewrite nth_error_map in Hi.
  destruct (nth_error ws i) as [w|] eqn:Ew; [|discriminate]. cbn in Hi.
  destruct w as [c'|f a al]; cbn in Hi; [|discriminate]. injection Hi as ->.
  rewrite Forall_forall in Hws. pose proof (Hws _ (nth_error_In _ _ Ew)) as Hok. cbn in Hok.
  exists (idx (t_cols t) c). split; [apply bare_at; auto|].
  rewrite nth_error_map, targets_nth, Ew. cbn. f_equal.
  now apply (witem_value_col (t_cols t)).
Qed.

Lemma waggs_split cs ws : Forall (fun w => exists c, w = WCol c) cs ->
  Forall (fun w => exists f a al, w = WAgg f a al) ws -> waggs (cs ++ ws) = ws.
Proof.
  intros H1 H2. unfold waggs. induction H1 as [|w cs (c & ->) _ IH]; cbn; [|exact IH].
  induction H2 as [|w ws (f & a & al & ->) _ IH]; cbn; [reflexivity|]. now rewrite IH.
Qed.

Lemma fns_functions ws : fns ws = map sql_name (functions (map wsyn ws)).
Proof.
  unfold fns, functions. induction ws as [|w ws IH]; cbn [map flat_map]; [reflexivity|].
  rewrite map_app, <- IH. destruct w as [c|f a al]; cbn [wsyn i_expr map]; [reflexivity|].
  now rewrite (sql_fn_name f).
Qed.

Lemma sql_name_inj f g : sql_name f = sql_name g -> f = g.
Proof. destruct f, g; cbn; congruence. Qed.

Lemma split_witems (cs al : list sitem) ws : (cs ++ al)%list = map wsyn ws ->
  exists wc wa, ws = (wc ++ wa)%list /\ cs = map wsyn wc /\ al = map wsyn wa.
Proof.
  revert ws. induction cs as [|c cs IH]; intros ws E.
  - exists [], ws. auto.
  - destruct ws as [|w ws]; cbn in E; [discriminate|]. injection E as -> E.
    destruct (IH ws E) as (wc & wa & -> & -> & ->). exists (w :: wc), wa. auto.
Qed.

Lemma canonical_split cs al ws : (cs ++ al)%list = map wsyn ws ->
  Forall is_column cs -> Forall is_aggregate al ->
  exists wc wa, ws = (wc ++ wa)%list /\ cs = map wsyn wc /\ al = map wsyn wa /\
    Forall (fun w => exists c, w = WCol c) wc /\
    Forall (fun w => exists f a al, w = WAgg f a al) wa.
Proof.
  intros E H1 H2. destruct (split_witems _ _ _ E) as (wc & wa & -> & -> & ->).
  exists wc, wa. split; [reflexivity|]. split; [reflexivity|]. split; [reflexivity|].
  split; apply Forall_forall; intros w Hw.
  - rewrite Forall_forall in H1. destruct (H1 (wsyn w)) as [c Hc]; [now apply in_map|].
    destruct w; cbn in Hc; [eauto|discriminate].
  - rewrite Forall_forall in H2. destruct (H2 (wsyn w)) as (f & a & Hc); [now apply in_map|].
    destruct w; cbn in Hc; [discriminate|eauto].
Qed.

Lemma fns_cols wc wa : Forall (fun w => exists c, w = WCol c) wc -> fns (wc ++ wa) = fns wa.
Proof. induction 1 as [|w wc (c & ->) _ IH]; cbn; [reflexivity|exact IH]. Qed.

(** As many columns as there are GROUP BY columns, then aggregates whose
    functions are all different: every item of every group is right. *)
Theorem c94_canonical_partial t gs cs al :
  legal_from [t] -> t_alias t = None -> NoDup gs -> incl gs (t_cols t) ->
  Forall (legal_item (t_cols t) gs) (cs ++ al) -> no_clash gs (cs ++ al) ->
  Forall is_column cs -> length cs = length gs ->
  Forall is_aggregate al -> NoDup (functions al) -> (gs <> [] \/ al <> []) ->
  exists p, plan_select (from_columns [t]) (cs ++ al) (map Bare gs) None = Some p /\
    forall rows groups,
      Forall2 (fun g out => shows (scope_of [t]) (fst g) (snd g) (cs ++ al) out)
        groups (run p rows groups).
Proof.
  intros HL Ha HN HI HF HC H1 HLen H2 HND Hne. rewrite (from_single t Ha).
  destruct (legal_witems _ _ _ HF HC) as (ws & Ews & Hws).
  destruct (canonical_split _ _ _ Ews H1 H2) as (wc & wa & -> & -> & -> & Hwc & Hwa).
  rewrite Ews.
  assert (EW : waggs (wc ++ wa) = wa) by now apply waggs_split.
  assert (Hne2 : gs <> [] \/ waggs (wc ++ wa) <> []).
  { rewrite EW. destruct Hne as [H|H]; [now left|right]. intros E. subst wa. now apply H. }
  rewrite (plan_witems _ _ _ HN HI Hws Hne2).
  eexists. split; [reflexivity|]. intros rows groups.
  rewrite (run_witems _ _ _ rows groups HN HI Hws).
  assert (ED : distinct (fns (wc ++ wa)) = fns wa).
  { rewrite (fns_cols _ _ Hwc). unfold distinct. rewrite push_new_app; [reflexivity|].
    cbn. rewrite fns_functions. apply FinFun.Injective_map_NoDup; [|assumption].
    intros f g. apply sql_name_inj. }
  assert (EL : length (fns wa) = length wa).
  { rewrite fns_length. rewrite <- EW at 2. unfold waggs.
    rewrite filter_app. assert (E0 : waggs wc = []).
    { clear -Hwc. unfold waggs. induction Hwc as [|w l (c & ->) _ IH]; [reflexivity|exact IH]. }
    unfold waggs in E0. now rewrite E0. }
  assert (G : forall f, (forall g : group, shows (scope_of [t]) (fst g) (snd g) (map wsyn (wc ++ wa)) (f g)) ->
      Forall2 (fun g out => shows (scope_of [t]) (fst g) (snd g) (map wsyn (wc ++ wa)) out)
        groups (map f groups)).
  { intros f Hf. induction groups as [|g groups IH]; cbn; constructor; auto. }
  apply G. clear G. intros g. unfold shows.
  rewrite ED, EL.
  assert (P : forall i w, nth_error (wc ++ wa)%list i = Some w ->
     exists m, means (scope_of [t]) (i_expr (wsyn w)) m /\
       nth (wtarget gs (length gs + length wa) i w) (grouped_row (t_cols t) gs (wc ++ wa) g) None
       = item_value (fst g) (snd g) m).
  { intros i w Ei. rewrite Forall_forall in Hws. pose proof (Hws _ (nth_error_In _ _ Ei)) as Hok.
    eexists. split; [now apply (witem_means t gs)|].
    destruct w as [c|f a l]; cbn [wtarget item_value].
    - now apply witem_value_col.
    - rewrite map_length in HLen.
      assert (Hi : length gs <= i /\ i - length gs < length wa).
      { destruct (Nat.lt_ge_cases i (length wc)) as [Hlt|Hge].
        - exfalso. rewrite nth_error_app1 in Ei by assumption. apply nth_error_In in Ei.
          rewrite Forall_forall in Hwc. destruct (Hwc _ Ei) as [c Hc]. discriminate.
        - rewrite nth_error_app2 in Ei by assumption. split; [lia|].
          rewrite <- HLen. apply nth_error_Some. now rewrite Ei. }
      destruct Hi as [Hi1 Hi2].
      rewrite nth_error_app2, HLen in Ei by lia.
      rewrite Nat.min_l by lia.
      replace i with (length gs + (i - length gs)) by lia.
      apply witem_value_agg. now rewrite EW. }
  clear -P. revert P.
  assert (GG : forall (l : list witem) (i : nat) n row,
    (forall k w, nth_error l k = Some w ->
      exists m, means (scope_of [t]) (i_expr (wsyn w)) m /\
        nth (wtarget gs n (i + k) w) row None = item_value (fst g) (snd g) m) ->
    Forall2 (fun it v => exists m, means (scope_of [t]) (i_expr it) m /\
        v = item_value (fst g) (snd g) m)
      (map wsyn l) (map (fun x => nth x row None) (targets gs n i l))).
  { induction l as [|w l IH]; intros i n row P; cbn [map targets]; constructor.
    - destruct (P 0 w eq_refl) as (m & Hm & E). rewrite Nat.add_0_r in E.
      exists m. split; assumption.
    - apply IH. intros k w' Hk. destruct (P (S k) w' Hk) as (m & Hm & E).
      exists m. split; [assumption|]. rewrite <- E. do 2 f_equal. lia. }
  intros P. apply GG. intros k w Hk. apply (P k w Hk).
Qed.

(** An aggregate that stands where the list should have a grouping column (at a
    place smaller than their number) shows that grouping column's value. *)
Theorem c94_position_refuted t gs items i c it :
  legal_from [t] -> t_alias t = None -> NoDup gs -> incl gs (t_cols t) ->
  Forall (legal_item (t_cols t) gs) items -> no_clash gs items ->
  nth_error gs i = Some c -> nth_error items i = Some it -> is_aggregate it ->
  exists p k, plan_select (from_columns [t]) items (map Bare gs) None = Some p /\
    unqualified_at (scope_of [t]) c k /\
    forall rows groups, Forall2 (fun g out => nth_error out i = Some (nth k (snd g) None))
      groups (run p rows groups).
Proof.
  intros HL Ha HN HI HF HC Hg Hit Hagg. rewrite (from_single t Ha).
  destruct (legal_witems _ _ _ HF HC) as (ws & -> & Hws).
  assert (Hin : In c gs) by now apply nth_error_In in Hg.
  rewrite (plan_witems _ _ _ HN HI Hws) by (left; intros ->; contradiction).
  eexists. exists (idx (t_cols t) c). split; [reflexivity|].
  split; [apply bare_at; auto|]. intros rows groups.
  rewrite (run_witems _ _ _ rows groups HN HI Hws).
  rewrite nth_error_map in Hit. destruct (nth_error ws i) as [w|] eqn:Ew; [|discriminate].
  cbn in Hit. injection Hit as <-.
  destruct Hagg as (f & a & Hfa). destruct w as [c'|f' a' al]; cbn in Hfa; [discriminate|].
  assert (Hlt : i < length gs) by (apply nth_error_Some; now rewrite Hg).
  assert (ND : distinct (fns ws) <> []).
  { apply distinct_nonempty. intros E. apply (in_nil (a := fn_name f')).
    rewrite <- E. unfold fns. apply in_flat_map. exists (WAgg f' a' al).
    split; [now apply nth_error_In in Ew|now left]. }
  induction groups as [|g groups IH]; cbn [map]; constructor; [|exact IH].
  rewrite nth_error_map, targets_nth, Ew. cbn [option_map wtarget]. f_equal.
  rewrite Nat.min_l.
  2:{ cbn. destruct (distinct (fns ws)); [easy|]. cbn. lia. }
  cbn [Nat.add]. unfold grouped_row. rewrite app_nth1 by (now rewrite map_length).
  apply nth_of_nth_error. now rewrite nth_error_map, Hg.
Qed.

(** When a function is used twice, the last aggregate of the list shows the
    value of an earlier one. *)
Theorem c94_repeated_refuted t gs cs al :
  legal_from [t] -> t_alias t = None -> NoDup gs -> incl gs (t_cols t) ->
  Forall (legal_item (t_cols t) gs) (cs ++ al) -> no_clash gs (cs ++ al) ->
  Forall is_column cs -> length cs = length gs ->
  Forall is_aggregate al -> ~ NoDup (functions al) ->
  exists p m it a, plan_select (from_columns [t]) (cs ++ al) (map Bare gs) None = Some p /\
    S m < length al /\ nth_error al m = Some it /\ means (scope_of [t]) (i_expr it) (Aggregate a) /\
    forall rows groups, Forall2 (fun g out => nth_error out (length (cs ++ al) - 1) = Some (fst g a))
      groups (run p rows groups).
Proof.
  intros HL Ha HN HI HF HC H1 HLen H2 HND. rewrite (from_single t Ha).
  destruct (legal_witems _ _ _ HF HC) as (ws & Ews & Hws).
  destruct (canonical_split _ _ _ Ews H1 H2) as (wc & wa & -> & -> & -> & Hwc & Hwa).
  rewrite Ews.
  assert (EW : waggs (wc ++ wa) = wa) by now apply waggs_split.
  assert (Hwane : wa <> []).
  { intros ->. apply HND. constructor. }
  rewrite (plan_witems _ _ _ HN HI Hws) by (right; now rewrite EW).
  assert (EF : fns (wc ++ wa) = fns wa) by now apply fns_cols.
  assert (EL : length (fns wa) = length wa).
  { rewrite <- EF, fns_length, EW. reflexivity. }
  set (d := length (distinct (fns wa))).
  assert (Hd : 1 <= d).
  { unfold d. destruct (distinct (fns wa)) eqn:E; [|cbn; lia]. exfalso.
    revert E. apply distinct_nonempty. intros E. rewrite E in EL. cbn in EL.
    now destruct wa. }
  assert (Hd2 : d < length wa).
  { unfold d, distinct. destruct (push_new_prefix (fns wa) []) as (r & -> & L & I & N & C).
    cbn. cbn in N, C. specialize (N (NoDup_nil _)).
    destruct (Nat.eq_dec (length r) (length wa)) as [E|]; [|lia]. exfalso. apply HND.
    assert (ND : NoDup (fns wa)).
    { apply (NoDup_incl_NoDup N); [lia|assumption]. }
    rewrite fns_functions in ND. now apply NoDup_map_inv in ND. }
  destruct (nth_error wa (d - 1)) as [w|] eqn:Ew; [|apply nth_error_None in Ew; lia].
  eexists. exists (d - 1), (wsyn w), (spec_agg (t_cols t) w). split; [reflexivity|].
  rewrite map_length. split; [lia|]. split; [now rewrite nth_error_map, Ew|].
  assert (Hw : exists f a l, w = WAgg f a l).
  { rewrite Forall_forall in Hwa. apply Hwa. now apply nth_error_In in Ew. }
  split.
  { destruct Hw as (f & a & l & ->). apply (witem_means t gs (WAgg f a l)); auto.
    rewrite Forall_forall in Hws. apply Hws. apply in_app_iff. right.
    now apply nth_error_In in Ew. }
  intros rows groups. rewrite (run_witems _ _ _ rows groups HN HI Hws).
  rewrite <- Ews, app_length, !map_length. rewrite map_length in HLen.
  induction groups as [|g groups IH]; cbn [map]; constructor; [|exact IH].
  rewrite nth_error_map, targets_nth.
  destruct (nth_error (wc ++ wa)%list (length wc + length wa - 1)) as [wl|] eqn:El.
  2:{ apply nth_error_None in El. rewrite app_length in El. lia. }
  assert (Hwl : exists f a l, wl = WAgg f a l).
  { rewrite Forall_forall in Hwa. apply Hwa.
    rewrite nth_error_app2 in El by lia. now apply nth_error_In in El. }
  destruct Hwl as (f & a & l & ->). cbn [option_map wtarget Nat.add]. f_equal.
  rewrite EF. fold d. rewrite Nat.min_r by lia.
  replace (length gs + d - 1) with (length gs + (d - 1)) by lia.
  apply witem_value_agg. now rewrite EW.
Qed.

(** What [SELECT c AS a, COUNT( * ) ... GROUP BY c] shows as [a]: the right value
    only if [c] is the table's first column, the count if it is the second one,
    and no row at all if it is a later one.  The same happens to a formula
    [c + z]. *)
Lemma count_schema k c : c <> "COUNT" ->
  agg_schema [] [(k, c)] [(Count, None)] = [c; "COUNT"].
Proof.
  intros H. unfold agg_schema, push_new, in_names.
  cbn [map app fold_left lookup fst snd fn_name existsb].
  destruct (String.eqb_spec "COUNT" c) as [E|]; [now subst|reflexivity].
Qed.

Definition by_place {A} (k : nat) (first second later : A) : A :=
  match k with 0 => first | 1 => second | _ => later end.

Theorem c94_alias_refuted t c a k :
  legal_from [t] -> t_alias t = None -> nth_error (t_cols t) k = Some c ->
  dotless a -> a <> c -> a <> "COUNT" -> c <> "COUNT" ->
  starts_with "COUNT_" c = false -> starts_with "COUNT(" c = false ->
  exists p, plan_select (from_columns [t])
      [Item (SCol (Bare c)) (Some a); Item (SAgg Count None) None] [Bare c] None = Some p /\
    forall rows groups, run p rows groups =
      by_place k
        (map (fun g => [nth 0 (snd g) None; fst g (Agg Count None)]) groups)
        (map (fun g => [fst g (Agg Count None); fst g (Agg Count None)]) groups)
        [].
Proof.
  intros HL Ha Hk Hda Hac HaC HcC Hp1 Hp2. rewrite (from_single t Ha).
  destruct HL as [_ HL]. destruct (HL (Source (t_table t) (t_cols t))) as (_ & HND & Hdl).
  { unfold scope_of. cbn. rewrite Ha. now left. }
  cbn in HND, Hdl. pose proof (nth_error_In _ _ Hk) as Hin.
  assert (Ek : idx (t_cols t) c = k).
  { apply (proj1 (NoDup_nth_error _) HND); [now apply idx_lt|]. now rewrite idx_nth, Hk. }
  pose proof (parse_col_bare _ _ Hin) as Hp. rewrite Ek in Hp.
  unfold plan_select. cbn [parse_items parse_expr i_expr fn_eqb fn_name String.eqb Ascii.eqb Bool.eqb].
  rewrite Hp. cbn [parse_groups]. rewrite Hp.
  cbn [top_aggs]. unfold validate_group_by. cbn [forallb group_names flat_map snd app].
  assert (Ein : forall l, in_names c (c :: l) = true) by (intros l; apply in_names_in; now left).
  rewrite Ein. cbn [orb andb].
  unfold alias_mapping. cbn [fold_left i_expr i_as].
  assert (Es : agg_schema [] [(k, c)] [(Count, None)] = [c; "COUNT"]) by (apply count_schema; exact HcC).
  rewrite Es. eexists. split; [reflexivity|].
  cbn [project_items project_item].
  assert (E1 : col_item_index [c; "COUNT"] {| i_expr := SCol (Bare c); i_as := Some a |} = None).
  { unfold col_item_index. cbn [i_as i_expr]. unfold get_qualified_column_index, get_column_index.
    cbn [position].
    destruct (String.eqb_spec a c); [contradiction|].
    destruct (String.eqb_spec a "COUNT"); [contradiction|]. cbn [option_map].
    pose proof Hda as Hda2. rewrite <- contains_dot_spec in Hda2. rewrite Hda2.
    rewrite (split_dotless c) by (apply Hdl; exact Hin). reflexivity. }
  rewrite E1.
  assert (E2 : agg_item_index [c; "COUNT"] 1 Count None = 1).
  { unfold agg_item_index. cbn [agg_column_name fn_name position].
    change ("COUNT" ++ "(") with "COUNT(". change ("COUNT" ++ "_") with "COUNT_".
    rewrite Hp1, Hp2. destruct (String.eqb_spec c "COUNT_star") as [->|]; [discriminate|].
    reflexivity. }
  rewrite E2. intros rows groups. cbn [run agg_row eval_all eval_p].
  destruct k as [|[|k]]; cbn [by_place].
  - induction groups as [|g groups IH]; cbn; [reflexivity|]. now rewrite <- IH.
  - induction groups as [|g groups IH]; cbn; [reflexivity|]. now rewrite <- IH.
  - induction groups as [|g groups IH]; cbn; [reflexivity|].
    destruct k; exact IH.
Qed.

(** [SELECT c, COUNT( * ) FROM t] without GROUP BY is not refused: [c] shows the
    count, or the answer is empty. *)
Theorem c94_bare_column_refuted t c k :
  legal_from [t] -> t_alias t = None -> nth_error (t_cols t) k = Some c -> c <> "COUNT" ->
  exists p, plan_select (from_columns [t])
      [Item (SCol (Bare c)) None; Item (SAgg Count None) None] [] None = Some p /\
    forall rows g, run p rows [g] =
      match k with
      | 0 => [[fst g (Agg Count None); fst g (Agg Count None)]]
      | _ => []
      end.
Proof.
  intros HL Ha Hk HcC. rewrite (from_single t Ha).
  destruct HL as [_ HL]. destruct (HL (Source (t_table t) (t_cols t))) as (_ & HND & Hdl).
  { unfold scope_of. cbn. rewrite Ha. now left. }
  cbn in HND, Hdl. pose proof (nth_error_In _ _ Hk) as Hin.
  assert (Ek : idx (t_cols t) c = k).
  { apply (proj1 (NoDup_nth_error _) HND); [now apply idx_lt|]. now rewrite idx_nth, Hk. }
  pose proof (parse_col_bare _ _ Hin) as Hp. rewrite Ek in Hp.
  unfold plan_select. cbn [parse_items parse_expr i_expr fn_eqb fn_name String.eqb Ascii.eqb Bool.eqb].
  rewrite Hp. cbn [parse_groups top_aggs].
  assert (Es : agg_schema (alias_mapping [{| i_expr := SCol (Bare c); i_as := None |};
      {| i_expr := SAgg Count None; i_as := None |}] []) [] [(Count, None)] = ["COUNT"]) by reflexivity.
  rewrite Es. eexists. split; [reflexivity|].
  cbn [project_items project_item].
  assert (E1 : col_item_index ["COUNT"] {| i_expr := SCol (Bare c); i_as := None |} = None).
  { unfold col_item_index. cbn [i_as i_expr]. unfold get_qualified_column_index, get_column_index.
    cbn [position].
    destruct (String.eqb_spec c "COUNT"); [contradiction|]. cbn [option_map].
    pose proof (Hdl c Hin) as Hd2. rewrite <- contains_dot_spec in Hd2. now rewrite Hd2. }
  rewrite E1.
  assert (E2 : agg_item_index ["COUNT"] 1 Count None = 0) by reflexivity.
  rewrite E2. intros rows g. cbn [run agg_row eval_all eval_p].
  destruct k as [|k]; [reflexivity|]. cbn. now destruct k.
Qed.

(** An aggregate inside a formula is not recognised: [SELECT SUM(x) + z] gives
    a row for every row of the table instead of one row. *)
Theorem c94_nested_refuted t f c z :
  legal_from [t] -> t_alias t = None -> In c (t_cols t) ->
  exists p, plan_select (from_columns [t]) [Item (SPlus (SAgg f (Some (Bare c))) z) None] [] None = Some p /\
    forall rows groups, Forall (fun r => length r = length (t_cols t)) rows ->
      length (run p rows groups) = length rows.
Proof.
  intros HL Ha Hin. rewrite (from_single t Ha).
  unfold plan_select. cbn [parse_items parse_expr i_expr]. rewrite (parse_col_bare _ _ Hin).
  cbn [parse_groups top_aggs]. eexists. split; [reflexivity|].
  intros rows groups HF. cbn [run].
  induction HF as [|r rows Hr _ IH]; cbn [flat_map length]; [reflexivity|].
  rewrite app_length, IH.
  assert (E : exists v, nth_error r (idx (t_cols t) c) = Some v).
  { destruct (nth_error r (idx (t_cols t) c)) as [v|] eqn:E; [now exists v|].
    apply nth_error_None in E. pose proof (idx_lt _ _ Hin). lia. }
  destruct E as [v E]. cbn [eval_all eval_p].
  destruct f; rewrite E; destruct v; reflexivity.
Qed.

(** Grouping by columns of the same name of two tables: the second one shows
    the first one's value and the count shows the second one's. *)
Theorem c94_joined_refuted :
  exists from items gs p, legal_from from /\
    plan_select (from_columns from) items gs None = Some p /\
    forall rows g, length (snd g) = 4 ->
      exists out, run p rows [g] = [out] /\
        items = [Item (SCol (Qual "u" "name")) None; Item (SCol (Qual "o" "name")) None;
                 Item (SAgg Count None) None] /\
        out = [nth 1 (snd g) None; nth 1 (snd g) None; nth 3 (snd g) None] /\
        qualified_at (scope_of from) "u" "name" 1 /\ qualified_at (scope_of from) "o" "name" 3.
Proof.
  exists [TableRef "users" (Some "u") ["id"; "name"]; TableRef "orders" (Some "o") ["id"; "name"]],
    [Item (SCol (Qual "u" "name")) None; Item (SCol (Qual "o" "name")) None;
     Item (SAgg Count None) None], [Qual "u" "name"; Qual "o" "name"].
  eexists. split.
  { split.
    - cbn. repeat (constructor; [cbn; intuition discriminate|]). constructor.
    - intros s [<-|[<-|[]]]; cbn; (split; [now apply dotless_bool|]);
        (split; [repeat (constructor; [cbn; intuition discriminate|]); constructor|]);
        intros c [<-|[<-|[]]]; now apply dotless_bool. }
  split; [reflexivity|]. intros rows g Hg. eexists. split; [reflexivity|].
  repeat split.
Qed.

(** A grouping column whose name begins like an aggregate captures it. *)
Theorem c94_clash_refuted :
  exists p, plan_select ["SUM_total"; "x"]
      [Item (SCol (Bare "SUM_total")) None; Item (SAgg Sum (Some (Bare "x"))) None]
      [Bare "SUM_total"] None = Some p /\
    forall rows g, run p rows [g] = [[nth 0 (snd g) None; nth 0 (snd g) None]].
Proof. eexists. split; [reflexivity|]. intros rows g. reflexivity. Qed.

(** ** Concrete cases *)
Definition emp : table_ref := TableRef "emp" None ["id"; "dept"; "pay"].
Lemma emp_legal : legal_from [emp].
Proof.
  split.
  - cbn. constructor; [easy|constructor].
  - intros s [<-|[]]; cbn. split; [now apply dotless_bool|].
    split; [repeat (constructor; [cbn; intuition discriminate|]); constructor|].
    intros c [<-|[<-|[<-|[]]]]; now apply dotless_bool.
Qed.
Definition counts (n s : Z) : agg -> value :=
  fun a => match a_fn a with Count => Some n | Sum => Some s | _ => None end.

Example c94_canonical_ex :
  exists p, plan_select (from_columns [emp])
      [Item (SCol (Bare "dept")) None; Item (SAgg Count None) (Some "n");
       Item (SAgg Sum (Some (Bare "pay"))) None] [Bare "dept"] None = Some p /\
    run p [] [(counts 2 300, [Some 1; Some 7; Some 100]%Z); (counts 1 50, [Some 3; Some 8; Some 50]%Z)]
    = [[Some 7; Some 2; Some 300]; [Some 8; Some 1; Some 50]]%Z.
Proof. eexists. split; reflexivity. Qed.
Example c94_hyps_ex :
  let items := [Item (SCol (Bare "dept")) None; Item (SAgg Count None) (Some "n");
       Item (SAgg Sum (Some (Bare "pay"))) None] in
  Forall (legal_item (t_cols emp) ["dept"]) items /\ no_clash ["dept"] items /\
  NoDup (functions (skipn 1 items)).
Proof.
  cbn. split; [repeat (apply Forall_cons; [cbn; auto|]); apply Forall_nil|]. split.
  - intros f g Hf [<-|[]]. cbn in Hf. destruct Hf as [<-|[<-|[]]]; repeat split; discriminate.
  - repeat (constructor; [cbn; intuition discriminate|]). constructor.
Qed.
Example c94_position_ex :
  exists p, plan_select (from_columns [emp])
      [Item (SAgg Count None) None; Item (SCol (Bare "dept")) None] [Bare "dept"] None = Some p /\
    run p [] [(counts 2 300, [Some 1; Some 7; Some 100]%Z)] = [[Some 7; Some 7]]%Z.
Proof. eexists. split; reflexivity. Qed.
Example c94_repeated_ex :
  exists p, plan_select (from_columns [emp])
      [Item (SAgg Sum (Some (Bare "pay"))) None; Item (SAgg Sum (Some (Bare "id"))) None] [] None = Some p /\
    run p [] [((fun a => match a_arg a with Some 0 => Some 6%Z | _ => Some 300%Z end), [])]
    = [[Some 300; Some 300]]%Z.
Proof. eexists. split; reflexivity. Qed.
Example c94_alias_ex :
  exists p, plan_select (from_columns [emp])
      [Item (SCol (Bare "dept")) (Some "d"); Item (SAgg Count None) None] [Bare "dept"] None = Some p /\
    run p [] [(counts 2 300, [Some 1; Some 7; Some 100]%Z)] = [[Some 2; Some 2]]%Z.
Proof. eexists. split; reflexivity. Qed.
Example c94_bare_column_ex :
  exists p, plan_select (from_columns [emp])
      [Item (SCol (Bare "dept")) None; Item (SAgg Count None) None] [] None = Some p /\
    run p [] [(counts 2 300, [])] = [].
Proof. eexists. split; reflexivity. Qed.
Example c94_nested_ex :
  exists p, plan_select (from_columns [emp])
      [Item (SPlus (SAgg Sum (Some (Bare "pay"))) 1) None] [] None = Some p /\
    run p [[Some 1; Some 7; Some 100]; [Some 2; Some 7; Some 200]]%Z [] = [[Some 101]; [Some 201]]%Z.
Proof. eexists. split; reflexivity. Qed.

Print Assumptions c94_columns_partial.
Print Assumptions c94_canonical_partial.
Print Assumptions c94_position_refuted.
Print Assumptions c94_repeated_refuted.
Print Assumptions c94_alias_refuted.
Print Assumptions c94_bare_column_refuted.
Print Assumptions c94_nested_refuted.
Print Assumptions c94_joined_refuted.
Print Assumptions c94_clash_refuted.
