(** C95: HAVING keeps the groups that meet it and ORDER BY sorts the answer by
    its keys. *)
From Coq Require Import Strings.String Strings.Ascii ZArith List Arith Bool Lia.
From Verif Require Import NameSpec NameModel NameProofs NameProps SelSpec SelModel SelProofs SelProps.
Import ListNotations.
Open Scope string_scope.

Lemma bare_unique t c i : legal_from [t] -> t_alias t = None -> In c (t_cols t) ->
  unqualified_at (scope_of [t]) c i -> i = idx (t_cols t) c.
Proof.
  intros [_ HL] Ha Hin (q & Hq).
  destruct (HL (Source (t_table t) (t_cols t))) as (_ & HND & _).
  { unfold scope_of. cbn. rewrite Ha. now left. }
  cbn in HND. unfold qualified_at, scope_of, slots in Hq. cbn in Hq.
  rewrite app_nil_r, Ha, nth_error_map in Hq.
  destruct (nth_error (t_cols t) i) as [c'|] eqn:E; [|discriminate].
  cbn in Hq. injection Hq as _ ->.
  apply (proj1 (NoDup_nth_error _) HND); [now apply nth_error_Some; rewrite E|].
  now rewrite idx_nth, E.
Qed.

Lemma agg_means_unique t gs f a it m : legal_from [t] -> t_alias t = None ->
  legal_item (t_cols t) gs it -> i_expr it = SAgg f a ->
  means (scope_of [t]) (SAgg f a) m ->
  exists w, a = option_map Bare w /\ m = Aggregate (Agg f (option_map (idx (t_cols t)) w)).
Proof.
  intros HL Ha Hit E Hm. unfold legal_item in Hit. rewrite E in Hit.
  destruct a as [[c|q c]|]; try contradiction.
  - exists (Some c). split; [reflexivity|]. inversion Hm; subst. cbn in *.
    now rewrite (bare_unique t c i).
  - exists None. split; [reflexivity|]. now inversion Hm; subst.
Qed.

Lemma having_found schema total f a : total <= length schema ->
  forall rest k, In (f, a) rest -> NoDup (map (fun x => fn_name (fst x)) rest) ->
  k + length rest <= total ->
  exists j, nth_error rest j = Some (f, a) /\
    having_agg_index schema total k f a rest = Some (length schema - total + (k + j)).
Proof.
  intros HT. induction rest as [|[g b] rest IH]; intros k Hin HN HK; [contradiction|].
  cbn [having_agg_index]. cbn [length] in HK. inversion HN as [|? ? Hnot HN']; subst.
  destruct Hin as [E|Hin].
  - injection E as -> ->. exists 0. split; [reflexivity|].
    assert (S1 : same_agg f a f a = true).
    { unfold same_agg, fn_eqb. rewrite String.eqb_refl. cbn.
      destruct a as [[i n]|]; [apply String.eqb_refl|reflexivity]. }
    rewrite S1, (proj2 (Nat.ltb_ge _ _) HT).
    destruct (Nat.ltb_spec (length schema - total + k) (length schema)); [|lia].
    now rewrite Nat.add_0_r.
  - assert (S1 : same_agg f a g b = false).
    { unfold same_agg, fn_eqb. destruct (String.eqb_spec (fn_name f) (fn_name g)) as [E|]; [|reflexivity].
      exfalso. apply Hnot. cbn [fst]. rewrite <- E.
      apply (in_map (fun x : aggfn * option (nat * string) => fn_name (fst x)) rest (f, a) Hin). }
    rewrite S1. destruct (IH (S k) Hin HN') as (j & Hj & E); [lia|].
    exists (S j). split; [exact Hj|]. rewrite E. f_equal. lia.
Qed.

Lemma wagg_in cols ws f a al : In (WAgg f a al) ws ->
  In (f, option_map (fun c => (idx cols c, c)) a) (flat_map (wagg_of cols) ws).
Proof. intros H. apply in_flat_map. exists (WAgg f a al). split; [assumption|now left]. Qed.

Lemma wagg_row cols gs ws g j f a :
  nth_error (flat_map (wagg_of cols) ws) j = Some (f, option_map (fun c => (idx cols c, c)) a) ->
  nth_error (agg_row (fst g) (snd g) (map (fun x => (idx cols x, x)) gs) (flat_map (wagg_of cols) ws))
    (length gs + j) = Some (fst g (Agg f (option_map (idx cols) a))).
Proof.
  intros H. unfold agg_row. rewrite nth_error_app2; rewrite !map_length; [|lia].
  replace (length gs + j - length gs) with j by lia.
  rewrite nth_error_map, H. cbn. now destruct a.
Qed.

Lemma aggs_length cols ws : length (flat_map (wagg_of cols) ws) = length (fns ws).
Proof. now rewrite <- (fns_aggs cols), map_length. Qed.

(** ** Which groups are kept *)
Section Having.
Context (t : table_ref) (gs : list string) (ws : list witem).
Context (HL : legal_from [t]) (Ha : t_alias t = None) (HN : NoDup gs) (HI : incl gs (t_cols t)).
Context (Hws : Forall (witem_ok (t_cols t) gs) ws).
Context (HF : Forall (legal_item (t_cols t) gs) (map wsyn ws)).
Context (HND : NoDup (fns ws)).

Lemma distinct_all : distinct (fns ws) = fns ws.
Proof. unfold distinct. now rewrite push_new_app. Qed.

Lemma having_atom f a it : In it (map wsyn ws) -> i_expr it = SAgg f a ->
  exists w k, a = option_map Bare w /\
    parse_expr (t_cols t) (SAgg f a) =
      Some (PAgg f (option_map (fun c => (idx (t_cols t) c, c)) w)) /\
    replace_expr (gs ++ distinct (fns ws)) (flat_map (wagg_of (t_cols t)) ws)
      (PAgg f (option_map (fun c => (idx (t_cols t) c, c)) w)) =
      Some (PCol (length gs + k) (nth (length gs + k) (gs ++ distinct (fns ws)) "")) /\
    forall g, nth_error (agg_row (fst g) (snd g) (map (fun x => (idx (t_cols t) x, x)) gs)
        (flat_map (wagg_of (t_cols t)) ws)) (length gs + k) =
      Some (fst g (Agg f (option_map (idx (t_cols t)) w))).
Proof.
  intros Hin E. apply in_map_iff in Hin as (w & <- & Hw).
  destruct w as [c|f' a' al]; cbn in E; [discriminate|]. injection E as -> <-.
  destruct (having_found (gs ++ distinct (fns ws)) (length (flat_map (wagg_of (t_cols t)) ws))
    f (option_map (fun c => (idx (t_cols t) c, c)) a')) with (rest := flat_map (wagg_of (t_cols t)) ws) (k := 0)
    as (j & Hj & Ej).
  - rewrite aggs_length, distinct_all, app_length. lia.
  - now apply wagg_in with (al := al).
  - now rewrite fns_aggs.
  - cbn. lia.
  - exists a', j. split; [reflexivity|].
    rewrite Forall_forall in Hws. pose proof (Hws _ Hw) as Hok.
    split; [apply (parse_witem (t_cols t) gs (WAgg f a' al) HI Hok)|].
    split.
    + cbn [replace_expr]. rewrite Ej, aggs_length, distinct_all, app_length. cbn [option_map].
      replace (length gs + length (fns ws) - length (fns ws) + (0 + j)) with (length gs + j) by lia.
      reflexivity.
    + intros g. now apply wagg_row.
Qed.

Lemma having_parsed h : over_items (map wsyn ws) h ->
  exists ph rh, parse_having (t_cols t) h = Some ph /\
    replace_having (gs ++ distinct (fns ws)) (flat_map (wagg_of (t_cols t)) ws) ph = Some rh /\
    forall g, exists v,
      eval_h rh (agg_row (fst g) (snd g) (map (fun x => (idx (t_cols t) x, x)) gs)
        (flat_map (wagg_of (t_cols t)) ws)) = Some v /\
      having_value (scope_of [t]) (fst g) (snd g) h v /\
      forall v', having_value (scope_of [t]) (fst g) (snd g) h v' -> v' = v.
Proof.
  induction 1 as [op f a z it Hin E|a b _ (pa & ra & A1 & A2 & A3) _ (pb & rb & B1 & B2 & B3)
                 |a b _ (pa & ra & A1 & A2 & A3) _ (pb & rb & B1 & B2 & B3)].
  - destruct (having_atom f a it Hin E) as (w & k & Ew & P & R & V).
    cbn [parse_having]. rewrite P. cbn [option_map]. eexists _, _. split; [reflexivity|].
    cbn [replace_having]. rewrite R. cbn [option_map]. split; [reflexivity|].
    intros g. cbn [eval_h eval_p]. rewrite V. cbn [option_map]. eexists. split; [reflexivity|].
    assert (Hit : legal_item (t_cols t) gs it) by (rewrite Forall_forall in HF; now apply HF).
    assert (M : forall m, means (scope_of [t]) (SAgg f a) m ->
                m = Aggregate (Agg f (option_map (idx (t_cols t)) w))).
    { intros m Hm. destruct (agg_means_unique t gs f a it m HL Ha Hit E Hm) as (w' & E1 & E2).
      rewrite E2. do 2 f_equal. rewrite E1 in Ew. clear -Ew.
      destruct w, w'; cbn in Ew; congruence. }
    split.
    + assert (M2 : means (scope_of [t]) (SAgg f a) (Aggregate (Agg f (option_map (idx (t_cols t)) w)))).
      { subst a. unfold legal_item in Hit. rewrite E in Hit.
        destruct w as [c|]; cbn in *; constructor. cbn. now apply bare_at. }
      apply (hv_cmp (scope_of [t]) (fst g) (snd g) op (SAgg f a) _ z M2).
    + intros v' Hv. inversion Hv as [? ? m ? Hm| | |]; subst. now rewrite (M m Hm).
  - cbn [parse_having]. rewrite A1, B1. eexists _, _. split; [reflexivity|].
    cbn [replace_having]. rewrite A2, B2. split; [reflexivity|].
    intros g. destruct (A3 g) as (x & X1 & X2 & X3), (B3 g) as (y & Y1 & Y2 & Y3).
    cbn [eval_h]. rewrite X1, Y1. eexists. split; [reflexivity|]. split; [now constructor|].
    intros v' Hv. inversion Hv; subst. f_equal; auto.
  - cbn [parse_having]. rewrite A1, B1. eexists _, _. split; [reflexivity|].
    cbn [replace_having]. rewrite A2, B2. split; [reflexivity|].
    intros g. destruct (A3 g) as (x & X1 & X2 & X3), (B3 g) as (y & Y1 & Y2 & Y3).
    cbn [eval_h]. rewrite X1, Y1. eexists. split; [reflexivity|]. split; [now constructor|].
    intros v' Hv. inversion Hv; subst. f_equal; auto.
Qed.

Lemma plan_having h ph rh : (gs <> [] \/ waggs ws <> []) ->
  parse_having (t_cols t) h = Some ph ->
  replace_having (gs ++ distinct (fns ws)) (flat_map (wagg_of (t_cols t)) ws) ph = Some rh ->
  plan_select (t_cols t) (map wsyn ws) (map Bare gs) (Some h) =
  Some (AggPlan (map (fun x => (idx (t_cols t) x, x)) gs) (flat_map (wagg_of (t_cols t)) ws)
    (Some rh) (map (wparsed (t_cols t)) ws)).
Proof.
  intros Hne HP HR. unfold plan_select.
  rewrite (parse_witems _ _ _ HI Hws), (parse_groups_bare _ _ HI).
  rewrite top_aggs_witems, alias_mapping_witems, (agg_schema_witems _ _ _ HN Hws).
  rewrite HP, HR.
  destruct gs as [|g0 gs0].
  - cbn [map]. destruct (flat_map (wagg_of (t_cols t)) ws) as [|a0 l] eqn:E; [|reflexivity].
    exfalso. destruct Hne as [F|F]; [easy|]. apply F.
    assert (L : length (waggs ws) = 0).
    { rewrite <- fns_length, <- (fns_aggs (t_cols t)), E. reflexivity. }
    now destruct (waggs ws).
  - rewrite (validate_witems _ _ _ Hws). cbn [map].
    destruct (flat_map (wagg_of (t_cols t)) ws); reflexivity.
Qed.
End Having.

(** A condition made of comparisons, AND and OR over aggregates of the SELECT
    list, whose functions are all different, keeps the groups for which it is
    true and no others: the answer is made from these groups alone. *)
Theorem c95_having_filter_partial t gs items h :
  legal_from [t] -> t_alias t = None -> NoDup gs -> incl gs (t_cols t) ->
  Forall (legal_item (t_cols t) gs) items -> no_clash gs items -> NoDup (functions items) ->
  over_items items h ->
  exists p f, plan_select (from_columns [t]) items (map Bare gs) (Some h) = Some p /\
    forall rows groups keep,
      (forall g, In g groups ->
        (keep g = true <-> having_value (scope_of [t]) (fst g) (snd g) h (Some true))) ->
      run p rows groups = flat_map f (filter keep groups).
Proof.
  intros HL Ha HN HI HF HC HND HO. rewrite (from_single t Ha).
  destruct (legal_witems _ _ _ HF HC) as (ws & -> & Hws).
  assert (ND : NoDup (fns ws)).
  { rewrite fns_functions. apply FinFun.Injective_map_NoDup; [|assumption].
    intros f g. apply sql_name_inj. }
  assert (Hne : waggs ws <> []).
  { intros E. assert (F : exists it f a, In it (map wsyn ws) /\ i_expr it = SAgg f a).
    { clear -HO. induction HO; eauto. }
    destruct F as (it & f & a & Hin & Ef). apply in_map_iff in Hin as (w & <- & Hw).
    destruct w as [c|f' a' al]; cbn in Ef; [discriminate|].
    apply (in_nil (a := WAgg f' a' al)). rewrite <- E. apply filter_In. now split. }
  destruct (having_parsed t gs ws HL Ha HI Hws HF ND h HO) as (ph & rh & HP & HR & HV).
  rewrite (plan_having t gs ws HN HI Hws HF h ph rh (or_intror Hne) HP HR).
  eexists. exists (fun g => opt_list (eval_all (map (wparsed (t_cols t)) ws)
    (agg_row (fst g) (snd g) (map (fun x => (idx (t_cols t) x, x)) gs) (flat_map (wagg_of (t_cols t)) ws)))).
  split; [reflexivity|]. intros rows groups keep HK. cbn [run]. f_equal.
  apply filter_ext_in. intros g Hg.
  destruct (HV g) as (v & V1 & V2 & V3). unfold passes. rewrite V1.
  specialize (HK g Hg). destruct (keep g).
  - now rewrite <- (V3 (Some true) (proj1 HK eq_refl)).
  - destruct v as [[]|]; try reflexivity. exfalso. now apply proj2 in HK; specialize (HK V2).
Qed.

(** ** What the kept groups show *)
Lemma map_const_flat {A B} (keep : A -> bool) (out : B) (f : A -> list B) l :
  (forall x, f x = [out]) -> flat_map f (filter keep l) = map (fun _ => out) (filter keep l).
Proof.
  intros H. induction (filter keep l) as [|x m IH]; cbn; [reflexivity|]. now rewrite H, IH.
Qed.

Lemma single_col t c k : legal_from [t] -> t_alias t = None -> nth_error (t_cols t) k = Some c ->
  dotless c /\ parse_col (t_cols t) (Bare c) = Some (k, c).
Proof.
  intros [_ HL] Ha Hk. destruct (HL (Source (t_table t) (t_cols t))) as (_ & HND & Hdl).
  { unfold scope_of. cbn. rewrite Ha. now left. }
  cbn in HND, Hdl. pose proof (nth_error_In _ _ Hk) as Hin.
  assert (Ek : idx (t_cols t) c = k).
  { apply (proj1 (NoDup_nth_error _) HND); [now apply idx_lt|]. now rewrite idx_nth, Hk. }
  split; [now apply Hdl|]. rewrite <- Ek. now apply parse_col_bare.
Qed.

Lemma cmp_pass v z : match cmp3 Gt v z with Some true => true | _ => false end =
  match v with Some n => Z.gtb n z | None => false end.
Proof. destruct v as [n|]; cbn; [|reflexivity]. destruct (Z.gtb n z); reflexivity. Qed.

Lemma or0_out (v : value) :
  opt_list match match Some v with Some None => Some (Some 0%Z) | o => o end with
           | Some w => Some [w]
           | None => None
           end = [[match v with None => Some 0%Z | w => w end]].
Proof. destruct v; reflexivity. Qed.
Lemma count_out (v : value) :
  length (opt_list match match match Some v with Some None => Some (Some 0%Z)
                                   | Some (Some _) => Some (Some 1%Z) | None => None end with
           | Some w => Some [w]
           | None => None
           end with Some ws => Some (Some 1%Z :: ws) | None => None end) = 1.
Proof. destruct v; reflexivity. Qed.

(** With HAVING, COUNT( * ) shows 1 for every group that is kept. *)
Theorem c95_having_count_refuted t c k z :
  legal_from [t] -> t_alias t = None -> nth_error (t_cols t) k = Some c -> c <> "COUNT" ->
  exists p, plan_select (from_columns [t]) [Item (SAgg Count None) None] [Bare c]
      (Some (HCmp Gt (SAgg Count None) z)) = Some p /\
    forall rows groups, run p rows groups =
      map (fun _ => [Some 1%Z])
        (filter (fun g => match fst g (Agg Count None) with Some n => Z.gtb n z | None => false end) groups).
Proof.
  intros HL Ha Hk HcC. rewrite (from_single t Ha).
  destruct (single_col t c k HL Ha Hk) as [Hd Hp].
  unfold plan_select.
  cbn [parse_items parse_expr i_expr fn_eqb fn_name String.eqb Ascii.eqb Bool.eqb parse_groups].
  rewrite Hp. cbn [top_aggs validate_group_by forallb parse_having parse_expr option_map].
  change (fn_eqb Count Count) with true. cbn [option_map].
  change (alias_mapping _ _) with (@nil (string * string)).
  rewrite (count_schema k c HcC).
  change (replace_having _ _ _) with (Some (PHCmp Gt (PCol 1 "COUNT") z)).
  eexists. split; [reflexivity|]. intros rows groups. cbn [run].
  rewrite (filter_ext _ (fun g => match fst g (Agg Count None) with Some n => Z.gtb n z | None => false end)).
  - apply map_const_flat. reflexivity.
  - intros g. apply cmp_pass.
Qed.

(** SUM(x) shows what stands in the group's row at x's place in the table: the
    grouping column (0 for NULL) if x is the table's first column, the sum if
    it is the second one (0 for NULL), and the group is left out if it is a
    later one. *)
Theorem c95_having_sum_refuted t c x k j z :
  legal_from [t] -> t_alias t = None -> nth_error (t_cols t) k = Some c ->
  nth_error (t_cols t) j = Some x -> c <> "SUM" ->
  let or0 := fun v : value => match v with None => Some 0%Z | w => w end in
  let sum := fun g : group => fst g (Agg Sum (Some j)) in
  exists p, plan_select (from_columns [t]) [Item (SAgg Sum (Some (Bare x))) None] [Bare c]
      (Some (HCmp Gt (SAgg Sum (Some (Bare x))) z)) = Some p /\
    forall rows groups, run p rows groups =
      flat_map (fun g => by_place j [[or0 (nth k (snd g) None)]] [[or0 (sum g)]] [])
        (filter (fun g => match sum g with Some n => Z.gtb n z | None => false end) groups).
Proof.
  intros HL Ha Hk Hj HcC or0 sum. rewrite (from_single t Ha).
  destruct (single_col t c k HL Ha Hk) as [Hd Hp].
  destruct (single_col t x j HL Ha Hj) as [Hdx Hpx].
  unfold plan_select.
  cbn [parse_items parse_expr i_expr parse_groups]. rewrite Hp, Hpx.
  cbn [top_aggs validate_group_by forallb parse_having parse_expr option_map].
  rewrite Hpx. cbn [option_map].
  change (alias_mapping _ _) with (@nil (string * string)).
  assert (Es : agg_schema [] [(k, c)] [(Sum, Some (j, x))] = [c; "SUM"]).
  { unfold agg_schema, push_new, in_names.
    cbn [map app fold_left lookup fst snd fn_name existsb].
    destruct (String.eqb_spec "SUM" c) as [E|]; [now subst|reflexivity]. }
  rewrite Es. cbn [replace_having replace_expr having_agg_index option_map].
  assert (S1 : same_agg Sum (Some (j, x)) Sum (Some (j, x)) = true).
  { unfold same_agg. rewrite String.eqb_refl. reflexivity. }
  rewrite S1. cbn [length Nat.ltb Nat.leb Nat.sub Nat.add option_map].
  eexists. split; [reflexivity|]. intros rows groups. cbn [run].
  rewrite (filter_ext _ (fun g => match sum g with Some n => Z.gtb n z | None => false end)).
  - apply flat_map_ext. intros g. unfold agg_row. cbn [map fst snd app eval_all eval_p option_map].
    destruct j as [|[|j]]; cbn [nth_error by_place].
    + apply (or0_out (nth k (snd g) None)).
    + apply (or0_out (sum g)).
    + destruct j; reflexivity.
  - intros g. apply cmp_pass.
Qed.

(** An aggregate that is not in the SELECT list makes the query fail. *)
Theorem c95_having_unlisted_refuted t gs items op f a z :
  legal_from [t] -> t_alias t = None -> NoDup gs -> incl gs (t_cols t) -> gs <> [] ->
  Forall (legal_item (t_cols t) gs) items -> no_clash gs items ->
  ~ In f (functions items) ->
  plan_select (from_columns [t]) items (map Bare gs) (Some (HCmp op (SAgg f a) z)) = None.
Proof.
  intros HL Ha HN HI Hne HF HC Hf. rewrite (from_single t Ha).
  destruct (legal_witems _ _ _ HF HC) as (ws & -> & Hws).
  unfold plan_select.
  rewrite (parse_witems _ _ _ HI Hws), (parse_groups_bare _ _ HI).
  rewrite top_aggs_witems, (validate_witems _ _ _ Hws).
  assert (G : forall schema total k a', having_agg_index schema total k f a' (flat_map (wagg_of (t_cols t)) ws) = None).
  { intros schema total. clear -Hf. induction ws as [|w ws IH]; intros k a'; [reflexivity|].
    assert (Hf' : ~ In f (functions (map wsyn ws))).
    { intros F. apply Hf. unfold functions. cbn [map flat_map]. apply in_app_iff. now right. }
    destruct w as [c|g b al]; cbn [flat_map wagg_of app]; [now apply IH|].
    cbn [having_agg_index]. assert (S1 : same_agg f a' g (option_map (fun c => (idx (t_cols t) c, c)) b) = false).
    { unfold same_agg, fn_eqb. rewrite <- (sql_fn_name f), <- (sql_fn_name g).
      destruct (String.eqb_spec (sql_name f) (sql_name g)) as [E|]; [|reflexivity].
      apply sql_name_inj in E. subst g. exfalso. apply Hf. unfold functions. cbn. now left. }
    rewrite S1. now apply IH. }
  assert (R : match parse_having (t_cols t) (HCmp op (SAgg f a) z) with
    | Some ph => replace_having (agg_schema (alias_mapping (map wsyn ws)
        (map (fun g => (idx (t_cols t) g, g)) gs)) (map (fun g => (idx (t_cols t) g, g)) gs)
        (flat_map (wagg_of (t_cols t)) ws)) (flat_map (wagg_of (t_cols t)) ws) ph
    | None => None end = None).
  { cbn [parse_having parse_expr].
    destruct a as [r|].
    - destruct (parse_col (t_cols t) r); [|reflexivity].
      cbn [option_map replace_having replace_expr]. now rewrite G.
    - destruct (fn_eqb f Count); [|reflexivity].
      cbn [option_map replace_having replace_expr]. now rewrite G. }
  destruct gs as [|g0 gs0]; [easy|]. cbn [map] in *.
  destruct (parse_having (t_cols t) (HCmp op (SAgg f a) z)); [|now destruct (flat_map (wagg_of (t_cols t)) ws)].
  rewrite R. now destruct (flat_map (wagg_of (t_cols t)) ws).
Qed.

(** A grouping column in HAVING is looked up at its place in the table: the
    groups are compared by that column if it is the table's first one, by their
    count if it is the second one, and all are dropped if it is a later one. *)
Theorem c95_having_column_refuted t c k z :
  legal_from [t] -> t_alias t = None -> nth_error (t_cols t) k = Some c -> c <> "COUNT" ->
  let above := fun v : value => match v with Some n => Z.gtb n z | None => false end in
  exists p, plan_select (from_columns [t]) [Item (SAgg Count None) None] [Bare c]
      (Some (HCmp Gt (SCol (Bare c)) z)) = Some p /\
    forall rows groups, run p rows groups =
      map (fun _ => [Some 1%Z])
        (filter (fun g => by_place k (above (nth k (snd g) None)) (above (fst g (Agg Count None))) false) groups).
Proof.
  intros HL Ha Hk HcC above. rewrite (from_single t Ha).
  destruct (single_col t c k HL Ha Hk) as [Hd Hp].
  unfold plan_select.
  cbn [parse_items parse_expr i_expr parse_groups].
  change (fn_eqb Count Count) with true. cbn iota.
  rewrite Hp. cbn [top_aggs validate_group_by forallb parse_having parse_expr option_map].
  rewrite Hp. cbn [option_map].
  change (alias_mapping _ _) with (@nil (string * string)).
  rewrite (count_schema k c HcC). cbn [replace_having replace_expr option_map].
  eexists. split; [reflexivity|]. intros rows groups. cbn [run].
  rewrite (filter_ext _ (fun g => by_place k (above (nth k (snd g) None)) (above (fst g (Agg Count None))) false)).
  - apply map_const_flat. reflexivity.
  - intros g. unfold passes, agg_row, above. cbn [map fst snd app eval_h eval_p option_map].
    destruct k as [|[|k]]; cbn [nth_error by_place option_map].
    + apply cmp_pass.
    + apply cmp_pass.
    + destruct k; reflexivity.
Qed.

(** Aggregates below NOT are evaluated on the group's row: NOT (COUNT( * ) > z)
    compares 1 with z for every group. *)
Theorem c95_having_not_refuted t c k z :
  legal_from [t] -> t_alias t = None -> nth_error (t_cols t) k = Some c -> c <> "COUNT" ->
  exists p, plan_select (from_columns [t]) [Item (SAgg Count None) None] [Bare c]
      (Some (HNot (HCmp Gt (SAgg Count None) z))) = Some p /\
    forall rows groups, run p rows groups =
      if Z.gtb 1 z then [] else map (fun _ => [Some 1%Z]) groups.
Proof.
  intros HL Ha Hk HcC. rewrite (from_single t Ha).
  destruct (single_col t c k HL Ha Hk) as [Hd Hp].
  unfold plan_select.
  cbn [parse_items parse_expr i_expr parse_groups].
  change (fn_eqb Count Count) with true. cbn iota.
  rewrite Hp. cbn [top_aggs validate_group_by forallb parse_having parse_expr option_map].
  change (fn_eqb Count Count) with true. cbn [option_map].
  change (alias_mapping _ _) with (@nil (string * string)).
  rewrite (count_schema k c HcC). cbn [replace_having replace_expr option_map].
  eexists. split; [reflexivity|]. intros rows groups. cbn [run].
  rewrite (filter_ext _ (fun _ => negb (Z.gtb 1 z))).
  - rewrite (map_const_flat _ [Some 1%Z]) by reflexivity.
    destruct (Z.gtb 1 z); cbn [negb]; induction groups as [|g groups IH]; cbn; [reflexivity|exact IH|reflexivity|now rewrite IH].
  - intros g. unfold passes. cbn [eval_h eval_p option_map cmp3 not3].
    destruct (Z.gtb 1 z); reflexivity.
Qed.

(** The same function twice: [HAVING COUNT(x) > z] compares COUNT( * ); without
    GROUP BY the query fails. *)
Theorem c95_having_repeated_refuted t c x k j z :
  legal_from [t] -> t_alias t = None -> nth_error (t_cols t) k = Some c ->
  nth_error (t_cols t) j = Some x -> c <> "COUNT" ->
  let items := [Item (SAgg Count None) None; Item (SAgg Count (Some (Bare x))) None] in
  let h := HCmp Gt (SAgg Count (Some (Bare x))) z in
  let above := fun g : group =>
    match fst g (Agg Count None) with Some n => Z.gtb n z | None => false end in
  plan_select (from_columns [t]) items [] (Some h) = None /\
  exists p, plan_select (from_columns [t]) items [Bare c] (Some h) = Some p /\
    forall rows groups, length (run p rows groups) =
      length (filter (fun g => Nat.leb j 2 && above g) groups).
Proof.
  intros HL Ha Hk Hj HcC items h above. rewrite (from_single t Ha).
  destruct (single_col t c k HL Ha Hk) as [Hd Hp].
  destruct (single_col t x j HL Ha Hj) as [Hdx Hpx].
  assert (S1 : same_agg Count (Some (j, x)) Count None = false) by reflexivity.
  assert (S2 : same_agg Count (Some (j, x)) Count (Some (j, x)) = true).
  { unfold same_agg. rewrite String.eqb_refl. reflexivity. }
  assert (PI : parse_items (t_cols t) items = Some [PAgg Count None; PAgg Count (Some (j, x))]).
  { unfold items. cbn [parse_items parse_expr i_expr].
    change (fn_eqb Count Count) with true. cbn iota. now rewrite Hpx. }
  assert (PH : parse_having (t_cols t) h = Some (PHCmp Gt (PAgg Count (Some (j, x))) z)).
  { unfold h. cbn [parse_having parse_expr]. now rewrite Hpx. }
  split.
  - unfold plan_select. rewrite PI. cbn [parse_groups top_aggs]. rewrite PH.
    change (alias_mapping items []) with (@nil (string * string)).
    change (agg_schema [] [] [(Count, None); (Count, Some (j, x))]) with ["COUNT"].
    cbn [replace_having replace_expr having_agg_index]. rewrite S1, S2. reflexivity.
  - unfold plan_select. rewrite PI. cbn [parse_groups]. rewrite Hp. cbn [top_aggs].
    cbn [validate_group_by forallb andb]. rewrite PH.
    change (alias_mapping items [(k, c)]) with (@nil (string * string)).
    assert (Es : agg_schema [] [(k, c)] [(Count, None); (Count, Some (j, x))] = [c; "COUNT"]).
    { pose proof (count_schema k c HcC) as E. unfold agg_schema in *.
      cbn [map app lookup fst snd fn_name] in *.
      change ([c; "COUNT"; "COUNT"]) with ([c; "COUNT"] ++ ["COUNT"])%list.
      rewrite fold_left_app, E. cbn [fold_left]. unfold push_new.
      rewrite in_names_in; [reflexivity|]. right. now left. }
    rewrite Es. cbn [replace_having replace_expr having_agg_index]. rewrite S1, S2.
    cbn [length Nat.ltb Nat.leb Nat.sub Nat.add option_map].
    eexists. split; [reflexivity|]. intros rows groups. cbn [run].
    induction groups as [|g groups IH]; [reflexivity|]. cbn [filter].
    assert (E1 : passes (PHCmp Gt (PCol 1 (nth 1 [c; "COUNT"] "")) z)
        (agg_row (fst g) (snd g) [(k, c)] [(Count, None); (Count, Some (j, x))]) = above g).
    { apply cmp_pass. }
    rewrite E1. destruct (above g).
    + rewrite andb_true_r. cbn [flat_map]. rewrite app_length, IH.
      unfold agg_row. cbn [map fst snd app eval_all eval_p].
      destruct j as [|[|[|j]]]; cbn [nth_error Nat.leb length opt_list].
      * match goal with |- _ + ?m = S _ => apply (f_equal (fun n => n + m)) with (y := 1) end.
        apply (count_out (nth k (snd g) None)).
      * match goal with |- _ + ?m = S _ => apply (f_equal (fun n => n + m)) with (y := 1) end.
        apply (count_out (fst g (Agg Count None))).
      * match goal with |- _ + ?m = S _ => apply (f_equal (fun n => n + m)) with (y := 1) end.
        apply (count_out (fst g (Agg Count (Some 2)))).
      * destruct j; reflexivity.
    + rewrite andb_false_r. exact IH.
Qed.

(** ** ORDER BY *)

(** Ordering by the name of a result column that no other result column has
    sorts the answer by that column. *)
Theorem c95_order_by_output_partial cols items gs h p i it a :
  plan_select cols items gs h = Some p ->
  nth_error items i = Some it -> called it = Some a ->
  (forall j other, nth_error items j = Some other -> j <> i -> called other <> Some a) ->
  (forall f s, a <> (sql_name f ++ "_" ++ s)%string) -> dotless a -> a <> "(formula)" ->
  (forall f, a <> sql_name f) ->
  exists sp, plan_ordered cols items gs h [SCol (Bare a)] = Some sp /\
    (forall rows groups, run_unsorted sp rows groups = run p rows groups) /\
    forall out, length out = length items -> sort_key sp out = Some [nth i out None].
Proof.
  intros HP Hi Hc Hother Hf Hd Hform Hfn.
  unfold plan_ordered. rewrite HP.
  destruct (parse_items cols items) as [ps|] eqn:EP.
  2:{ unfold plan_select in HP. rewrite EP in HP. discriminate. }
  assert (HLen : length ps = length items).
  { clear -EP. revert ps EP. induction items as [|x l IH]; intros ps E; cbn in E.
    - injection E as <-. reflexivity.
    - destruct (parse_expr cols (i_expr x)); [|discriminate].
      destruct (parse_items cols l) as [q|]; [|discriminate]. injection E as <-.
      cbn. f_equal. now apply IH. }
  assert (NM : forall x q, output_name x q = a -> called x = Some a).
  { intros x q E. unfold output_name in E. unfold called. destruct (i_as x) as [al|]; [now subst|].
    destruct (i_expr x) as [[c|tt c]|f b|e z].
    - now subst.
    - exfalso. symmetry in E. apply (dotless_pair_neq a tt c Hd E).
    - exfalso. destruct q as [n0 n1|f' b'|]; [now symmetry in E| |now symmetry in E].
      revert E. unfold agg_column_name. destruct b' as [[n0 n1]|].
      + intros E. symmetry in E. rewrite <- sql_fn_name in E. destruct f'; apply (Hf _ _ E).
      + destruct f'; intros E; symmetry in E; try (apply (Hfn Sum E));
          try (apply (Hfn Avg E)); try (apply (Hfn Min E)); try (apply (Hfn Max E));
          try (apply (Hfn StdDev E)); try (apply (Hfn Variance E)).
        apply (Hf Count "star" E).
    - exfalso. destruct q as [n0 n1|f' b'|]; [now symmetry in E| |now symmetry in E].
      revert E. unfold agg_column_name. destruct b' as [[n0 n1]|].
      + intros E. symmetry in E. rewrite <- sql_fn_name in E. destruct f'; apply (Hf _ _ E).
      + destruct f'; intros E; symmetry in E; try (apply (Hfn Sum E));
          try (apply (Hfn Avg E)); try (apply (Hfn Min E)); try (apply (Hfn Max E));
          try (apply (Hfn StdDev E)); try (apply (Hfn Variance E)).
        apply (Hf Count "star" E). }
  assert (ON : forall x q, called x = Some a -> output_name x q = a).
  { intros x q E. unfold called in E. unfold output_name. destruct (i_as x) as [al|]; [congruence|].
    destruct (i_expr x) as [[c|tt c]|f b|e z]; try discriminate. congruence. }
  assert (PO : position (String.eqb a) (output_names items ps) = Some i).
  { clear HP EP. revert i ps HLen Hi Hother. induction items as [|x l IH]; intros i ps HLen Hi Hother.
    - destruct i; discriminate.
    - destruct ps as [|q ps]; cbn in HLen; [discriminate|]. cbn [output_names position].
      destruct i as [|i]; cbn in Hi.
      + injection Hi as ->. now rewrite (ON it q Hc), String.eqb_refl.
      + destruct (String.eqb_spec a (output_name x q)) as [E|].
        * exfalso. apply (Hother 0 x eq_refl); [lia|]. now apply (NM x q).
        * rewrite (IH i ps); [reflexivity|lia|assumption|].
          intros j o Hj Hne. apply (Hother (S j) o Hj). lia. }
  cbn [parse_all parse_expr]. unfold parse_col, parse_identifier, get_qualified_column_index, get_column_index.
  rewrite PO. eexists. split; [reflexivity|]. split; [reflexivity|].
  intros out Ho. cbn [sort_key eval_all eval_p].
  assert (Hlt : i < length out) by (rewrite Ho; apply nth_error_Some; now rewrite Hi).
  destruct (nth_error out i) as [v|] eqn:Ev; [|apply nth_error_None in Ev; lia].
  now rewrite (nth_of_nth_error (A := value) _ _ _ None Ev).
Qed.

(** ORDER BY COUNT( * ): every row of the answer has the key 1. *)
Theorem c95_order_by_count_refuted cols items gs h p :
  plan_select cols items gs h = Some p ->
  exists sp, plan_ordered cols items gs h [SAgg Count None] = Some sp /\
    (forall rows groups, run_unsorted sp rows groups = run p rows groups) /\
    forall out, sort_key sp out = Some [Some 1%Z].
Proof.
  intros HP. unfold plan_ordered. rewrite HP.
  destruct (parse_items cols items) as [ps|] eqn:EP.
  2:{ unfold plan_select in HP. rewrite EP in HP. discriminate. }
  eexists. split; [reflexivity|]. split; reflexivity.
Qed.

(** ORDER BY SUM(x) in [SELECT c, SUM(x) ... GROUP BY c]: the grouping and
    HAVING are dropped, and the answer has a row for every row of the table. *)
Lemma append_longer a b : b <> "" -> a <> (b ++ a)%string.
Proof.
  intros H E. assert (L : String.length a = String.length b + String.length a).
  { rewrite E at 1. clear. induction b as [|x b IH]; cbn; [reflexivity|now rewrite IH]. }
  destruct b; [easy|]. cbn in L. lia.
Qed.

Theorem c95_order_by_hidden_refuted t c x k j :
  legal_from [t] -> t_alias t = None -> nth_error (t_cols t) k = Some c ->
  nth_error (t_cols t) j = Some x -> c <> x -> c <> "SUM" ->
  exists sp, plan_ordered (from_columns [t])
      [Item (SCol (Bare c)) None; Item (SAgg Sum (Some (Bare x))) None] [Bare c] None
      [SAgg Sum (Some (Bare x))] = Some sp /\
    forall rows groups, Forall (fun r => length r = length (t_cols t)) rows ->
      run_unsorted sp rows groups =
      map (fun r => [nth k r None; match nth j r None with None => Some 0%Z | v => v end]) rows.
Proof.
  intros HL Ha Hk Hj Hcx HcS. rewrite (from_single t Ha).
  destruct (single_col t c k HL Ha Hk) as [Hd Hp].
  destruct (single_col t x j HL Ha Hj) as [Hdx Hpx].
  set (items := [Item (SCol (Bare c)) None; Item (SAgg Sum (Some (Bare x))) None]).
  assert (PI : parse_items (t_cols t) items = Some [PCol k c; PAgg Sum (Some (j, x))]).
  { unfold items. cbn [parse_items parse_expr i_expr]. now rewrite Hp, Hpx. }
  assert (PS : exists p, plan_select (t_cols t) items [Bare c] None = Some p).
  { unfold plan_select. rewrite PI. cbn [parse_groups]. rewrite Hp. cbn [top_aggs].
    unfold validate_group_by. cbn [forallb group_names flat_map snd app].
    assert (Ein : forall l, in_names c (c :: l) = true) by (intros l; apply in_names_in; now left).
    rewrite Ein. cbn [orb andb]. eexists. reflexivity. }
  destruct PS as [p PS]. unfold plan_ordered. rewrite PS, PI.
  cbn [output_names output_name items i_as i_expr parse_all parse_expr].
  unfold agg_column_name, after_last_dot. rewrite (split_dotless x Hdx). cbn [last fn_name].
  assert (F : parse_col [c; "SUM" ++ "_" ++ x] (Bare x) = None).
  { unfold parse_col, parse_identifier, get_qualified_column_index, get_column_index.
    assert (P1 : position (String.eqb x) [c; "SUM" ++ "_" ++ x] = None).
    { apply position_none. intros n [<-|[<-|[]]]; apply String.eqb_neq; [congruence|].
      rewrite <- append_assoc. now apply append_longer. }
    rewrite P1. pose proof Hdx as Hd2. rewrite <- contains_dot_spec in Hd2. rewrite Hd2.
    assert (P2 : position (fun col => match split_dot col with [_; b] => String.eqb b x | _ => false end)
               [c; "SUM" ++ "_" ++ x] = None).
    { apply position_none. intros n [<-|[<-|[]]]; rewrite split_dotless; try reflexivity; [assumption|].
      apply contains_dot_spec. now rewrite !contains_dot_app, Hd2. }
    now rewrite P2. }
  rewrite F, Hpx. eexists. split; [reflexivity|].
  intros rows groups HR. cbn [run_unsorted].
  assert (Lk : k < length (t_cols t)) by (apply nth_error_Some; now rewrite Hk).
  assert (Lj : j < length (t_cols t)) by (apply nth_error_Some; now rewrite Hj).
  induction HR as [|r rows Hr _ IH]; cbn [flat_map map]; [reflexivity|].
  rewrite IH. cbn [eval_all eval_p].
  destruct (nth_error r k) as [v|] eqn:Ev; [|apply nth_error_None in Ev; lia].
  destruct (nth_error r j) as [w|] eqn:Ew; [|apply nth_error_None in Ew; lia].
  assert (N1 : @nth (option Z) k r None = v) by exact (nth_of_nth_error (A := value) _ _ _ None Ev).
  assert (N2 : @nth (option Z) j r None = w) by exact (nth_of_nth_error (A := value) _ _ _ None Ew).
  rewrite N1, N2. destruct w; reflexivity.
Qed.

(** ** Concrete cases *)
Example c95_having_filter_ex :
  exists p, plan_select (from_columns [emp])
      [Item (SAgg Count None) None; Item (SAgg Sum (Some (Bare "dept"))) None] [Bare "dept"]
      (Some (HAnd (HCmp Gt (SAgg Count None) 1) (HCmp Lt (SAgg Sum (Some (Bare "dept"))) 400))) = Some p /\
    run p [] [(counts 2 300, [Some 1; Some 7; Some 100]%Z); (counts 1 50, [Some 3; Some 8; Some 50]%Z)]
    = [[Some 1; Some 2]]%Z.
Proof. eexists. split; reflexivity. Qed.
Example c95_over_items_ex :
  over_items [Item (SAgg Count None) None; Item (SAgg Sum (Some (Bare "dept"))) None]
    (HAnd (HCmp Gt (SAgg Count None) 1) (HCmp Lt (SAgg Sum (Some (Bare "dept"))) 400)).
Proof.
  constructor.
  - now apply oi_cmp with (it := Item (SAgg Count None) None); [left|].
  - now apply oi_cmp with (it := Item (SAgg Sum (Some (Bare "dept"))) None); [right; left|].
Qed.
Example c95_having_column_ex :
  exists p, plan_select (from_columns [emp]) [Item (SAgg Count None) None] [Bare "dept"]
      (Some (HCmp Gt (SCol (Bare "dept")) 5)) = Some p /\
    run p [] [(counts 2 300, [Some 1; Some 7; Some 100]%Z)] = [].
Proof. eexists. split; reflexivity. Qed.
Example c95_unlisted_ex :
  plan_select (from_columns [emp]) [Item (SCol (Bare "dept")) None] [Bare "dept"]
    (Some (HCmp Gt (SAgg Count None) 1)) = None.
Proof. reflexivity. Qed.
Example c95_order_by_output_ex :
  exists sp, plan_ordered (from_columns [emp])
    [Item (SCol (Bare "dept")) None; Item (SAgg Count None) (Some "n")] [Bare "dept"] None
    [SCol (Bare "n")] = Some sp /\ sort_key sp [Some 7; Some 2]%Z = Some [Some 2]%Z.
Proof. eexists. split; reflexivity. Qed.
Example c95_order_by_hidden_ex :
  exists sp, plan_ordered (from_columns [emp])
    [Item (SCol (Bare "dept")) None; Item (SAgg Sum (Some (Bare "pay"))) None] [Bare "dept"] None
    [SAgg Sum (Some (Bare "pay"))] = Some sp /\
    run_unsorted sp [[Some 1; Some 7; Some 100]; [Some 2; Some 7; Some 200]]%Z
      [(counts 2 300, [Some 1; Some 7; Some 100]%Z)] = [[Some 7; Some 100]; [Some 7; Some 200]]%Z.
Proof. eexists. split; reflexivity. Qed.

Print Assumptions c95_having_filter_partial.
Print Assumptions c95_having_count_refuted.
Print Assumptions c95_having_sum_refuted.
Print Assumptions c95_having_unlisted_refuted.
Print Assumptions c95_having_column_refuted.
Print Assumptions c95_having_not_refuted.
Print Assumptions c95_having_repeated_refuted.
Print Assumptions c95_order_by_output_partial.
Print Assumptions c95_order_by_count_refuted.
Print Assumptions c95_order_by_hidden_refuted.
