(** Proofs for C94 and C95. *)
From Coq Require Import Strings.String Strings.Ascii ZArith List Arith Bool Lia.
From Verif Require Import NameSpec NameModel NameProofs NameProps SelSpec SelModel.
Import ListNotations.
Open Scope string_scope.

(** The place of a name in a list of names (0 if it is not there). *)
Definition idx (cols : list string) (c : string) : nat :=
  match position (String.eqb c) cols with Some i => i | None => 0 end.

Lemma position_in cols c : In c cols -> position (String.eqb c) cols = Some (idx cols c).
Proof.
  intros H. unfold idx.
  destruct (position_exists (String.eqb c) cols c H (String.eqb_refl c)) as [i ->].
  reflexivity.
Qed.

Lemma idx_nth cols c : In c cols -> nth_error cols (idx cols c) = Some c.
Proof.
  intros H. pose proof (position_in _ _ H) as P.
  destruct (position_some _ _ _ P) as (x & Hn & Hx & _).
  apply String.eqb_eq in Hx. now subst x.
Qed.

Lemma nth_of_nth_error {A} (l : list A) i x d : nth_error l i = Some x -> nth i l d = x.
Proof. revert i. induction l as [|y l IH]; intros [|i] H; cbn in *; try discriminate; [congruence|now apply IH]. Qed.

Lemma parse_col_bare cols c : In c cols -> parse_col cols (Bare c) = Some (idx cols c, c).
Proof.
  intros H. unfold parse_col, parse_identifier, get_qualified_column_index, get_column_index.
  rewrite (position_in _ _ H). now rewrite (nth_of_nth_error _ _ _ "" (idx_nth _ _ H)).
Qed.

(** ** Well-formed items: a plain grouping column, or an aggregate of a column *)
Inductive witem :=
| WCol (c : string)
| WAgg (f : aggfn) (arg : option string) (alias : option string).

Definition wsyn (w : witem) : sitem :=
  match w with
  | WCol c => Item (SCol (Bare c)) None
  | WAgg f a al => Item (SAgg f (option_map Bare a)) al
  end.

Definition wagg_of (cols : list string) (w : witem) : list (aggfn * option (nat * string)) :=
  match w with
  | WCol _ => []
  | WAgg f a _ => [(f, option_map (fun c => (idx cols c, c)) a)]
  end.

Definition wparsed (cols : list string) (w : witem) : pexpr :=
  match w with
  | WCol c => PCol (idx cols c) c
  | WAgg f a _ => PAgg f (option_map (fun c => (idx cols c, c)) a)
  end.

Definition witem_ok (cols gs : list string) (w : witem) : Prop :=
  match w with
  | WCol c => In c gs
  | WAgg f a _ =>
      match a with Some c => In c cols | None => f = Count end /\
      forall g, In g gs -> g <> fn_name f /\
        starts_with (fn_name f ++ "(") g = false /\ starts_with (fn_name f ++ "_") g = false
  end.

Lemma parse_witem cols gs w : incl gs cols -> witem_ok cols gs w ->
  parse_expr cols (i_expr (wsyn w)) = Some (wparsed cols w).
Proof.
  intros Hi Hw. destruct w as [c|f a al]; cbn [wsyn i_expr parse_expr].
  - cbn in Hw. now rewrite parse_col_bare by auto.
  - destruct Hw as [Ha _]. destruct a as [c|]; cbn [option_map].
    + now rewrite parse_col_bare.
    + subst f. reflexivity.
Qed.

Lemma parse_witems cols gs ws : incl gs cols -> Forall (witem_ok cols gs) ws ->
  parse_items cols (map wsyn ws) = Some (map (wparsed cols) ws).
Proof.
  intros Hi. induction 1 as [|w ws Hw _ IH]; cbn [map parse_items]; [reflexivity|].
  now rewrite (parse_witem _ _ _ Hi Hw), IH.
Qed.

Lemma parse_groups_bare cols gs : incl gs cols ->
  parse_groups cols (map Bare gs) = Some (map (fun g => (idx cols g, g)) gs).
Proof.
  induction gs as [|g gs IH]; intros H; cbn [map parse_groups]; [reflexivity|].
  rewrite parse_col_bare by (apply H; now left).
  rewrite IH; [reflexivity|]. intros x Hx. apply H. now right.
Qed.

Lemma top_aggs_witems cols ws :
  top_aggs (map (wparsed cols) ws) = flat_map (wagg_of cols) ws.
Proof.
  induction ws as [|w ws IH]; cbn; [reflexivity|].
  destruct w as [c|f a al]; cbn; now rewrite IH.
Qed.

Lemma in_names_in n l : In n l -> in_names n l = true.
Proof. intros H. apply existsb_exists. exists n. split; [assumption|apply String.eqb_refl]. Qed.
Lemma in_names_not n l : ~ In n l -> in_names n l = false.
Proof.
  intros H. unfold in_names. destruct (existsb (String.eqb n) l) eqn:E; [|reflexivity].
  apply existsb_exists in E as (x & Hx & Ex). apply String.eqb_eq in Ex. subst x. contradiction.
Qed.

Lemma validate_witems cols gs ws : Forall (witem_ok cols gs) ws ->
  validate_group_by (map (fun g => (idx cols g, g)) gs) (map (wparsed cols) ws) = true.
Proof.
  intros H. unfold validate_group_by. apply forallb_forall. intros p Hp.
  apply in_map_iff in Hp as (w & <- & Hw). rewrite Forall_forall in H. specialize (H w Hw).
  destruct w as [c|f a al]; cbn [wparsed]; [|reflexivity].
  cbn in H. rewrite in_names_in; [reflexivity|].
  unfold group_names. apply in_flat_map. exists (idx cols c, c). split.
  - apply in_map_iff. now exists c.
  - now left.
Qed.

Lemma alias_mapping_witems ws gs : alias_mapping (map wsyn ws) gs = [].
Proof.
  unfold alias_mapping. generalize (@nil (string * string)).
  induction ws as [|w ws IH]; intros m; cbn [map fold_left]; [reflexivity|].
  destruct w as [c|f a al]; cbn [wsyn i_expr i_as]; apply IH.
Qed.

(** ** The Aggregate node's schema *)
Lemma push_new_app l acc : NoDup (acc ++ l)%list -> fold_left push_new l acc = (acc ++ l)%list.
Proof.
  revert acc. induction l as [|x l IH]; intros acc H; cbn; [now rewrite app_nil_r|].
  assert (E : push_new acc x = (acc ++ [x])%list).
  { unfold push_new. rewrite in_names_not; [reflexivity|].
    apply NoDup_remove_2 in H. intros F. apply H. apply in_app_iff. now left. }
  rewrite E, IH; rewrite <- app_assoc; [reflexivity|assumption].
Qed.

Lemma push_new_prefix l acc : exists r, fold_left push_new l acc = (acc ++ r)%list /\
  length r <= length l /\ incl r l /\ (NoDup acc -> NoDup (acc ++ r)%list) /\
  (forall x, In x l -> In x (acc ++ r)%list).
Proof.
  revert acc. induction l as [|x l IH]; intros acc; cbn.
  - exists []. rewrite app_nil_r. cbn. split; [reflexivity|]. split; [lia|]. split; [intros y []|]. split; [auto|intros y []].
  - unfold push_new at 2. destruct (in_names x acc) eqn:E.
    + destruct (IH acc) as (r & E2 & L & I & N & C). exists r. split; [exact E2|].
      split; [lia|]. split; [intros y Hy; right; now apply I|]. split; [exact N|].
      intros y [<-|Hy]; [|now apply C]. apply in_app_iff. left.
      apply existsb_exists in E as (z & Hz & Ez). apply String.eqb_eq in Ez. now subst z.
    + destruct (IH (acc ++ [x])%list) as (r & E2 & L & I & N & C). exists (x :: r).
      rewrite E2, <- app_assoc. split; [reflexivity|]. cbn. split; [lia|].
      split; [intros y [<-|Hy]; [now left|right; now apply I]|].
      rewrite <- app_assoc in N, C. split.
      * intros Hacc. apply N. clear -Hacc E.
        assert (Hx : ~ In x acc).
        { intros F. rewrite (in_names_in _ _ F) in E. discriminate. }
        clear E. induction acc as [|y acc IHa]; cbn; [constructor; [easy|constructor]|].
        inversion Hacc; subst. constructor.
        -- rewrite in_app_iff. intros [F|[F|[]]]; [contradiction|]. subst y. apply Hx. now left.
        -- apply IHa; [assumption|]. intros F. apply Hx. now right.
      * intros y [<-|Hy]; [|now apply C]. apply in_app_iff. right. now left.
Qed.

Definition fns (ws : list witem) : list string :=
  flat_map (fun w => match w with WAgg f _ _ => [fn_name f] | WCol _ => [] end) ws.

Lemma fns_aggs cols ws : map (fun a => fn_name (fst a)) (flat_map (wagg_of cols) ws) = fns ws.
Proof.
  induction ws as [|w ws IH]; cbn; [reflexivity|].
  rewrite map_app, IH. now destruct w.
Qed.

(** The distinct names in order of first appearance. *)
Definition distinct (l : list string) : list string := fold_left push_new l [].

Lemma push_new_sep gs l acc : (forall x, In x l -> ~ In x gs) ->
  fold_left push_new l (gs ++ acc)%list = (gs ++ fold_left push_new l acc)%list.
Proof.
  revert acc. induction l as [|x l IH]; intros acc H; cbn; [reflexivity|].
  assert (E : push_new (gs ++ acc)%list x = (gs ++ push_new acc x)%list).
  { unfold push_new, in_names. rewrite existsb_app.
    assert (F : existsb (String.eqb x) gs = false) by (apply in_names_not; apply H; now left).
    rewrite F. cbn. destruct (existsb (String.eqb x) acc); [reflexivity|].
    now rewrite app_assoc. }
  rewrite E. apply IH. intros y Hy. apply H. now right.
Qed.

Lemma in_fns cols gs ws n : Forall (witem_ok cols gs) ws -> In n (fns ws) ->
  (exists f, n = fn_name f) /\ ~ In n gs.
Proof.
  intros H Hn. unfold fns in Hn. apply in_flat_map in Hn as (w & Hw & Hn).
  rewrite Forall_forall in H. specialize (H w Hw).
  destruct w as [c|f a al]; [contradiction|]. destruct Hn as [<-|[]].
  split; [now exists f|]. intros F. destruct H as [_ H]. now destruct (H _ F) as [E _].
Qed.

Lemma agg_schema_witems cols gs ws : NoDup gs -> Forall (witem_ok cols gs) ws ->
  agg_schema [] (map (fun g => (idx cols g, g)) gs) (flat_map (wagg_of cols) ws) =
  (gs ++ distinct (fns ws))%list.
Proof.
  intros HN H. unfold agg_schema. cbn [lookup]. rewrite fns_aggs, map_map. cbn [snd].
  rewrite map_id, fold_left_app.
  rewrite (push_new_app gs []) by assumption. cbn [app].
  rewrite <- (app_nil_r gs) at 1. rewrite push_new_sep; [reflexivity|].
  intros x Hx. now apply (in_fns cols gs ws).
Qed.

(** ** Looking up the items *)
Lemma fn_names_apart f g x :
  starts_with (fn_name f ++ "(") (fn_name g) = false /\
  starts_with (fn_name f ++ "_") (fn_name g) = false /\
  fn_name g <> fn_name f ++ "_" ++ x /\ fn_name g <> "COUNT_star".
Proof. destruct f, g; cbn; repeat split; discriminate. Qed.

Lemma starts_with_app p s : starts_with p (p ++ s) = true.
Proof. induction p as [|a p IH]; cbn; [reflexivity|]. now rewrite Ascii.eqb_refl, IH. Qed.

Lemma agg_name_prefix cols f a al gs : witem_ok cols gs (WAgg f a al) ->
  exists x, agg_column_name f (option_map (fun c => (idx cols c, c)) a) = fn_name f ++ "_" ++ x.
Proof.
  intros [Ha _]. destruct a as [c|].
  - exists (after_last_dot c). cbn. destruct f; reflexivity.
  - subst f. exists "star". reflexivity.
Qed.

Lemma append_assoc (a b c : string) : (a ++ b) ++ c = a ++ b ++ c.
Proof. induction a as [|x a IH]; cbn; [reflexivity|]. now rewrite IH. Qed.

Lemma agg_index_none cols gs ws f a al i : NoDup gs ->
  Forall (witem_ok cols gs) ws -> witem_ok cols gs (WAgg f a al) ->
  agg_item_index (gs ++ distinct (fns ws)) i f (option_map (fun c => (idx cols c, c)) a) =
  Nat.min i (length gs + length (distinct (fns ws)) - 1).
Proof.
  intros HN H Hw. unfold agg_item_index.
  match goal with |- match ?p with _ => _ end = _ => assert (E : p = None) end.
  { apply position_none. intros n Hn.
    destruct (agg_name_prefix _ _ _ _ _ Hw) as [x Ex]. rewrite Ex.
    apply in_app_iff in Hn as [Hn|Hn].
    - destruct Hw as [_ Hg]. destruct (Hg n Hn) as (_ & H1 & H2).
      rewrite H1, H2, !orb_false_r.
      destruct (String.eqb_spec n (fn_name f ++ "_" ++ x)) as [->|]; [|reflexivity].
      rewrite <- append_assoc, starts_with_app in H2. discriminate.
    - destruct (push_new_prefix (fns ws) []) as (r & Er & _ & Ir & _ & _).
      unfold distinct in Hn. rewrite Er in Hn. cbn in Hn. apply Ir in Hn.
      destruct (in_fns _ _ _ _ H Hn) as [[g ->] _].
      destruct (fn_names_apart f g x) as (H1 & H2 & H3 & _).
      rewrite H1, H2. destruct (String.eqb_spec (fn_name g) (fn_name f ++ "_" ++ x)); [contradiction|reflexivity]. }
  rewrite E, app_length. reflexivity.
Qed.

Lemma col_index_found gs rest c : In c gs ->
  get_qualified_column_index (gs ++ rest) c = Some (idx gs c).
Proof.
  intros H. unfold get_qualified_column_index, get_column_index.
  now rewrite (position_app _ _ rest _ (position_in _ _ H)).
Qed.

(** What the projection takes from the Aggregate node's row for item [i]. *)
Definition wtarget (gs : list string) (n i : nat) (w : witem) : nat :=
  match w with
  | WCol c => idx gs c
  | WAgg _ _ _ => Nat.min i (n - 1)
  end.

Lemma project_witems cols gs all : NoDup gs -> Forall (witem_ok cols gs) all ->
  forall ws i, Forall (witem_ok cols gs) ws ->
  let schema := (gs ++ distinct (fns all))%list in
  forall k w, nth_error ws k = Some w ->
    exists name, nth_error (project_items schema i (map wsyn ws) (map (wparsed cols) ws)) k =
                 Some (PCol (wtarget gs (length schema) (i + k) w) name).
Proof.
  intros HN Hall ws. induction ws as [|w0 ws IH]; intros i Hws schema k w Hk.
  - destruct k; discriminate.
  - inversion Hws as [|? ? Hw0 Hws']; subst.
    destruct k as [|k]; cbn [nth_error] in Hk.
    + injection Hk as <-. cbn [map project_items nth_error]. rewrite Nat.add_0_r.
      destruct w0 as [c|f a al]; cbn [wsyn wparsed project_item wtarget].
      * unfold col_item_index. cbn [i_as i_expr]. unfold schema.
        rewrite col_index_found by exact Hw0. eexists. reflexivity.
      * unfold schema. rewrite (agg_index_none cols gs all f a al i HN Hall Hw0).
        rewrite app_length. eexists. reflexivity.
    + cbn [map project_items nth_error].
      destruct (IH (S i) Hws' k w Hk) as [name E]. exists name.
      fold schema in E. rewrite E. do 3 f_equal. lia.
Qed.

Lemma project_items_length schema i items ps : length items = length ps ->
  length (project_items schema i items ps) = length items.
Proof.
  revert i ps. induction items as [|it items IH]; intros i [|p ps] H; cbn in *; try discriminate; auto.
Qed.

Lemma eval_all_targets ps row (ts : list nat) :
  length ps = length ts ->
  (forall k t, nth_error ts k = Some t -> t < length row /\
     exists name, nth_error ps k = Some (PCol t name)) ->
  eval_all ps row = Some (map (fun t => nth t row None) ts).
Proof.
  revert ts. induction ps as [|p ps IH]; intros [|t ts] HL H; cbn in HL; try discriminate.
  - reflexivity.
  - destruct (H 0 t eq_refl) as [Ht [name E]]. cbn in E. injection E as ->.
    cbn [eval_all eval_p map].
    destruct (nth_error row t) as [v|] eqn:En; [|apply nth_error_None in En; lia].
    rewrite (IH ts).
    + now rewrite (nth_of_nth_error (A := value) _ _ _ None En).
    + lia.
    + intros k u Hk. apply (H (S k) u). exact Hk.
Qed.

Fixpoint targets (gs : list string) (n i : nat) (ws : list witem) : list nat :=
  match ws with
  | [] => []
  | w :: rest => wtarget gs n i w :: targets gs n (S i) rest
  end.

Lemma targets_length gs n i ws : length (targets gs n i ws) = length ws.
Proof. revert i. induction ws as [|w ws IH]; intros i; cbn; auto. Qed.

Lemma targets_nth gs n ws : forall i k, nth_error (targets gs n i ws) k =
  option_map (wtarget gs n (i + k)) (nth_error ws k).
Proof.
  induction ws as [|w ws IH]; intros i [|k]; cbn; try reflexivity.
  - now rewrite Nat.add_0_r.
  - rewrite IH. f_equal. f_equal. lia.
Qed.

Definition waggs (ws : list witem) : list witem :=
  filter (fun w => match w with WAgg _ _ _ => true | WCol _ => false end) ws.
Definition spec_agg (cols : list string) (w : witem) : agg :=
  match w with
  | WAgg f a _ => Agg f (option_map (idx cols) a)
  | WCol _ => Agg Count None
  end.

(** The row of the Aggregate node, in terms of the specification. *)
Definition grouped_row (cols gs : list string) (ws : list witem) (g : group) : list value :=
  (map (fun c => nth (idx cols c) (snd g) None) gs ++
   map (fun w => fst g (spec_agg cols w)) (waggs ws))%list.

Lemma agg_row_witems cols gs ws g :
  agg_row (fst g) (snd g) (map (fun x => (idx cols x, x)) gs) (flat_map (wagg_of cols) ws) =
  grouped_row cols gs ws g.
Proof.
  unfold agg_row, grouped_row. rewrite map_map. cbn [fst]. f_equal.
  induction ws as [|w ws IH]; cbn; [reflexivity|].
  rewrite map_app, IH. destruct w as [c|f a al]; cbn; [reflexivity|].
  now destruct a.
Qed.

Lemma distinct_length l : length (distinct l) <= length l.
Proof. unfold distinct. destruct (push_new_prefix l []) as (r & -> & L & _). exact L. Qed.

Lemma distinct_nonempty l : l <> [] -> distinct l <> [].
Proof.
  intros H E. destruct l as [|x l]; [easy|].
  unfold distinct in E. destruct (push_new_prefix (x :: l) []) as (r & E2 & _ & _ & _ & C).
  rewrite E in E2. cbn in E2. subst r. specialize (C x (or_introl eq_refl)). contradiction.
Qed.

Lemma fns_length ws : length (fns ws) = length (waggs ws).
Proof.
  unfold fns, waggs. induction ws as [|w ws IH]; cbn; [reflexivity|]. destruct w; cbn; now rewrite ?IH.
Qed.

Lemma idx_lt gs c : In c gs -> idx gs c < length gs.
Proof. intros H. apply nth_error_Some. now rewrite idx_nth. Qed.

Lemma target_lt cols gs ws i w g : In w ws -> Forall (witem_ok cols gs) ws ->
  wtarget gs (length gs + length (distinct (fns ws))) i w < length (grouped_row cols gs ws g).
Proof.
  intros Hw H. unfold grouped_row. rewrite app_length, !map_length.
  rewrite Forall_forall in H. pose proof (H w Hw) as Hok.
  destruct w as [c|f a al]; cbn [wtarget].
  - cbn in Hok. apply idx_lt in Hok. lia.
  - pose proof (distinct_length (fns ws)) as L. rewrite fns_length in L.
    assert (N : distinct (fns ws) <> []).
    { apply distinct_nonempty. intros E. unfold fns in E.
      apply (in_nil (a := fn_name f)). rewrite <- E. apply in_flat_map.
      exists (WAgg f a al). split; [assumption|now left]. }
    destruct (distinct (fns ws)); [easy|]. cbn [length] in *. lia.
Qed.

(** The plan of a well-formed grouped query. *)
Lemma plan_witems cols gs ws : NoDup gs -> incl gs cols -> Forall (witem_ok cols gs) ws ->
  (gs <> [] \/ waggs ws <> []) ->
  plan_select cols (map wsyn ws) (map Bare gs) None =
  Some (AggPlan (map (fun x => (idx cols x, x)) gs) (flat_map (wagg_of cols) ws) None
    (project_items (gs ++ distinct (fns ws)) 0 (map wsyn ws) (map (wparsed cols) ws))).
Proof.
  intros HN HI H Hne. unfold plan_select.
  rewrite (parse_witems _ _ _ HI H), (parse_groups_bare _ _ HI).
  rewrite top_aggs_witems, alias_mapping_witems, (agg_schema_witems _ _ _ HN H).
  destruct gs as [|g gs].
  - cbn [map]. destruct (flat_map (wagg_of cols) ws) as [|a0 l] eqn:E; [|reflexivity].
    exfalso. destruct Hne as [F|F]; [easy|]. apply F.
    assert (L : length (waggs ws) = 0).
    { rewrite <- fns_length, <- (fns_aggs cols), E. reflexivity. }
    now destruct (waggs ws).
  - rewrite (validate_witems _ _ _ H). cbn [map].
    destruct (flat_map (wagg_of cols) ws); reflexivity.
Qed.

Lemma run_witems cols gs ws rows groups : NoDup gs -> incl gs cols ->
  Forall (witem_ok cols gs) ws -> 
  run (AggPlan (map (fun x => (idx cols x, x)) gs) (flat_map (wagg_of cols) ws) None
    (project_items (gs ++ distinct (fns ws)) 0 (map wsyn ws) (map (wparsed cols) ws))) rows groups =
  map (fun g => map (fun t => nth t (grouped_row cols gs ws g) None)
                    (targets gs (length gs + length (distinct (fns ws))) 0 ws)) groups.
Proof.
  intros HN HI H. cbn [run].
  induction groups as [|g groups IH]; cbn [filter flat_map map]; [reflexivity|].
  rewrite IH, agg_row_witems.
  rewrite (eval_all_targets _ _ (targets gs (length gs + length (distinct (fns ws))) 0 ws)).
  - reflexivity.
  - rewrite targets_length, project_items_length; rewrite !map_length; reflexivity.
  - intros k t Hk. rewrite targets_nth in Hk. cbn [Nat.add] in Hk.
    destruct (nth_error ws k) as [w|] eqn:Ew; [|discriminate]. cbn in Hk. injection Hk as <-.
    split.
    + apply target_lt; [now apply nth_error_In in Ew|assumption].
    + destruct (project_witems cols gs ws HN H ws 0 H k w Ew) as [name E].
      exists name. rewrite E, app_length. reflexivity.
Qed.
