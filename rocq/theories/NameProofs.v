(** Proofs for C93 (column name resolution). *)
From Coq Require Import Strings.String Strings.Ascii List Arith Bool Lia Logic.FinFun.
From Verif Require Import NameSpec NameModel.
Import ListNotations.
Open Scope string_scope.

Lemma contains_dot_spec s : contains_dot s = false <-> dotless s.
Proof.
  unfold dotless. induction s as [|a s IH]; cbn; [tauto|].
  destruct (Ascii.eqb_spec a "."%char) as [->|Hn]; cbn.
  - split; [discriminate|intros H; exfalso; apply H; now left].
  - rewrite IH. split; [intros H [E|E]; [now subst|tauto]|tauto].
Qed.

Lemma contains_dot_app a b : contains_dot (a ++ b) = contains_dot a || contains_dot b.
Proof. induction a as [|x a IH]; cbn; [reflexivity|]. now rewrite IH, orb_assoc. Qed.

Lemma split_dotless s : dotless s -> split_dot s = [s].
Proof.
  rewrite <- contains_dot_spec.
  induction s as [|a s IH]; cbn; [reflexivity|].
  destruct (Ascii.eqb a "."); cbn; [discriminate|].
  intros H. now rewrite (IH H).
Qed.

Lemma split_app a b : dotless a -> split_dot (a ++ "." ++ b) = a :: split_dot b.
Proof.
  rewrite <- contains_dot_spec.
  induction a as [|x a IH]; cbn; [reflexivity|].
  destruct (Ascii.eqb x "."); cbn; [discriminate|].
  intros H. cbn in IH. now rewrite (IH H).
Qed.

Lemma split_pair a b : dotless a -> dotless b -> split_dot (a ++ "." ++ b) = [a; b].
Proof. intros. rewrite split_app by assumption. now rewrite split_dotless. Qed.

Lemma pair_inj a b a' b' : dotless a -> dotless b -> dotless a' -> dotless b' ->
  a ++ "." ++ b = a' ++ "." ++ b' -> a = a' /\ b = b'.
Proof.
  intros Ha Hb Ha' Hb' E.
  assert (E2 : split_dot (a ++ "." ++ b) = split_dot (a' ++ "." ++ b')) by now rewrite E.
  rewrite !split_pair in E2 by assumption. now injection E2.
Qed.

Lemma pair_dotted a b : contains_dot (a ++ "." ++ b) = true.
Proof. rewrite contains_dot_app. cbn. apply orb_true_r. Qed.

Lemma dotless_pair_neq c a b : dotless c -> c <> a ++ "." ++ b.
Proof. intros H ->. rewrite <- contains_dot_spec, pair_dotted in H. discriminate. Qed.

Lemma prefix_app_dot t a b :
  dotless t -> dotless a -> starts_with (t ++ ".") (a ++ "." ++ b) = true -> t = a.
Proof.
  revert a. induction t as [|x t IH]; intros a Ht Ha H.
  - destruct a as [|y a]; [reflexivity|]. cbn [starts_with append] in H.
    destruct (Ascii.eqb_spec "."%char y) as [<-|]; [|discriminate].
    exfalso. apply Ha. now left.
  - destruct a as [|y a]; cbn [starts_with append] in H.
    + destruct (Ascii.eqb_spec x "."%char) as [->|]; [|discriminate].
      exfalso. apply Ht. now left.
    + destruct (Ascii.eqb_spec x y) as [->|]; [|discriminate].
      f_equal. apply IH.
      * intros F. apply Ht. now right.
      * intros F. apply Ha. now right.
      * exact H.
Qed.

(** ** position *)
Lemma position_ext {A} (f g : A -> bool) l :
  (forall x, In x l -> f x = g x) -> position f l = position g l.
Proof.
  induction l as [|x l IH]; intros H; cbn; [reflexivity|].
  rewrite (H x) by now left. destruct (g x); [reflexivity|].
  rewrite IH; [reflexivity|]. intros y Hy. apply H. now right.
Qed.

Lemma position_map {A B} (h : A -> B) (f : B -> bool) l :
  position f (map h l) = position (fun x => f (h x)) l.
Proof. induction l as [|x l IH]; cbn; [reflexivity|]. now rewrite IH. Qed.

Lemma position_some {A} (f : A -> bool) l i :
  position f l = Some i ->
  exists x, nth_error l i = Some x /\ f x = true /\
    (forall j y, j < i -> nth_error l j = Some y -> f y = false).
Proof.
  revert i. induction l as [|x l IH]; intros i H; cbn in H; [discriminate|].
  destruct (f x) eqn:E.
  - injection H as <-. exists x. cbn. split; [reflexivity|]. split; [assumption|lia].
  - destruct (position f l) as [k|] eqn:P; [|discriminate].
    injection H as <-. destruct (IH k eq_refl) as (y & Hy & Fy & Hb).
    exists y. cbn. split; [assumption|]. split; [assumption|].
    intros [|j] z Hj Hz; cbn in Hz; [now injection Hz as <-|].
    apply (Hb j); [lia|assumption].
Qed.

Lemma position_none {A} (f : A -> bool) l :
  position f l = None <-> (forall x, In x l -> f x = false).
Proof.
  induction l as [|x l IH]; cbn; [split; [intros _ y []|reflexivity]|].
  destruct (f x) eqn:E.
  - split; [discriminate|]. intros H. rewrite (H x) in E by now left. discriminate.
  - destruct (position f l) as [k|]; cbn.
    + split; [discriminate|]. intros H. exfalso.
      assert (F : Some k = None) by (apply IH; intros y Hy; apply H; now right).
      discriminate.
    + split; [|reflexivity]. intros _ y [<-|Hy]; [assumption|].
      now apply IH.
Qed.

Lemma position_exists {A} (f : A -> bool) l x :
  In x l -> f x = true -> exists i, position f l = Some i.
Proof.
  intros Hx Fx. destruct (position f l) as [i|] eqn:P; [now exists i|].
  exfalso. rewrite position_none in P. rewrite (P x Hx) in Fx. discriminate.
Qed.

Lemma position_app {A} (f : A -> bool) l1 l2 i :
  position f l1 = Some i -> position f (l1 ++ l2)%list = Some i.
Proof.
  revert i. induction l1 as [|x l IH]; intros i H; cbn in *; [discriminate|].
  destruct (f x); [assumption|].
  destruct (position f l) as [k|]; [|discriminate].
  injection H as <-. now rewrite (IH k eq_refl).
Qed.

(** ** The columns of a FROM clause as slots *)
Definition name_of (t : table_ref) : string :=
  match t_alias t with Some a => a | None => t_table t end.

Definition tslots (from : list table_ref) : list (table_ref * string) :=
  concat (map (fun t => map (pair t) (t_cols t)) from).

Definition render (x : table_ref * string) : string :=
  match t_alias (fst x) with
  | Some a => a ++ "." ++ snd x
  | None => snd x
  end.

Definition plain_from (from : list table_ref) : Prop :=
  forall t, In t from ->
    dotless (name_of t) /\ forall c, In c (t_cols t) -> dotless c.

Lemma in_tslots from x : In x (tslots from) <-> In (fst x) from /\ In (snd x) (t_cols (fst x)).
Proof.
  unfold tslots. rewrite in_concat. split.
  - intros (l & Hl & Hx). rewrite in_map_iff in Hl. destruct Hl as (t & <- & Ht).
    rewrite in_map_iff in Hx. destruct Hx as (c & <- & Hc). now cbn.
  - intros [Ht Hc]. exists (map (pair (fst x)) (t_cols (fst x))). split.
    + apply in_map_iff. now exists (fst x).
    + apply in_map_iff. exists (snd x). destruct x. now cbn.
Qed.

Lemma from_columns_render from : plain_from from ->
  from_columns from = map render (tslots from).
Proof.
  unfold from_columns, tslots. induction from as [|t from IH]; intros H; cbn; [reflexivity|].
  rewrite map_app, <- IH.
  2:{ intros u Hu. apply H. now right. }
  f_equal. rewrite map_map. unfold scan_columns, render. cbn.
  destruct (H t) as [_ Hc]; [now left|].
  destruct (t_alias t) as [a|].
  - apply map_ext_in. intros c Hin. cbn. specialize (Hc c Hin).
    rewrite <- contains_dot_spec in Hc. now rewrite Hc.
  - now rewrite map_id.
Qed.

Lemma slots_tslots from :
  slots (map (fun t => Source (name_of t) (t_cols t)) from) =
  map (fun x => (name_of (fst x), snd x)) (tslots from).
Proof.
  unfold slots, tslots. induction from as [|t from IH]; cbn; [reflexivity|].
  rewrite map_app, <- IH, (map_map (pair t)). reflexivity.
Qed.

(** Which slot the model takes for [q.c] and for [c]. *)
Definition hit_alias (q c : string) (x : table_ref * string) : bool :=
  match t_alias (fst x) with
  | Some a => String.eqb a q && String.eqb (snd x) c
  | None => false
  end.
Definition hit_plain (c : string) (x : table_ref * string) : bool :=
  match t_alias (fst x) with
  | Some _ => false
  | None => String.eqb (snd x) c
  end.
Definition hit_any_alias (c : string) (x : table_ref * string) : bool :=
  match t_alias (fst x) with
  | Some _ => String.eqb (snd x) c
  | None => false
  end.

Lemma slot_dotless from x : plain_from from -> In x (tslots from) ->
  dotless (snd x) /\ (forall a, t_alias (fst x) = Some a -> dotless a).
Proof.
  intros H Hx. apply in_tslots in Hx as [Ht Hc].
  destruct (H _ Ht) as [Hn Hcs]. split; [now apply Hcs|].
  intros a E. unfold name_of in Hn. now rewrite E in Hn.
Qed.

Lemma eqb_pair_render from x q c : plain_from from -> In x (tslots from) ->
  dotless q -> dotless c ->
  String.eqb (q ++ "." ++ c) (render x) = hit_alias q c x.
Proof.
  intros H Hx Hq Hc. destruct (slot_dotless _ _ H Hx) as [Hs Ha].
  unfold render, hit_alias. destruct (t_alias (fst x)) as [a|] eqn:E.
  - specialize (Ha a eq_refl).
    destruct (String.eqb_spec (q ++ "." ++ c) (a ++ "." ++ snd x)) as [E2|N].
    + apply pair_inj in E2 as [-> ->]; try assumption. now rewrite !String.eqb_refl.
    + destruct (String.eqb_spec a q) as [->|]; [|reflexivity].
      destruct (String.eqb_spec (snd x) c) as [<-|]; [|reflexivity].
      now exfalso.
  - destruct (String.eqb_spec (q ++ "." ++ c) (snd x)) as [E2|]; [|reflexivity].
    exfalso. symmetry in E2. now apply dotless_pair_neq in E2.
Qed.

Lemma eqb_plain_render from x c : plain_from from -> In x (tslots from) -> dotless c ->
  String.eqb c (render x) = hit_plain c x.
Proof.
  intros H Hx Hc. destruct (slot_dotless _ _ H Hx) as [Hs Ha].
  unfold render, hit_plain. destruct (t_alias (fst x)) as [a|] eqn:E.
  - destruct (String.eqb_spec c (a ++ "." ++ snd x)) as [E2|]; [|reflexivity].
    exfalso. now apply dotless_pair_neq in E2.
  - apply String.eqb_sym.
Qed.

Lemma split_pair_render from x q c : plain_from from -> In x (tslots from) ->
  match split_dot (render x) with
  | [a; b] => String.eqb a q && String.eqb b c
  | _ => false
  end = hit_alias q c x.
Proof.
  intros H Hx. destruct (slot_dotless _ _ H Hx) as [Hs Ha].
  unfold render, hit_alias. destruct (t_alias (fst x)) as [a|] eqn:E.
  - now rewrite split_pair by (auto).
  - now rewrite split_dotless.
Qed.

Lemma split_snd_render from x c : plain_from from -> In x (tslots from) ->
  match split_dot (render x) with
  | [_; b] => String.eqb b c
  | _ => false
  end = hit_any_alias c x.
Proof.
  intros H Hx. destruct (slot_dotless _ _ H Hx) as [Hs Ha].
  unfold render, hit_any_alias. destruct (t_alias (fst x)) as [a|] eqn:E.
  - now rewrite split_pair by (auto).
  - now rewrite split_dotless.
Qed.

Lemma compound_slots from q c : plain_from from -> dotless q -> dotless c ->
  parse_compound (from_columns from) q c =
  match position (hit_alias q c) (tslots from) with
  | Some i => Some i
  | None => position (hit_plain c) (tslots from)
  end.
Proof.
  intros H Hq Hc. rewrite (from_columns_render _ H).
  unfold parse_compound, get_qualified_column_index, get_column_index.
  rewrite pair_dotted, split_pair by assumption.
  rewrite !position_map.
  rewrite (position_ext (fun x => String.eqb (q ++ "." ++ c) (render x)) (hit_alias q c)) by
    (intros x Hx; now apply (eqb_pair_render from)).
  rewrite (position_ext (fun x => match split_dot (render x) with
    | [a; b] => String.eqb a q && String.eqb b c | _ => false end)
    (hit_alias q c) (tslots from)) by
    (intros x Hx; now apply (split_pair_render from)).
  rewrite (position_ext (fun x => String.eqb c (render x)) (hit_plain c)) by
    (intros x Hx; now apply (eqb_plain_render from)).
  destruct (position (hit_alias q c) (tslots from)) as [i|] eqn:P; [reflexivity|].
  destruct (position (hit_plain c) (tslots from)) as [i|] eqn:P2; [reflexivity|].
  match goal with |- match ?p with _ => _ end = _ => assert (E : p = None) end.
  { apply position_none. intros x Hx. rewrite position_none in P. specialize (P x Hx).
    rewrite (split_snd_render from) by assumption.
    destruct (slot_dotless _ _ H Hx) as [Hs Ha].
    unfold hit_alias, hit_any_alias, render in *.
    destruct (t_alias (fst x)) as [a|] eqn:E; [|apply andb_false_r].
    destruct (starts_with (q ++ ".") (a ++ "." ++ snd x)) eqn:Pf; [|reflexivity].
    apply prefix_app_dot in Pf; [|assumption|now apply Ha].
    subst a. now rewrite String.eqb_refl in P. }
  now rewrite E.
Qed.

Lemma identifier_slots from c : plain_from from -> dotless c ->
  parse_identifier (from_columns from) c =
  match position (hit_plain c) (tslots from) with
  | Some i => Some i
  | None => position (hit_any_alias c) (tslots from)
  end.
Proof.
  intros H Hc. rewrite (from_columns_render _ H).
  unfold parse_identifier, get_qualified_column_index, get_column_index.
  pose proof Hc as Hc2. rewrite <- contains_dot_spec in Hc2. rewrite Hc2, !position_map.
  rewrite (position_ext (fun x => String.eqb c (render x)) (hit_plain c)) by
    (intros x Hx; now apply (eqb_plain_render from)).
  rewrite (position_ext (fun x => match split_dot (render x) with
    | [_; b] => String.eqb b c | _ => false end) (hit_any_alias c)) by
    (intros x Hx; now apply (split_snd_render from)).
  reflexivity.
Qed.

(** Two slots of the same item and column are the same slot. *)
Lemma slots_unique from : NoDup (map name_of from) ->
  (forall t, In t from -> NoDup (t_cols t)) ->
  forall i j q c,
    qualified_at (map (fun t => Source (name_of t) (t_cols t)) from) q c i ->
    qualified_at (map (fun t => Source (name_of t) (t_cols t)) from) q c j -> i = j.
Proof.
  intros Hn Hc. unfold qualified_at.
  assert (ND : NoDup (slots (map (fun t => Source (name_of t) (t_cols t)) from))).
  { unfold slots. revert Hn Hc. induction from as [|t from IH]; intros Hn Hc; cbn; [constructor|].
    cbn in Hn. inversion Hn as [|? ? Hni Hnd]; subst.
    assert (Happ : forall (l1 l2 : list (string * string)), NoDup l1 -> NoDup l2 ->
      (forall x, In x l1 -> ~ In x l2) -> NoDup (l1 ++ l2)%list).
    { induction l1 as [|x l1 IHl]; intros l2 N1 N2 D; cbn; [assumption|].
      inversion N1; subst. constructor.
      - rewrite in_app_iff. intros [F|F]; [contradiction|]. apply (D x); [now left|assumption].
      - apply IHl; try assumption. intros y Hy. apply D. now right. }
    apply Happ.
    - apply FinFun.Injective_map_NoDup; [intros ? ? E; now injection E|].
      apply Hc. now left.
    - apply IH; [assumption|]. intros u Hu. apply Hc. now right.
    - intros [q c] H1 H2. apply in_map_iff in H1 as (c' & E & _). injection E as <- _.
      apply in_concat in H2 as (l & Hl & Hx).
      rewrite map_map in Hl. apply in_map_iff in Hl as (u & <- & Hu). cbn in Hx.
      apply in_map_iff in Hx as (c2 & E2 & _). injection E2 as E3 _.
      apply Hni. rewrite <- E3. now apply in_map. }
  intros i j q c Hi Hj.
  apply (proj1 (NoDup_nth_error _) ND).
  - apply nth_error_Some. now rewrite Hi.
  - now rewrite Hi, Hj.
Qed.

Lemma qualified_slot from q c i :
  qualified_at (map (fun t => Source (name_of t) (t_cols t)) from) q c i <->
  exists t, nth_error (tslots from) i = Some (t, c) /\ name_of t = q.
Proof.
  unfold qualified_at. rewrite slots_tslots, nth_error_map.
  destruct (nth_error (tslots from) i) as [[t c']|]; cbn.
  - split.
    + intros E. injection E as <- <-. now exists t.
    + intros (u & E & <-). now injection E as -> ->.
  - split; [discriminate|]. intros (u & E & _). discriminate.
Qed.
