(** C93: a name in an expression stands for the column the SQL standard says it
    stands for. *)
From Coq Require Import Strings.String Strings.Ascii List Arith Bool Lia.
From Verif Require Import NameSpec NameModel NameProofs.
Import ListNotations.
Open Scope string_scope.

(** The FROM clause as the specification sees it. *)
Definition scope_of (from : list table_ref) : list source :=
  map (fun t => Source (match t_alias t with Some a => a | None => t_table t end)
                       (t_cols t)) from.

(** A legal FROM clause: identifiers without dots, every item known by a name
    of its own, no table with two columns of one name. *)
Definition legal_from (from : list table_ref) : Prop :=
  NoDup (map visible (scope_of from)) /\
  forall s, In s (scope_of from) ->
    dotless (visible s) /\ NoDup (columns s) /\ forall c, In c (columns s) -> dotless c.

Lemma legal_plain from : legal_from from -> plain_from from.
Proof.
  intros [_ H] t Ht. destruct (H (Source (name_of t) (t_cols t))) as (A & _ & B).
  - unfold scope_of. apply in_map_iff. exists t. now split.
  - now split.
Qed.

Lemma legal_unique from i j q c : legal_from from ->
  qualified_at (scope_of from) q c i -> qualified_at (scope_of from) q c j -> i = j.
Proof.
  intros [H1 H2] Hi Hj. apply (slots_unique from) with (q := q) (c := c); try assumption.
  - unfold scope_of in H1. rewrite map_map in H1. exact H1.
  - intros t Ht. apply (H2 (Source (name_of t) (t_cols t))).
    unfold scope_of. apply in_map_iff. exists t. now split.
Qed.

Lemma slot_at from q c i :
  qualified_at (scope_of from) q c i <->
  exists t, nth_error (tslots from) i = Some (t, c) /\ name_of t = q.
Proof. apply qualified_slot. Qed.

Lemma hit_alias_inv q c t c' : hit_alias q c (t, c') = true -> t_alias t = Some q /\ c' = c.
Proof.
  unfold hit_alias. cbn. destruct (t_alias t) as [a|]; [|discriminate].
  intros H. apply andb_prop in H as [H1 H2].
  apply String.eqb_eq in H1, H2. now subst.
Qed.

(** [q.c] with an alias [q] of an item that has a column [c]: that column,
    whatever the other items of the clause are. *)
Theorem c93_aliased_partial from q c t :
  legal_from from -> dotless q -> dotless c ->
  In t from -> t_alias t = Some q -> In c (t_cols t) ->
  exists i, parse_compound (from_columns from) q c = Some i /\
    right_answer (qualified_at (scope_of from) q c) (Some i).
Proof.
  intros HL Hq Hc Ht Ha Hin.
  rewrite (compound_slots _ _ _ (legal_plain _ HL) Hq Hc).
  destruct (position_exists (hit_alias q c) (tslots from) (t, c)) as [i P].
  - now apply in_tslots.
  - unfold hit_alias. cbn. now rewrite Ha, !String.eqb_refl.
  - rewrite P. exists i. split; [reflexivity|]. cbn.
    destruct (position_some _ _ _ P) as ([u c'] & Hn & Hh & _).
    apply hit_alias_inv in Hh as [Hu ->].
    assert (Q : qualified_at (scope_of from) q c i).
    { apply slot_at. exists u. split; [assumption|]. unfold name_of. now rewrite Hu. }
    split; [exact Q|]. intros j Hj. now apply (legal_unique from j i q c).
Qed.

(** When every item that has a column [c] has an alias, [q.c] is answered as
    it should be for every [q], the unknown ones included. *)
Theorem c93_all_aliased_partial from q c :
  legal_from from -> dotless q -> dotless c ->
  (forall t, In t from -> In c (t_cols t) -> t_alias t <> None) ->
  right_answer (qualified_at (scope_of from) q c) (parse_compound (from_columns from) q c).
Proof.
  intros HL Hq Hc Hall.
  rewrite (compound_slots _ _ _ (legal_plain _ HL) Hq Hc).
  destruct (position (hit_alias q c) (tslots from)) as [i|] eqn:P.
  - destruct (position_some _ _ _ P) as ([u c'] & Hn & Hh & _).
    apply hit_alias_inv in Hh as [Hu ->].
    assert (Q : qualified_at (scope_of from) q c i).
    { apply slot_at. exists u. split; [assumption|]. unfold name_of. now rewrite Hu. }
    split; [exact Q|]. intros j Hj. now apply (legal_unique from j i q c).
  - assert (E : position (hit_plain c) (tslots from) = None).
    { apply position_none. intros [t c'] Hx. unfold hit_plain. cbn.
      destruct (t_alias t) eqn:Ea; [reflexivity|].
      destruct (String.eqb_spec c' c) as [->|]; [|reflexivity].
      apply in_tslots in Hx as [Ht Hin]. cbn in *. now destruct (Hall t Ht Hin). }
    rewrite E. cbn. intros (i & Hi & _).
    apply slot_at in Hi as (t & Hn & Hname). apply nth_error_In in Hn as Hx.
    rewrite position_none in P. specialize (P _ Hx).
    apply in_tslots in Hx as [Ht Hin]. cbn in *.
    specialize (Hall t Ht Hin). unfold name_of in Hname. unfold hit_alias in P. cbn in P.
    destruct (t_alias t) as [a|]; [|easy]. subst a. now rewrite !String.eqb_refl in P.
Qed.

(** One table, with or without an alias, referred to by its own name. *)
Theorem c93_single_partial t c :
  legal_from [t] -> dotless c ->
  let q := match t_alias t with Some a => a | None => t_table t end in
  right_answer (qualified_at (scope_of [t]) q c) (parse_compound (from_columns [t]) q c) /\
  right_answer (unqualified_at (scope_of [t]) c) (parse_identifier (from_columns [t]) c).
Proof.
  intros HL Hc q. pose proof (legal_plain _ HL) as HP.
  assert (Hq : dotless q).
  { destruct (HP t) as [A _]; [now left|]. exact A. }
  assert (Hall : forall x, In x (tslots [t]) -> fst x = t).
  { intros x Hx. apply in_tslots in Hx as [[<-|[]] _]. reflexivity. }
  assert (Q : forall i, nth_error (tslots [t]) i = Some (t, c) <->
              qualified_at (scope_of [t]) q c i).
  { intros i. rewrite slot_at. split.
    - intros E. exists t. now split.
    - intros (u & E & _). apply nth_error_In in E as E2. specialize (Hall _ E2).
      cbn in Hall. now subst u. }
  assert (U : forall i, unqualified_at (scope_of [t]) c i <-> qualified_at (scope_of [t]) q c i).
  { intros i. split.
    - intros [q' E]. pose proof E as E2. apply slot_at in E2 as (u & E2 & Hu).
      apply nth_error_In in E2 as E3. specialize (Hall _ E3). cbn in Hall. subst u.
      unfold name_of in Hu. fold q in Hu. now subst q'.
    - intros E. now exists q. }
  rewrite (compound_slots _ _ _ HP Hq Hc), (identifier_slots _ _ HP Hc).
  assert (R : forall o, (forall i, o = Some i -> nth_error (tslots [t]) i = Some (t, c)) ->
     (o = None -> ~ In (t, c) (tslots [t])) ->
     right_answer (qualified_at (scope_of [t]) q c) o /\
     right_answer (unqualified_at (scope_of [t]) c) o).
  { intros [i|] HS HN; cbn.
    - specialize (HS i eq_refl). apply Q in HS. split; split.
      + exact HS.
      + intros j Hj. now apply (legal_unique [t] j i q c).
      + now apply U.
      + intros j Hj. apply U in Hj. now apply (legal_unique [t] j i q c).
    - specialize (HN eq_refl). split; intros (i & Hi & _); [|apply U in Hi];
      apply Q in Hi; apply HN; now apply nth_error_In in Hi. }
  assert (HS : forall f, (forall c', f (t, c') = true -> c' = c) ->
     forall i, position f (tslots [t]) = Some i -> nth_error (tslots [t]) i = Some (t, c)).
  { intros f Hf i P. destruct (position_some _ _ _ P) as ([u c'] & Hn & Hh & _).
    apply nth_error_In in Hn as Hx. specialize (Hall _ Hx). cbn in Hall. subst u.
    apply Hf in Hh. now subst c'. }
  assert (HN : forall f, f (t, c) = true -> position f (tslots [t]) = None ->
     ~ In (t, c) (tslots [t])).
  { intros f Hf P Hx. rewrite position_none in P. rewrite (P _ Hx) in Hf. discriminate. }
  assert (Hcase : (hit_alias q c (t, c) = true /\ hit_any_alias c (t, c) = true /\
      (forall c', hit_plain c (t, c') = false)) \/
      (hit_plain c (t, c) = true /\ (forall c', hit_alias q c (t, c') = false) /\
      (forall c', hit_any_alias c (t, c') = false))).
  { unfold hit_alias, hit_any_alias, hit_plain, q. cbn.
    destruct (t_alias t); [left|right]; rewrite ?String.eqb_refl; auto. }
  assert (Hnone : forall f, (forall c', f (t, c') = false) -> position f (tslots [t]) = None).
  { intros f Hf. apply position_none. intros [u c'] Hx. specialize (Hall _ Hx).
    cbn in Hall. subst u. apply Hf. }
  assert (IA : forall c', hit_alias q c (t, c') = true -> c' = c)
    by (intros c' F; now apply hit_alias_inv in F).
  assert (IP : forall c', hit_plain c (t, c') = true -> c' = c).
  { intros c' F. unfold hit_plain in F. cbn in F.
    destruct (t_alias t); [discriminate|]. now apply String.eqb_eq in F. }
  assert (IN : forall c', hit_any_alias c (t, c') = true -> c' = c).
  { intros c' F. unfold hit_any_alias in F. cbn in F.
    destruct (t_alias t); [|discriminate]. now apply String.eqb_eq in F. }
  destruct Hcase as [(A & B & C)|(A & B & C)].
  - rewrite (Hnone _ C). split.
    + destruct (position (hit_alias q c) (tslots [t])) as [i|] eqn:P.
      * apply R; [intros k E; injection E as <-; now apply (HS _ IA)|discriminate].
      * apply R; [discriminate|]. intros _. now apply (HN _ A).
    + apply R; [now apply (HS _ IN)|]. intros P. now apply (HN _ B).
  - rewrite (Hnone _ B), (Hnone _ C). split.
    + apply R; [now apply (HS _ IP)|]. intros P. now apply (HN _ A).
    + destruct (position (hit_plain c) (tslots [t])) as [i|] eqn:P.
      * apply R; [intros k E; injection E as <-; now apply (HS _ IP)|discriminate].
      * apply R; [discriminate|]. intros _. now apply (HN _ A).
Qed.

(** An unqualified name that is not ambiguous. *)
Theorem c93_unqualified_partial from c :
  legal_from from -> dotless c ->
  (forall i j, unqualified_at (scope_of from) c i ->
               unqualified_at (scope_of from) c j -> i = j) ->
  right_answer (unqualified_at (scope_of from) c) (parse_identifier (from_columns from) c).
Proof.
  intros HL Hc Hun. rewrite (identifier_slots _ _ (legal_plain _ HL) Hc).
  assert (S1 : forall i u, nth_error (tslots from) i = Some (u, c) ->
            right_answer (unqualified_at (scope_of from) c) (Some i)).
  { intros i u Hn. assert (A : unqualified_at (scope_of from) c i).
    { exists (name_of u). apply slot_at. now exists u. }
    split; [exact A|]. intros j Hj. now apply Hun. }
  destruct (position (hit_plain c) (tslots from)) as [i|] eqn:P.
  - destruct (position_some _ _ _ P) as ([u c'] & Hn & Hh & _).
    unfold hit_plain in Hh. cbn in Hh. destruct (t_alias u); [discriminate|].
    apply String.eqb_eq in Hh. subst c'. now apply (S1 i u).
  - destruct (position (hit_any_alias c) (tslots from)) as [i|] eqn:P2.
    + destruct (position_some _ _ _ P2) as ([u c'] & Hn & Hh & _).
      unfold hit_any_alias in Hh. cbn in Hh. destruct (t_alias u); [|discriminate].
      apply String.eqb_eq in Hh. subst c'. now apply (S1 i u).
    + cbn. intros (i & [q Hi] & _). apply slot_at in Hi as (t & Hn & _).
      apply nth_error_In in Hn. rewrite position_none in P, P2.
      specialize (P _ Hn). specialize (P2 _ Hn).
      unfold hit_plain, hit_any_alias in *. cbn in *.
      destruct (t_alias t); now rewrite String.eqb_refl in *.
Qed.

(** An ambiguous name is never refused: it silently stands for one of the
    candidates. *)
Theorem c93_ambiguous_refuted from c i j :
  legal_from from -> dotless c ->
  unqualified_at (scope_of from) c i -> unqualified_at (scope_of from) c j -> i <> j ->
  exists k, parse_identifier (from_columns from) c = Some k /\
    ~ right_answer (unqualified_at (scope_of from) c) (Some k).
Proof.
  intros HL Hc Hi Hj Hij. rewrite (identifier_slots _ _ (legal_plain _ HL) Hc).
  assert (K : exists k, match position (hit_plain c) (tslots from) with
              | Some i => Some i
              | None => position (hit_any_alias c) (tslots from) end = Some k).
  { destruct (position (hit_plain c) (tslots from)) as [k|] eqn:P; [now exists k|].
    destruct Hi as [q Hi]. apply slot_at in Hi as (t & Hn & _). apply nth_error_In in Hn.
    apply (position_exists _ _ (t, c) Hn).
    rewrite position_none in P. specialize (P _ Hn).
    unfold hit_plain, hit_any_alias in *. cbn in *.
    destruct (t_alias t); now rewrite String.eqb_refl in *. }
  destruct K as [k K]. exists k. split; [exact K|].
  cbn. intros [_ F]. apply Hij. rewrite (F i Hi), (F j Hj). reflexivity.
Qed.

(** A reference to a table that is not in the FROM clause is accepted as soon
    as some table without an alias has a column of that name. *)
Theorem c93_unknown_table_refuted from q c t :
  legal_from from -> dotless q -> dotless c ->
  (forall s, In s (scope_of from) -> visible s <> q) ->
  In t from -> t_alias t = None -> In c (t_cols t) ->
  exists i, parse_compound (from_columns from) q c = Some i /\
    ~ right_answer (qualified_at (scope_of from) q c) (Some i).
Proof.
  intros HL Hq Hc Hno Ht Ha Hin.
  rewrite (compound_slots _ _ _ (legal_plain _ HL) Hq Hc).
  assert (N : forall i, ~ qualified_at (scope_of from) q c i).
  { intros i Hi. apply slot_at in Hi as (u & Hn & Hu). apply nth_error_In in Hn.
    apply in_tslots in Hn as [Hu2 _]. cbn in Hu2.
    apply (Hno (Source (name_of u) (t_cols u))); [|exact Hu].
    unfold scope_of. apply in_map_iff. now exists u. }
  destruct (position (hit_alias q c) (tslots from)) as [i|] eqn:P.
  - exists i. split; [reflexivity|]. intros [F _]. now apply (N i).
  - destruct (position_exists (hit_plain c) (tslots from) (t, c)) as [i P2].
    + now apply in_tslots.
    + unfold hit_plain. cbn. now rewrite Ha, String.eqb_refl.
    + exists i. split; [assumption|]. intros [F _]. now apply (N i).
Qed.

(** Two tables without aliases that share a column name: the second table's
    column cannot be named, [b.c] is [a.c]. *)
Theorem c93_no_alias_refuted a b c :
  legal_from [a; b] -> dotless c -> t_alias a = None -> t_alias b = None ->
  In c (t_cols a) -> In c (t_cols b) ->
  exists i, parse_compound (from_columns [a; b]) (t_table b) c = Some i /\
    qualified_at (scope_of [a; b]) (t_table a) c i /\
    ~ right_answer (qualified_at (scope_of [a; b]) (t_table b) c) (Some i).
Proof.
  intros HL Hc Ha Hb Hca Hcb. pose proof (legal_plain _ HL) as HP.
  assert (Hq : dotless (t_table b)).
  { destruct (HP b) as [A _]; [right; now left|]. unfold name_of in A. now rewrite Hb in A. }
  rewrite (compound_slots _ _ _ HP Hq Hc).
  assert (NA : position (hit_alias (t_table b) c) (tslots [a; b]) = None).
  { apply position_none. intros [u c'] Hx. apply in_tslots in Hx as [Hu _]. cbn in Hu.
    unfold hit_alias. cbn. destruct Hu as [<-|[<-|[]]]; [now rewrite Ha|now rewrite Hb]. }
  rewrite NA.
  destruct (position_exists (hit_plain c) (map (pair a) (t_cols a)) (a, c)) as [i P].
  { apply in_map_iff. now exists c. }
  { unfold hit_plain. cbn. now rewrite Ha, String.eqb_refl. }
  assert (P2 : position (hit_plain c) (tslots [a; b]) = Some i).
  { unfold tslots. cbn. now apply position_app. }
  exists i. split; [exact P2|].
  destruct (position_some _ _ _ P) as ([u c'] & Hn & Hh & _).
  assert (E : u = a /\ c' = c).
  { apply nth_error_In in Hn. apply in_map_iff in Hn as (c2 & E & _). injection E as <- <-.
    split; [reflexivity|]. unfold hit_plain in Hh. cbn in Hh. rewrite Ha in Hh.
    now apply String.eqb_eq in Hh. }
  destruct E as [-> ->].
  assert (Q : qualified_at (scope_of [a; b]) (t_table a) c i).
  { apply slot_at. exists a. split.
    - unfold tslots. cbn. rewrite nth_error_app1; [exact Hn|].
      apply nth_error_Some. now rewrite Hn.
    - unfold name_of. now rewrite Ha. }
  split; [exact Q|]. intros [F _]. unfold qualified_at in Q, F. rewrite Q in F.
  injection F as F. destruct HL as [ND _]. unfold scope_of in ND. cbn in ND.
  rewrite Ha, Hb in ND. inversion ND as [|? ? Hni _]; subst. apply Hni. now left.
Qed.

(** An ON condition sees the items joined so far.  The column it finds there is
    still the right one when further items are joined. *)
Theorem c93_on_partial from more q c t :
  legal_from (from ++ more) -> dotless q -> dotless c ->
  In t from -> t_alias t = Some q -> In c (t_cols t) ->
  parse_compound (from_columns from) q c = parse_compound (from_columns (from ++ more)) q c.
Proof.
  intros HL Hq Hc Ht Ha Hin. pose proof (legal_plain _ HL) as HP.
  assert (HP1 : plain_from from).
  { intros u Hu. apply HP. apply in_app_iff. now left. }
  rewrite (compound_slots _ _ _ HP Hq Hc), (compound_slots _ _ _ HP1 Hq Hc).
  assert (E : tslots (from ++ more) = (tslots from ++ tslots more)%list).
  { unfold tslots. now rewrite map_app, concat_app. }
  rewrite E.
  destruct (position_exists (hit_alias q c) (tslots from) (t, c)) as [i P].
  - now apply in_tslots.
  - unfold hit_alias. cbn. now rewrite Ha, !String.eqb_refl.
  - now rewrite P, (position_app _ _ (tslots more) _ P).
Qed.

(** [SELECT *] is all columns in order; [SELECT q.*] is the columns of [q]. *)
Definition star_is (sc : list source) (q : option string) (l : list nat) : Prop :=
  l = filter (fun i => match nth_error (slots sc) i, q with
                       | Some (v, _), Some w => String.eqb v w
                       | Some _, None => true
                       | None, _ => false
                       end) (seq 0 (length (slots sc))).

Lemma from_columns_length from : length (from_columns from) = length (slots (scope_of from)).
Proof.
  unfold from_columns, slots, scope_of. induction from as [|t from IH]; cbn; [reflexivity|].
  rewrite !app_length, IH. f_equal. unfold scan_columns.
  destruct (t_alias t); now rewrite ?map_length.
Qed.

Theorem c93_star from : star_is (scope_of from) None (expand_star (from_columns from) None).
Proof.
  unfold star_is, expand_star. rewrite from_columns_length. symmetry.
  assert (G : forall l : list nat, (forall i, In i l -> i < length (slots (scope_of from))) ->
    filter (fun i => match nth_error (slots (scope_of from)) i with
                     | Some _ => true | None => false end) l = l).
  { induction l as [|i l IH]; intros H; cbn; [reflexivity|].
    destruct (nth_error (slots (scope_of from)) i) eqn:E.
    - f_equal. apply IH. intros j Hj. apply H. now right.
    - exfalso. apply nth_error_None in E. specialize (H i (or_introl eq_refl)). lia. }
  etransitivity; [|apply (G (seq 0 (length (slots (scope_of from)))))].
  - apply filter_ext. intros i. destruct (nth_error _ i) as [[? ?]|]; reflexivity.
  - intros i Hi. apply in_seq in Hi. lia.
Qed.

(** [SELECT q.*] is wrong whenever an item other than [q] has a column. *)
Theorem c93_star_qualified_refuted from q s :
  In s (scope_of from) -> visible s <> q -> columns s <> [] ->
  ~ star_is (scope_of from) (Some q) (expand_star (from_columns from) (Some q)).
Proof.
  intros Hs Hv Hc H. unfold star_is, expand_star in H. rewrite from_columns_length in H.
  destruct (columns s) as [|c cs] eqn:Ec; [now apply Hc|].
  assert (Hin : In (visible s, c) (slots (scope_of from))).
  { unfold slots. apply in_concat. exists (map (pair (visible s)) (columns s)). split.
    - apply in_map_iff. now exists s.
    - rewrite Ec. now left. }
  apply In_nth_error in Hin as [i Hi].
  assert (Hi2 : In i (seq 0 (length (slots (scope_of from))))).
  { apply in_seq. split; [lia|]. apply nth_error_Some. now rewrite Hi. }
  rewrite H in Hi2. apply filter_In in Hi2 as [_ F]. rewrite Hi in F.
  apply String.eqb_eq in F. now apply Hv.
Qed.

(** Two items may be given the same alias; a reference to it is not refused. *)
Theorem c93_duplicate_alias_refuted :
  exists from q c i, parse_compound (from_columns from) q c = Some i /\
    ~ right_answer (qualified_at (scope_of from) q c) (Some i).
Proof.
  exists [TableRef "orders" (Some "x") ["id"]; TableRef "items" (Some "x") ["id"]], "x", "id", 0.
  split; [reflexivity|]. intros [_ F]. discriminate (F 1 eq_refl).
Qed.

(** A quoted column name with a dot in it captures a qualified reference. *)
Theorem c93_quoted_refuted :
  exists from q c i, parse_compound (from_columns from) q c = Some i /\
    ~ qualified_at (scope_of from) q c i /\ (exists j, qualified_at (scope_of from) q c j).
Proof.
  exists [TableRef "u" None ["t.c"]; TableRef "v" (Some "t") ["c"]], "t", "c", 0.
  split; [reflexivity|]. split; [discriminate|]. now exists 1.
Qed.

(** Unquoted names that differ only in case are the same name, but a column
    created as [Id] cannot be referred to as [id]. *)
Theorem c93_case_refuted :
  exists t c, In c (t_cols t) /\ same_name c "id" = true /\
    parse_identifier (from_columns [t]) "id" = None /\
    parse_compound (from_columns [t]) (t_table t) "id" = None.
Proof. exists (TableRef "users" None ["Id"; "name"]), "Id". repeat split. now left. Qed.

(** ** The hypotheses are met *)
Definition ex_from : list table_ref :=
  [TableRef "users" (Some "u") ["id"; "name"]; TableRef "orders" (Some "o") ["id"; "user_id"];
   TableRef "cities" None ["city"; "user_id"]].

Lemma dotless_bool s : contains_dot s = false -> dotless s.
Proof. apply contains_dot_spec. Qed.

Example c93_legal_ex : legal_from ex_from.
Proof.
  split.
  - cbn. repeat (constructor; [cbn; intuition discriminate|]). constructor.
  - intros s [<-|[<-|[<-|[]]]]; cbn; (split; [now apply dotless_bool|]);
      (split; [repeat (constructor; [cbn; intuition discriminate|]); constructor|]);
      intros c [<-|[<-|[]]]; now apply dotless_bool.
Qed.
Example c93_aliased_ex : parse_compound (from_columns ex_from) "o" "id" = Some 2.
Proof. reflexivity. Qed.
Example c93_all_aliased_ex : parse_compound (from_columns ex_from) "z" "name" = None.
Proof. reflexivity. Qed.
Example c93_unqualified_ex : parse_identifier (from_columns ex_from) "name" = Some 1.
Proof. reflexivity. Qed.
Example c93_unknown_table_ex : parse_compound (from_columns ex_from) "zzz" "user_id" = Some 5.
Proof. reflexivity. Qed.
Example c93_ambiguous_ex : parse_identifier (from_columns ex_from) "user_id" = Some 5 /\
  unqualified_at (scope_of ex_from) "user_id" 3 /\ unqualified_at (scope_of ex_from) "user_id" 5.
Proof. split; [reflexivity|]. split; eexists; reflexivity. Qed.
Example c93_no_alias_ex :
  let a := TableRef "users" None ["id"; "name"] in
  let b := TableRef "orders" None ["id"; "user_id"] in
  parse_compound (from_columns [a; b]) "orders" "id" = Some 0.
Proof. reflexivity. Qed.
Example c93_on_ex :
  parse_compound (from_columns (firstn 2 ex_from)) "o" "user_id" = Some 3.
Proof. reflexivity. Qed.
Example c93_star_ex : expand_star (from_columns ex_from) (Some "o") = [0; 1; 2; 3; 4; 5].
Proof. reflexivity. Qed.

Print Assumptions c93_aliased_partial.
Print Assumptions c93_all_aliased_partial.
Print Assumptions c93_single_partial.
Print Assumptions c93_unqualified_partial.
Print Assumptions c93_ambiguous_refuted.
Print Assumptions c93_unknown_table_refuted.
Print Assumptions c93_no_alias_refuted.
Print Assumptions c93_on_partial.
Print Assumptions c93_star.
Print Assumptions c93_star_qualified_refuted.
Print Assumptions c93_duplicate_alias_refuted.
Print Assumptions c93_quoted_refuted.
Print Assumptions c93_case_refuted.
