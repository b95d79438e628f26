(** C123: a VALUES query returns the rows it writes down. *)
From Coq Require Import ZArith NArith Lia.
From stdpp Require Import list.
From Verif Require Import CastSpec CastModel VqSpec VqModel.
Local Open Scope Z_scope.

Section Values.
Context (sd : Z -> nat -> list N) (rd rf : list N -> option (Z * nat)).
Context (f32 : Z -> nat -> Z * nat) (ch : cty -> list N -> option Z).
Notation query := (values_query sd rd rf f32 ch).
Notation to_col := (to_column sd rd rf f32 ch).

Lemma in_range_true t lo hi z : range t = Some (lo, hi) -> in_range t z = true <-> lo <= z <= hi.
Proof. intros E. unfold in_range. rewrite E. rewrite andb_true_iff, !Z.leb_le. reflexivity. Qed.

Lemma whole_value z : 0 <= z < 2 ^ 63 -> exists v, cell_value (Whole z) = Some (Some v) /\
  ((z < 2 ^ 31 /\ to_col (Some v) (Some TInt) = Some (Some (VInt z))) \/
   (2 ^ 31 <= z /\ to_col (Some v) (Some TInt) = None)).
Proof.
  intros Hz. cbn [cell_value].
  destruct (in_range TTiny z) eqn:E1.
  { exists (VTiny z). split; [reflexivity|]. left. apply (in_range_true TTiny _ _ z eq_refl) in E1.
    split; [lia|reflexivity]. }
  destruct (in_range TSmall z) eqn:E2.
  { exists (VSmall z). split; [reflexivity|]. left. apply (in_range_true TSmall _ _ z eq_refl) in E2.
    split; [lia|reflexivity]. }
  destruct (in_range TInt z) eqn:E3.
  { exists (VInt z). split; [reflexivity|]. left. apply (in_range_true TInt _ _ z eq_refl) in E3.
    split; [lia|reflexivity]. }
  destruct (in_range TBig z) eqn:E4.
  { exists (VBig z). split; [reflexivity|]. right. split.
    - destruct (decide (2 ^ 31 <= z)) as [?|N]; [assumption|]. exfalso.
      assert (X : in_range TInt z = true) by (apply (in_range_true TInt _ _ z eq_refl); lia). congruence.
    - unfold to_column, cast_to. rewrite decide_False by discriminate.
      unfold cast_int. rewrite E3. reflexivity. }
  exfalso. assert (X : in_range TBig z = true) by (apply (in_range_true TBig _ _ z eq_refl); lia). congruence.
Qed.

(** A simple cell and one of its kind. *)
Lemma cell_ok a b : simple a -> same_kind a b ->
  exists v x, cell_value b = Some v /\ to_col v (infer a) = Some x /\ shows b x.
Proof.
  intros S K. destruct a as [za|?|sa|ba| |?]; try contradiction; destruct b as [zb|?|sb|bb| |?]; try contradiction.
  - destruct (whole_value zb) as (v & E & [[_ C]|[? _]]); [cbn in K; lia| |cbn in K; lia].
    exists (Some v), (Some (VInt zb)). split; [exact E|]. split; [exact C|].
    exists zb, O. split; [reflexivity|lia].
  - eexists _, _. split; [reflexivity|]. split; [reflexivity|]. exact I.
  - eexists _, _. split; [reflexivity|]. split; [reflexivity|]. reflexivity.
  - eexists _, _. split; [reflexivity|]. split; [reflexivity|]. exact I.
  - eexists _, _. split; [reflexivity|]. split; [reflexivity|]. reflexivity.
  - eexists _, _. split; [reflexivity|]. split; [reflexivity|]. exact I.
Qed.

Lemma row_ok first r : Forall simple first -> Forall2 same_kind first r ->
  exists vs xs, mapM cell_value r = Some vs /\ evaluate_row sd rd rf f32 ch vs (map infer first) = Some xs /\
    Forall2 shows r xs.
Proof.
  intros S K. induction K as [|a b first r Hab K IH].
  - exists [], []. repeat split; constructor.
  - inversion_clear S as [|? ? Sa S1]. destruct (IH S1) as (vs & xs & E & Ev & F).
    destruct (cell_ok a b Sa Hab) as (v & x & Ec & Et & Sh).
    exists (v :: vs), (x :: xs). cbn [mapM]. rewrite Ec, E. split; [reflexivity|].
    cbn [map evaluate_row]. rewrite Et, Ev. split; [reflexivity|]. now constructor.
Qed.

Lemma rows_ok first rows : Forall simple first -> Forall (Forall2 same_kind first) rows ->
  exists planned out, plan_rows (length (map infer first)) rows = Some planned /\
    drain sd rd rf f32 ch (map infer first) planned = (out, false) /\ table_shows rows out.
Proof.
  intros S F. induction F as [|r rows K F (planned & out & E & D & T)].
  - exists [], []. repeat split; constructor.
  - destruct (row_ok first r S K) as (vs & xs & Em & Ev & Sh).
    exists (vs :: planned), (xs :: out). cbn [plan_rows].
    rewrite decide_True by (rewrite map_length; symmetry; exact (Forall2_length _ _ _ K)).
    rewrite Em, E. split; [reflexivity|]. cbn [drain]. rewrite Ev, D. split; [reflexivity|]. now constructor.
Qed.
End Values.

(** C123, for tables whose first row has whole numbers of the type INTEGER, texts and
    truth values, and whose other rows have cells of the same kind or NULL: the query runs
    to its end and returns every row as it is written, in order.  Missing, and false:
    numbers with a point, larger numbers, expressions and NULL in the first row (below). *)
Theorem c123_values_partial : forall sd rd rf f32 ch first rest,
  Forall simple first -> Forall (Forall2 same_kind first) rest ->
  exists out, values_query sd rd rf f32 ch (first :: rest) = Ran out false /\
    table_shows (first :: rest) out.
Proof.
  intros sd rd rf f32 ch first rest S F.
  assert (K : Forall2 same_kind first first).
  { clear -S. induction S as [|c first H S IH]; constructor; [|exact IH]. destruct c; cbn in *; auto. }
  destruct (rows_ok sd rd rf f32 ch first (first :: rest) S) as (planned & out & E & D & T); [now constructor|].
  exists out. split; [|exact T]. unfold values_query. rewrite E. cbn zeta. now rewrite D.
Qed.
Print Assumptions c123_values_partial.

(** [VALUES (1, 'a'), (70000, NULL)]. *)
Example c123_values_ex : let first := [Whole 1; Text [97%N]] in let second := [Whole 70000; Null] in
  Forall simple first /\ Forall (Forall2 same_kind first) [second] /\
  forall sd rd rf f32 ch, values_query sd rd rf f32 ch [first; second] =
    Ran [[Some (VInt 1); Some (VVar [97%N])]; [Some (VInt 70000); Some (VNull TVar)]] false.
Proof. repeat split; repeat constructor; cbn; lia. Qed.

(** C123: rows of different lengths are refused. *)
Theorem c123_lengths : forall sd rd rf f32 ch first rest r,
  r ∈ rest -> length r <> length first -> values_query sd rd rf f32 ch (first :: rest) = Refused.
Proof.
  intros sd rd rf f32 ch first rest r Hr Ne. unfold values_query. cbn zeta. rewrite map_length.
  assert (X : forall rows, r ∈ rows -> plan_rows (length first) rows = None).
  { induction rows as [|x rows IH]; intros H; [now apply elem_of_nil in H|].
    cbn [plan_rows]. apply elem_of_cons in H as [<-|H].
    - now rewrite decide_False.
    - destruct (decide (length x = length first)); [|reflexivity].
      rewrite (IH H). now destruct (mapM cell_value x). }
  rewrite X; [reflexivity|]. apply elem_of_cons. now right.
Qed.
Print Assumptions c123_lengths.

Example c123_lengths_ex : [Whole 1] ∈ [[Whole 1]] /\ length [Whole 1] <> length [Whole 1; Whole 2].
Proof. split; [apply elem_of_cons; now left|discriminate]. Qed.

(** ** What is false *)

(** Numbers with a point: a column of numbers is returned cut to whole numbers, so that
    [VALUES (1.5)] returns 1, without an error; whatever the numbers are. *)
Lemma not_cut n k z : ~ (2 ^ Z.of_nat k | n) -> ~ shows (Point n k) (Some (VInt z)).
Proof.
  intros Nd (m & j & E & H). injection E as <- <-. apply Nd. exists z. lia.
Qed.
Theorem c123_point_refuted : forall sd rd rf f32 ch cells, cells <> [] -> Forall numeric cells ->
  values_query sd rd rf f32 ch (map (fun c => [c]) cells) =
    Ran (map (fun c => [Some (VInt (cut_to_integer c))]) cells) false /\
  forall n k z, ~ (2 ^ Z.of_nat k | n) -> ~ shows (Point n k) (Some (VInt z)).
Proof.
  intros sd rd rf f32 ch cells Ne F. split; [|intros n k z; apply not_cut].
  assert (X : exists planned, plan_rows 1 (map (fun c => [c]) cells) = Some planned /\
            drain sd rd rf f32 ch [Some TInt] planned =
              (map (fun c => [Some (VInt (cut_to_integer c))]) cells, false)).
  { clear Ne. induction F as [|c cells Hc F (planned & E & D)]; [now exists []|].
    cbn [map plan_rows]. rewrite decide_True by reflexivity. rewrite E.
    destruct c as [z|n k| | | |]; try contradiction.
    - destruct (whole_value sd rd rf f32 ch z) as (v & Ev & [[_ C]|[? _]]); [cbn in Hc; lia| |cbn in Hc; lia].
      cbn [mapM]. rewrite Ev. eexists. split; [reflexivity|]. cbn [drain evaluate_row].
      rewrite C. cbn. rewrite D. reflexivity.
    - eexists. split; [reflexivity|]. cbn [drain evaluate_row]. cbn [to_column].
      unfold cast_to. rewrite decide_False by discriminate. cbn. rewrite D. reflexivity. }
  destruct X as (planned & E & D). destruct cells as [|c cells]; [congruence|].
  assert (Ei : infer c = Some TInt) by (inversion F as [|? ? Hc _]; destruct c; try contradiction; reflexivity).
  unfold values_query. cbn [map length] in *. rewrite Ei, E, D. reflexivity.
Qed.
Print Assumptions c123_point_refuted.

Example c123_point_ex : Forall numeric [Point 3 1; Whole 2; Point 7 2] /\
  map cut_to_integer [Point 3 1; Whole 2; Point 7 2] = [1; 2; 1] /\ ~ (2 ^ Z.of_nat 1 | 3).
Proof.
  split; [repeat constructor; cbn; lia|]. split; [reflexivity|]. intros [m H]. cbn in H. lia.
Qed.

(** Whole numbers beyond the type INTEGER: [VALUES (3000000000)] fails, though [SELECT
    3000000000] does not; in a column of numbers the rows before are returned, then the query
    fails. *)
Theorem c123_large_refuted : forall sd rd rf f32 ch cells z rest,
  Forall numeric cells -> 2 ^ 31 <= z < 2 ^ 63 -> Forall readable rest ->
  values_query sd rd rf f32 ch (map (fun c => [c]) (cells ++ Whole z :: rest)) =
    Ran (map (fun c => [Some (VInt (cut_to_integer c))]) cells) true.
Proof.
  intros sd rd rf f32 ch cells z rest F Hz Fr.
  assert (Y : exists planned, plan_rows 1 (map (fun c => [c]) rest) = Some planned).
  { induction Fr as [|c rest Hc Fr (planned & E)]; [now exists []|].
    cbn [map plan_rows]. rewrite decide_True by reflexivity. rewrite E.
    assert (Ec : exists v, cell_value c = Some v).
    { destruct c as [w| | | | |]; try (eexists; reflexivity).
      destruct (whole_value sd rd rf f32 ch w Hc) as (v & Ev & _). eauto. }
    destruct Ec as [v Ev]. cbn [mapM]. rewrite Ev. eexists. reflexivity. }
  destruct Y as (planned0 & E0).
  assert (X : exists planned, plan_rows 1 (map (fun c => [c]) (cells ++ Whole z :: rest)) = Some planned /\
            drain sd rd rf f32 ch [Some TInt] planned =
              (map (fun c => [Some (VInt (cut_to_integer c))]) cells, true)).
  { induction F as [|c cells Hc F (planned & E & D)].
    - cbn [app map plan_rows]. rewrite decide_True by reflexivity. rewrite E0.
      destruct (whole_value sd rd rf f32 ch z) as (v & Ev & [[? _]|[_ C]]); [lia|lia|].
      cbn [mapM]. rewrite Ev. eexists. split; [reflexivity|]. cbn [drain evaluate_row]. now rewrite C.
    - cbn [app map plan_rows]. rewrite decide_True by reflexivity. rewrite E.
      destruct c as [w|n k| | | |]; try contradiction.
      + destruct (whole_value sd rd rf f32 ch w) as (v & Ev & [[_ C]|[? _]]); [cbn in Hc; lia| |cbn in Hc; lia].
        cbn [mapM]. rewrite Ev. eexists. split; [reflexivity|]. cbn [drain evaluate_row].
        rewrite C. cbn. rewrite D. reflexivity.
      + eexists. split; [reflexivity|]. cbn [drain evaluate_row]. cbn [to_column].
        unfold cast_to. rewrite decide_False by discriminate. cbn. rewrite D. reflexivity. }
  destruct X as (planned & E & D).
  assert (Ei : exists c l, cells ++ Whole z :: rest = c :: l /\ infer c = Some TInt).
  { destruct cells as [|c cells]; [now eexists _, _|]. exists c, (cells ++ Whole z :: rest). split; [reflexivity|].
    inversion F as [|? ? Hc _]. destruct c; try contradiction; reflexivity. }
  destruct Ei as (c & l & Ec & Ei). rewrite Ec in *. unfold values_query. cbn [map length] in *.
  rewrite Ei, E, D. reflexivity.
Qed.
Print Assumptions c123_large_refuted.

Example c123_large_ex : Forall numeric [Whole 1] /\ 2 ^ 31 <= 3000000000 < 2 ^ 63.
Proof. split; [repeat constructor; cbn; lia|lia]. Qed.

(** Expressions and NULL in the first row: if a column's first cell is an expression (as
    in [VALUES (-1)] or [VALUES (1 + 1)]) or NULL, then the query fails as soon as any row,
    also the first, has a value in that column; whatever the value. *)
Theorem c123_first_row_refuted : forall sd rd rf f32 ch first rest i c r d v out failed,
  first !! i = Some c -> (c = Null \/ exists w, c = Calc w) ->
  r ∈ first :: rest -> r !! i = Some d -> cell_value d = Some v -> ~ is_null v ->
  values_query sd rd rf f32 ch (first :: rest) = Ran out failed ->
  failed = true /\ (r = first -> out = []).
Proof.
  intros sd rd rf f32 ch first rest i c r d v out failed Hc Kc Hr Hd Ev Nn E.
  assert (Et : map infer first !! i = Some None).
  { rewrite list_lookup_fmap, Hc. cbn. destruct Kc as [->|[w ->]]; reflexivity. }
  unfold values_query in E. cbn zeta in E.
  destruct (plan_rows (length (map infer first)) (first :: rest)) as [planned|] eqn:Ep; [|discriminate E].
  destruct (drain sd rd rf f32 ch (map infer first) planned) as [out2 failed2] eqn:D. injection E as -> ->.
  assert (Z : forall r2 vs, mapM cell_value r2 = Some vs -> r2 !! i = Some d ->
            evaluate_row sd rd rf f32 ch vs (map infer first) = None).
  { clear -Et Ev Nn. revert Et. generalize (map infer first) as ts. induction i as [|i IH]; intros ts Et r2 vs M H2.
    - destruct r2 as [|e r2]; [discriminate H2|]. injection H2 as ->. cbn [mapM] in M. rewrite Ev in M. cbn in M.
      destruct (mapM cell_value r2) as [vs2|]; [|discriminate M]. injection M as <-.
      destruct ts as [|t ts]; [discriminate Et|]. injection Et as ->. cbn [evaluate_row].
      destruct v as [v|]; [|exfalso; apply Nn; exact I].
      destruct v; try reflexivity. exfalso. apply Nn. exact I.
    - destruct r2 as [|e r2]; [discriminate H2|]. cbn [mapM] in M.
      destruct (cell_value e) as [w|]; [|discriminate M]. cbn in M.
      destruct (mapM cell_value r2) as [vs2|] eqn:M2; [|discriminate M]. injection M as <-.
      destruct ts as [|t ts]; [discriminate Et|]. cbn [evaluate_row].
      rewrite (IH ts Et r2 vs2 M2 H2). now destruct (to_column sd rd rf f32 ch w t). }
  split.
  - clear Hc Kc. revert planned out failed Ep D. generalize (length (map infer first)) as n.
    revert Hr. generalize (first :: rest) as rows. induction rows as [|x rows IH]; intros Hr n planned out failed Ep D.
    + now apply elem_of_nil in Hr.
    + cbn [plan_rows] in Ep. destruct (decide (length x = n)); [|discriminate Ep].
      destruct (mapM cell_value x) as [vs|] eqn:M; [|discriminate Ep].
      destruct (plan_rows n rows) as [planned2|] eqn:Ep2; [|discriminate Ep]. injection Ep as <-.
      cbn [drain] in D. apply elem_of_cons in Hr as [->|Hr].
      * rewrite (Z x vs M Hd) in D. now injection D as _ <-.
      * destruct (evaluate_row sd rd rf f32 ch vs (map infer first)) as [xs|]; [|now injection D as _ <-].
        destruct (drain sd rd rf f32 ch (map infer first) planned2) as [out3 failed3] eqn:D2. injection D as _ <-.
        exact (IH Hr n planned2 out3 failed3 Ep2 D2).
  - intros ->. cbn [plan_rows] in Ep. destruct (decide _); [|discriminate Ep].
    destruct (mapM cell_value first) as [vs|] eqn:M; [|discriminate Ep].
    destruct (plan_rows (length (map infer first)) rest) as [planned2|]; [|discriminate Ep]. injection Ep as <-.
    cbn [drain] in D. rewrite (Z first vs M Hd) in D. now injection D as <- _.
Qed.
Print Assumptions c123_first_row_refuted.

(** [VALUES (1, -1)] and [VALUES (NULL), (1)]. *)
Example c123_first_row_ex : forall sd rd rf f32 ch,
  values_query sd rd rf f32 ch [[Whole 1; Calc (Some (VInt (-1)))]] = Ran [] true /\
  values_query sd rd rf f32 ch [[Null]; [Whole 1]] = Ran [[None]] true.
Proof. intros. split; reflexivity. Qed.
