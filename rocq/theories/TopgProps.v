(** C102: the first n rows of every group. C103: numbering the rows of every partition. *)
From Coq Require Import String ZArith List Bool Lia Permutation Sorted.
From stdpp Require list.
From Verif Require Import ExprModel ExprSpec ExecModel ExecSpec ExecProofs TopnModel TopnProofs TopgSpec TopgModel TopgProofs.
Import ListNotations.
Local Open Scope nat_scope.

(** An order in which the hash map is walked over. *)
Definition any_order (order : list (list val) -> list (list val)) : Prop := forall l, Permutation l (order l).

(** Every expression has a value on every row. *)
Definition has_keys (es : list expr) (rows : list row) : Prop := forall r e, In r rows -> In e es -> exists v, eval e r = Ok v.

Lemma has_keys_of es rows : has_keys es rows -> forall r, In r rows -> exists ks, keys_of es r = Some ks.
Proof.
  intros K r Hr. specialize (K r). induction es as [|e es IH]; [eexists; reflexivity|]. cbn.
  destruct (K e Hr (or_introl eq_refl)) as [v E]. rewrite E.
  destruct IH as [ks E2]; [intros e2 _ He; apply K; [exact Hr|right; exact He]|]. rewrite E2. eexists. reflexivity.
Qed.
Lemma plain_has_keys es rows : plain_keys es rows -> has_keys es rows.
Proof.
  intros (tys & T) r e Hr He. specialize (T r Hr). clear Hr. induction T as [|t x tys es (v & Ev & _) T IH]; [destruct He|].
  destruct He as [<-|He]; [exists v; exact Ev|exact (IH He)].
Qed.

Lemma all_desc specs : forallb snd specs = true -> map (fun e : expr => (e, true)) (topg_plan specs) = specs.
Proof.
  induction specs as [|[e d] specs IH]; cbn; [reflexivity|]. intros E. apply andb_true_iff in E as [E1 E2]. cbn in E1. subst d.
  f_equal. exact (IH E2).
Qed.

(** C102, what holds: for descending orders by keys that are not NULL, every group gives its first n rows,
    in the order asked for, and a group's rows come together. Missing: ascending orders, NULL keys and
    failing children, where it is false (below). *)
Theorem c102_descending_partial : forall n specs ges order rows again st out,
  any_order order -> forallb snd specs = true -> plain_keys (map fst specs) rows -> has_keys ges rows ->
  topg_start n (topg_plan specs) ges order (map Row rows) again = Some st -> produces topg_next st out ->
  exists rs, out = map Row rs /\ top_per_group n specs ges rows rs.
Proof.
  intros n specs ges order rows again st out O D P G S Q.
  destruct (topg_correct n (topg_plan specs) ges order rows again st O P (has_keys_of ges rows G) S) as (parts & tops & A & B & _ & C).
  rewrite (all_desc specs D) in B. exists (concat tops). split; [exact (produces_fun _ _ _ Q _ C)|]. exists parts, tops. auto.
Qed.
Print Assumptions c102_descending_partial.

(** C102. The groups come in ascending order of their keys, if these are not NULL. *)
Theorem c102_groups_ascend : forall n specs ges order rows again st out,
  any_order order -> forallb snd specs = true -> plain_keys (map fst specs) rows -> plain_keys ges rows ->
  topg_start n (topg_plan specs) ges order (map Row rows) again = Some st -> produces topg_next st out ->
  exists parts tops, grouping ges rows parts /\ Forall2 (first_n n specs) parts tops /\ groups_ascend ges parts /\
    out = map Row (concat tops).
Proof.
  intros n specs ges order rows again st out O D P G S Q.
  destruct (topg_correct n (topg_plan specs) ges order rows again st O P (has_keys_of ges rows (plain_has_keys _ _ G)) S)
    as (parts & tops & A & B & C & X).
  rewrite (all_desc specs D) in B. exists parts, tops. split; [exact A|]. split; [exact B|]. split; [exact (C G)|].
  exact (produces_fun _ _ _ Q _ X).
Qed.
Print Assumptions c102_groups_ascend.

(** C102. The executor does start and does come to an end. *)
Theorem c102_terminates : forall n specs ges order rows again,
  has_keys (map fst specs) rows -> has_keys ges rows ->
  exists st out, topg_start n (topg_plan specs) ges order (map Row rows) again = Some st /\ produces topg_next st out.
Proof.
  intros n specs ges order rows again Ks Kg.
  assert (E : forall gs, exists gs2, topg_fill n (topg_plan specs) ges (map Row rows) gs = Some (gs2, true)).
  { induction rows as [|r rows IH]; intros gs; cbn; [eexists; reflexivity|].
    destruct (has_keys_of _ _ Ks r (or_introl eq_refl)) as [ks E1]. destruct (has_keys_of _ _ Kg r (or_introl eq_refl)) as [gk E2].
    change (topg_plan specs) with (map fst specs). rewrite E1, E2. apply IH.
    - intros r2 e Hr. apply Ks. right. exact Hr.
    - intros r2 e Hr. apply Kg. right. exact Hr. }
  destruct (E []) as [gs2 E2]. unfold topg_start, topg_init. cbn [ts_init ts_groups]. rewrite E2. cbn [ts_init].
  eexists. eexists. split; [reflexivity|]. apply topg_produces.
Qed.
Print Assumptions c102_terminates.

Definition two (l : list (Z * Z)) : list row := map (fun '(a, b) => [VInt Integer a; VInt Integer b]) l.
Definition rows102 := two [(2, 5); (1, 7); (2, 9); (2, 6); (1, 3); (3, 1)]%Z.

Ltac start_of := eexists; eexists; split; [vm_compute; reflexivity|apply topg_produces].
Ltac plain_two := intros r Hr; cbn in Hr; repeat destruct Hr as [<-|Hr]; try destruct Hr;
  repeat constructor; eexists; split; reflexivity.

Example c102_ex : any_order (@rev (list val)) /\ forallb snd [(ECol 1, true)] = true /\ plain_keys [ECol 1] rows102 /\
  plain_keys [ECol 0] rows102 /\
  exists st, topg_start 2 (topg_plan [(ECol 1, true)]) [ECol 0] (@rev (list val)) (map Row rows102) [] = Some st /\
    produces topg_next st (map Row (two [(1, 7); (1, 3); (2, 9); (2, 6); (3, 1)]%Z)).
Proof.
  split; [intros l; apply Permutation_rev|]. split; [reflexivity|].
  split; [exists [TInt Integer]; plain_two|]. split; [exists [TInt Integer]; plain_two|].
  eexists. split; [vm_compute; reflexivity|]. match goal with |- produces _ (TS ?gs ?ks ?c ?b) _ => exact (topg_produces gs b ks c) end.
Qed.

(** C102 is false of the code for ascending orders, which are what a sort specification is by default: the
    largest row of the group is returned instead of the smallest. *)
Theorem c102_ascending_refuted : exists n specs ges rows st out,
  plain_keys (map fst specs) rows /\ plain_keys ges rows /\
  topg_start n (topg_plan specs) ges (fun l => l) (map Row rows) [] = Some st /\ produces topg_next st (map Row out) /\
  ~ top_per_group n specs ges rows out.
Proof.
  exists 1, [(ECol 1, false)], [ECol 0], (two [(1, 5); (1, 7)]%Z). eexists. exists (two [(1, 7)]%Z).
  split; [exists [TInt Integer]; plain_two|]. split; [exists [TInt Integer]; plain_two|].
  split; [vm_compute; reflexivity|].
  split; [match goal with |- produces _ (TS ?gs ?ks ?c ?b) _ => exact (topg_produces gs b ks c) end|].
  intros (parts & tops & [Gp Gs Gd Gn] & F & E).
  (* some group holds the row (1, 5) *)
  assert (In [VInt Integer 1; VInt Integer 5] (concat parts)) as H5 by (apply (Permutation_in _ Gp); cbn; auto).
  apply in_concat in H5 as (p & Hp & H5). apply in_split in Hp as (p1 & p2 & ->).
  apply Forall2_app_inv_l in F as (t1 & t2 & F1 & F2 & ->). inversion F2 as [|? t ? t2' Ft F2']; subst.
  destruct Ft as (om & Pm & L & _ & B).
  assert (Lt : length t = 1).
  { rewrite L. destruct p; [destruct H5|]. cbn. destruct (length p); reflexivity. }
  destruct t as [|a [|? ?]]; try discriminate Lt.
  assert (a = [VInt Integer 1; VInt Integer 7]) as ->.
  { assert (In a (two [(1, 7)]%Z)) as X by (rewrite E, concat_app; apply in_or_app; right; left; reflexivity).
    cbn in X. destruct X as [<-|[]]. reflexivity. }
  apply (B [VInt Integer 1; VInt Integer 7] [VInt Integer 1; VInt Integer 5]); [left; reflexivity| |].
  - apply (Permutation_in _ Pm) in H5. destruct H5 as [X|H5]; [discriminate X|exact H5].
  - exists [], (ECol 1), false, [], (VInt Integer 5), (VInt Integer 7).
    repeat split; try reflexivity; [intros ? ? []|]. right. reflexivity.
Qed.
Print Assumptions c102_ascending_refuted.

(** Whatever the directions, the plan is the same. *)
Theorem c102_directions_ignored : forall specs specs2, map fst specs = map fst specs2 -> topg_plan specs = topg_plan specs2.
Proof. intros specs specs2 E. exact E. Qed.
Print Assumptions c102_directions_ignored.

(** C102 is false of the code with NULL keys: the group's largest row is dropped for a smaller one. *)
Theorem c102_null_refuted : exists n specs ges rows st s a o x y,
  forallb snd specs = true /\ topg_start n (topg_plan specs) ges (fun l => l) (map Row rows) [] = Some st /\
  produces topg_next st (map Row s) /\ In a s /\ In o rows /\ ~ In o s /\ same_keys ges a o /\
  keys_of (map fst specs) a = Some [x] /\ keys_of (map fst specs) o = Some [y] /\ sql_order x y = Some Datatypes.Lt.
Proof.
  exists 2, [(ECol 0, true)], [], ([[VNull]] ++ [[VInt Integer 1]; [VInt Integer 2]]). eexists.
  eexists. exists [VInt Integer 1], [VInt Integer 2], (VInt Integer 1), (VInt Integer 2).
  split; [reflexivity|]. split; [vm_compute; reflexivity|].
  split; [match goal with |- produces _ (TS ?gs ?ks ?c ?b) _ => exact (topg_produces gs b ks c) end|].
  split; [vm_compute; auto|]. split; [cbn; auto|].
  split; [vm_compute; intros [E|[E|[]]]; discriminate E|]. split; [intros e []|]. repeat split.
Qed.
Print Assumptions c102_null_refuted.

(** C102 is false of the code when the child fails: whatever the child does, no error is ever reported; and
    if it fails on both attempts the answer is empty, whatever rows it had. *)
Theorem c102_child_error_refuted : forall n specs ges order child again st out,
  topg_start n (topg_plan specs) ges order child again = Some st -> produces topg_next st out ->
  ~ In Fail out /\ (In Fail child -> In Fail again -> out = []).
Proof.
  intros n specs ges order child again st out S Q.
  assert (X : forall l gs gs2, topg_fill n (topg_plan specs) ges l gs = Some (gs2, true) -> ~ In Fail l).
  { induction l as [|[r|] l IH]; intros gs gs2 E; cbn in E; [intros []| |discriminate].
    destruct (keys_of (topg_plan specs) r); [|discriminate]. destruct (keys_of ges r); [|discriminate].
    intros [Y|Y]; [discriminate Y|]. exact (IH _ _ E Y). }
  destruct st as [gs ks c b]. pose proof (produces_fun _ _ _ Q _ (topg_produces gs b ks c)) as ->. split.
  - intros Y. apply in_map_iff in Y as (r & Y & _). discriminate Y.
  - intros F1 F2. unfold topg_start, topg_init in S. cbn [ts_init ts_groups ts_keys ts_cur] in S.
    destruct (topg_fill n (topg_plan specs) ges child []) as [[g1 [|]]|] eqn:E1; [| |discriminate].
    { destruct (X _ _ _ E1 F1). }
    cbn [ts_init ts_groups ts_keys ts_cur] in S.
    destruct (topg_fill n (topg_plan specs) ges again g1) as [[g2 [|]]|] eqn:E2; [| |discriminate].
    { destruct (X _ _ _ E2 F2). }
    injection S as <- <- <- <-. reflexivity.
Qed.
Print Assumptions c102_child_error_refuted.

Example c102_child_error_ex : exists st, topg_start 2 [ECol 1] [ECol 0] (fun l => l) (map Row rows102 ++ [Fail]) [Fail] = Some st /\
  produces topg_next st [].
Proof.
  eexists. split; [vm_compute; reflexivity|]. match goal with |- produces _ (TS ?gs ?ks ?c ?b) _ => exact (topg_produces gs b ks c) end.
Qed.

(** C103, what holds: if every function is ROW_NUMBER and all have the same window, with order keys that are
    not NULL, each partition's rows come together, in ascending order of the keys, with their numbers.
    Missing: the other functions and functions with different windows, where it is false (below), and
    descending orders, which a plan cannot express. *)
Theorem c103_row_number_partial : forall pes oes ws order rows again st out,
  any_order order -> ws <> [] -> (forall w, In w ws -> w = Win WRowNumber pes oes) ->
  plain_keys oes rows -> has_keys pes rows ->
  win_start ws order (map Row rows) again = Some st -> produces (win_next ws) st out ->
  exists rs, out = map Row rs /\ row_numbers (length ws) pes (map (fun e => (e, false)) oes) rows rs.
Proof.
  intros pes oes ws order rows again st out O Ne W P G S Q. destruct ws as [|w ws]; [destruct (Ne eq_refl)|].
  pose proof (W w (or_introl eq_refl)) as Ew.
  assert (F : Forall (fun w => w_fun w = WRowNumber) (w :: ws)) by (apply Forall_forall; intros x Hx; rewrite (W x Hx); reflexivity).
  destruct (window_correct w ws order rows again st O F) as (rs & A & B).
  - rewrite Ew. exact P.
  - rewrite Ew. exact (has_keys_of pes rows G).
  - exact S.
  - exists rs. split; [exact (produces_fun _ _ _ Q _ A)|]. rewrite Ew in B. cbn [w_partition w_order] in B.
    cbn [length] in B |- *. exact B.
Qed.
Print Assumptions c103_row_number_partial.

Example c103_ex : exists st, plain_keys [ECol 1] rows102 /\ has_keys [ECol 0] rows102 /\
  window_plan [ECol 1] [WRowNumber] [ECol 0] = [Win WRowNumber [ECol 0] [ECol 1]] /\
  win_start [Win WRowNumber [ECol 0] [ECol 1]] (@rev (list val)) (map Row rows102) [] = Some st /\
  produces (win_next [Win WRowNumber [ECol 0] [ECol 1]]) st
    (map Row (map (fun '(a, b, n) => [VInt Integer a; VInt Integer b; VInt Integer n])
       [(1, 3, 1); (1, 7, 2); (2, 5, 1); (2, 6, 2); (2, 9, 3); (3, 1, 1)]%Z)).
Proof.
  eexists. split; [exists [TInt Integer]; plain_two|].
  split; [apply plain_has_keys; exists [TInt Integer]; plain_two|]. split; [reflexivity|]. split; [vm_compute; reflexivity|].
  repeat (eapply p_row; [vm_compute; reflexivity|]). eapply p_done. vm_compute. reflexivity.
Qed.

(** C103 is false of the code for every other function: the query fails as soon as there is a row. *)
Theorem c103_other_functions_refuted : forall w ws order rows again st out,
  any_order order -> (exists x, In x (w :: ws) /\ w_fun x <> WRowNumber) -> rows <> [] ->
  win_start (w :: ws) order (map Row rows) again = Some st -> produces (win_next (w :: ws)) st out -> out = [Fail].
Proof.
  intros w ws order rows again st out O (x & Hx & Fx) Ne S Q.
  assert (V : forall i, win_values (w :: ws) i = None).
  { intros i. clear - Hx Fx. induction (w :: ws) as [|y l IH]; [destruct Hx|]. cbn [win_values].
    destruct Hx as [<-|Hx]; [destruct (w_fun y); congruence|]. rewrite (IH Hx). destruct (w_fun y); reflexivity. }
  exact (produces_fun _ _ _ Q _ (win_unsupported w ws order rows again st O V Ne S)).
Qed.
Print Assumptions c103_other_functions_refuted.

Example c103_other_functions_ex : exists st,
  win_start [Win WRank [ECol 0] [ECol 1]] (fun l => l) (map Row rows102) [] = Some st /\
  produces (win_next [Win WRank [ECol 0] [ECol 1]]) st [Fail].
Proof. eexists. split; [vm_compute; reflexivity|]. eapply p_fail. vm_compute. reflexivity. Qed.

(** C103 is false of the code for functions with different windows: only the window of the first counts. *)
Theorem c103_only_first_window : forall w ws ws2 order child again st,
  map w_fun ws = map w_fun ws2 ->
  win_start (w :: ws) order child again = win_start (w :: ws2) order child again /\
  win_next (w :: ws) st = win_next (w :: ws2) st.
Proof.
  intros w ws ws2 order child again st E. split.
  - unfold win_start, win_init.
    assert (X : forall c gs, win_fill (w :: ws) c gs = win_fill (w :: ws2) c gs).
    { induction c as [|[r|] c IH]; intros gs; cbn; [reflexivity| |reflexivity].
      destruct (keys_of (w_partition w) r); [|reflexivity]. destruct (keys_of (w_order w) r); [|reflexivity]. apply IH. }
    rewrite !X. reflexivity.
  - assert (V : forall i, win_values (w :: ws) i = win_values (w :: ws2) i).
    { intros i. cbn. assert (Y : win_values ws i = win_values ws2 i); [|now rewrite Y].
      revert ws2 E. induction ws as [|a ws IH]; intros [|b ws2] E; try discriminate E; [reflexivity|].
      cbn in E. injection E as E1 E2. cbn. rewrite E1, (IH _ E2). reflexivity. }
    unfold win_next.
    assert (Y : forall keys i, win_step (w :: ws) (ws_parts st) keys i = win_step (w :: ws2) (ws_parts st) keys i).
    { induction keys as [|k keys IH]; intros i; cbn [win_step]; [reflexivity|].
      destruct (get_entry k (ws_parts st)) as [l|]; [|reflexivity]. rewrite V, IH. reflexivity. }
    now rewrite Y.
Qed.
Print Assumptions c103_only_first_window.

(** ... so that a row that is alone in its partition can be numbered 2. *)
Theorem c103_second_window_refuted : exists w w2 rows st out r n,
  w_fun w = WRowNumber /\ w_fun w2 = WRowNumber /\ plain_keys (w_order w ++ w_partition w2) rows /\
  win_start [w; w2] (fun l => l) (map Row rows) [] = Some st /\ produces (win_next [w; w2]) st (map Row out) /\
  In (r ++ [VInt Integer n; VInt Integer 2]) out /\
  forall a, In a rows -> same_keys (w_partition w2) a r -> a = r.
Proof.
  exists (Win WRowNumber [] [ECol 1]), (Win WRowNumber [ECol 0] []), (two [(1, 5); (2, 6)]%Z). eexists.
  exists (map (fun '(a, b, n) => [VInt Integer a; VInt Integer b; VInt Integer n; VInt Integer n]) [(1, 5, 1); (2, 6, 2)]%Z),
    [VInt Integer 2; VInt Integer 6], 2%Z.
  split; [reflexivity|]. split; [reflexivity|]. split; [exists [TInt Integer; TInt Integer]; plain_two|].
  split; [vm_compute; reflexivity|].
  split; [repeat (eapply p_row; [vm_compute; reflexivity|]); eapply p_done; vm_compute; reflexivity|].
  split; [cbn; auto|]. intros a Ha E. specialize (E (ECol 0) (or_introl eq_refl)). cbn in Ha.
  destruct Ha as [<-|[<-|[]]]; [discriminate E|reflexivity].
Qed.
Print Assumptions c103_second_window_refuted.

(** C103 is false of the plans made for PARTITION BY or ORDER BY with more than one expression: of the i-th
    function only the i-th expression is kept. *)
Theorem c103_more_expressions_refuted : forall f o os os2 p ps ps2,
  window_plan (o :: os) [f] (p :: ps) = window_plan (o :: os2) [f] (p :: ps2) /\
  window_plan (o :: os) [f] (p :: ps) = [Win f [p] [o]].
Proof. intros. split; reflexivity. Qed.
Print Assumptions c103_more_expressions_refuted.

(** C103 is false of the code when the child fails: an error of the child alone is never reported. *)
Theorem c103_child_error_refuted : forall ws order child again st out,
  Forall (fun w => w_fun w = WRowNumber) ws -> In Fail child -> In Fail again ->
  win_start ws order child again = Some st -> produces (win_next ws) st out -> out = [].
Proof.
  intros ws order child again st out W F1 F2 S Q.
  assert (X : forall l gs gs2, win_fill ws l gs = Some (gs2, true) -> ~ In Fail l).
  { induction l as [|[r|] l IH]; intros gs gs2 E; cbn in E; [intros []| |discriminate].
    destruct ws as [|w ws]; [discriminate|].
    destruct (keys_of (w_partition w) r); [|discriminate]. destruct (keys_of (w_order w) r); [|discriminate].
    intros [Y|Y]; [discriminate Y|]. exact (IH _ _ E Y). }
  unfold win_start, win_init in S. cbn [ws_init] in S.
  destruct (win_fill ws child []) as [[g1 [|]]|] eqn:E1; [| |discriminate].
  { destruct (X _ _ _ E1 F1). }
  cbn [ws_init] in S. destruct (win_fill ws again []) as [[g2 [|]]|] eqn:E2; [| |discriminate].
  { destruct (X _ _ _ E2 F2). }
  injection S as <-. refine (produces_fun _ _ _ Q _ _). eapply p_done. reflexivity.
Qed.
Print Assumptions c103_child_error_refuted.

Example c103_child_error_ex : exists st, win_start [Win WRowNumber [ECol 0] [ECol 1]] (fun l => l) (map Row rows102 ++ [Fail]) [Fail] = Some st.
Proof. eexists. vm_compute. reflexivity. Qed.
