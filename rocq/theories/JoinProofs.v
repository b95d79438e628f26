(** The nested-loop join returns the rows of the specification. *)
From Coq Require Import ZArith List Bool Arith Lia Permutation.
From Verif Require Import ExprModel ExecModel ExecSpec ExecProofs JoinModel JoinSpec.
Import ListNotations.
Local Open Scope nat_scope.

Lemma drains_fun {S T} (step : S -> option (outcome T) * S) st out :
  drains step st out -> forall out2, drains step st out2 -> out = out2.
Proof.
  induction 1 as [st st2 out E _ IH|st st2 E|st st2 E|st st2 t out E _ IH]; intros out2 D;
    inversion D; subst; try congruence.
  - match goal with H : step st = (None, _), D' : drains _ ?s _ |- _ =>
      assert (s = st2) by congruence; subst s; auto end.
  - match goal with H : step st = (Some (ORow ?u), ?s), D' : drains _ ?s _ |- _ =>
      assert (s = st2) by congruence; assert (u = t) by congruence; subst s u end.
    f_equal. auto.
Qed.

(** ** Remembering the right rows *)

Definition add (all : list row) (r : row) : list row :=
  if existsb (fun t => row_eqb t r) all then all else all ++ [r].

Lemma row_eqb_true a b : row_eqb a b = true <-> a = b.
Proof. unfold row_eqb. destruct (row_eq_dec a b); split; congruence. Qed.

Lemma in_all r all : existsb (fun t => row_eqb t r) all = true <-> In r all.
Proof.
  rewrite existsb_exists. split.
  - intros (x & Hx & E). apply row_eqb_true in E. congruence.
  - intros H. exists r. split; [exact H|]. apply row_eqb_true. reflexivity.
Qed.

Lemma position_spec r l i : position r l = Some i <-> nth_error l i = Some r /\ ~ In r (firstn i l).
Proof.
  revert i. induction l as [|x l IH]; intros i; cbn.
  - destruct i; split; try discriminate; intros [? _]; discriminate.
  - destruct (row_eqb x r) eqn:E.
    + apply row_eqb_true in E. subst x. split.
      * intros [= <-]. cbn. tauto.
      * destruct i as [|i]; [reflexivity|]. cbn. intros [_ H]. destruct H. left. reflexivity.
    + assert (x <> r) by (intros ->; rewrite (proj2 (row_eqb_true r r) eq_refl) in E; discriminate).
      destruct i as [|i]; cbn.
      * split; [destruct (position r l); discriminate|intros [[= ->] _]; congruence].
      * specialize (IH i). destruct (position r l) as [j|] eqn:P; cbn.
        -- split.
           ++ intros [= ->]. destruct (proj1 IH eq_refl) as [A B]. split; [exact A|]. intros [->|C]; auto.
           ++ intros [A B]. f_equal. f_equal. assert (Some j = Some i) as [= ->]; [apply IH; auto|reflexivity].
        -- split; [discriminate|]. intros [A B]. assert (@None nat = Some i); [apply IH; auto|discriminate].
Qed.

Lemma position_in r l : In r l -> exists i, position r l = Some i.
Proof.
  induction l as [|x l IH]; intros H; [destruct H|]. cbn. destruct (row_eqb x r) eqn:E; [eauto|].
  destruct H as [->|H]; [rewrite (proj2 (row_eqb_true r r) eq_refl) in E; discriminate|].
  destruct (IH H) as [i ->]. cbn. eauto.
Qed.

Lemma filter_filter {T} (p q : T -> bool) l : filter p (filter q l) = filter (fun x => q x && p x) l.
Proof.
  induction l as [|x l IH]; [reflexivity|]. cbn. destruct (q x); cbn; [|exact IH].
  destruct (p x); cbn; rewrite IH; reflexivity.
Qed.

Lemma first_occ_in (l : list row) x : In x (first_occurrences row_eq_dec l) <-> In x l.
Proof.
  induction l as [|y l IH]; [reflexivity|]. cbn. rewrite filter_In, IH.
  destruct (row_eq_dec y x) as [->|N]; intuition congruence.
Qed.

Lemma first_occ_nodup (l : list row) : NoDup l -> first_occurrences row_eq_dec l = l.
Proof.
  induction l as [|y l IH]; [reflexivity|]. intros N. inversion N as [|? ? Hy N2]; subst. cbn.
  rewrite IH by assumption. f_equal. clear -Hy.
  induction l as [|z l IH]; [reflexivity|]. cbn. destruct (row_eq_dec y z) as [->|D].
  - destruct Hy. left. reflexivity.
  - f_equal. apply IH. intros H. apply Hy. right. exact H.
Qed.

Lemma filter_first_occ (p : row -> bool) l :
  filter p (first_occurrences row_eq_dec l) = first_occurrences row_eq_dec (filter p l).
Proof.
  induction l as [|x l IH]; [reflexivity|]. cbn. destruct (p x) eqn:E; cbn.
  - f_equal. rewrite <- IH, !filter_filter. apply filter_ext. intros y. apply andb_comm.
  - rewrite <- IH, filter_filter. apply filter_ext. intros y. destruct (row_eq_dec x y) as [<-|]; [|reflexivity].
    cbn. congruence.
Qed.

Lemma nodup_snoc (l : list row) r : NoDup l -> ~ In r l -> NoDup (l ++ [r]).
Proof.
  intros N H. apply (Permutation_NoDup (Permutation_cons_append l r)). constructor; assumption.
Qed.

Lemma fold_add R : forall all, fold_left add R all =
  all ++ filter (fun r => negb (existsb (fun t => row_eqb t r) all)) (first_occurrences row_eq_dec R).
Proof.
  induction R as [|x R IH]; intros all; cbn; [rewrite app_nil_r; reflexivity|].
  rewrite IH. unfold add. destruct (existsb _ all) eqn:E.
  - cbn. f_equal. rewrite filter_filter. apply filter_ext. intros y.
    destruct (row_eq_dec x y) as [<-|]; [rewrite E|]; reflexivity.
  - cbn. rewrite <- app_assoc. cbn. f_equal. f_equal. rewrite filter_filter. apply filter_ext. intros y.
    rewrite existsb_app. cbn. unfold row_eqb at 2. destruct (row_eq_dec x y) as [<-|].
    + rewrite orb_true_r. reflexivity.
    + rewrite !orb_false_r. reflexivity.
Qed.

(** ** The loops, in the absence of errors *)
Section ok.
  Context (k : jkind) (pred : row -> row -> res val) (lw rw : nat) (right : list (item row)).
  Context (on : row -> row -> bool).

  Notation step := (jstep k pred lw rw right).

  Definition mark (r : row) (all : list row) (mt : list nat) : list nat :=
    match position r all with
    | Some i => if tracks_right k then i :: mt else mt
    | None => mt
    end.

  (** The remembered right rows and the marks after the pairs of [l] with [rs]. *)
  Fixpoint track (l : row) (rs : list row) (all : list row) (mt : list nat) : list row * list nat :=
    match rs with
    | [] => (all, mt)
    | r :: rs =>
        let all2 := if tracks_right k then add all r else all in
        track l rs all2 (if on l r then mark r all2 mt else mt)
    end.

  Lemma all_eq all r :
    (if tracks_right k && negb (existsb (fun t => row_eqb t r) all) then all ++ [r] else all) =
    (if tracks_right k then add all r else all).
  Proof. unfold add. destruct (tracks_right k), (existsb _ all); reflexivity. Qed.

  Lemma row_loop left l tl unr unl : forall rs m all mt rest,
    (forall r, In r rs -> pair_joins k pred l r = Ok (on l r)) ->
    drains step (JState PMain left (Some (l, m || existsb (on l) rs, tl))
                   (fst (track l rs all mt)) (snd (track l rs all mt)) unr unl) rest ->
    drains step (JState PMain left (Some (l, m, map Row rs ++ tl)) all mt unr unl)
      (map Row (map (app l) (filter (on l) rs)) ++ rest).
  Proof.
    induction rs as [|r rs IH]; intros m all mt rest H D; cbn in *.
    - rewrite orb_false_r in D. exact D.
    - assert (Hr : pair_joins k pred l r = Ok (on l r)) by auto.
      assert (H2 : forall r', In r' rs -> pair_joins k pred l r' = Ok (on l r')) by auto.
      destruct (on l r) eqn:E.
      + cbn. eapply dr_row.
        * cbn. rewrite Hr, all_eq. reflexivity.
        * apply IH; [exact H2|]. unfold mark in D. cbn in D. rewrite orb_true_r in D. exact D.
      + eapply dr_tau.
        * cbn. rewrite Hr, all_eq. reflexivity.
        * apply IH; [exact H2|]. exact D.
  Qed.

  Context (R : list row).

  (** What one left row contributes to the output, and to the rows saved for later. *)
  Definition emit (l : row) : list row :=
    map (app l) (filter (on l) R) ++
    match k with JLeft => if existsb (on l) R then [] else [l ++ nulls rw] | _ => [] end.
  Definition saved (l : row) : list row :=
    match k with JFull => if existsb (on l) R then [] else [l] | _ => [] end.

  Fixpoint track_all (L : list row) (all : list row) (mt : list nat) : list row * list nat :=
    match L with
    | [] => (all, mt)
    | l :: L => let '(all2, mt2) := track l R all mt in track_all L all2 mt2
    end.

  Lemma left_loop tl unr : right = map Row R -> forall L all mt unl rest,
    (forall l r, In l L -> In r R -> pair_joins k pred l r = Ok (on l r)) ->
    drains step (JState PMain tl None (fst (track_all L all mt)) (snd (track_all L all mt)) unr
                   (unl ++ flat_map saved L)) rest ->
    drains step (JState PMain (map Row L ++ tl) None all mt unr unl) (map Row (flat_map emit L) ++ rest).
  Proof.
    intros HR. induction L as [|l L IH]; intros all mt unl rest H D; cbn in *.
    - rewrite app_nil_r in D. exact D.
    - destruct (track l R all mt) as [all2 mt2] eqn:T.
      eapply dr_tau; [reflexivity|]. cbn [j_left j_all j_matched j_unr j_unl].
      unfold emit at 1. rewrite !map_app, <- !app_assoc.
      pose proof (row_loop (map Row L ++ tl) l [] unr unl R false all mt) as RL. rewrite app_nil_r in RL.
      rewrite <- HR in RL. apply RL; [auto|]. rewrite T. cbn [orb fst snd].
      assert (Hn : drains step (JState PMain (map Row L ++ tl) None all2 mt2 unr (unl ++ saved l))
                     (map Row (flat_map emit L) ++ rest)).
      { apply IH; [intros; apply H; auto|]. rewrite <- app_assoc. exact D. }
      clear RL D IH. revert Hn. unfold saved.
      destruct k; cbn [map app]; rewrite ?app_nil_r; intros Hn.
      + eapply dr_tau; [reflexivity|exact Hn].
      + destruct (existsb (on l) R); cbn [map app].
        * eapply dr_tau; [reflexivity|exact Hn].
        * eapply dr_row; [reflexivity|exact Hn].
      + eapply dr_tau; [reflexivity|exact Hn].
      + eapply dr_tau; [reflexivity|]. cbn [j_left j_all j_matched j_unr j_unl].
        destruct (existsb (on l) R); rewrite ?app_nil_r in Hn; exact Hn.
      + eapply dr_tau; [reflexivity|exact Hn].
  Qed.

  Lemma unr_loop unl left all mt : forall unr rest,
    drains step (JState PRight left None all mt [] unl) rest ->
    drains step (JState PRight left None all mt unr unl) (map Row (map (app (nulls lw)) unr) ++ rest).
  Proof.
    induction unr as [|r unr IH]; intros rest D; [exact D|]. cbn.
    eapply dr_row; [reflexivity|]. apply IH. exact D.
  Qed.
  Lemma unl_loop unr left all mt : forall unl rest,
    drains step (JState PLeft left None all mt unr []) rest ->
    drains step (JState PLeft left None all mt unr unl) (map Row (map (fun l => l ++ nulls rw) unl) ++ rest).
  Proof.
    induction unl as [|r unl IH]; intros rest D; [exact D|]. cbn.
    eapply dr_row; [reflexivity|]. apply IH. exact D.
  Qed.

  Definition final_unr (L : list row) : list row :=
    match k with
    | JRight | JFull => collect_unmatched 0 (fst (track_all L [] [])) (snd (track_all L [] []))
    | _ => []
    end.

  Lemma join_runs L : right = map Row R ->
    (forall l r, In l L -> In r R -> pair_joins k pred l r = Ok (on l r)) ->
    drains step (jinit (map Row L))
      (map Row (flat_map emit L ++ map (app (nulls lw)) (final_unr L) ++ map (fun l => l ++ nulls rw) (flat_map saved L))).
  Proof.
    intros HR H. rewrite !map_app.
    pose proof (left_loop [] [] HR L [] [] []) as LL. rewrite app_nil_r in LL.
    apply LL; [exact H|]. clear LL. cbn [app].
    eapply dr_tau; [reflexivity|]. unfold advance, final_unr. cbn [j_phase j_left j_cur j_all j_matched j_unr j_unl].
    assert (Hs : k <> JFull -> flat_map saved L = []).
    { unfold saved. intros Hk. clear -Hk. induction L as [|l L IH]; [reflexivity|].
      cbn. rewrite IH. destruct k; try reflexivity. congruence. }
    pose proof unr_loop as UR. pose proof unl_loop as UL.
    destruct k; try (rewrite Hs by discriminate; cbn [map app]; eapply dr_done; reflexivity).
    - rewrite Hs by discriminate. cbn [map]. apply UR.
      eapply dr_tau; [reflexivity|]. eapply dr_done. reflexivity.
    - apply UR. eapply dr_tau; [reflexivity|]. cbn.
      rewrite <- (app_nil_r (map Row _)). apply UL. eapply dr_tau; [reflexivity|]. eapply dr_done. reflexivity.
  Qed.
End ok.

(** ** The marks of the right rows *)

Record marks (all : list row) (mt : list nat) (P : row -> Prop) : Prop := {
  mk_nodup : NoDup all;
  mk_bound : forall j, In j mt -> j < length all;
  mk_iff : forall j r, nth_error all j = Some r -> (In j mt <-> P r);
  mk_in : forall r, P r -> In r all;
}.

Section marks.
  Context (k : jkind) (on : row -> row -> bool) (Hk : tracks_right k = true).

  Lemma marks_step all mt P l r : marks all mt P ->
    marks (add all r) (if on l r then mark k r (add all r) mt else mt)
      (fun x => P x \/ (x = r /\ on l r = true)).
  Proof.
    intros [N B I M].
    assert (M1 : marks (add all r) mt P /\ In r (add all r)).
    { unfold add. destruct (existsb _ all) eqn:E.
      - apply in_all in E. split; [split; assumption|exact E].
      - assert (Nr : ~ In r all) by (intros H; apply in_all in H; congruence).
        split; [|apply in_or_app; right; left; reflexivity]. split.
        + apply nodup_snoc; assumption.
        + intros j Hj. rewrite app_length. specialize (B j Hj). lia.
        + intros j x Hx. destruct (Nat.lt_ge_cases j (length all)) as [Hj|Hj].
          * rewrite nth_error_app1 in Hx by exact Hj. apply I. exact Hx.
          * rewrite nth_error_app2 in Hx by exact Hj. destruct (j - length all) as [|n] eqn:Ej; cbn in Hx.
            -- injection Hx as <-. split.
               ++ intros H. specialize (B j H). lia.
               ++ intros H. destruct (Nr (M r H)).
            -- destruct n; discriminate.
        + intros x Hx. apply in_or_app. left. auto. }
    destruct M1 as [[N1 B1 I1 M1] Hin].
    destruct (on l r).
    - unfold mark. destruct (position_in r (add all r) Hin) as [i Ei]. rewrite Ei, Hk.
      apply position_spec in Ei as [Ei _].
      assert (Hi : i < length (add all r)) by (apply nth_error_Some; congruence).
      split; [exact N1| | |].
      + intros j [<-|Hj]; auto.
      + intros j x Hx. cbn. rewrite (I1 j x Hx). split.
        * intros [->|H]; [right|left; exact H]. split; [congruence|reflexivity].
        * intros [H|[-> _]]; [right; exact H|left].
          eapply NoDup_nth_error; [exact N1|exact Hi|congruence].
      + intros x [H|[-> _]]; auto.
    - split; [exact N1|exact B1| |].
      + intros j x Hx. rewrite (I1 j x Hx). split; [auto|intros [H|[_ H]]; [exact H|discriminate]].
      + intros x [H|[_ H]]; [auto|discriminate].
  Qed.

  Lemma marks_ext all mt P Q : (forall x, P x <-> Q x) -> marks all mt P -> marks all mt Q.
  Proof.
    intros E [N B I M]. split; [exact N|exact B| |].
    - intros j r H. rewrite <- E. auto.
    - intros r H. apply M, E, H.
  Qed.

  Lemma track_marks l : forall rs all mt P, marks all mt P ->
    fst (track k on l rs all mt) = fold_left add rs all /\
    marks (fst (track k on l rs all mt)) (snd (track k on l rs all mt))
      (fun x => P x \/ (In x rs /\ on l x = true)).
  Proof.
    induction rs as [|r rs IH]; intros all mt P M; cbn.
    - split; [reflexivity|]. eapply marks_ext; [|exact M]. cbn. tauto.
    - rewrite Hk. destruct (IH _ _ _ (marks_step all mt P l r M)) as [E M2]. split; [exact E|].
      eapply marks_ext; [|exact M2]. intros x. cbn. split.
      + intros [[H|[-> H]]|[H1 H2]]; auto.
      + intros [H|[[<-|H1] H2]]; auto.
  Qed.

  Lemma track_all_marks R : forall L all mt P, marks all mt P ->
    fst (track_all k on R L all mt) = fold_left (fun a _ => fold_left add R a) L all /\
    marks (fst (track_all k on R L all mt)) (snd (track_all k on R L all mt))
      (fun x => P x \/ (In x R /\ exists l, In l L /\ on l x = true)).
  Proof.
    induction L as [|l L IH]; intros all mt P M; cbn.
    - split; [reflexivity|]. eapply marks_ext; [|exact M]. cbn. intros x. split; [auto|].
      intros [H|[_ (l & [] & _)]]; exact H.
    - destruct (track_marks l R all mt P M) as [E M1].
      destruct (track k on l R all mt) as [all2 mt2]. cbn in E, M1.
      destruct (IH _ _ _ M1) as [E2 M2]. rewrite <- E. split; [exact E2|].
      eapply marks_ext; [|exact M2]. intros x. cbn. split.
      + intros [[H|[H1 H2]]|[H1 (l' & H2 & H3)]]; [auto|right|right]; (split; [exact H1|]); eauto.
      + intros [H|[H1 (l' & [<-|H2] & H3)]]; [auto|auto|]. right. split; [exact H1|]. eauto.
  Qed.

  Lemma collect_filter (p : row -> bool) mt : forall all i,
    (forall j r, nth_error all j = Some r -> (In (i + j) mt <-> p r = true)) ->
    collect_unmatched i all mt = filter (fun r => negb (p r)) all.
  Proof.
    induction all as [|r all IH]; intros i H; [reflexivity|]. cbn.
    assert (E : existsb (Nat.eqb i) mt = p r).
    { apply eq_true_iff_eq. rewrite <- (H 0 r eq_refl), Nat.add_0_r, existsb_exists. split.
      - intros (x & Hx & Ex). apply Nat.eqb_eq in Ex. congruence.
      - intros Hi. exists i. split; [exact Hi|apply Nat.eqb_refl]. }
    rewrite E, IH.
    - destruct (p r); reflexivity.
    - intros j x Hx. replace (S i + j) with (i + S j) by lia. apply H. exact Hx.
  Qed.

  Lemma fold_add_again R all : (forall r, In r R -> In r all) -> fold_left add R all = all.
  Proof.
    revert all. induction R as [|r R IH]; intros all H; [reflexivity|]. cbn.
    assert (E : add all r = all).
    { unfold add. rewrite (proj2 (in_all r all)); [reflexivity|apply H; left; reflexivity]. }
    rewrite E. apply IH. intros x Hx. apply H. right. exact Hx.
  Qed.

  Lemma lonely_first_occ R L : L <> [] ->
    collect_unmatched 0 (fst (track_all k on R L [] [])) (snd (track_all k on R L [] [])) =
    first_occurrences row_eq_dec (lonely_right on L R).
  Proof.
    intros HL.
    destruct (track_all_marks R L [] [] (fun _ => False)) as [E [N B I M]].
    { split; [constructor|intros ? []|intros [|j] ?; discriminate|intros ? []]. }
    rewrite (collect_filter (fun r => existsb (fun l => on l r) L)).
    - rewrite E. unfold lonely_right. rewrite <- filter_first_occ. f_equal.
      destruct L as [|l L]; [congruence|]. cbn. rewrite fold_add. cbn.
      assert (F : filter (fun _ : row => true) (first_occurrences row_eq_dec R) = first_occurrences row_eq_dec R).
      { generalize (first_occurrences row_eq_dec R). induction l0 as [|x l0 IH0]; [reflexivity|]. cbn. f_equal. exact IH0. }
      rewrite F. clear. induction L as [|l L IH]; [reflexivity|]. cbn. rewrite fold_add_again; [exact IH|].
      intros r. rewrite first_occ_in. auto.
    - intros j r Hr. cbn. rewrite (I j r Hr), existsb_exists. split.
      + intros [[]|[_ H]]. exact H.
      + intros H. right. split; [|exact H]. apply nth_error_In in Hr. rewrite E in Hr. clear -Hr HL.
        assert (G : forall L0 all, (forall x, In x all -> In x R) ->
          In r (fold_left (fun a (_ : row) => fold_left add R a) L0 all) -> In r R).
        { induction L0 as [|l L' IH]; intros all Ha Hx; cbn in Hx; [auto|].
          eapply IH; [|exact Hx]. intros x Hx2. rewrite fold_add in Hx2. apply in_app_or in Hx2 as [H|H]; [auto|].
          apply filter_In in H as [H _]. exact (proj1 (first_occ_in R x) H). }
        apply (G L []); [intros ? []|exact Hr].
  Qed.
End marks.

(** ** Errors are reported *)
Section errors.
  Context (k : jkind) (pred : row -> row -> res val) (lw rw : nat) (right : list (item row)).

  Definition good_with (l : row) (rem : list (item row)) : Prop :=
    ~ In Fail rem /\ forall r, In (Row r) rem -> pair_joins k pred l r <> Err.

  Lemma no_fail st out : drains (jstep k pred lw rw right) st out -> ~ In Fail out -> j_phase st = PMain ->
    ~ In Fail (j_left st) /\ (forall l, In (Row l) (j_left st) -> good_with l right) /\
    match j_cur st with Some (l, _, rem) => good_with l rem | None => True end.
  Proof.
    induction 1 as [st st2 out E D IH|st st2 E|st st2 E|st st2 t out E D IH]; intros NF Hp;
      unfold jstep in E; rewrite Hp in E.
    - destruct (j_cur st) as [[[l m] rem]|] eqn:C.
      + destruct rem as [|[r|] rem].
        * assert (A : j_phase st2 = PMain /\ j_left st2 = j_left st /\ j_cur st2 = None).
          { destruct k; injection E; try (destruct m; [|discriminate]; intros); intros; subst; auto. }
          destruct A as (A1 & A2 & A3). destruct (IH NF A1) as (B1 & B2 & _). rewrite A2 in *.
          split; [exact B1|]. split; [exact B2|]. split; [intros []|intros ? []].
        * destruct (pair_joins k pred l r) as [[|]|] eqn:P; try discriminate.
          injection E as <-. destruct (IH NF eq_refl) as (B1 & B2 & B3 & B4). cbn in *.
          split; [exact B1|]. split; [exact B2|]. split.
          -- intros [X|X]; [discriminate X|exact (B3 X)].
          -- intros r' [X|X]; [injection X as <-; congruence|exact (B4 r' X)].
        * discriminate.
      + destruct (j_left st) as [|[l|] rest] eqn:L.
        * split; [intros []|]. split; [intros ? []|exact I].
        * injection E as <-. destruct (IH NF eq_refl) as (B1 & B2 & B3). cbn in *.
          split; [intros [X|X]; [discriminate X|exact (B1 X)]|]. split; [|exact I].
          intros l' [X|X]; [injection X as <-; exact B3|exact (B2 l' X)].
        * discriminate.
    - destruct (j_cur st) as [[[l m] [|[r|] rem]]|]; [destruct k, m; discriminate E| |discriminate|].
      + destruct (pair_joins k pred l r) as [[|]|]; discriminate.
      + destruct (j_left st) as [|[l|] rest]; discriminate.
    - destruct NF. left. reflexivity.
    - assert (NF2 : ~ In Fail out) by (intros X; apply NF; right; exact X).
      destruct (j_cur st) as [[[l m] rem]|] eqn:C.
      + destruct rem as [|[r|] rem].
        * assert (A : j_phase st2 = PMain /\ j_left st2 = j_left st /\ j_cur st2 = None).
          { destruct k, m; inversion E; subst; auto. }
          destruct A as (A1 & A2 & A3). destruct (IH NF2 A1) as (B1 & B2 & _). rewrite A2 in *.
          split; [exact B1|]. split; [exact B2|]. split; [intros []|intros ? []].
        * destruct (pair_joins k pred l r) as [[|]|] eqn:P; try discriminate.
          injection E as _ <-. destruct (IH NF2 eq_refl) as (B1 & B2 & B3 & B4). cbn in *.
          split; [exact B1|]. split; [exact B2|]. split.
          -- intros [X|X]; [discriminate X|exact (B3 X)].
          -- intros r' [X|X]; [injection X as <-; congruence|exact (B4 r' X)].
        * discriminate.
      + destruct (j_left st) as [|[l|] rest]; discriminate.
  Qed.
End errors.
