(** * C109: nested index joins return the join *)
From Coq Require Import ZArith Permutation Lia.
From stdpp Require Import list.
From Verif Require Import ExprModel ExprSpec BtreeModel BtreeSpec BtreeProps IdxModel IdxSpec IdxProofs IdxProps ExecModel JoinModel JoinSpec NijModel.
Open Scope nat_scope.

(** ** Runs *)

Lemma run_tau n s s2 out e :
  (forall e' s', nstep n s e' s' <-> e' = NTau /\ s' = s2) -> joins n s out e <-> joins n s2 out e.
Proof.
  intros H. split.
  - intros J. inversion J as [? s' ? ? St J'|? s' ? ? ? St J'|? s' St|? s' St|? s' St]; subst; apply H in St as [E ->]; try discriminate. exact J'.
  - intros J. eapply jo_tau; [apply H; split; reflexivity|exact J].
Qed.

Lemma run_row n s r s2 out e :
  (forall e' s', nstep n s e' s' <-> e' = NRow r /\ s' = s2) -> joins n s out e <-> exists out2, out = r :: out2 /\ joins n s2 out2 e.
Proof.
  intros H. split.
  - intros J. inversion J as [? s' ? ? St J'|? s' ? ? ? St J'|? s' St|? s' St|? s' St]; subst; apply H in St as [E ->]; try discriminate.
    injection E as ->. eauto.
  - intros (out2 & -> & J). eapply jo_row; [apply H; split; reflexivity|exact J].
Qed.

Lemma run_stop n s ev s2 en out e :
  (ev, en) = (NDone, Ends) \/ (ev, en) = (NFail, Errs) \/ (ev, en) = (NPanic, Panics) ->
  (forall e' s', nstep n s e' s' <-> e' = ev /\ s' = s2) -> joins n s out e <-> out = [] /\ e = en.
Proof.
  intros V H. split.
  - intros J. inversion J as [? s' ? ? St J'|? s' ? ? ? St J'|? s' St|? s' St|? s' St]; subst; apply H in St as [E ->];
      destruct V as [V|[V|V]]; injection V as -> ->; try discriminate; auto.
  - intros [-> ->]. destruct V as [V|[V|V]]; injection V as -> ->.
    + eapply jo_done, H; split; reflexivity.
    + eapply jo_fail, H; split; reflexivity.
    + eapply jo_panic, H; split; reflexivity.
Qed.

(** The pairs made with the answers [ex] of the right side. *)
Definition pairs (n : node) (l : row) (ex : list (row * rid)) : list row :=
  map (fun r => l ++ r) (List.filter (accepts n l) (map fst ex)).

Lemma step_inner n rest l ex seen e s :
  nstep n (Nst rest (Some l) false (Some ex) seen) e s <-> (e, s) = inner_step n l rest ex seen.
Proof.
  split.
  - intros St. inversion St as [? ? ? [H|H]|? ? ? ? ? H1 H2 H3 H4|? ? ? ? ? H1 H2 H3|? ? H1 H2 H3|? ? H1 H2 H3]; subst; try discriminate.
    cbn in H2, H3, H4. injection H2 as <-. injection H3 as <-. symmetry. exact H4.
  - intros E. eapply ns_inner; [reflexivity|reflexivity|reflexivity|]. symmetry. exact E.
Qed.

Lemma run_inner n rest l (K : list row -> ending -> Prop) ex :
  (forall seen o e, joins n (Nst rest (Some l) true None seen) o e <-> K o e) ->
  forall seen out e,
  NoDup (map snd ex) -> (forall rd, rd ∈ map snd ex -> rd ∉ seen) ->
  joins n (Nst rest (Some l) false (Some ex) seen) out e <-> exists out2, out = pairs n l ex ++ out2 /\ K out2 e.
Proof.
  intros HK. induction ex as [|[r rd] ex IH]; intros seen out e ND HS.
  - rewrite (run_tau _ _ (Nst rest (Some l) true None seen)).
    + rewrite HK. split; [intros H; exists out; auto|intros (o & -> & H); exact H].
    + intros e' s'. rewrite step_inner. cbn. split; [intros E; injection E as -> ->; auto|intros [-> ->]; reflexivity].
  - cbn in ND. apply NoDup_cons in ND as [N1 N2].
    assert (U : unseen seen ((r, rd) :: ex) = Some (r, rd, ex)).
    { cbn. destruct (decide (rd ∈ seen)) as [H|_]; [|reflexivity]. exfalso. apply (HS rd); [cbn; left|exact H]. }
    assert (HS2 : forall rd', rd' ∈ map snd ex -> rd' ∉ rd :: seen).
    { intros rd' H1 H2. apply elem_of_cons in H2 as [->|H2]; [exact (N1 H1)|]. apply (HS rd'); [cbn; right; exact H1|exact H2]. }
    unfold pairs. cbn [map fst List.filter]. destruct (accepts n l r) eqn:EA.
    + rewrite (run_row _ _ (l ++ r) (Nst rest (Some l) false (Some ex) (rd :: seen))).
      * split.
        -- intros (o & -> & J). apply IH in J as (o2 & -> & HKo); [|exact N2|exact HS2]. exists o2. split; [reflexivity|exact HKo].
        -- intros (o2 & -> & HKo). eexists. split; [reflexivity|]. apply IH; [exact N2|exact HS2|]. exists o2. split; [reflexivity|exact HKo].
      * intros e' s'. rewrite step_inner. unfold inner_step. rewrite U, EA. split; [intros E; injection E as -> ->; auto|intros [-> ->]; reflexivity].
    + rewrite (run_tau _ _ (Nst rest (Some l) false (Some ex) (rd :: seen))); [apply IH; assumption|].
      intros e' s'. rewrite step_inner. unfold inner_step. rewrite U, EA. split; [intros E; injection E as -> ->; auto|intros [-> ->]; reflexivity].
Qed.

Lemma same_steps n s s' out e : (forall ev s2, nstep n s ev s2 <-> nstep n s' ev s2) -> joins n s out e <-> joins n s' out e.
Proof.
  intros H. split; intros J; inversion J as [? s2 ? ? St J'|? s2 ? ? ? St J'|? s2 St|? s2 St|? s2 St]; subst; apply H in St.
  all: first [eapply jo_tau; eassumption|eapply jo_row; eassumption|eapply jo_done; eassumption|eapply jo_fail; eassumption|eapply jo_panic; eassumption].
Qed.

Lemma step_left n rest c sp ex seen e s : sp = true \/ c = None ->
  nstep n (Nst rest c sp ex seen) e s <-> (e, s) = left_step (Nst rest c sp ex seen).
Proof.
  intros HL. split.
  - intros St. inversion St as [? ? ? ? H|? ? ? ? ? H1 H2 H3 H4|? ? ? ? ? H1 H2 H3|? ? H1 H2 H3|? ? H1 H2 H3]; subst; [symmetry; exact H| | | |];
      cbn in H1, H2; destruct HL; subst; discriminate.
  - intros E. apply ns_left; [exact HL|]. symmetry. exact E.
Qed.

(** What the left child answers after its rows, and how the join ends. *)
Definition tail_of (t : list (item row)) (e : ending) : Prop := (t = [] /\ e = Ends) \/ (exists t', t = Fail :: t' /\ e = Errs).

Lemma run_all n (mk : row -> list (row * rid)) L t en : tail_of t en ->
  (forall l, In l L -> NoDup (map snd (mk l)) /\ forall m, makes n l m <-> m = MRows (mk l)) ->
  forall c sp seen out e, sp = true \/ c = None ->
  joins n (Nst (map Row L ++ t) c sp None seen) out e <-> out = flat_map (fun l => pairs n l (mk l)) L /\ e = en.
Proof.
  intros HT. induction L as [|l L IH]; intros HM c sp seen out e HC.
  - cbn [map app flat_map]. destruct HT as [[-> ->]|(t' & -> & ->)].
    + eapply (run_stop n _ NDone); [auto|]. intros e' s'. rewrite step_left by exact HC. cbn. split; [intros E; injection E as -> ->; split; reflexivity|intros [-> ->]; reflexivity].
    + eapply (run_stop n _ NFail); [auto|]. intros e' s'. rewrite step_left by exact HC. cbn. split; [intros E; injection E as -> ->; split; reflexivity|intros [-> ->]; reflexivity].
  - destruct (HM l (or_introl eq_refl)) as [ND HF].
    rewrite (run_tau _ _ (Nst (map Row L ++ t) (Some l) false None [])).
    2:{ intros e' s'. rewrite step_left by exact HC. cbn. split; [intros E; injection E as -> ->; auto|intros [-> ->]; reflexivity]. }
    rewrite (same_steps _ _ (Nst (map Row L ++ t) (Some l) false (Some (mk l)) [])).
    2:{ intros ev s2. rewrite step_inner. split.
        - intros St. inversion St as [? ? ? [H|H]|? ? ? ? ? H1 H2 H3 H4|? ? ? ? ? H1 H2 H3 H4 H5|? ? H1 H2 H3 H4|? ? H1 H2 H3 H4]; subst; try discriminate;
            cbn in H2; injection H2 as <-; apply HF in H4; try discriminate. injection H4 as ->. symmetry. exact H5.
        - intros E. eapply ns_make; [reflexivity|reflexivity|reflexivity|apply HF; reflexivity|]. symmetry. exact E. }
    rewrite (run_inner _ _ _ (fun o e => o = flat_map (fun l => pairs n l (mk l)) L /\ e = en)).
    + cbn [flat_map]. split; [intros (o & -> & -> & ->); auto|intros [-> ->]; eauto].
    + intros seen2 o2 e2. apply IH; [|left; reflexivity]. intros l' Hl'. apply HM. right. exact Hl'.
    + exact ND.
    + intros rd _ H. inversion H.
Qed.

Lemma accepts_on n l r : accepts n l r = is_true_on (n_pred n) l r.
Proof. unfold accepts, is_true_on. destruct (n_pred n l r) as [[]|]; reflexivity. Qed.

Lemma pairs_rows n (mk : row -> list (row * rid)) R L :
  (forall l, In l L -> List.filter (is_true_on (n_pred n) l) (map fst (mk l)) = List.filter (is_true_on (n_pred n) l) R) ->
  flat_map (fun l => pairs n l (mk l)) L = inner_rows (is_true_on (n_pred n)) L R.
Proof.
  unfold inner_rows. induction L as [|l L IH]; intros H; [reflexivity|]. cbn [flat_map]. rewrite IH by (intros l' Hl'; apply H; right; exact Hl').
  f_equal. unfold pairs. f_equal. rewrite <- (H l (or_introl eq_refl)). apply List.filter_ext. intros r. apply accepts_on.
Qed.

(** ** C109 *)

Lemma scan_any n L t en :
  tail_of t en -> n_child n <> ROther -> NoDup (map snd (n_table n)) ->
  (forall i, In i (n_indexes n) -> ti_cols i <> length (n_rkeys n)) ->
  forall out e, joins n (nstart (map Row L ++ t)) out e <->
    out = inner_rows (is_true_on (n_pred n)) L (map fst (n_table n)) /\ e = en.
Proof.
  intros HT HC ND HI out e.
  assert (CH : choose n = None).
  { unfold choose. induction (n_indexes n) as [|i l IH]; [reflexivity|]. cbn. destruct (Nat.eqb_spec (ti_cols i) (length (n_rkeys n))) as [E|_].
    - destruct (HI i (or_introl eq_refl) E).
    - apply IH. intros j Hj. apply HI. right. exact Hj. }
  unfold nstart. rewrite (run_all n (fun _ => n_table n) L t en HT); [|intros l _; split; [exact ND|]|right; reflexivity].
  - rewrite (pairs_rows n _ (map fst (n_table n)) L); [reflexivity|reflexivity].
  - intros m. split.
    + intros M. inversion M; congruence.
    + intros ->. apply mk_seq; congruence.
Qed.

(** C109, partial: without an index of as many columns as there are keys the right table is
    scanned, and the rows are those of the inner join, whatever the keys are; an error of the left
    child ends the join after the rows of the left rows before it.
    Missing: other kinds of joins, right children with conditions of their own (see below). *)
Theorem c109_scan_partial n L t en :
  tail_of t en -> n_child n = RSeq -> NoDup (map snd (n_table n)) ->
  (forall i, In i (n_indexes n) -> ti_cols i <> length (n_rkeys n)) ->
  forall out e, joins n (nstart (map Row L ++ t)) out e <->
    out = inner_rows (is_true_on (n_pred n)) L (map fst (n_table n)) /\ e = en.
Proof. intros HT HC. apply scan_any; [exact HT|congruence]. Qed.
Print Assumptions c109_scan_partial.

Lemma rows_sub get p l : incl (map snd (rows_of get p l)) (map snd l).
Proof.
  induction l as [|[k rd] l IH]; cbn; [intros x []|]. destruct (get rd) as [r|]; [|intros x H; right; apply IH, H].
  destruct (p r); [|intros x H; right; apply IH, H]. cbn. intros x [<-|H]; [left; reflexivity|right; apply IH, H].
Qed.

Lemma rows_nodup get p (l : list entry) : NoDup (map snd l) -> NoDup (map snd (rows_of get p l)).
Proof.
  induction l as [|[k rd] l IH]; cbn; [constructor|]. intros H. apply NoDup_cons in H as [N1 N2].
  destruct (get rd) as [r|]; [|apply IH, N2]. destruct (p r); [|apply IH, N2]. cbn. apply NoDup_cons. split; [|apply IH, N2].
  intros X. apply N1. apply elem_of_list_In. apply (rows_sub get p l). apply elem_of_list_In. exact X.
Qed.

Lemma rows_where get (p q : row -> bool) l :
  (forall rd r, get rd = Some r -> q r = true -> p r = true) ->
  List.filter q (map fst (rows_of get p l)) = List.filter q (map fst (rows_of get (fun _ => true) l)).
Proof.
  intros H. induction l as [|[k rd] l IH]; [reflexivity|]. cbn. destruct (get rd) as [r|] eqn:G; [|exact IH].
  destruct (p r) eqn:P; cbn; [rewrite IH; reflexivity|]. destruct (q r) eqn:Q; [rewrite (H rd r G Q) in P; discriminate|exact IH].
Qed.

(** The join condition demands that the left key equals the right table's first column. *)
Definition on_key (n : node) (lk : expr) (l : row) : Prop :=
  forall rd r v, n_get n rd = Some r -> eval lk l = Ok v -> is_true_on (n_pred n) l r = true -> where_pass (ECmp Eq (ECol 0) (EConst v)) r = true.

(** C109, partial: with an index on the right table's first column, every row of the table in it
    once, a single key that is that column, and a join condition that demands the keys to be
    equal, the rows are those of the inner join, for every left row in the order of the index. *)
Theorem c109_index_partial n L t en i m T es bs F lk :
  tail_of t en -> n_child n = RSeq ->
  even_order m -> Forall (of_type T) (map fst es) -> inserts m es new_index = Some (bs, ti_tree i) -> scan_full (ti_tree i) = Some F ->
  indexed_by (n_get n) F -> NoDup (map snd F) ->
  n_lkeys n = [lk] -> n_rkeys n = [ECol 0] ->
  choose n = Some i -> ti_attr i = 0 ->
  (forall l, In l L -> (exists v, eval lk l = Ok v /\ of_type T v) /\ on_key n lk l) ->
  forall out e, joins n (nstart (map Row L ++ t)) out e <->
    out = inner_rows (is_true_on (n_pred n)) L (map fst (rows_of (n_get n) (fun _ => true) F)) /\ e = en.
Proof.
  intros HT HC Hm HTy E HF HG ND EL ER CH HA HL out e.
  assert (C1 : ti_cols i = 1).
  { unfold choose in CH. rewrite ER in CH. cbn [length] in CH.
    assert (IN : In i (List.filter (fun i => ti_cols i =? 1) (n_indexes n))) by (destruct (List.filter _ _); [discriminate|cbn in CH; injection CH as ->; left; reflexivity]).
    apply List.filter_In in IN as [_ IN]. apply Nat.eqb_eq, IN. }
  set (mk := fun l => match eval lk l with Ok v => rows_of (n_get n) (all_true [ECmp Eq (ECol 0) (EConst v)]) F | Err => [] end).
  unfold nstart. rewrite (run_all n mk L t en HT); [|intros l Hl|right; reflexivity].
  - rewrite (pairs_rows n _ (map fst (rows_of (n_get n) (fun _ => true) F)) L); [reflexivity|]. intros l Hl.
    destruct (HL l Hl) as [(v & Ev & _) HK]. unfold mk. rewrite Ev. apply rows_where. intros rd r G Q. unfold all_true. cbn [forallb].
    rewrite (HK rd r v G Ev Q). reflexivity.
  - destruct (HL l Hl) as [(v & Ev & Tv) _]. unfold mk. rewrite Ev. split; [apply rows_nodup, ND|].
    assert (KC : key_conds (n_lkeys n) (n_rkeys n) l = [ECmp Eq (ECol 0) (EConst v)]) by (rewrite EL, ER; cbn; rewrite Ev; reflexivity).
    intros md. split.
    + intros M. inversion M as [X|X Y|j o X Y B S|j X Y B D]; subst; try congruence.
      * rewrite CH in Y. injection Y as <-. rewrite KC in S. apply (c41_point_lookup m T es bs (ti_tree i) F (n_get n) v Hm HTy E HF HG Tv) in S. rewrite S. reflexivity.
      * rewrite CH in Y. injection Y as <-. destruct D as [D|D]; [destruct (D C1)|destruct (D HA)].
    + intros ->. eapply mk_index; [congruence|exact CH|right; auto|]. rewrite KC.
      apply (c41_point_lookup m T es bs (ti_tree i) F (n_get n) v Hm HTy E HF HG Tv). reflexivity.
Qed.
Print Assumptions c109_index_partial.

(** C109, refuted: left joins lose their left rows without a partner. *)
Theorem c109_left_refuted n L rw out e l :
  n_kind n = JLeft -> n_child n = RSeq -> NoDup (map snd (n_table n)) ->
  (forall i, In i (n_indexes n) -> ti_cols i <> length (n_rkeys n)) ->
  In l L -> (forall r rd, In (r, rd) (n_table n) -> is_true_on (n_pred n) l r = false) ->
  joins n (nstart (map Row L)) out e ->
  ~ Permutation out (left_rows (is_true_on (n_pred n)) rw L (map fst (n_table n))).
Proof.
  intros _ HC ND HI Hl HN J P. rewrite <- (app_nil_r (map Row L)) in J. apply (c109_scan_partial n L [] Ends) in J as [-> _]; [|left; auto|exact HC|exact ND|exact HI].
  apply Permutation_length in P. unfold left_rows in P. rewrite app_length, map_length in P.
  assert (X : In l (lonely_left (is_true_on (n_pred n)) L (map fst (n_table n)))).
  { unfold lonely_left. apply List.filter_In. split; [exact Hl|]. apply negb_true_iff. apply not_true_is_false. intros Y. apply existsb_exists in Y as (r & Hr & Y).
    apply in_map_iff in Hr as ([r' rd] & <- & Hr). cbn in Y. rewrite (HN _ _ Hr) in Y. discriminate. }
  destruct (lonely_left _ _ _); [destruct X|cbn in P; lia].
Qed.
Print Assumptions c109_left_refuted.

(** C109, refuted: the conditions of an index scan below the join are not applied. *)
Theorem c109_child_refuted n L preds l r rd :
  n_child n = RIdx preds -> NoDup (map snd (n_table n)) ->
  (forall i, In i (n_indexes n) -> ti_cols i <> length (n_rkeys n)) ->
  In l L -> In (r, rd) (n_table n) -> ~ satisfies preds r -> is_true_on (n_pred n) l r = true ->
  exists out, joins n (nstart (map Row L)) out Ends /\ In (l ++ r) out.
Proof.
  intros HC ND HI Hl Hr _ HO. eexists. split.
  - rewrite <- (app_nil_r (map Row L)). apply (scan_any n L [] Ends); [left; auto|congruence|exact ND|exact HI|auto].
  - unfold inner_rows. apply in_flat_map. exists l. split; [exact Hl|]. apply in_map. apply List.filter_In. split; [|exact HO].
    apply in_map_iff. exists (r, rd). auto.
Qed.
Print Assumptions c109_child_refuted.

(** C109, refuted: with anything but a table or an index scan on the right there are no rows and
    there is no error. *)
Theorem c109_other_child_refuted n L :
  n_child n = ROther -> forall out e, joins n (nstart (map Row L)) out e <-> out = [] /\ e = Ends.
Proof.
  intros HC. unfold nstart.
  assert (G : forall c sp seen out e, sp = true \/ c = None -> joins n (Nst (map Row L) c sp None seen) out e <-> out = [] /\ e = Ends).
  { induction L as [|l L IH]; intros c sp seen out e Hs.
    - eapply (run_stop n _ NDone); [auto|]. intros e' s'. rewrite step_left by exact Hs. cbn. split; [intros E; injection E as -> ->; split; reflexivity|intros [-> ->]; reflexivity].
    - rewrite (run_tau _ _ (Nst (map Row L) (Some l) false None [])).
      2:{ intros e' s'. rewrite step_left by exact Hs. cbn. split; [intros E; injection E as -> ->; auto|intros [-> ->]; reflexivity]. }
      rewrite (run_tau _ _ (Nst (map Row L) (Some l) true None [])); [apply IH; auto|].
      intros e' s'. split.
      + intros St. inversion St as [? ? ? [H|H]|? ? ? ? ? H1 H2 H3 H4|? ? ? ? ? H1 H2 H3 H4 H5|? ? H1 H2 H3 H4|? ? H1 H2 H3 H4]; subst; try discriminate;
          cbn in H2; injection H2 as <-; [inversion H4; congruence|auto|inversion H4; congruence].
      + intros [-> ->]. apply (ns_none n (Nst (map Row L) (Some l) false None []) l); try reflexivity. apply mk_other, HC. }
  intros out e. apply G. right. reflexivity.
Qed.
Print Assumptions c109_other_child_refuted.

Lemma widen_some l : forall s e, s <> None -> fst (widen (s, e) l) <> None.
Proof.
  induction l as [|[[s0 si] [e0 ei]] l IH]; intros s e H; [exact H|]. cbn [widen]. apply IH.
  destruct s as [c0|], s0 as [v|]; try congruence. destruct (val_cmp v c0); discriminate.
Qed.

(** C109, refuted: the index is chosen by how many columns it has.  If it has more than one, or is
    not on the table's first column, the executor panics at the first left row. *)
Theorem c109_panic_refuted n l L i lk lks rk rks v :
  n_child n <> ROther -> choose n = Some i -> ti_cols i <> 1 \/ ti_attr i <> 0 ->
  n_lkeys n = lk :: lks -> n_rkeys n = rk :: rks -> eval lk l = Ok v ->
  forall out e, joins n (nstart (map Row (l :: L))) out e <-> out = [] /\ e = Panics.
Proof.
  intros HC CH HI EL ER Ev out e.
  assert (B : bounds (key_conds (n_lkeys n) (n_rkeys n) l) <> (None, None)).
  { rewrite EL, ER. cbn [key_conds]. rewrite Ev. intros B. assert (X : fst (bounds ([ECmp Eq rk (EConst v)] ++ key_conds lks rks l)) = None) by (rewrite B; reflexivity).
    revert X. unfold bounds. cbn [map app concat ranges eval widen]. apply widen_some. discriminate. }
  unfold nstart. cbn [map].
  rewrite (run_tau _ _ (Nst (map Row L) (Some l) false None [])).
  2:{ intros e' s'. rewrite step_left by (right; reflexivity). cbn. split; [intros E; injection E as -> ->; auto|intros [-> ->]; reflexivity]. }
  eapply (run_stop n _ NPanic _ Panics); [auto|]. intros e' s'. split.
  - intros St. inversion St as [? ? ? [H|H]|? ? ? ? ? H1 H2 H3 H4|? ? ? ? ? H1 H2 H3 H4 H5|? ? H1 H2 H3 H4|? ? H1 H2 H3 H4]; subst; try discriminate;
      cbn in H2; injection H2 as <-.
    + inversion H4 as [|X Y|j o X Y D S|]; subst; [congruence|]. rewrite CH in Y. injection Y as <-. destruct D as [D|[D1 D2]]; [destruct (B D)|]. destruct HI as [D|D]; contradiction.
    + inversion H4; congruence.
    + split; reflexivity.
  - intros [-> ->]. eapply ns_panic; [reflexivity|reflexivity|reflexivity|]. eapply mk_panic; eassumption.
Qed.
Print Assumptions c109_panic_refuted.

(** ** Cases *)

(** Three right rows; the left key is the left row's first column and the condition compares it
    with the right row's column [c]. *)
Definition cond (c : nat) (l r : row) : res val := eval_join 1 (JEq (JCol 0 0) (JCol 1 (1 + c))) l r.
Definition three : list (row * rid) := [([key 5; key 50], (0%N, 0%N)); ([key 3; key 30], (1%N, 0%N)); ([key 5; key 51], (2%N, 0%N))].
Definition scan_node (k : jkind) (ch : rchild) (ixs : list tindex) : node := Node k (cond 0) [ECol 0] [ECol 0] ch three table10 ixs.

Example c109_scan_ex :
  joins (scan_node JInner RSeq [TIndex 2 0 new_index]) (nstart (map Row [[key 5]; [key 4]; [key 3]] ++ [Fail])) [[key 5; key 5; key 50]; [key 5; key 5; key 51]; [key 3; key 3; key 30]] Errs.
Proof.
  apply c109_scan_partial with (en := Errs); [right; eexists; split; reflexivity|reflexivity| | |vm_compute; auto].
  - apply NoDup_ListNoDup. repeat constructor; cbn; intuition discriminate.
  - cbn. intros i [<-|[]]. discriminate.
Qed.

(** The left row 4 has no partner. *)
Example c109_left_ex :
  In [key 4] [[key 5]; [key 4]] /\ (forall r rd, In (r, rd) three -> is_true_on (cond 0) [key 4] r = false) /\
  exists out, joins (scan_node JLeft RSeq []) (nstart (map Row [[key 5]; [key 4]])) out Ends.
Proof.
  split; [cbn; tauto|]. split; [intros r rd [H|[H|[H|[]]]]; injection H as <- <-; reflexivity|].
  eexists. rewrite <- (app_nil_r (map Row _)). apply c109_scan_partial with (en := Ends); [left; split; reflexivity|reflexivity| | |split; reflexivity].
  - apply NoDup_ListNoDup. repeat constructor; cbn; intuition discriminate.
  - intros i [].
Qed.

Example c109_child_ex : ~ satisfies [ECmp Gt (ECol 1) (EConst (key 50))] [key 5; key 50] /\ is_true_on (cond 0) [key 5] [key 5; key 50] = true.
Proof. split; [|reflexivity]. intros H. specialize (H _ (or_introl eq_refl)). discriminate. Qed.

(** The ten rows of C41 and the index on their first column. *)
Definition ten_ix : tindex := TIndex 1 0 (match ten with Some ix => ix | None => new_index end).
Definition ten_node (c : nat) : node := Node JInner (cond c) [ECol 0] [ECol c] RSeq [] table10 [TIndex 2 1 new_index; ten_ix].

Example c109_index_ex :
  exists F out, scan_full (ti_tree ten_ix) = Some F /\ NoDup (map snd F) /\ choose (ten_node 0) = Some ten_ix /\
  joins (ten_node 0) (nstart (map Row [[key 9]; [key 2]; [key 5]] ++ [])) out Ends /\ length out = 5.
Proof.
  assert (TEN : exists bs, inserts 4 (num [5; 3; 5; 9; 5; 1; 5; 7; 8; 6]%Z) new_index = Some (bs, ti_tree ten_ix)) by (eexists; vm_compute; reflexivity).
  destruct TEN as [bs TEN]. destruct c41_ex as [(F & HF & HG) _]. vm_compute in HF. injection HF as <-.
  match type of HG with indexed_by _ ?X => exists X end.
  eexists. split; [vm_compute; reflexivity|]. split; [apply NoDup_ListNoDup; repeat constructor; cbn; intuition discriminate|]. split; [reflexivity|]. split.
  - eapply (c109_index_partial (ten_node 0) _ [] Ends ten_ix 4 (TInt Integer) (num [5; 3; 5; 9; 5; 1; 5; 7; 8; 6]%Z) bs _ (ECol 0) (or_introl (conj eq_refl eq_refl)) eq_refl).
    + split; [lia|exists 2; reflexivity].
    + repeat constructor.
    + exact TEN.
    + vm_compute. reflexivity.
    + exact HG.
    + apply NoDup_ListNoDup; repeat constructor; cbn; intuition discriminate.
    + reflexivity.
    + reflexivity.
    + reflexivity.
    + reflexivity.
    + intros l Hl. split; [destruct Hl as [<-|[<-|[<-|[]]]]; eexists; split; reflexivity|].
      intros rd r v G Ev. cbn in G, Ev. unfold where_pass, is_true_on. cbn [n_pred ten_node]. unfold cond. cbn [eval_join eval].
      destruct l as [|x l]; [discriminate|]. cbn in Ev. injection Ev as ->. destruct r as [|y r]; [intros X; discriminate|]. cbn [nth_error Nat.leb Nat.sub bind Nat.add].
      assert (V : exists w, v = key w) by (destruct Hl as [H|[H|[H|[]]]]; injection H as <- _; eauto).
      assert (Y : exists z, y = key z) by (unfold table10 in G; destruct (nth_error _ _); [|discriminate]; destruct (N.eqb _ _); [|discriminate]; injection G as <- _; eauto).
      destruct Y as [z ->], V as [w ->]. cbn. rewrite (Z.compare_antisym z w). destruct (z ?= w)%Z; cbn; auto.
    + split; reflexivity.
  - vm_compute. reflexivity.
Qed.

(** C109, refuted: the index on the first column is also taken when the key is the second column;
    the pair 30, (3, 30) is lost. *)
Theorem c109_wrong_index_refuted : exists r rd,
  table10 rd = Some r /\ is_true_on (n_pred (ten_node 1)) [key 30] r = true /\ choose (ten_node 1) = Some ten_ix /\
  forall out e, joins (ten_node 1) (nstart [Row [key 30]]) out e <-> out = [] /\ e = Ends.
Proof.
  exists [key 3; key 30], (1, 0)%N. split; [reflexivity|]. split; [reflexivity|]. split; [reflexivity|].
  intros out e. unfold nstart. apply (run_all (ten_node 1) (fun _ => []) [[key 30]] [] Ends); [left; split; reflexivity| |right; reflexivity].
  intros l [<-|[]]. split; [constructor|].
  assert (S : forall out, index_scan (ti_tree ten_ix) table10 [ECmp Eq (ECol 1) (EConst (key 30))] out <-> out = []).
  { apply (scan_of (ti_tree ten_ix) table10 [ECmp Eq (ECol 1) (EConst (key 30))] [] (Some (key 30)) (Some (key 30)) true None); [vm_compute; reflexivity|apply spent_done|reflexivity]. }
  intros m. split.
  - intros M. inversion M as [X|X Y|j o X Y B SC|j X Y B D]; subst; try discriminate.
    + injection Y as <-. change (index_scan (ti_tree ten_ix) table10 [ECmp Eq (ECol 1) (EConst (key 30))] o) in SC. apply S in SC. subst. reflexivity.
    + injection Y as <-. destruct D as [D|D]; destruct (D eq_refl).
  - intros ->. eapply mk_index; [discriminate|reflexivity|right; split; reflexivity|]. apply S. reflexivity.
Qed.
Print Assumptions c109_wrong_index_refuted.

Example c109_panic_ex : choose (ten_node 0) = Some ten_ix /\
  choose (Node JInner (cond 0) [ECol 0] [ECol 1] RSeq three table10 [TIndex 1 1 new_index]) = Some (TIndex 1 1 new_index).
Proof. split; reflexivity. Qed.
