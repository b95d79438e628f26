(** * Recovery: proofs *)
From Coq Require Import NArith Lia Sorted.
From stdpp Require Import gmap list.
From Verif Require Import RecSpec RecModel.
Local Open Scope N_scope.

(** ** One row's history *)
Definition touches (d : rid) (r : lrec) : Prop := row_of (r_act r) = Some d.
Global Instance touches_dec d r : Decision (touches d r).
Proof. unfold touches. apply _. Defined.
Definition vstep (d : rid) (v : option (list N)) (r : lrec) : option (list N) :=
  if decide (touches d r) then
    match r_act r with AInsert _ t | AUpdate _ _ t => Some t | ADelete _ _ | AApply _ _ => None | _ => v end
  else v.
Definition val (d : rid) (l : list lrec) : option (list N) := fold_left (vstep d) l None.

Lemma effect_vstep (r : lrec) (m : table) (d : rid) : effect (r_act r) m !! d = vstep d (m !! d) r.
Proof.
  unfold vstep. destruct (decide (touches d r)) as [H|H]; unfold touches in H;
    destruct (r_act r) as [| | |d0 t|d0 o t|d0 t|d0 t|d0 t|p] eqn:E; cbn [row_of effect] in *; try done;
    try (injection H as ->); first [by rewrite lookup_insert|by rewrite lookup_delete|idtac];
    first [rewrite lookup_insert_ne by congruence|rewrite lookup_delete_ne by congruence]; done.
Qed.
Lemma all_table_val (l : list lrec) (d : rid) : all_table l !! d = val d l.
Proof.
  unfold all_table, val. assert (forall (m : table) v, m !! d = v ->
    fold_left (fun m r => effect (r_act r) m) l m !! d = fold_left (vstep d) l v) as H.
  { induction l as [|r l IH]; intros m v Hm; cbn; [done|]. apply IH. by rewrite effect_vstep, Hm. }
  apply H. by rewrite lookup_empty.
Qed.
Lemma committed_table_val (log : list lrec) (d : rid) :
  committed_table log !! d = val d (filter (fun r => committedb log (r_txn r) = true) log).
Proof.
  unfold committed_table, val.
  assert (forall c (m : table) v, m !! d = v ->
    fold_left (fun m r => if committedb c (r_txn r) then effect (r_act r) m else m) log m !! d =
    fold_left (vstep d) (filter (fun r => committedb c (r_txn r) = true) log) v) as H.
  { intros c. induction log as [|r l IH]; intros m v Hm; cbn [fold_left]; [done|]. rewrite filter_cons.
    destruct (committedb c (r_txn r)) eqn:E.
    - rewrite decide_True by done. cbn [fold_left]. apply IH. by rewrite effect_vstep, Hm.
    - rewrite decide_False by done. by apply IH. }
  apply H. by rewrite lookup_empty.
Qed.
Lemma vfold_filter d l v : fold_left (vstep d) l v = fold_left (vstep d) (filter (touches d) l) v.
Proof.
  revert v. induction l as [|r l IH]; intros v; [done|]. rewrite filter_cons. cbn [fold_left].
  unfold vstep at 2. destruct (decide (touches d r)) as [H|H]; cbn [fold_left]; rewrite IH; [|done].
  f_equal. unfold vstep. by rewrite decide_True.
Qed.
Lemma val_filter d l : val d l = val d (filter (touches d) l).
Proof. apply vfold_filter. Qed.
Lemma val_app d a b : val d (a ++ b) = fold_left (vstep d) b (val d a).
Proof. unfold val. by rewrite fold_left_app. Qed.
Lemma val_untouched d a b : (forall r, r ∈ b -> ~ touches d r) -> val d (a ++ b) = val d a.
Proof.
  intros H. rewrite val_app, vfold_filter. replace (filter (touches d) b) with (@nil lrec); [done|].
  symmetry. induction b as [|r b IH]; [done|]. rewrite filter_cons, decide_False; [|apply H; left].
  apply IH. intros. apply H. by right.
Qed.
Lemma val_snoc d l r : val d (l ++ [r]) = vstep d (val d l) r.
Proof. by rewrite val_app. Qed.

(** ** Numbers *)
Lemma sorted_lookup_lt (l : list N) i j x y : StronglySorted N.lt l -> l !! i = Some x -> l !! j = Some y -> (i < j)%nat -> x < y.
Proof.
  intros Hs. revert i j. induction Hs as [|a l Hs IH Ha]; intros i j Hi Hj Hij; [done|].
  destruct j as [|j]; [lia|]. cbn in Hj. destruct i as [|i]; cbn in Hi.
  - injection Hi as ->. rewrite List.Forall_forall in Ha. apply Ha. apply elem_of_list_In, elem_of_list_lookup. eauto.
  - apply (IH i j); [done|done|lia].
Qed.
Lemma lsn_lt (log : list lrec) i j x y : StronglySorted N.lt (map r_lsn log) -> log !! i = Some x -> log !! j = Some y -> (i < j)%nat -> r_lsn x < r_lsn y.
Proof. intros Hs Hi Hj Hij. eapply sorted_lookup_lt; [exact Hs| | |exact Hij]; by rewrite list_lookup_fmap, ?Hi, ?Hj. Qed.
Lemma lsn_inj (log : list lrec) i j x y : StronglySorted N.lt (map r_lsn log) -> log !! i = Some x -> log !! j = Some y -> r_lsn x = r_lsn y -> i = j.
Proof.
  intros Hs Hi Hj E. destruct (Nat.lt_total i j) as [H|[H|H]]; [|done|].
  - pose proof (lsn_lt log i j x y Hs Hi Hj H). lia.
  - pose proof (lsn_lt log j i y x Hs Hj Hi H). lia.
Qed.
Lemma find_lsn_here (log : list lrec) r : StronglySorted N.lt (map r_lsn log) -> r ∈ log -> find_lsn log (r_lsn r) = Some r.
Proof.
  intros Hs Hr. unfold find_lsn. apply elem_of_list_lookup in Hr as [i Hi].
  destruct (last (filter (fun q => r_lsn q = r_lsn r) log)) as [q|] eqn:E.
  - apply last_Some_elem_of in E. apply elem_of_list_filter in E as [Hq Hin].
    apply elem_of_list_lookup in Hin as [j Hj]. assert (j = i) by (eapply lsn_inj; eauto). congruence.
  - apply last_None in E. assert (r ∈ filter (fun q => r_lsn q = r_lsn r) log) as H.
    { apply elem_of_list_filter. split; [done|]. apply elem_of_list_lookup. eauto. }
    rewrite E in H. by apply elem_of_nil in H.
Qed.

(** ** Analysis *)
Lemma analyze_snoc l r : analyze (l ++ [r]) = analyze_one (analyze l) r.
Proof. unfold analyze. by rewrite fold_left_app. Qed.
Definition ends (a : act) : bool := match a with ACommit | AAbort => true | _ => false end.
Lemma a_txns_spec l t : a_txns (analyze l) !! t =
  match last (filter (fun q => r_txn q = t) l) with Some r => if ends (r_act r) then None else Some (r_lsn r) | None => None end.
Proof.
  induction l as [|r l IH] using rev_ind; [done|]. rewrite analyze_snoc, filter_app, filter_cons, filter_nil.
  destruct (decide (r_txn r = t)) as [<-|H].
  - rewrite last_snoc. unfold analyze_one.
    destruct (r_act r); cbn; first [by rewrite lookup_insert|by rewrite lookup_delete].
  - rewrite app_nil_r, <- IH. unfold analyze_one.
    destruct (r_act r); cbn; first [by rewrite lookup_insert_ne|by rewrite lookup_delete_ne].
Qed.
Lemma a_start_spec l : (forall r, r ∈ l -> r_lsn r < 2 ^ 64 - 1) -> a_start (analyze l) = match l with [] => no_lsn | r :: _ => r_lsn r end.
Proof.
  induction l as [|r l IH] using rev_ind; intros Hm; [done|]. rewrite analyze_snoc.
  assert (a_start (analyze_one (analyze l) r) = if a_start (analyze l) =? no_lsn then r_lsn r else a_start (analyze l)) as ->.
  { unfold analyze_one. by destruct (r_act r). }
  rewrite IH by (intros; apply Hm, elem_of_app; by left).
  destruct l as [|q l]; cbn [app]; [done|].
  replace (r_lsn q =? no_lsn) with false; [done|]. symmetry. apply N.eqb_neq.
  pose proof (Hm q ltac:(left)). unfold no_lsn. lia.
Qed.
(** A page is dirty from its first record on. *)
Lemma a_dirty_spec l p : a_dirty (analyze l) !! p =
  match filter (fun r => page_of (r_act r) = Some p) l with r :: _ => Some (r_lsn r) | [] => None end.
Proof.
  induction l as [|r l IH] using rev_ind; [done|]. rewrite analyze_snoc, filter_app.
  assert (a_dirty (analyze_one (analyze l) r) =
          match page_of (r_act r) with Some p => add_page p (r_lsn r) (a_dirty (analyze l)) | None => a_dirty (analyze l) end) as ->.
  { unfold analyze_one. by destruct (r_act r). }
  rewrite filter_cons, filter_nil. destruct (page_of (r_act r)) as [p0|] eqn:E.
  - unfold add_page. destruct (decide (p0 = p)) as [->|H].
    + rewrite decide_True by done. destruct (a_dirty (analyze l) !! p) eqn:F.
      * rewrite F, IH. destruct (filter _ l); [congruence|done].
      * rewrite lookup_insert. destruct (filter _ l); [done|congruence].
    + rewrite decide_False by congruence. rewrite app_nil_r, <- IH.
      destruct (a_dirty (analyze l) !! p0); [done|]. by rewrite lookup_insert_ne.
  - rewrite decide_False by done. by rewrite app_nil_r.
Qed.

Lemma should_redo_all log r : StronglySorted N.lt (map r_lsn log) -> (forall r, r ∈ log -> r_lsn r < 2 ^ 64 - 1) ->
  r ∈ log -> should_redo (analyze log) r = match page_of (r_act r) with Some _ => true | None => false end.
Proof.
  intros Hs Hm Hr. unfold should_redo. rewrite a_start_spec by done.
  apply elem_of_list_lookup in Hr as [i Hi].
  assert (forall j q, log !! j = Some q -> (j <= i)%nat -> r_lsn q <= r_lsn r) as Hle.
  { intros j q Hj Hji. destruct (Nat.eq_dec j i) as [->|]; [assert (q = r) by congruence; subst; lia|].
    pose proof (lsn_lt log j i q r Hs Hj Hi ltac:(lia)). lia. }
  assert (match log with [] => no_lsn | q :: _ => r_lsn q end <= r_lsn r) as H0.
  { destruct log as [|q0 l]; [done|]. apply (Hle 0%nat); [done|lia]. }
  rewrite (proj2 (N.leb_le _ _) H0). cbn [andb].
  destruct (page_of (r_act r)) as [p|] eqn:Ep; [|done]. rewrite a_dirty_spec.
  assert (r ∈ filter (fun r => page_of (r_act r) = Some p) log) as Hin.
  { apply elem_of_list_filter. split; [done|]. apply elem_of_list_lookup. eauto. }
  destruct (filter (fun r => page_of (r_act r) = Some p) log) as [|q l] eqn:Ef; [by apply elem_of_nil in Hin|].
  apply N.leb_le.
  assert (log = take i log ++ r :: drop (S i) log) as Esp by (symmetry; by apply take_drop_middle).
  rewrite Esp, filter_app, filter_cons, decide_True in Ef by done.
  destruct (filter (fun r => page_of (r_act r) = Some p) (take i log)) as [|q' l'] eqn:Eq; cbn in Ef.
  - injection Ef as -> _. lia.
  - injection Ef as -> _. assert (q ∈ take i log) as Hq.
    { assert (q ∈ filter (fun r => page_of (r_act r) = Some p) (take i log)) as H by (rewrite Eq; left). by apply elem_of_list_filter in H as [_ H]. }
    apply elem_of_take in Hq as (j & Hj & Hji). apply (Hle j); [done|lia].
Qed.

(** ** Redo and undo on pages *)
Section Pages.
Context (room : list row -> option nat -> list N -> bool) (pages : gset N).
Notation put_new := (put_new room).
Notation put := (put room).
Notation mark := (mark room).
Notation redo_record := (redo_record room).
Notation undo_record := (undo_record room).

Lemma put_refused d r s : p_refused s = true -> p_refused (put d r s) = true.
Proof. intros H. unfold RecModel.put. destruct (_ !! d.1); [|done]. destruct (_ !! d.2); [|done]. by destruct (room _ _ _). Qed.
Lemma put_new_refused p r s : p_refused s = true -> p_refused (put_new p r s) = true.
Proof. intros H. unfold RecModel.put_new. destruct (_ !! p); [|done]. by destruct (room _ _ _). Qed.
Lemma mark_refused d s : p_refused s = true -> p_refused (mark d s) = true.
Proof. intros H. unfold RecModel.mark. destruct (get d s); [|done]. by apply put_refused. Qed.
Lemma redo_refused r s : p_refused s = true -> p_refused (redo_record r s) = true.
Proof.
  intros H. unfold RecModel.redo_record. destruct (r_act r); try done; try (by apply put_new_refused); try (by apply put_refused); try (by apply mark_refused).
  by destruct (_ !! p).
Qed.
Lemma undo_refused r s : p_refused s = true -> p_refused (undo_record r s) = true.
Proof.
  intros H. unfold RecModel.undo_record. destruct (r_act r); try done; try (by apply put_refused); by apply mark_refused.
Qed.
Lemma fold_refused {A} (f : pst -> A -> pst) l s :
  (forall s x, p_refused s = true -> p_refused (f s x) = true) -> p_refused (fold_left f l s) = false -> p_refused s = false.
Proof.
  intros Hf. revert s. induction l as [|x l IH]; intros s H; [done|]. cbn in H. apply IH in H.
  destruct (p_refused s) eqn:E; [|done]. rewrite Hf in H; done.
Qed.

Lemma put_spec d r s r0 : get d s = Some r0 -> p_refused (put d r s) = false ->
  get d (put d r s) = Some r /\ (forall d', d' <> d -> get d' (put d r s) = get d' s) /\
  (forall p, length <$> (p_pages (put d r s) !! p) = length <$> (p_pages s !! p)).
Proof.
  unfold RecModel.get, RecModel.put. destruct (p_pages s !! d.1) as [rows|] eqn:E; [|done]. intros Hr. rewrite Hr.
  destruct (room _ _ _); cbn; [|done]. intros _.
  split; [rewrite lookup_insert; apply list_lookup_insert; by eapply lookup_lt_Some|]. split.
  - intros d' Hd. destruct (decide (d'.1 = d.1)) as [E1|E1].
    + rewrite E1, lookup_insert, E. rewrite list_lookup_insert_ne; [done|]. intros E2. apply Hd. destruct d, d'; cbn in *; congruence.
    + by rewrite lookup_insert_ne.
  - intros p. destruct (decide (p = d.1)) as [->|Hp]; [|by rewrite lookup_insert_ne].
    rewrite lookup_insert, E. cbn. by rewrite insert_length.
Qed.
Lemma mark_spec d s r0 : get d s = Some r0 -> p_refused (mark d s) = false ->
  (exists r, get d (mark d s) = Some r /\ w_del r = true) /\ (forall d', d' <> d -> get d' (mark d s) = get d' s) /\
  (forall p, length <$> (p_pages (mark d s) !! p) = length <$> (p_pages s !! p)).
Proof.
  intros Hg. unfold RecModel.mark. rewrite Hg. intros Hr. destruct (put_spec d (mkRow (w_txn r0) (w_ts r0) true (w_data r0)) s r0 Hg Hr) as (H1 & H2 & H3).
  split; [|done]. eexists. split; [exact H1|done].
Qed.

(** What redoing the records of [l] has made of the pages. *)
Record Rel (l : list lrec) (s : pst) : Prop := mkRel {
  rel_len : forall p, length <$> (p_pages s !! p) = if decide (p ∈ pages) then Some (inserts p l) else None;
  rel_live : forall d, live s d = val d l
}.
Lemma rel_opened : Rel [] (opened pages).
Proof.
  constructor.
  - intros p. cbn. rewrite lookup_gset_to_gmap. destruct (decide (p ∈ pages)) as [H|H].
    + by rewrite option_guard_True.
    + by rewrite option_guard_False.
  - intros d. unfold live, get. cbn. rewrite lookup_gset_to_gmap. destruct (decide (d.1 ∈ pages)) as [H|H].
    + by rewrite option_guard_True.
    + by rewrite option_guard_False.
Qed.
Lemma inserts_snoc p l r : inserts p (l ++ [r]) = (inserts p l + if is_insert p (r_act r) then 1 else 0)%nat.
Proof. unfold inserts. rewrite List.filter_app, app_length. cbn. by destruct (is_insert p (r_act r)). Qed.

Lemma live_get d s v : live s d = Some v -> exists r, get d s = Some r.
Proof. unfold live. destruct (get d s); [eauto|done]. Qed.

(** One record that fits the history [l]. *)
Definition fits (l : list lrec) (r : lrec) : Prop :=
  match r_act r with
  | AInsert d _ => d.1 ∈ pages /\ d.2 = inserts d.1 l
  | AUpdate d old _ | ADelete d old => val d l = Some old
  | AApply _ _ | ARollback _ _ => False
  | ANewPage p => p ∈ pages
  | _ => True
  end.
Lemma vstep_other d v r : row_of (r_act r) <> Some d -> vstep d v r = v.
Proof. intros H. unfold vstep. rewrite decide_False; done. Qed.
Lemma vstep_row d v r : row_of (r_act r) = Some d ->
  vstep d v r = match r_act r with AInsert _ t | AUpdate _ _ t => Some t | ADelete _ _ | AApply _ _ => None | _ => v end.
Proof. intros H. unfold vstep. rewrite decide_True; done. Qed.

Lemma redo_step l r s : Rel l s -> fits l r -> p_refused (redo_record r s) = false -> Rel (l ++ [r]) (redo_record r s).
Proof.
  intros [Hlen Hlive] Hf Hr.
  assert (forall s', (forall p, length <$> (p_pages s' !! p) = length <$> (p_pages s !! p)) ->
            (forall p, is_insert p (r_act r) = false) ->
            (forall d, live s' d = vstep d (live s d) r) -> Rel (l ++ [r]) s') as Hgen.
  { intros s' H1 H2 H3. constructor.
    - intros p. rewrite H1, Hlen, inserts_snoc, H2. by rewrite Nat.add_0_r.
    - intros d. by rewrite val_snoc, H3, Hlive. }
  unfold RecModel.redo_record, fits in *. pose proof (vstep_other) as Vo. pose proof (vstep_row) as Vr.
  destruct (r_act r) as [| | |d t|d o t|d t|d t|d t|p] eqn:E; try done;
    try (apply Hgen; [done|done|intros d; rewrite vstep_other; [done|by rewrite E]]).
  - destruct Hf as [Hp Hk]. unfold RecModel.put_new in *. specialize (Hlen d.1) as Hl. rewrite decide_True in Hl by done.
    destruct (p_pages s !! d.1) as [rows|] eqn:Er; [|done]. cbn in Hl. injection Hl as Hl.
    destruct (room _ _ _); [|done]. constructor.
    + intros p. cbn. rewrite inserts_snoc, E. cbn. destruct (decide (p = d.1)) as [->|Hne].
      * rewrite lookup_insert, decide_True by done. cbn. rewrite app_length, Hl, N.eqb_refl. done.
      * rewrite lookup_insert_ne by done. rewrite Hlen. replace (d.1 =? p) with false by (symmetry; apply N.eqb_neq; congruence).
        by rewrite Nat.add_0_r.
    + intros d'. rewrite val_snoc. unfold live, get. cbn. destruct (decide (d' = d)) as [->|Hne].
      * rewrite lookup_insert, vstep_row by (by rewrite E). rewrite E, Hk, <- Hl. rewrite lookup_app_r by lia. by rewrite Nat.sub_diag.
      * rewrite vstep_other by (rewrite E; cbn; congruence). rewrite <- Hlive. unfold live, get.
        destruct (decide (d'.1 = d.1)) as [E1|E1]; [|by rewrite lookup_insert_ne].
        rewrite E1, lookup_insert, Er. assert (d'.2 <> length rows) as Hn.
        { intros E2. apply Hne. apply injective_projections; congruence. }
        destruct (Nat.lt_ge_cases d'.2 (length rows)) as [Hlt|Hge].
        -- by rewrite lookup_app_l.
        -- rewrite lookup_app_r by lia. rewrite (lookup_ge_None_2 rows) by lia.
           rewrite (lookup_ge_None_2 [_]) by (cbn; lia). done.
  - rewrite <- Hlive in Hf. destruct (live_get _ _ _ Hf) as [r0 Hr0].
    destruct (put_spec d (fresh_row (r_txn r) t) s r0 Hr0 Hr) as (H1 & H2 & H3).
    apply Hgen; [done|done|]. intros d'. destruct (decide (d' = d)) as [->|Hne].
    + rewrite vstep_row by (by rewrite E). rewrite E. unfold live. by rewrite H1.
    + rewrite vstep_other by (rewrite E; cbn; congruence). unfold live. by rewrite H2.
  - rewrite <- Hlive in Hf. destruct (live_get _ _ _ Hf) as [r0 Hr0].
    destruct (mark_spec d s r0 Hr0 Hr) as ((r1 & H1 & H1') & H2 & H3).
    apply Hgen; [done|done|]. intros d'. destruct (decide (d' = d)) as [->|Hne].
    + rewrite vstep_row by (by rewrite E). rewrite E. unfold live. by rewrite H1, H1'.
    + rewrite vstep_other by (rewrite E; cbn; congruence). unfold live. by rewrite H2.
  - specialize (Hlen p) as Hl. rewrite decide_True in Hl by done. destruct (p_pages s !! p) eqn:Ep; [|done].
    apply Hgen; [done|done|]. intros d. rewrite vstep_other; [done|]. by rewrite E.
Qed.
Lemma redo_all l : forall l0 s, Rel l0 s -> (forall i r, l !! i = Some r -> fits (l0 ++ take i l) r) ->
  p_refused (fold_left (fun s r => redo_record r s) l s) = false -> Rel (l0 ++ l) (fold_left (fun s r => redo_record r s) l s).
Proof.
  induction l as [|r l IH]; intros l0 s HR Hf Hr; cbn [fold_left] in *; [by rewrite app_nil_r|].
  rewrite cons_middle, app_assoc. apply IH; [|intros i q Hi; specialize (Hf (S i) q Hi); cbn in Hf; by rewrite <- app_assoc|done].
  apply redo_step; [done|specialize (Hf 0%nat r eq_refl); by rewrite app_nil_r in Hf|].
  eapply fold_refused; [|exact Hr]. intros. by apply redo_refused.
Qed.

(** The row a record changed, as it was before. *)
Definition before (a : act) : option (list N) := match a with AUpdate _ o _ | ADelete _ o => Some o | _ => None end.
Definition plain (r : lrec) : Prop := match r_act r with AApply _ _ | ARollback _ _ => False | _ => True end.
Lemma undo_step r s d : plain r -> (forall d, touches d r -> exists r0, get d s = Some r0) -> p_refused (undo_record r s) = false ->
  live (undo_record r s) d = (if decide (touches d r) then before (r_act r) else live s d) /\
  (forall d', is_Some (get d' (undo_record r s)) <-> is_Some (get d' s)).
Proof.
  intros Hp Hex Hr. unfold touches, plain, RecModel.undo_record, before in *.
  assert (forall r1 d0, (forall d', d' <> d0 -> get d' (r1 : pst) = get d' s) -> is_Some (get d0 r1) -> is_Some (get d0 s) ->
     forall d', is_Some (get d' r1) <-> is_Some (get d' s)) as Hsome.
  { intros r1 d0 H1 H2 H3 d'. destruct (decide (d' = d0)) as [->|Hn]; [done|]. by rewrite H1. }
  destruct (decide (row_of (r_act r) = Some d)) as [H|H];
  destruct (r_act r) as [| | |d0 t|d0 o t|d0 t|d0 t|d0 t|p]; cbn in *; try done;
    try (injection H as ->);
    try (destruct (Hex _ eq_refl) as [r0 Hr0]).
  - destruct (mark_spec d s r0 Hr0 Hr) as ((r1 & H1 & H1') & H2 & H3). split; [unfold live; by rewrite H1, H1'|].
    apply (Hsome _ d); eauto.
  - destruct (put_spec d _ s r0 Hr0 Hr) as (H1 & H2 & H3). split; [unfold live; by rewrite H1|]. apply (Hsome _ d); eauto.
  - destruct (put_spec d _ s r0 Hr0 Hr) as (H1 & H2 & H3). split; [unfold live; by rewrite H1|]. apply (Hsome _ d); eauto.
  - destruct (mark_spec d0 s r0 Hr0 Hr) as ((r1 & H1 & H1') & H2 & H3). split; [unfold live; rewrite H2; congruence|].
    apply (Hsome _ d0); eauto.
  - destruct (put_spec d0 _ s r0 Hr0 Hr) as (H1 & H2 & H3). split; [unfold live; rewrite H2; congruence|]. apply (Hsome _ d0); eauto.
  - destruct (put_spec d0 _ s r0 Hr0 Hr) as (H1 & H2 & H3). split; [unfold live; rewrite H2; congruence|]. apply (Hsome _ d0); eauto.
Qed.
Definition undos (U : list lrec) (s : pst) : pst := fold_left (fun s r => undo_record r s) U s.
Lemma undos_spec U : forall s d, (forall r, r ∈ U -> plain r) ->
  (forall r d, r ∈ U -> touches d r -> is_Some (get d s)) -> p_refused (undos U s) = false ->
  live (undos U s) d = match last (filter (touches d) U) with Some r => before (r_act r) | None => live s d end /\
  (forall d', is_Some (get d' (undos U s)) <-> is_Some (get d' s)).
Proof.
  induction U as [|r U IH] using rev_ind; intros s d Hp Hex Hr; [done|].
  unfold undos in *. rewrite fold_left_app in *. cbn [fold_left] in *.
  assert (p_refused (fold_left (fun s r => undo_record r s) U s) = false) as Hr1.
  { destruct (p_refused (fold_left (fun s r => undo_record r s) U s)) eqn:E; [|done]. rewrite undo_refused in Hr; done. }
  destruct (IH s d) as [IH1 IH2]; [intros; apply Hp, elem_of_app; by left|intros r0 d0 H0; apply Hex, elem_of_app; by left|done|].
  destruct (undo_step r (fold_left (fun s r => undo_record r s) U s) d) as [H1 H2].
  - apply Hp, elem_of_app. right. by apply elem_of_list_singleton.
  - intros d0 Ht. apply IH2. apply (Hex r); [|done]. apply elem_of_app. right. by apply elem_of_list_singleton.
  - done.
  - split; [|intros d'; by rewrite H2]. rewrite H1, filter_app, filter_cons, filter_nil.
    destruct (decide (touches d r)); [by rewrite last_snoc|by rewrite app_nil_r].
Qed.
End Pages.

(** ** Chains *)
Lemma last_filter_prefix {A} (P : A -> Prop) `{!forall x, Decision (P x)} (l : list A) q :
  last (filter P l) = Some q -> exists j, l !! j = Some q /\ P q /\ filter P l = filter P (take (S j) l).
Proof.
  induction l as [|x l IH] using rev_ind; [done|]. rewrite filter_app, filter_cons, filter_nil.
  destruct (decide (P x)) as [Hp|Hp].
  - rewrite last_snoc. intros [= ->]. exists (length l). split; [by rewrite list_lookup_middle|]. split; [done|].
    rewrite take_ge by (rewrite app_length; cbn; lia). rewrite filter_app, filter_cons, filter_nil. by rewrite decide_True.
  - rewrite app_nil_r. intros Hl. destruct (IH Hl) as (j & Hj & Hq & E). exists j.
    pose proof (lookup_lt_Some _ _ _ Hj). split; [by apply lookup_app_l_Some|]. split; [done|].
    rewrite take_app_le by lia. done.
Qed.

Section Chain.
Context (room : list row -> option nat -> list N -> bool) (pages : gset N) (log : list lrec) (W : wf pages log).
Notation mine t l := (filter (fun q => r_txn q = t) l).

Lemma take_snoc i r : log !! i = Some r -> take (S i) log = take i log ++ [r].
Proof. apply take_S_r. Qed.
Lemma undo_no_lsn f t s : undo_txn room f log t no_lsn s = s.
Proof. by destruct f. Qed.
Lemma undo_chain k : forall f r t s, log !! k = Some r -> r_txn r = t -> (k < f)%nat ->
  undo_txn room f log t (r_lsn r) s = undos room (rev (mine t (take (S k) log))) s.
Proof.
  induction k as [k IH] using (well_founded_induction lt_wf). intros f r t s Hk Ht Hf.
  destruct f as [|f]; [lia|]. cbn [undo_txn].
  assert (r ∈ log) as Hin by (apply elem_of_list_lookup; eauto).
  pose proof (wf_max _ _ W r Hin) as Hm.
  replace (r_lsn r =? no_lsn) with false by (symmetry; apply N.eqb_neq; unfold no_lsn; lia).
  rewrite find_lsn_here by (apply (wf_lsn _ _ W) || done). rewrite Ht, N.eqb_refl.
  rewrite (take_snoc k r Hk), filter_app, filter_cons, filter_nil, decide_True by done. rewrite rev_app_distr. cbn [rev app].
  unfold undos. cbn [fold_left].
  assert (undo_txn room f log t (r_prev r) (undo_record room r s) =
          fold_left (fun s r => undo_record room r s) (rev (mine t (take k log))) (undo_record room r s)) as Hgo.
  { rewrite (wf_prev _ _ W k r Hk), Ht. destruct (last (mine t (take k log))) as [q|] eqn:El.
    - destruct (last_filter_prefix _ _ _ El) as (j & Hj & Hq & Ej).
      apply lookup_take_Some in Hj as [Hj Hjk]. rewrite (IH j Hjk f q t) by (done || lia). unfold undos. do 2 f_equal.
      rewrite Ej, take_take. f_equal. f_equal. lia.
    - apply last_None in El. rewrite El. apply undo_no_lsn. }
  destruct (r_act r) eqn:Ea; try exact Hgo.
  assert (mine t (take k log) = []) as ->.
  { destruct (mine t (take k log)) as [|q l] eqn:Eq; [done|]. assert (q ∈ mine t (take k log)) as Hq by (rewrite Eq; left).
    apply elem_of_list_filter in Hq as [Hq1 Hq2]. exfalso. apply (wf_begin _ _ W k r q Hk Ea Hq2). congruence. }
  cbn. unfold undo_record. by rewrite Ea.
Qed.

Definition active (t : N) : Prop := is_Some (a_txns (analyze log) !! t).
Lemma undo_active t s : active t ->
  undo_txn room (S (length log)) log t (default no_lsn (a_txns (analyze log) !! t)) s = undos room (rev (mine t log)) s.
Proof.
  intros [l Hl]. rewrite Hl. cbn [default]. rewrite a_txns_spec in Hl.
  destruct (last (mine t log)) as [r|] eqn:E; [|done]. destruct (ends (r_act r)); [done|]. injection Hl as <-.
  destruct (last_filter_prefix _ _ _ E) as (j & Hj & Hq & Ej). pose proof (lookup_lt_Some _ _ _ Hj).
  change (default no_lsn (Some (r_lsn r))) with (r_lsn r).
  rewrite (undo_chain j _ r t) by (done || lia). by rewrite Ej.
Qed.
Lemma undo_is order s : (forall t, t ∈ order -> active t) ->
  undo room (analyze log) log order s = undos room (flat_map (fun t => rev (mine t log)) order) s.
Proof.
  revert s. induction order as [|t o IH]; intros s Ha; [done|]. unfold undo in *. cbn [fold_left flat_map].
  rewrite undo_active by (apply Ha; left). rewrite IH by (intros; apply Ha; by right).
  unfold undos. by rewrite fold_left_app.
Qed.

Lemma committed_not_active t : committedb log t = true -> ~ active t.
Proof.
  intros Hc [l Hl]. unfold committedb in Hc. apply existsb_exists in Hc as (c & Hin & Hc).
  apply andb_true_iff in Hc as [Ht Hc]. apply N.eqb_eq in Ht. apply bool_decide_eq_true in Hc.
  apply elem_of_list_In, elem_of_list_lookup in Hin as [i Hi].
  rewrite a_txns_spec in Hl. destruct (last (mine t log)) as [r|] eqn:E; [|done].
  assert (r = c) as ->.
  { rewrite <- (take_drop_middle log i c Hi) in E. rewrite filter_app, filter_cons, decide_True in E by done.
    destruct (mine t (drop (S i) log)) as [|q l'] eqn:Eq.
    - by rewrite last_snoc in E; injection E.
    - assert (q ∈ mine t (drop (S i) log)) as Hq by (rewrite Eq; left). apply elem_of_list_filter in Hq as [Hq1 Hq2].
      exfalso. apply (wf_end _ _ W i c q Hi (or_introl Hc) Hq2). congruence. }
  by rewrite Hc in Hl.
Qed.
Lemma not_active_committed r d : r ∈ log -> touches d r -> ~ active (r_txn r) -> committedb log (r_txn r) = true.
Proof.
  intros Hin Ht Hn. unfold active in Hn. rewrite a_txns_spec in Hn.
  destruct (last (mine (r_txn r) log)) as [q|] eqn:E.
  - destruct (last_filter_prefix _ _ _ E) as (j & Hj & Hq & Ej).
    assert (q ∈ log) as Hqin by (apply elem_of_list_lookup; eauto).
    destruct (ends (r_act q)) eqn:Ee; [|by destruct Hn; eauto].
    destruct (r_act q) eqn:Ea; try done.
    + unfold committedb. apply existsb_exists. exists q. split; [by apply elem_of_list_In|]. rewrite Hq, N.eqb_refl, Ea. by rewrite bool_decide_true.
    + pose proof (wf_abort _ _ W q r Hqin Ea Hin (eq_sym Hq)) as H. unfold touches in Ht. congruence.
  - apply last_None in E. assert (r ∈ mine (r_txn r) log) as H by (by apply elem_of_list_filter).
    rewrite E in H. by apply elem_of_nil in H.
Qed.

Lemma filter_none {A} (P : A -> Prop) `{!forall x, Decision (P x)} (l : list A) : (forall x, x ∈ l -> ~ P x) -> filter P l = [].
Proof.
  intros Hn. destruct (filter P l) as [|x l'] eqn:E; [done|]. assert (x ∈ filter P l) as Hx by (rewrite E; left).
  apply elem_of_list_filter in Hx as [H1 H2]. by destruct (Hn x H2).
Qed.
Lemma filter_all {A} (P : A -> Prop) `{!forall x, Decision (P x)} (l : list A) : (forall x, x ∈ l -> P x) -> filter P l = l.
Proof.
  induction l as [|x l IH]; intros Hn; [done|]. rewrite filter_cons, decide_True by (apply Hn; left). f_equal. apply IH. intros. apply Hn. by right.
Qed.
Lemma filter_swap {A} (P Q : A -> Prop) `{!forall x, Decision (P x)} `{!forall x, Decision (Q x)} (l : list A) :
  filter P (filter Q l) = filter Q (filter P l).
Proof.
  induction l as [|x l IH]; [done|]. rewrite !filter_cons. destruct (decide (P x)) eqn:EP, (decide (Q x)) eqn:EQ; rewrite ?filter_cons, ?EP, ?EQ; congruence.
Qed.

Lemma fits_log i r : log !! i = Some r -> fits pages (take i log) r.
Proof.
  intros Hi. assert (r ∈ log) as Hin by (apply elem_of_list_lookup; eauto).
  pose proof (wf_acts _ _ W r Hin) as H1. pose proof (wf_rows _ _ W i r Hi) as H2. unfold fits.
  destruct (r_act r); try done; by rewrite <- all_table_val.
Qed.
Lemma redo_log s : redo room (analyze log) log s = fold_left (fun s r => redo_record room r s) log s.
Proof.
  unfold redo.
  assert (forall l, (forall r, r ∈ l -> r ∈ log) -> forall s,
    fold_left (fun s r => if should_redo (analyze log) r then redo_record room r s else s) l s = fold_left (fun s r => redo_record room r s) l s) as H.
  { induction l as [|r l IH]; intros Hl s0; [done|]. cbn [fold_left].
    rewrite IH by (intros; apply Hl; by right). f_equal.
    rewrite (should_redo_all log r (wf_lsn _ _ W) (wf_max _ _ W)) by (apply Hl; left).
    unfold redo_record. by destruct (r_act r). }
  by apply H.
Qed.

Lemma recover_correct order d :
  order ≡ₚ (map_to_list (a_txns (analyze log))).*1 ->
  p_refused (recover room log order (opened pages)) = false ->
  live (recover room log order (opened pages)) d = committed_table log !! d.
Proof.
  intros Ho Hr. unfold recover in *. rewrite redo_log in *.
  assert (forall t, t ∈ order <-> active t) as Hact.
  { intros t. rewrite Ho, elem_of_list_fmap. unfold active. split.
    - intros ([t' l] & -> & H). apply elem_of_map_to_list in H. eauto.
    - intros [l H]. exists (t, l). split; [done|]. by apply elem_of_map_to_list. }
  assert (NoDup order) as Hnd by (rewrite Ho; apply NoDup_fst_map_to_list).
  rewrite undo_is in * by (intros t Ht; by apply Hact).
  set (sr := fold_left (fun s r => redo_record room r s) log (opened pages)) in *.
  set (U := flat_map (fun t => rev (mine t log)) order) in *.
  assert (p_refused sr = false) as Hrr.
  { eapply fold_refused; [|exact Hr]. intros. by apply undo_refused. }
  assert (Rel pages log sr) as HR.
  { apply (redo_all room pages log [] (opened pages)); [apply rel_opened|intros i r Hi; by apply fits_log|exact Hrr]. }
  assert (forall r, r ∈ U -> r ∈ log /\ active (r_txn r)) as HU.
  { intros r HrU. unfold U in HrU. apply elem_of_list_In, in_flat_map in HrU as (t & Ht & Hx).
    rewrite <- in_rev in Hx. apply elem_of_list_In, elem_of_list_filter in Hx as [Hx1 Hx2]. split; [done|].
    rewrite Hx1. apply Hact. by apply elem_of_list_In. }
  destruct (undos_spec room U sr d) as [Hlive _].
  { intros r HrU. destruct (HU r HrU) as [Hin _]. unfold plain. pose proof (wf_acts _ _ W r Hin). by destruct (r_act r). }
  { intros r d0 HrU Ht. destruct (HU r HrU) as [Hin _]. apply elem_of_list_lookup in Hin as [i Hi].
    assert (is_Some (get d0 sr)) as H; [|done].
    pose proof (fits_log i r Hi) as Hf. unfold fits, touches in *.
    assert (forall k, d0.1 ∈ pages -> (k < inserts d0.1 log)%nat -> d0.2 = k -> is_Some (get d0 sr)) as Hrow.
    { intros k Hp Hk E. pose proof (rel_len _ _ _ HR d0.1) as Hl. rewrite decide_True in Hl by done. unfold get.
      destruct (p_pages sr !! d0.1) as [rows|] eqn:Er; [|done]. cbn in Hl. injection Hl as Hl. apply lookup_lt_is_Some. lia. }
    assert (forall i r, log !! i = Some r -> forall t, r_act r = AInsert d0 t -> (inserts d0.1 (take i log) < inserts d0.1 log)%nat) as Hins.
    { intros i0 r0 Hi0 t0 Ha. rewrite <- (take_drop_middle log i0 r0 Hi0) at 2. unfold inserts. rewrite List.filter_app, app_length. cbn.
      rewrite Ha. cbn. rewrite N.eqb_refl. cbn. lia. }
    assert (forall l, (exists k, l = take k log) -> val d0 l <> None -> is_Some (get d0 sr)) as Hval.
    { intros l [k ->] Hv.
      assert (exists j q t, log !! j = Some q /\ r_act q = AInsert d0 t) as (j & q & t & Hj & Hq).
      { clear -Hv W. revert Hv. induction k as [|k IH]; [done|]. intros Hv.
        destruct (log !! k) as [q|] eqn:Eq.
        - rewrite (take_S_r _ _ _ Eq), val_snoc in Hv. destruct (decide (val d0 (take k log) = None)) as [Hn|Hn]; [|by apply IH].
          unfold vstep in Hv. destruct (decide (touches d0 q)) as [Ht|Ht]; [|congruence]. unfold touches in Ht.
          pose proof (wf_rows _ _ W k q Eq) as Hw.
          destruct (r_act q) as [| | |d1 t|d1 o t|d1 t|d1 t|d1 t|p] eqn:Ea; cbn in Ht; try congruence.
          + exists k, q. assert (d1 = d0) as -> by congruence. eauto.
          + rewrite all_table_val in Hw. congruence.
        - apply IH. rewrite take_ge in Hv by (apply lookup_ge_None in Eq; lia). by rewrite take_ge by (apply lookup_ge_None in Eq; lia). }
      pose proof (fits_log j q Hj) as Hfq. unfold fits in Hfq. rewrite Hq in Hfq. destruct Hfq as [Hp Hk].
      eapply Hrow; [done|by eapply Hins|done]. }
    destruct (r_act r) as [| | |d1 t|d1 o t|d1 t|d1 t|d1 t|p] eqn:Ea; cbn in Ht; try done; assert (d1 = d0) as -> by congruence.
    - destruct Hf as [Hp Hk]. eapply Hrow; [done|by eapply Hins|done].
    - apply (Hval (take i log)); [eauto|congruence].
    - apply (Hval (take i log)); [eauto|congruence]. }
  { done. }
  rewrite Hlive, committed_table_val.
  destruct (decide (Exists (fun r => touches d r /\ r_txn r ∈ order) log)) as [HE|HE].
  - assert (exists i x, log !! i = Some x /\ (touches d x /\ r_txn x ∈ order) /\
              forall y, y ∈ take i log -> ~ (touches d y /\ r_txn y ∈ order)) as (i & x & Hi & [Hx Hxo] & Hmin).
    { apply Exists_exists in HE as (x0 & Hx0 & HP).
      destruct (list_find_elem_of (fun r => touches d r /\ r_txn r ∈ order) log x0 Hx0 HP) as [[i x] Hf].
      apply list_find_Some in Hf as (Hi & HPx & Hmin). exists i, x. split; [done|]. split; [done|].
      intros y Hy. apply elem_of_take in Hy as (j & Hj & Hlt). by eapply Hmin. }
    set (t := r_txn x) in *.
    assert (~ committedb log t = true) as Hnc. { intros Hc. apply (committed_not_active t Hc). by apply Hact. }
    assert (forall y, y ∈ drop (S i) log -> touches d y -> r_txn y = t) as Hlate.
    { intros y Hy Hty. destruct (decide (r_txn y = t)) as [|Hne]; [done|]. exfalso.
      apply elem_of_list_lookup in Hy as [j Hj]. rewrite lookup_drop in Hj.
      assert (x ∈ take (S i + j) log) as Hxin.
      { apply elem_of_take. exists i. split; [done|lia]. }
      destruct (wf_strict _ _ W (S i + j) y x d Hj Hxin Hx Hty) as (c & Hc1 & Hc2 & Hc3); [apply not_eq_sym; exact Hne|].
      apply Hnc. unfold committedb. apply existsb_exists. exists c. split.
      - apply elem_of_list_In. apply elem_of_take in Hc1 as (k & Hk & _). apply elem_of_list_lookup. eauto.
      - rewrite Hc2, N.eqb_refl, Hc3. by rewrite bool_decide_true. }
    assert (last (filter (touches d) U) = Some x) as ->.
    { apply elem_of_list_split in Hxo as (o1 & o2 & Eo). unfold U. rewrite Eo, flat_map_app. cbn [flat_map].
      rewrite !filter_app.
      rewrite (filter_none (touches d) (flat_map _ o2)).
      - rewrite app_nil_r. rewrite <- (take_drop_middle log i x Hi), filter_app, filter_cons, decide_True by done.
        rewrite rev_app_distr. cbn [rev]. rewrite !filter_app.
        rewrite (filter_none (touches d) (rev (mine t (take i log)))).
        + rewrite app_nil_r, filter_cons, filter_nil, decide_True by done. by rewrite app_assoc, last_snoc.
        + intros y Hy Hty. rewrite elem_of_list_In, <- in_rev, <- elem_of_list_In in Hy. apply elem_of_list_filter in Hy as [Hy1 Hy2].
          apply (Hmin y Hy2). split; [done|]. rewrite Hy1, Eo. apply elem_of_app. right. left.
      - intros y Hy Hty. apply elem_of_list_In, in_flat_map in Hy as (t' & Ht' & Hy).
        rewrite <- in_rev in Hy. apply elem_of_list_In, elem_of_list_filter in Hy as [Hy1 Hy2].
        apply elem_of_list_In in Ht'.
        assert (t' <> t) as Hne. { intros ->. rewrite Eo in Hnd. apply NoDup_app in Hnd as (_ & _ & Hnd). apply NoDup_cons in Hnd as [Hnd _]. done. }
        rewrite <- (take_drop_middle log i x Hi) in Hy2. apply elem_of_app in Hy2 as [Hy2|Hy2].
        + apply (Hmin y Hy2). split; [done|]. rewrite Hy1, Eo. apply elem_of_app. right. by right.
        + apply elem_of_cons in Hy2 as [->|Hy2]; [by apply Hne|]. apply Hne. rewrite <- Hy1. by apply Hlate. }
    transitivity (val d (take i log)).
    + pose proof (fits_log i x Hi) as Hf. unfold fits, touches in *.
      destruct (r_act x) as [| | |d1 t1|d1 o1 t1|d1 t1|d1 t1|d1 t1|p] eqn:Ea; cbn in Hx; try done; assert (d1 = d) as -> by congruence; cbn.
      * destruct Hf as [Hp Hk].
        set (s1 := fold_left (fun s r => redo_record room r s) (take i log) (opened pages)).
        assert (Rel pages (take i log) s1) as HR1.
        { apply (redo_all room pages (take i log) [] (opened pages)); [apply rel_opened| |].
          - intros j r Hj. apply lookup_take_Some in Hj as [Hj Hlt]. cbn [app]. rewrite take_take.
            replace (j `min` i)%nat with j by lia. by apply fits_log.
          - eapply (fold_refused (fun s r => redo_record room r s) (drop i log)); [intros; by apply redo_refused|].
            rewrite <- fold_left_app, take_drop. exact Hrr. }
        rewrite <- (rel_live _ _ _ HR1). unfold live, get. pose proof (rel_len _ _ _ HR1 d.1) as Hl. rewrite decide_True in Hl by done.
        destruct (p_pages s1 !! d.1) as [rows|]; [|done]. cbn in Hl. injection Hl as Hl.
        rewrite lookup_ge_None_2; [done|lia].
      * done.
      * done.
    + rewrite (val_filter d (take i log)), (val_filter d (filter _ log)). f_equal. rewrite filter_swap.
      assert (filter (touches d) log = filter (touches d) (take i log) ++ x :: filter (touches d) (drop (S i) log)) as ->.
      { rewrite <- (take_drop_middle log i x Hi) at 1. rewrite filter_app, filter_cons. by rewrite decide_True. }
      rewrite filter_app, filter_cons, decide_False by done.
      rewrite (filter_none _ (filter (touches d) (drop (S i) log))).
      * rewrite app_nil_r. symmetry. apply filter_all. intros y Hy. apply elem_of_list_filter in Hy as [Hy1 Hy2].
        apply (not_active_committed y d); [apply elem_of_take in Hy2 as (k & Hk & _); apply elem_of_list_lookup; eauto| done|]. intros Ha. apply (Hmin y Hy2). split; [done|]. by apply Hact.
      * intros y Hy. apply elem_of_list_filter in Hy as [Hy1 Hy2]. by rewrite (Hlate y Hy2 Hy1).
  - rewrite (filter_none (touches d) U).
    + cbn. rewrite (rel_live _ _ _ HR). rewrite (val_filter d (filter _ log)), filter_swap, (val_filter d log). f_equal.
      symmetry. apply filter_all. intros y Hy. apply elem_of_list_filter in Hy as [Hy1 Hy2].
      apply (not_active_committed y d); [done|done|]. intros Ha. apply HE. apply Exists_exists. exists y. split; [done|]. split; [done|]. by apply Hact.
    + intros y Hy Hty. destruct (HU y Hy) as [Hin Ha]. apply HE. apply Exists_exists. exists y. split; [done|]. split; [done|]. by apply Hact.
Qed.
End Chain.
