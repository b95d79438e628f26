(** Proofs about the executors of ExecModel.v. *)
From Coq Require Import String Ascii ZArith NArith List Bool Lia Sorted Permutation.
From Verif Require Import Bytes ExprModel ExprSpec ExprProofs ExecModel ExecSpec.
Import ListNotations.
Local Open Scope nat_scope.

Lemma produces_fun {S T} (next : S -> outcome T * S) st o1 :
  produces next st o1 -> forall o2, produces next st o2 -> o1 = o2.
Proof.
  induction 1 as [st st2 H|st st2 H|st st2 t out H _ IH]; intros o2 P2; inversion P2; subst;
    try congruence.
  rewrite H in H0. injection H0 as -> ->. f_equal. auto.
Qed.

Lemma pull_produces {T} (rows : list T) rest :
  produces pull (map Row rows) (map Row rows) /\
  produces pull (map Row rows ++ Fail :: rest) (map Row rows ++ [Fail]).
Proof.
  induction rows as [|r rows [IH1 IH2]]; cbn.
  - split; [eapply p_done|eapply p_fail]; reflexivity.
  - split; eapply p_row; try reflexivity; assumption.
Qed.

(** ** LIMIT and OFFSET *)

Lemma limit_produces {S T} n (child : S -> outcome T * S) s xs :
  produces child s xs -> forall i, produces (limit_next n child) (i, s) (firstn (n - i) xs).
Proof.
  induction 1 as [s s2 H|s s2 H|s s2 t out H _ IH]; intros i.
  - rewrite firstn_nil. unfold limit_next. destruct (n <=? i) eqn:E.
    + eapply p_done. cbn. rewrite E. reflexivity.
    + eapply p_done. cbn. rewrite E, H. reflexivity.
  - destruct (n <=? i) eqn:E.
    + apply Nat.leb_le in E as L. replace (n - i) with 0 by lia. eapply p_done. cbn. rewrite E. reflexivity.
    + apply Nat.leb_gt in E as L. replace (n - i) with (Datatypes.S (n - i - 1)) by lia. cbn [firstn].
      rewrite firstn_nil. eapply p_fail. cbn. rewrite E, H. reflexivity.
  - destruct (n <=? i) eqn:E.
    + apply Nat.leb_le in E as L. replace (n - i) with 0 by lia. eapply p_done. cbn. rewrite E. reflexivity.
    + apply Nat.leb_gt in E as L. replace (n - i) with (Datatypes.S (n - (i + 1))) by lia. cbn [firstn].
      eapply p_row; [|apply IH]. cbn. rewrite E, H. reflexivity.
Qed.

(** What skipping [k] rows of a stream leaves. *)
Fixpoint skip_items {T} (k : nat) (xs : list (item T)) : list (item T) :=
  match k, xs with
  | O, _ => xs
  | S _, [] => []
  | S _, Fail :: _ => [Fail]
  | S k, Row _ :: r => skip_items k r
  end.

Lemma offset_past {S T} m (child : S -> outcome T * S) s xs :
  produces child s xs -> forall i, m <= i -> produces (offset_next m child) (i, s) xs.
Proof.
  induction 1 as [s s2 H|s s2 H|s s2 t out H _ IH]; intros i L.
  - eapply p_done. cbn. replace (m - i) with 0 by lia. cbn. rewrite H. reflexivity.
  - eapply p_fail. cbn. replace (m - i) with 0 by lia. cbn. rewrite H. reflexivity.
  - eapply p_row; [|apply IH; exact L]. cbn. replace (m - i) with 0 by lia. cbn. rewrite H. reflexivity.
Qed.

Lemma offset_produces {S T} m (child : S -> outcome T * S) s xs :
  produces child s xs -> forall k i, k = m - i -> produces (offset_next m child) (i, s) (skip_items k xs).
Proof.
  induction 1 as [s s2 H|s s2 H|s s2 t out H P IH]; intros [|k] i E; cbn [skip_items].
  - apply offset_past; [eapply p_done; eassumption|lia].
  - eapply p_done. unfold offset_next. rewrite <- E. cbn. rewrite H. reflexivity.
  - apply offset_past; [eapply p_fail; eassumption|lia].
  - eapply p_fail. unfold offset_next. rewrite <- E. cbn. rewrite H. reflexivity.
  - apply offset_past; [eapply p_row; eassumption|lia].
  - specialize (IH k (i + 1) ltac:(lia)).
    assert (X : offset_next m child (i, s) = offset_next m child (i + 1, s2)).
    { unfold offset_next. rewrite <- E. replace (m - (i + 1)) with k by lia.
      cbn [offset_skip]. rewrite H. reflexivity. }
    inversion IH; subst; rewrite <- X in *;
      [eapply p_done|eapply p_fail|eapply p_row]; eassumption.
Qed.

Lemma skip_items_rows {T} k (rows : list T) : skip_items k (map Row rows) = map Row (skipn k rows).
Proof. revert k. induction rows as [|r rows IH]; intros [|k]; cbn; auto. Qed.

Lemma skip_items_fail {T} k (rows : list T) :
  skip_items k (map Row rows ++ [Fail]) = map Row (skipn k rows) ++ [Fail].
Proof.
  revert k. induction rows as [|r rows IH]; intros [|k]; cbn; try reflexivity. apply IH.
Qed.

Lemma firstn_stream {T} n (rows : list T) :
  firstn n (map Row rows ++ [Fail]) = map Row (firstn n rows) ++ (if length rows <? n then [Fail] else []).
Proof.
  revert n. induction rows as [|r rows IH]; intros [|n]; cbn; try reflexivity.
  - rewrite firstn_nil. reflexivity.
  - rewrite IH. reflexivity.
Qed.

Theorem limit_offset_ok {S T} n m (child : S -> outcome T * S) s rows :
  produces child s (map Row rows) ->
  produces (limit_offset_next n m child) (0, (0, s)) (map Row (firstn n (skipn m rows))).
Proof.
  intros P. pose proof (offset_produces m child s _ P m 0 ltac:(lia)) as P2.
  rewrite skip_items_rows in P2.
  pose proof (limit_produces n _ _ _ P2 0) as P3.
  rewrite Nat.sub_0_r, firstn_map in P3. exact P3.
Qed.

Theorem limit_offset_fail {S T} n m (child : S -> outcome T * S) s rows :
  produces child s (map Row rows ++ [Fail]) ->
  produces (limit_offset_next n m child) (0, (0, s))
    (map Row (firstn n (skipn m rows)) ++ (if (0 <? n) && (length rows <? m + n) then [Fail] else [])).
Proof.
  intros P. pose proof (offset_produces m child s _ P m 0 ltac:(lia)) as P2.
  rewrite skip_items_fail in P2.
  pose proof (limit_produces n _ _ _ P2 0) as P3.
  rewrite Nat.sub_0_r, firstn_stream in P3.
  replace ((0 <? n) && (length rows <? m + n)) with (length (skipn m rows) <? n); [exact P3|].
  rewrite skipn_length. apply eq_true_iff_eq. rewrite andb_true_iff, !Nat.ltb_lt. lia.
Qed.

(** ** WHERE *)

Definition tail (fails : bool) {T} : list (item T) := if fails then [Fail] else [].

Lemma filter_produces e (rows : list row) (fails : bool) :
  produces (filter_next e) (map Row rows ++ tail fails) (map Row (filter (where_pass e) rows) ++ tail fails).
Proof.
  induction rows as [|r rows IH]; cbn [map filter app].
  - destruct fails; [eapply p_fail|eapply p_done]; reflexivity.
  - destruct (where_pass e r) eqn:W.
    + eapply p_row; [|exact IH]. cbn. rewrite W. reflexivity.
    + inversion IH; subst;
        [eapply p_done|eapply p_fail|eapply p_row; [|eassumption]]; cbn; rewrite W; eassumption.
Qed.

(** ** DISTINCT *)

Section distinct.
  Context (dbg : val -> string).

  Fixpoint dedup_by (seen : list (list N)) (rows : list row) : list row :=
    match rows with
    | [] => []
    | r :: rest =>
        if existsb (bytes_eqb (ser_row dbg r)) seen then dedup_by seen rest
        else r :: dedup_by (ser_row dbg r :: seen) rest
    end.

  Lemma distinct_produces rows fails seen :
    produces (distinct_next dbg) (map Row rows ++ tail fails, seen)
      (map Row (dedup_by seen rows) ++ tail fails).
  Proof.
    revert seen. induction rows as [|r rows IH]; intros seen; cbn [map dedup_by app].
    - destruct fails; [eapply p_fail|eapply p_done]; reflexivity.
    - destruct (existsb _ seen) eqn:W.
      + specialize (IH seen). inversion IH; subst;
          [eapply p_done|eapply p_fail|eapply p_row; [|eassumption]]; unfold distinct_next in *; cbn;
          rewrite W; eassumption.
      + cbn [map app]. eapply p_row; [|apply IH]. unfold distinct_next. cbn. rewrite W. reflexivity.
  Qed.

  Lemma bytes_eqb_true a b : bytes_eqb a b = true <-> a = b.
  Proof. unfold bytes_eqb. destruct (list_eq_dec N.eq_dec a b); split; congruence. Qed.

  Lemma existsb_ser r seen : existsb (bytes_eqb (ser_row dbg r)) (map (ser_row dbg) seen) = true <->
    exists q, In q seen /\ ser_row dbg r = ser_row dbg q.
  Proof.
    rewrite existsb_exists. setoid_rewrite in_map_iff. setoid_rewrite bytes_eqb_true.
    split; [intros (x & (q & <- & Hq) & E)|intros (q & Hq & E)]; eauto.
  Qed.

  Context (eq_dec : forall a b : row, {a = b} + {a <> b}).

  Lemma filter_filter {T} (f g : T -> bool) l : filter f (filter g l) = filter (fun x => g x && f x) l.
  Proof.
    induction l as [|x l IH]; cbn; [reflexivity|].
    destruct (g x) eqn:G; cbn; [destruct (f x); now rewrite IH|exact IH].
  Qed.

  Lemma dedup_by_spec rows seen :
    (forall a b, In a (rows ++ seen) -> In b (rows ++ seen) -> ser_row dbg a = ser_row dbg b -> a = b) ->
    dedup_by (map (ser_row dbg) seen) rows =
    filter (fun x => negb (if in_dec eq_dec x seen then true else false)) (first_occurrences eq_dec rows).
  Proof.
    revert seen. induction rows as [|r rows IH]; intros seen Inj; cbn [dedup_by first_occurrences filter];
      [reflexivity|].
    assert (Hin : existsb (bytes_eqb (ser_row dbg r)) (map (ser_row dbg) seen) =
                  if in_dec eq_dec r seen then true else false).
    { apply eq_true_iff_eq. rewrite existsb_ser. destruct (in_dec eq_dec r seen) as [i|n].
      - split; [reflexivity|]. intros _. exists r. auto.
      - split; [|discriminate]. intros (q & Hq & E). destruct n.
        rewrite (Inj r q); [exact Hq|left; reflexivity|right; apply in_or_app; auto|exact E]. }
    rewrite Hin. destruct (in_dec eq_dec r seen) as [i|n]; cbn [negb].
    - rewrite IH.
      + rewrite filter_filter. apply filter_ext_in. intros x _.
        destruct (eq_dec r x) as [<-|]; cbn; [|reflexivity].
        destruct (in_dec eq_dec r seen); [reflexivity|contradiction].
      + intros a b Ha Hb. apply Inj; right; assumption.
    - f_equal. specialize (IH (r :: seen)). cbn [map] in IH. rewrite IH.
      + rewrite filter_filter. apply filter_ext_in. intros x _.
        destruct (in_dec eq_dec x (r :: seen)) as [[<-|i]|k].
        * destruct (eq_dec r r); [reflexivity|congruence].
        * destruct (in_dec eq_dec x seen); [|contradiction]. cbn. rewrite andb_false_r. reflexivity.
        * destruct (eq_dec r x) as [->|]; [destruct k; left; reflexivity|].
          destruct (in_dec eq_dec x seen); [destruct k; right; assumption|reflexivity].
      + intros a b Ha Hb. apply Inj; rewrite in_app_iff in *; cbn in *; tauto.
  Qed.

  Lemma dedup_all rows :
    (forall a b, In a rows -> In b rows -> ser_row dbg a = ser_row dbg b -> a = b) ->
    dedup_by [] rows = first_occurrences eq_dec rows.
  Proof.
    intros Inj. change (@nil (list N)) with (map (ser_row dbg) []). rewrite (dedup_by_spec rows []).
    - rewrite (filter_ext _ (fun _ => true)); [|reflexivity].
      induction (first_occurrences eq_dec rows); cbn; congruence.
    - rewrite app_nil_r. exact Inj.
  Qed.
End distinct.

(** ** ORDER BY *)

Lemma str_cmp_antisym a b : String.compare b a = CompOpp (String.compare a b).
Proof. apply String.compare_antisym. Qed.

Lemma str_cmp_lt_trans a b c :
  String.compare a b = Datatypes.Lt -> String.compare b c = Datatypes.Lt -> String.compare a c = Datatypes.Lt.
Proof.
  revert b c. induction a as [|x a IH]; intros [|y b] [|z c]; cbn; try congruence.
  unfold Ascii.compare.
  destruct (N.compare_spec (N_of_ascii x) (N_of_ascii y)) as [E1|E1|E1],
           (N.compare_spec (N_of_ascii y) (N_of_ascii z)) as [E2|E2|E2]; try congruence; intros H1 H2.
  - rewrite E1, E2, N.compare_refl. eapply IH; eassumption.
  - rewrite E1. apply N.compare_lt_iff in E2. rewrite E2. reflexivity.
  - rewrite <- E2. apply N.compare_lt_iff in E1. rewrite E1. reflexivity.
  - assert (N_of_ascii x < N_of_ascii z)%N as L by lia. apply N.compare_lt_iff in L. rewrite L. reflexivity.
Qed.

Lemma val_cmp_eq x y : val_cmp x y = Datatypes.Eq -> x = y.
Proof.
  destruct x as [|a|t a|a|a], y as [|b|u b|b|b]; cbn; try congruence.
  - destruct a, b; cbn; congruence.
  - destruct u; cbn; congruence.
  - destruct t; cbn; congruence.
  - destruct (N.eqb_spec (ity_rank t) (ity_rank u)) as [E|E].
    + intros H. apply Z.compare_eq_iff in H. destruct t, u; cbn in E; congruence.
    + intros H. apply N.compare_eq_iff in H. congruence.
  - destruct t; cbn; congruence.
  - destruct t; cbn; congruence.
  - destruct u; cbn; congruence.
  - intros H. f_equal. apply String.compare_eq_iff. exact H.
  - destruct u; cbn; congruence.
  - intros H. f_equal. apply String.compare_eq_iff. exact H.
Qed.

Lemma val_cmp_refl x : val_cmp x x = Datatypes.Eq.
Proof.
  destruct x as [|[]|t a|a|a]; cbn; try reflexivity; try apply string_compare_refl.
  rewrite N.eqb_refl. apply Z.compare_refl.
Qed.

Lemma val_cmp_antisym x y : val_cmp y x = CompOpp (val_cmp x y).
Proof.
  destruct x as [|a|t a|a|a], y as [|b|u b|b|b]; cbn; try reflexivity; try apply str_cmp_antisym;
    try (destruct t; reflexivity); try (destruct u; reflexivity).
  - destruct a, b; reflexivity.
  - destruct t, u; cbn; try reflexivity; apply Z.compare_antisym.
Qed.

Lemma val_cmp_lt_trans x y z :
  val_cmp x y = Datatypes.Lt -> val_cmp y z = Datatypes.Lt -> val_cmp x z = Datatypes.Lt.
Proof.
  destruct x as [|a|t a|a|a], y as [|b|u b|b|b], z as [|c|w c|c|c]; cbn; try congruence;
    try apply str_cmp_lt_trans;
    try (destruct t); try (destruct u); try (destruct w); cbn; try congruence;
    try (destruct a, b, c; cbn; congruence);
    try (rewrite !Z.compare_lt_iff; lia).
Qed.

Section sort.
  Context {T : Type} (cmp : T -> T -> comparison) (ok : T -> Prop).
  Context (cmp_anti : forall x y, ok x -> ok y -> cmp y x = CompOpp (cmp x y)).
  Context (cmp_trans : forall x y z, ok x -> ok y -> ok z ->
    cmp x y <> Datatypes.Gt -> cmp y z <> Datatypes.Gt -> cmp x z <> Datatypes.Gt).

  Lemma insert_perm x l : Permutation (x :: l) (insert_by cmp x l).
  Proof.
    induction l as [|y l IH]; cbn; [reflexivity|].
    destruct (cmp x y); try reflexivity. rewrite perm_swap. now constructor.
  Qed.
  Lemma sort_perm l : Permutation l (sort_by cmp l).
  Proof.
    induction l as [|x l IH]; cbn; [constructor|]. rewrite <- insert_perm. now constructor.
  Qed.

  Lemma insert_sorted x l : ok x -> Forall ok l ->
    StronglySorted (fun a b => cmp a b <> Datatypes.Gt) l ->
    StronglySorted (fun a b => cmp a b <> Datatypes.Gt) (insert_by cmp x l).
  Proof.
    intros Ox. induction l as [|y l IH]; cbn; intros Ol S; [repeat constructor|].
    apply Forall_cons_iff in Ol as [Oy Ol]. apply StronglySorted_inv in S as [S F].
    destruct (cmp x y) eqn:E.
    1,2: constructor; [constructor; assumption|]; constructor; [congruence|].
    1,2: apply Forall_forall; intros z Hz; rewrite Forall_forall in F, Ol;
         apply (cmp_trans x y z); auto; congruence.
    constructor; [apply IH; assumption|].
    assert (cmp y x <> Datatypes.Gt) by (rewrite cmp_anti, E by assumption; discriminate).
    apply Forall_forall. intros z Hz. apply (Permutation_in _ (Permutation_sym (insert_perm x l))) in Hz as [<-|Hz];
      [assumption|]. rewrite Forall_forall in F. auto.
  Qed.
  Lemma sort_sorted l : Forall ok l -> StronglySorted (fun a b => cmp a b <> Datatypes.Gt) (sort_by cmp l).
  Proof.
    induction 1 as [|x l Ox Ol IH]; cbn; [constructor|]. apply insert_sorted; auto.
    apply Forall_forall. intros y Hy. apply (Permutation_in _ (Permutation_sym (sort_perm l))) in Hy.
    rewrite Forall_forall in Ol. auto.
  Qed.

  Lemma insert_stable (P : T -> bool) x l :
    (forall a b, P a = true -> P b = true -> cmp a b = Datatypes.Eq) ->
    filter P (insert_by cmp x l) = filter P (x :: l).
  Proof.
    intros H. induction l as [|y l IH]; cbn [insert_by]; [reflexivity|].
    destruct (cmp x y) eqn:E; try reflexivity.
    cbn [filter] in *. rewrite IH. destruct (P y) eqn:Py; [|reflexivity].
    destruct (P x) eqn:Px; [|reflexivity]. rewrite (H x y Px Py) in E. discriminate.
  Qed.
  Lemma sort_stable (P : T -> bool) l :
    (forall a b, P a = true -> P b = true -> cmp a b = Datatypes.Eq) ->
    filter P (sort_by cmp l) = filter P l.
  Proof.
    intros H. induction l as [|x l IH]; cbn [sort_by]; [reflexivity|].
    rewrite (insert_stable P x _ H). cbn. rewrite IH. reflexivity.
  Qed.
End sort.

Definition evaluable (specs : list order_by) (r : row) : Prop :=
  forall e d, In (e, d) specs -> exists x, eval e r = Ok x.

Lemma cmp_rows_anti specs a b : cmp_rows specs b a = CompOpp (cmp_rows specs a b).
Proof.
  induction specs as [|[e d] specs IH]; cbn; [reflexivity|].
  destruct (eval e a) as [x|], (eval e b) as [y|]; auto.
  rewrite (val_cmp_antisym x y). destruct (val_cmp x y), d; cbn; auto.
Qed.

Lemma cmp_rows_trans specs a b c :
  evaluable specs a -> evaluable specs b -> evaluable specs c ->
  cmp_rows specs a b <> Datatypes.Gt -> cmp_rows specs b c <> Datatypes.Gt -> cmp_rows specs a c <> Datatypes.Gt.
Proof.
  induction specs as [|[e d] specs IH]; intros Ea Eb Ec; [cbn; auto|].
  destruct (Ea e d (or_introl eq_refl)) as [x Hx], (Eb e d (or_introl eq_refl)) as [y Hy],
           (Ec e d (or_introl eq_refl)) as [z Hz].
  assert (IH2 := IH ltac:(intros ? ? ?; eapply Ea; right; eassumption)
                    ltac:(intros ? ? ?; eapply Eb; right; eassumption)
                    ltac:(intros ? ? ?; eapply Ec; right; eassumption)).
  cbn. rewrite Hx, Hy, Hz.
  destruct (val_cmp x y) eqn:E1.
  - apply val_cmp_eq in E1. subst y. destruct (val_cmp x z), d; cbn; auto.
  - destruct (val_cmp y z) eqn:E2.
    + apply val_cmp_eq in E2. subst z. rewrite E1. destruct d; cbn; auto.
    + rewrite (val_cmp_lt_trans x y z E1 E2). destruct d; cbn; congruence.
    + destruct d; cbn; congruence.
  - destruct (val_cmp y z) eqn:E2.
    + apply val_cmp_eq in E2. subst z. rewrite E1. destruct d; cbn; auto.
    + destruct d; cbn; congruence.
    + assert (val_cmp z x = Datatypes.Lt) as E3.
      { apply (val_cmp_lt_trans z y x); [rewrite val_cmp_antisym, E2|rewrite val_cmp_antisym, E1]; reflexivity. }
      rewrite (val_cmp_antisym z x), E3. destruct d; cbn; congruence.
Qed.

Lemma vless_cmp x y :
  (is_null x = true \/ is_null y = true \/ type_of x = type_of y) -> vless x y -> val_cmp x y = Datatypes.Lt.
Proof.
  intros T [[Nx Ny]|H].
  - destruct x; try discriminate Nx. destruct y; try discriminate Ny; reflexivity.
  - destruct x as [|a|t a|a|a], y as [|b|u b|b|b]; cbn in *; try discriminate H;
      try (destruct T as [T|[T|T]]; discriminate T); try congruence.
    + destruct a, b; cbn in *; congruence.
    + destruct T as [T|[T|T]]; try discriminate T. injection T as ->. rewrite N.eqb_refl. congruence.
Qed.

Lemma before_cmp specs l a b :
  sortable specs l -> In a l -> In b l -> before specs a b -> cmp_rows specs a b = Datatypes.Lt.
Proof.
  intros S Ha Hb (pre & e & d & post & x & y & -> & Heq & Hx & Hy & L).
  induction pre as [|[e2 d2] pre IH]; cbn [app cmp_rows].
  - rewrite Hx, Hy. destruct (S e d (or_introl eq_refl)) as [_ Ty].
    destruct d.
    + assert (val_cmp y x = Datatypes.Lt) as C by (apply vless_cmp; [eapply Ty; [exact Hb|exact Ha|exact Hy|exact Hx]|exact L]).
      rewrite (val_cmp_antisym y x), C. reflexivity.
    + rewrite vless_cmp; [reflexivity| |exact L]. eapply Ty; [exact Ha|exact Hb|exact Hx|exact Hy].
  - assert (IH2 : cmp_rows (pre ++ (e, d) :: post) a b = Datatypes.Lt).
    { apply IH; [intros e3 d3 H3; apply (S e3 d3); right; exact H3|intros e3 d3 H3; apply (Heq e3 d3); right; exact H3]. }
    rewrite (Heq e2 d2 (or_introl eq_refl)). destruct (eval e2 b) as [v|]; [|exact IH2].
    rewrite val_cmp_refl. exact IH2.
Qed.

Lemma tied_cmp specs a b : tied specs a b -> cmp_rows specs a b = Datatypes.Eq.
Proof.
  induction specs as [|[e d] specs IH]; intros H; cbn; [reflexivity|].
  rewrite (H e d (or_introl eq_refl)).
  assert (X : cmp_rows specs a b = Datatypes.Eq) by (apply IH; intros e3 d3 H3; apply (H e3 d3); right; exact H3).
  destruct (eval e b); [rewrite val_cmp_refl|]; exact X.
Qed.

Theorem sort_is_sorted specs l : sortable specs l -> is_sorted_version specs l (sort_by (cmp_rows specs) l).
Proof.
  intros S.
  assert (Ev : Forall (evaluable specs) l).
  { apply Forall_forall. intros a Ha e d He. destruct (S e d He) as [X _]. exact (X a Ha). }
  pose proof (sort_perm (cmp_rows specs) l) as P.
  split.
  - exact P.
  - assert (Q := sort_sorted (cmp_rows specs) (evaluable specs) (fun x y _ _ => cmp_rows_anti specs x y)
                   (cmp_rows_trans specs) l Ev).
    assert (Hin : forall a, In a (sort_by (cmp_rows specs) l) -> In a l)
      by (intros a Ha; exact (Permutation_in _ (Permutation_sym P) Ha)).
    revert Hin. clear -S Q. induction Q as [|a s Q IH F]; intros Hin; constructor.
    + apply IH. intros b Hb. apply Hin. right. exact Hb.
    + apply Forall_forall. intros b Hb B. rewrite Forall_forall in F. apply (F b Hb).
      assert (C : cmp_rows specs b a = Datatypes.Lt).
      { apply (before_cmp specs l); [exact S|apply Hin; right; exact Hb|apply Hin; left; reflexivity|exact B]. }
      rewrite (cmp_rows_anti specs b a), C. reflexivity.
  - intros Pr H. apply sort_stable. intros a b Ha Hb. apply tied_cmp. auto.
Qed.

Lemma sort_next_produces l i : produces sort_next (l, i) (map Row (skipn i l)).
Proof.
  remember (length l - i) as k eqn:K. revert i K. induction k as [|k IH]; intros i K.
  - rewrite skipn_all2 by lia. eapply p_done. cbn.
    assert (nth_error l i = None) as -> by (apply nth_error_None; lia). reflexivity.
  - destruct (nth_error l i) as [t|] eqn:E; [|apply nth_error_None in E; lia].
    replace (skipn i l) with (t :: skipn (i + 1) l).
    + cbn [map]. eapply p_row; [|apply IH; lia]. cbn. rewrite E. reflexivity.
    + clear -E. revert i E. induction l as [|x l IH]; intros [|i] E; cbn in *; try discriminate.
      * congruence.
      * apply IH. exact E.
Qed.

Lemma collect_rows {T} (rows : list T) rest :
  collect (map Row rows) = rows /\ collect (map Row rows ++ Fail :: rest) = rows.
Proof. induction rows as [|r rows [IH1 IH2]]; cbn; [auto|]. rewrite IH1, IH2. auto. Qed.

(** ** The byte form of a row determines it, when there are no NULLs *)

Lemma str_bytes_length s : length (str_bytes s) = String.length s.
Proof. induction s; cbn; congruence. Qed.

Lemma str_bytes_app_inj s1 s2 r1 r2 :
  String.length s1 = String.length s2 -> str_bytes s1 ++ r1 = str_bytes s2 ++ r2 -> s1 = s2 /\ r1 = r2.
Proof.
  revert s2. induction s1 as [|c s1 IH]; intros [|d s2]; cbn; try discriminate; intros L E; [auto|].
  injection L as L. injection E as E1 E2. destruct (IH s2 L E2) as [-> ->].
  apply (f_equal ascii_of_N) in E1. rewrite !ascii_N_embedding in E1. subst. auto.
Qed.

Lemma app_inj_len {T} (a b c d : list T) : length a = length c -> a ++ b = c ++ d -> a = c /\ b = d.
Proof.
  revert c. induction a as [|x a IH]; intros [|y c]; cbn; try discriminate; intros L E; [auto|].
  injection L as L. injection E as -> E. destruct (IH c L E) as [-> ->]. auto.
Qed.

Lemma len_string_inj s1 s2 r1 r2 :
  (Z.of_nat (String.length s1) < 2 ^ 32)%Z -> (Z.of_nat (String.length s2) < 2 ^ 32)%Z ->
  (le_enc 4 (N.of_nat (String.length s1)) ++ str_bytes s1) ++ r1 =
  (le_enc 4 (N.of_nat (String.length s2)) ++ str_bytes s2) ++ r2 -> s1 = s2 /\ r1 = r2.
Proof.
  intros L1 L2 E. rewrite <- !app_assoc in E.
  apply app_inj_len in E as [E1 E2]; [|now rewrite !le_enc_length].
  apply le_enc_inj in E1; [|change (256 ^ N.of_nat 4)%N with (2 ^ 32)%N; lia|change (256 ^ N.of_nat 4)%N with (2 ^ 32)%N; lia].
  apply str_bytes_app_inj; [lia|exact E2].
Qed.

Lemma le_signed_inj k x y : (0 < k)%nat ->
  (- 2 ^ (8 * Z.of_nat k - 1) <= x < 2 ^ (8 * Z.of_nat k - 1))%Z ->
  (- 2 ^ (8 * Z.of_nat k - 1) <= y < 2 ^ (8 * Z.of_nat k - 1))%Z ->
  le_signed k x = le_signed k y -> x = y.
Proof.
  intros K Hx Hy E. unfold le_signed in E.
  set (m := (2 ^ (8 * Z.of_nat k))%Z) in *.
  assert (Hm : (m = 2 * 2 ^ (8 * Z.of_nat k - 1))%Z).
  { unfold m. rewrite <- Z.pow_succ_r by lia. f_equal. lia. }
  assert (P : (0 < m)%Z) by (unfold m; apply Z.pow_pos_nonneg; lia).
  assert (B : forall z, (Z.to_N (z mod m) < 256 ^ N.of_nat k)%N).
  { intros z. assert (0 <= z mod m < m)%Z as R by (apply Z.mod_pos_bound; exact P).
    apply N2Z.inj_lt. rewrite Z2N.id by lia. rewrite N2Z.inj_pow.
    replace (Z.of_N 256 ^ Z.of_N (N.of_nat k))%Z with m; [lia|].
    unfold m. rewrite nat_N_Z, Z.pow_mul_r by lia. reflexivity. }
  apply le_enc_inj in E; [|apply B|apply B].
  apply Z2N.inj in E; [|apply Z.mod_pos_bound; exact P|apply Z.mod_pos_bound; exact P].
  assert (D : ((x - y) mod m = 0)%Z) by (rewrite Zminus_mod, E, Z.sub_diag; apply Zmod_0_l).
  apply Z.mod_divide in D; [|lia]. destruct D as [q D].
  clearbody m. set (p := (2 ^ (8 * Z.of_nat k - 1))%Z) in *. clearbody p.
  assert (q < 1)%Z by (apply Z.nle_gt; intros Q; assert (m <= q * m)%Z by nia; lia).
  assert (-1 < q)%Z by (apply Z.nle_gt; intros Q; assert (q * m <= - m)%Z by nia; lia).
  assert (q = 0%Z) by lia. subst q. lia.
Qed.

Lemma ser_val_inj dbg t v w r1 r2 : dbg_faithful dbg -> plain_value dbg t v -> plain_value dbg t w ->
  ser_val dbg v ++ r1 = ser_val dbg w ++ r2 -> v = w /\ r1 = r2.
Proof.
  intros DI (Tv & Sv & Lv & DLv) (Tw & Sw & Lw & DLw).
  destruct v as [|a|tv a|a|a]; cbn [type_of] in Tv; try discriminate Tv;
    injection Tv as <-; destruct w as [|b|tw b|b|b]; cbn [type_of] in Tw; try discriminate Tw.
  - cbn. intros [= E ->]. split; [|reflexivity]. destruct a, b; congruence.
  - injection Tw as ->. destruct tv; cbn [ser_val].
    + intros E. apply len_string_inj in E as [E ->]; [|apply DLv; reflexivity|apply DLw; reflexivity].
      split; [|reflexivity]. apply DI; auto.
    + intros E. apply len_string_inj in E as [E ->]; [|apply DLv; reflexivity|apply DLw; reflexivity].
      split; [|reflexivity]. apply DI; auto.
    + intros E. apply app_inj_len in E as [E ->]; [|unfold le_signed; now rewrite !le_enc_length].
      apply le_signed_inj in E; [subst; auto|lia|exact Sv|exact Sw].
    + intros E. apply app_inj_len in E as [E ->]; [|unfold le_signed; now rewrite !le_enc_length].
      apply le_signed_inj in E; [subst; auto|lia|exact Sv|exact Sw].
  - cbn [ser_val]. intros E. apply len_string_inj in E as [-> ->]; auto.
  - cbn [ser_val]. intros E. apply len_string_inj in E as [E ->]; [|apply DLv; reflexivity|apply DLw; reflexivity].
    split; [|reflexivity]. apply DI; auto.
Qed.

Lemma ser_row_inj dbg tys a b : dbg_faithful dbg -> plain_row dbg tys a -> plain_row dbg tys b ->
  ser_row dbg a = ser_row dbg b -> a = b.
Proof.
  intros D Ha. revert b. induction Ha as [|t v tys a Hv Ha IH]; intros b Hb; inversion Hb; subst; [reflexivity|].
  cbn. intros E. apply (ser_val_inj dbg t) in E as [-> E]; [|assumption..]. f_equal. auto.
Qed.
