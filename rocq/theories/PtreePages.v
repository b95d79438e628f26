(** * Proofs about the pages of the paged index *)
From Coq Require Import ZArith Lia.
From stdpp Require Import list gmap sorting.
From Verif Require Import PtreeSpec PtreeModel.
Local Open Scope nat_scope.

Notation ssorted := (StronglySorted (fun x y : Z * Z => (x.1 < y.1)%Z)).
Notation ksorted := (StronglySorted Z.lt).

(** ** Sorted lists *)
Lemma ss_app {A} (R : A -> A -> Prop) l1 l2 :
  StronglySorted R (l1 ++ l2) <-> StronglySorted R l1 /\ StronglySorted R l2 /\ (forall x y, x ∈ l1 -> y ∈ l2 -> R x y).
Proof.
  induction l1 as [|a l1 IH]; cbn.
  - split; [intros H; split; [constructor|]; split; [done|]; intros x y X; by apply elem_of_nil in X|by intros (_ & H & _)].
  - split.
    + intros H. apply StronglySorted_inv in H as [H1 H2]. apply IH in H1 as (A1 & A2 & A3). rewrite Forall_app in H2. destruct H2 as [F1 F2].
      split; [by constructor|]. split; [done|]. intros x y X Y. apply elem_of_cons in X as [-> |X]; [|by apply A3].
      rewrite Forall_forall in F2. by apply F2.
    + intros (H1 & H2 & H3). apply StronglySorted_inv in H1 as [H1 F1]. constructor.
      * apply IH. split; [done|]. split; [done|]. intros x y X Y. apply H3; [by right|done].
      * apply Forall_app. split; [done|]. apply Forall_forall. intros y Y. apply H3; [by left|done].
Qed.
Lemma ss_lookup {A} (R : A -> A -> Prop) l i j x y :
  StronglySorted R l -> l !! i = Some x -> l !! j = Some y -> i < j -> R x y.
Proof.
  intros H. revert i j. induction H as [|a l H IH F]; intros i j Hi Hj L; [done|].
  destruct j as [|j]; [lia|]. cbn in Hj. destruct i as [|i]; cbn in Hi.
  - injection Hi as ->. rewrite Forall_forall in F. apply F. by eapply elem_of_list_lookup_2.
  - eapply IH; try done. lia.
Qed.
(** A position in a sorted list of keys where the smaller and the larger part. *)
Lemma lookup_part {A} (l : list A) (lt ge : A -> Prop) i :
  i <= length l -> (forall j x, j < i -> l !! j = Some x -> lt x) -> (forall j x, i <= j -> l !! j = Some x -> ge x) ->
  (forall x, x ∈ take i l -> lt x) /\ (forall x, x ∈ drop i l -> ge x).
Proof.
  intros L A1 A2. split; intros x X; apply elem_of_list_lookup in X as [j X].
  - assert (j < i) as J. { pose proof (lookup_lt_Some _ _ _ X) as T. rewrite take_length in T. lia. }
    rewrite lookup_take in X by done. by apply (A1 j).
  - rewrite lookup_drop in X. apply (A2 (i + j)); [lia|done].
Qed.

(** ** Leaves *)
Lemma leaf_search_spec es k : ssorted es -> forall fuel low high,
  high <= length es -> low <= high -> high - low < fuel ->
  (forall j e, j < low -> es !! j = Some e -> (e.1 < k)%Z) -> (forall j e, high <= j -> es !! j = Some e -> (k <= e.1)%Z) ->
  let i := leaf_search fuel es k low high in
  i <= length es /\ (forall j e, j < i -> es !! j = Some e -> (e.1 < k)%Z) /\ (forall j e, i <= j -> es !! j = Some e -> (k <= e.1)%Z).
Proof.
  intros So. induction fuel as [|fuel IH]; intros low high H1 H2 H3 A1 A2; [lia|]. cbn [leaf_search].
  destruct (low <? high) eqn:L; [apply Nat.ltb_lt in L|apply Nat.ltb_ge in L].
  2:{ cbn zeta. assert (low = high) as -> by lia. split; [lia|]. split; [exact A1|exact A2]. }
  assert (low <= low + (high - low) / 2 < high) as M.
  { pose proof (Nat.div_lt (high - low) 2 ltac:(lia) ltac:(lia)). lia. }
  set (mid := low + (high - low) / 2) in *. clearbody mid.
  destruct (es !! mid) as [e|] eqn:E.
  2:{ apply lookup_ge_None in E. lia. }
  destruct (Z.compare_spec k e.1) as [C|C|C].
  - cbn zeta. split; [lia|]. split.
    + intros j e' J Ej. rewrite C. exact (ss_lookup _ _ _ _ _ _ So Ej E J).
    + intros j e' J Ej. destruct (Nat.eq_dec j mid) as [->|Nq]; [replace e' with e by congruence; lia|].
      pose proof (ss_lookup _ _ _ _ _ _ So E Ej ltac:(lia)) as X. cbn in X. lia.
  - apply IH; [lia|lia|lia|exact A1|].
    intros j e' J Ej. destruct (Nat.eq_dec j mid) as [->|Nq]; [replace e' with e by congruence; lia|].
    pose proof (ss_lookup _ _ _ _ _ _ So E Ej ltac:(lia)) as X. cbn in X. lia.
  - apply IH; [lia|lia|lia| |exact A2].
    intros j e' J Ej. destruct (Nat.eq_dec j mid) as [->|Nq]; [replace e' with e by congruence; lia|].
    pose proof (ss_lookup _ _ _ _ _ _ So Ej E ltac:(lia)) as X. cbn in X. lia.
Qed.
(** [new] is [old] with [k] bound to [v]. *)
Definition below (k : Z) (l : list (Z * Z)) : Prop := forall e, e ∈ l -> (e.1 < k)%Z.
Definition above (k : Z) (l : list (Z * Z)) : Prop := forall e, e ∈ l -> (k < e.1)%Z.
Definition one (k : Z) (o : list (Z * Z)) : Prop := o = [] \/ exists v, o = [(k, v)].
Lemma leaf_split es k : ssorted es ->
  exists l o r, es = l ++ o ++ r /\ below k l /\ above k r /\ one k o /\ leaf_find es k = length l /\
    leaf_has es k = negb (bool_decide (o = [])) /\
    (forall v, leaf_put es k v = l ++ (k, v) :: r) /\
    (forall v, leaf_has es k = true -> <[leaf_find es k := (k, v)]> es = l ++ (k, v) :: r) /\
    (leaf_has es k = true -> delete (leaf_find es k) es = l ++ r) /\
    drop (leaf_find es k) es = o ++ r /\
    (if leaf_has es k then snd <$> es !! leaf_find es k else None) = snd <$> head o.
Proof.
  intros So.
  destruct (leaf_search_spec es k So (S (length es)) 0 (length es)) as (I1 & I2 & I3); try lia.
  { intros j e J Ej. apply lookup_lt_Some in Ej. lia. }
  fold (leaf_find es k) in I1, I2, I3.
  destruct (lookup_part es (fun e : Z * Z => (e.1 < k)%Z) (fun e : Z * Z => (k <= e.1)%Z) (leaf_find es k) I1 I2 I3) as [T D].
  set (i := leaf_find es k) in *.
  assert (length (take i es) = i) as LT. { rewrite take_length. lia. }
  assert (ssorted (take i es ++ drop i es)) as So2 by by rewrite take_drop.
  apply ss_app in So2 as (_ & So2 & _).
  unfold leaf_put, leaf_has. fold i.
  destruct (es !! i) as [e|] eqn:E.
  - assert (drop i es = e :: drop (S i) es) as DE by by apply drop_S.
    assert (above e.1 (drop (S i) es)) as AB.
    { rewrite DE in So2. apply StronglySorted_inv in So2 as [_ F]. rewrite Forall_forall in F. exact F. }
    destruct (k =? e.1)%Z eqn:K.
    + apply Z.eqb_eq in K. destruct e as [k0 v0]. cbn [fst] in *. subst k0.
      exists (take i es), [(k, v0)], (drop (S i) es).
      assert (forall v, <[i := (k, v)]> es = take i es ++ (k, v) :: drop (S i) es) as IN.
      { intros v. rewrite insert_take_drop by (by apply lookup_lt_Some in E). done. }
      repeat apply conj; try done.
      * rewrite <- (take_drop i es) at 1. by rewrite DE.
      * right. by eexists.
      * intros _. by rewrite delete_take_drop.
    + apply Z.eqb_neq in K. exists (take i es), [], (drop i es).
      repeat apply conj; try done.
      * change ([] ++ drop i es) with (drop i es). by rewrite take_drop.
      * intros x X. specialize (D x X). rewrite DE in X. apply elem_of_cons in X as [-> |X]; [|specialize (AB x X)].
        -- specialize (D). lia.
        -- assert (e ∈ drop i es) as Y by (rewrite DE; left).
           destruct (lookup_part es (fun e : Z * Z => (e.1 < k)%Z) (fun e : Z * Z => (k <= e.1)%Z) i I1 I2 I3) as [_ D'].
           specialize (D' e Y). cbn in D'. lia.
      * by left.
  - exists (take i es), [], (drop i es). repeat apply conj; try done.
    + change ([] ++ drop i es) with (drop i es). by rewrite take_drop.
    + intros x X. apply lookup_ge_None in E. rewrite drop_ge in X by done. by apply elem_of_nil in X.
    + by left.
Qed.
Lemma leaf_put_end es k v : ssorted es -> below k es -> leaf_put es k v = es ++ [(k, v)].
Proof.
  intros So B. destruct (leaf_split es k So) as (l & o & r & E & _ & Ar & O & _ & _ & P & _). rewrite P.
  assert (o = []) as ->.
  { destruct O as [O|[w ->]]; [done|]. specialize (B (k, w)). rewrite E in B. cbn in B.
    assert (k < k)%Z; [|lia]. apply B. apply elem_of_app. right. left. }
  assert (r = []) as ->.
  { destruct r as [|e r]; [done|]. specialize (Ar e ltac:(left)). specialize (B e).
    assert (e.1 < k)%Z; [|lia]. apply B. rewrite E. apply elem_of_app. right. left. }
  rewrite E. by rewrite !app_nil_r.
Qed.
Lemma leaf_insert_all_app mx l : forall acc, ssorted (acc ++ l) -> length acc + length l <= mx -> leaf_insert_all mx acc l = acc ++ l.
Proof.
  induction l as [|[k v] l IH]; intros acc So L; cbn; [by rewrite app_nil_r|]. cbn in L.
  assert (leaf_insert mx acc k v = acc ++ [(k, v)]) as ->.
  { unfold leaf_insert. destruct (mx <=? length acc) eqn:X; [apply Nat.leb_le in X; lia|].
    apply ss_app in So as (S1 & S2 & S3). apply leaf_put_end; [done|]. intros e He. apply (S3 e (k, v)); [done|left]. }
  change (leaf_insert_all mx (acc ++ [(k, v)]) l = acc ++ (k, v) :: l).
  rewrite IH; [by rewrite <- app_assoc|by rewrite <- app_assoc|]. rewrite app_length. cbn. lia.
Qed.

(** ** Internal pages *)
Lemma inner_search_spec ks k : ksorted ks -> k ∉ ks -> forall fuel left right,
  right < length ks -> left <= S right -> S right - left < fuel ->
  (forall j x, j < left -> ks !! j = Some x -> (x < k)%Z) -> (forall j x, right < j -> ks !! j = Some x -> (k < x)%Z) ->
  let i := inner_search fuel ks k left right in
  i <= length ks /\ (forall j x, j < i -> ks !! j = Some x -> (x < k)%Z) /\ (forall j x, i <= j -> ks !! j = Some x -> (k < x)%Z).
Proof.
  intros So Nk. induction fuel as [|fuel IH]; intros left right H1 H2 H3 A1 A2; [lia|]. cbn [inner_search].
  destruct (left <=? right) eqn:L; [apply Nat.leb_le in L|apply Nat.leb_gt in L].
  2:{ cbn zeta. split; [lia|]. split; [exact A1|]. intros j x J. apply A2. lia. }
  assert (left <= left + (right - left) / 2 <= right) as M.
  { pose proof (Nat.div_le_upper_bound (right - left) 2 (right - left) ltac:(lia) ltac:(lia)). lia. }
  set (mid := left + (right - left) / 2) in *. clearbody mid.
  destruct (ks !! mid) as [k'|] eqn:E.
  2:{ apply lookup_ge_None in E. lia. }
  destruct (Z.compare_spec k k') as [C|C|C].
  - exfalso. apply Nk. subst k'. by eapply elem_of_list_lookup_2.
  - destruct (mid =? 0) eqn:Z0.
    + apply Nat.eqb_eq in Z0. subst mid. cbn zeta. split; [lia|]. split; [lia|].
      intros j x J Ej. destruct (Nat.eq_dec j 0) as [->|Nq]; [replace x with k' by congruence; lia|].
      pose proof (ss_lookup _ _ _ _ _ _ So E Ej ltac:(lia)). lia.
    + apply Nat.eqb_neq in Z0. apply IH; [lia|lia|lia|exact A1|].
      intros j x J Ej. destruct (Nat.eq_dec j mid) as [->|Nq]; [replace x with k' by congruence; lia|].
      pose proof (ss_lookup _ _ _ _ _ _ So E Ej ltac:(lia)). lia.
  - apply IH; [lia|lia|lia| |exact A2].
    intros j x J Ej. destruct (Nat.eq_dec j mid) as [->|Nq]; [replace x with k' by congruence; lia|].
    pose proof (ss_lookup _ _ _ _ _ _ So Ej E ltac:(lia)). lia.
Qed.
Lemma app_parts {A} (l1 r1 l2 r2 : list A) (lt gt : A -> Prop) :
  l1 ++ r1 = l2 ++ r2 -> (forall x, lt x -> gt x -> False) ->
  (forall x, x ∈ l1 -> lt x) -> (forall x, x ∈ r1 -> gt x) -> (forall x, x ∈ l2 -> lt x) -> (forall x, x ∈ r2 -> gt x) ->
  l1 = l2 /\ r1 = r2.
Proof.
  revert l2. induction l1 as [|a l1 IH]; intros l2 E N A1 B1 A2 B2.
  - destruct l2 as [|b l2]; [done|]. cbn in E. exfalso. apply (N b); [apply A2; left|apply B1; rewrite E; left].
  - destruct l2 as [|b l2]; cbn in E.
    + exfalso. apply (N a); [apply A1; left|apply B2; rewrite <- E; left].
    + injection E as -> E. destruct (IH l2 E N) as [-> ->]; try done.
      * intros x X. apply A1. by right.
      * intros x X. apply A2. by right.
Qed.
Lemma inner_find_spec l r k : ksorted (l ++ r) -> (forall x, x ∈ l -> (x < k)%Z) -> (forall x, x ∈ r -> (k < x)%Z) ->
  inner_find (l ++ r) k = length l.
Proof.
  intros So A B. unfold inner_find. destruct (l ++ r) as [|k0 ks] eqn:E; [destruct l; [done|discriminate]|]. rewrite <- E in *.
  assert (0 < length (l ++ r)) as L by (rewrite E; cbn; lia).
  assert (k ∉ l ++ r) as Nk. { intros X. apply elem_of_app in X as [X|X]; [specialize (A _ X)|specialize (B _ X)]; lia. }
  destruct (inner_search_spec (l ++ r) k So Nk (S (length (l ++ r))) 0 (length (l ++ r) - 1)) as (I1 & I2 & I3); try lia.
  { intros j x J Ej. apply lookup_lt_Some in Ej. lia. }
  set (i := inner_search _ _ _ _ _) in *. clearbody i.
  destruct (lookup_part (l ++ r) (fun x => (x < k)%Z) (fun x => (k < x)%Z) i I1 I2 I3) as [T D].
  destruct (app_parts (take i (l ++ r)) (drop i (l ++ r)) l r (fun x => (x < k)%Z) (fun x => (k < x)%Z)) as [X _]; try done.
  { by rewrite take_drop. }
  { intros x X Y. lia. }
  apply (f_equal length) in X. rewrite take_length in X. lia.
Qed.
Lemma inner_insert_spec mx l r vs k p : ksorted (l ++ r) -> (forall x, x ∈ l -> (x < k)%Z) -> (forall x, x ∈ r -> (k < x)%Z) ->
  l ++ r <> [] -> length (l ++ r) < mx -> length vs = S (length (l ++ r)) ->
  inner_insert mx (l ++ r) vs k p = (l ++ k :: r, take (S (length l)) vs ++ p :: drop (S (length l)) vs).
Proof.
  intros So A B Ne L V. unfold inner_insert. destruct (mx <=? length (l ++ r)) eqn:X; [apply Nat.leb_le in X; lia|].
  destruct (l ++ r) as [|k0 ks] eqn:E; [done|]. rewrite <- E in *. rewrite inner_find_spec by done.
  assert (match (l ++ r) !! length l with Some k' => (k' =? k)%Z | None => false end = false) as ->.
  { rewrite lookup_app_r by lia. rewrite Nat.sub_diag. destruct r as [|k' r]; [done|]. cbn.
    apply Z.eqb_neq. specialize (B k' ltac:(left)). lia. }
  rewrite take_app, drop_app. f_equal.
  assert (length l + 1 <=? length vs = true) as ->. { apply Nat.leb_le. rewrite V, app_length. lia. }
  by rewrite Nat.add_1_r.
Qed.
Lemma child_scan_spec k l r : ksorted (l ++ r) -> (forall x, x ∈ l -> (x <= k)%Z) -> (forall x, x ∈ r -> (k < x)%Z) -> l <> [] ->
  forall i, child_scan (l ++ r) k i = if bool_decide (r = []) then None else Some (i + (length l - 1)).
Proof.
  induction l as [|a l IH]; intros So A B Ne i; [done|]. destruct l as [|a2 l].
  - cbn. destruct r as [|b r]; [done|]. cbn.
    assert ((a <=? k)%Z && (k <? b)%Z = true) as ->.
    { apply andb_true_iff. split; [apply Z.leb_le; apply A; left|apply Z.ltb_lt; apply B; left]. }
    by rewrite Nat.add_0_r.
  - change (child_scan (a :: (a2 :: l) ++ r) k i = if bool_decide (r = []) then None else Some (i + (length (a :: a2 :: l) - 1))).
    change (child_scan (a :: (a2 :: l) ++ r) k i) with
      (if (a <=? k)%Z && (k <? a2)%Z then Some i else child_scan ((a2 :: l) ++ r) k (S i)).
    assert ((k <? a2)%Z = false) as ->. { apply Z.ltb_ge. apply A. right. left. }
    rewrite andb_false_r. cbn in So. apply StronglySorted_inv in So as [So _].
    rewrite IH; [|done| |done|done].
    + destruct (bool_decide (r = [])); [done|]. f_equal. cbn. lia.
    + intros x X. apply A. by right.
Qed.
Lemma find_child_spec l r vs k : ksorted (l ++ r) -> (forall x, x ∈ l -> (x <= k)%Z) -> (forall x, x ∈ r -> (k < x)%Z) ->
  l ++ r <> [] -> length vs = S (length (l ++ r)) -> find_child (l ++ r) vs k = vs !! length l.
Proof.
  intros So A B Ne V. unfold find_child.
  destruct (l ++ r) as [|k0 ks] eqn:E; [done|]. destruct vs as [|v0 vs]; [done|].
  assert ((k <? k0)%Z = bool_decide (l = [])) as K0.
  { destruct l as [|a l]; cbn in E.
    - subst r. rewrite bool_decide_true by done. apply Z.ltb_lt. apply B. left.
    - injection E as -> _. rewrite bool_decide_false by done. apply Z.ltb_ge. apply A. left. }
  rewrite K0. destruct (bool_decide_reflect (l = [])) as [->|Nl].
  { destruct ks; done. }
  assert (length l <= length (k0 :: ks)) as LL. { rewrite <- E, app_length. lia. }
  destruct ks as [|k1 ks].
  - assert (length l = 1) as ->. { destruct l as [|a [|b l]]; cbn in *; [done|done|lia]. }
    cbn in V. destruct vs as [|v1 vs]; [discriminate|]. done.
  - rewrite <- E in So |- *. rewrite child_scan_spec by done.
    destruct (bool_decide_reflect (r = [])) as [->|Nr].
    + rewrite app_nil_r in E. rewrite last_lookup. f_equal. rewrite V. cbn. by rewrite E.
    + assert (0 + (length l - 1) + 1 = length l) as ->. { destruct l; [done|cbn; lia]. }
      destruct (lookup_lt_is_Some_2 (v0 :: vs) (length l)) as [p P]; [lia|]. by rewrite P.
Qed.
(** Removing the keys from [sp] on, one by one. *)
Lemma inner_remove_tail rt sp : 1 <= sp -> forall n ks vs, length ks = sp + n -> length vs = S (length ks) ->
  Nat.iter n (fun x : list Z * list nat => inner_remove rt x sp) (ks, vs) = (take sp ks, take (S sp) vs).
Proof.
  intros Sp. induction n as [|n IH]; intros ks vs K V.
  - cbn. rewrite !take_ge by lia. done.
  - rewrite Nat.iter_succ_r. unfold inner_remove at 2. cbn [fst snd].
    destruct (length ks <=? sp) eqn:X; [apply Nat.leb_le in X; lia|].
    destruct (length ks =? 1) eqn:Y; [apply Nat.eqb_eq in Y; lia|].
    assert (length (delete sp ks) = sp + n) as L1.
    { rewrite delete_take_drop, app_length, take_length, drop_length. lia. }
    assert (length (delete (sp + 1) vs) = S (length (delete sp ks))) as L2.
    { rewrite L1, delete_take_drop, app_length, take_length, drop_length. lia. }
    rewrite IH by done. rewrite !delete_take_drop. f_equal.
    + rewrite take_app_le by (rewrite take_length; lia). rewrite take_take. f_equal. lia.
    + rewrite Nat.add_1_r. rewrite take_app_le by (rewrite take_length; lia). rewrite take_take. f_equal. lia.
Qed.
(** Filling an internal page in key order. *)
Lemma inner_insert_all_app mx l : forall ks vs, ksorted (ks ++ map fst l) -> ks <> [] -> length vs = S (length ks) ->
  length ks + length l <= mx -> inner_insert_all mx (ks, vs) l = (ks ++ map fst l, vs ++ map snd l).
Proof.
  induction l as [|[k p] l IH]; intros ks vs So Ne V L; cbn [map].
  - by rewrite !app_nil_r.
  - cbn [map fst snd] in So. cbn in L.
    change (inner_insert_all mx (inner_insert mx ks vs k p) l = (ks ++ k :: map fst l, vs ++ p :: map snd l)).
    assert (inner_insert mx ks vs k p = (ks ++ [k], vs ++ [p])) as ->.
    { pose proof So as So2. apply ss_app in So2 as (S1 & S2 & S3).
      rewrite <- (app_nil_r ks) at 1. rewrite inner_insert_spec; try rewrite !app_nil_r; try done.
      - f_equal. rewrite take_ge, drop_ge by lia. done.
      - intros x X. apply (S3 x k); [done|left].
      - intros x X. by apply elem_of_nil in X.
      - lia. }
    rewrite IH; try (rewrite !app_length; cbn; lia).
    + by rewrite <- !app_assoc.
    + by rewrite <- app_assoc.
    + by destruct ks.
Qed.
