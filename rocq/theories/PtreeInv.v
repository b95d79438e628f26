(** * The paged index holds a map *)
From Coq Require Import ZArith Lia.
From stdpp Require Import list gmap sorting.
From Verif Require Import PtreeSpec PtreeModel PtreePages PtreeProofs.
Local Open Scope nat_scope.

(** ** Sorted lists as maps *)
Lemma ssorted_nodup l : ssorted l -> NoDup l.*1.
Proof.
  induction 1 as [|e l S IH F]; cbn; [constructor|]. apply NoDup_cons. split; [|done].
  intros X. apply elem_of_list_fmap in X as (y & E & Y). rewrite Forall_forall in F. apply F in Y. cbn in Y. lia.
Qed.
Lemma lm_lookup l k v : ssorted l -> (list_to_map l : gmap Z Z) !! k = Some v <-> (k, v) ∈ l.
Proof. intros So. symmetry. apply elem_of_list_to_map. by apply ssorted_nodup. Qed.
Lemma lm_size l : ssorted l -> size (list_to_map l : gmap Z Z) = length l.
Proof.
  induction 1 as [|[k v] l S IH F]; cbn; [done|]. rewrite map_size_insert_None; [by rewrite IH|].
  apply not_elem_of_list_to_map. intros X. apply elem_of_list_fmap in X as (y & E & Y). rewrite Forall_forall in F. apply F in Y. cbn in *. lia.
Qed.
Lemma lm_eq l (m : gmap Z Z) : ssorted l -> (forall k v, (k, v) ∈ l <-> m !! k = Some v) -> (list_to_map l : gmap Z Z) = m.
Proof.
  intros So H. apply map_eq. intros k. apply option_eq. intros v. rewrite lm_lookup by done. apply H.
Qed.
Lemma lm_parts X o Y k : ssorted (X ++ o ++ Y) -> below k X -> above k Y -> one k o ->
  (list_to_map (X ++ o ++ Y) : gmap Z Z) !! k = snd <$> head o /\
  (forall v, ssorted (X ++ (k, v) :: Y) /\ (list_to_map (X ++ (k, v) :: Y) : gmap Z Z) = <[k := v]> (list_to_map (X ++ o ++ Y))) /\
  ssorted (X ++ Y) /\ (list_to_map (X ++ Y) : gmap Z Z) = delete k (list_to_map (X ++ o ++ Y)).
Proof.
  intros So B A O. pose proof So as So2. apply ss_app in So2 as (S1 & S2 & S3). apply ss_app in S2 as (S2 & S4 & S5).
  assert (ssorted (X ++ Y)) as SXY.
  { apply ss_app. split; [done|]. split; [done|]. intros x y Hx Hy. apply S3; [done|]. apply elem_of_app. by right. }
  assert (forall v, ssorted (X ++ (k, v) :: Y)) as SK.
  { intros v. apply ss_app. split; [done|]. split; [constructor; [done|]; apply Forall_forall; intros y Hy; by apply A|].
    intros x y Hx Hy. apply elem_of_cons in Hy as [-> |Hy]; [by apply B|]. apply B in Hx. apply A in Hy. lia. }
  assert (forall x w, x <> k -> (x, w) ∈ X ++ o ++ Y <-> (x, w) ∈ X ++ Y) as NE.
  { intros x w Ne. rewrite !elem_of_app. destruct O as [-> |[u ->]]; [set_solver|]. rewrite elem_of_list_singleton. naive_solver. }
  assert (forall w, (k, w) ∉ X ++ Y) as NK.
  { intros w. rewrite elem_of_app. intros [H|H]; [apply B in H|apply A in H]; cbn in H; lia. }
  split; [|split; [|split; [done|]]].
  - apply option_eq. intros v. rewrite lm_lookup by done. rewrite !elem_of_app. destruct O as [-> |[u ->]]; cbn.
    + split; [|done]. intros [H|[H|H]]; [|by apply elem_of_nil in H|]; exfalso; apply (NK v); apply elem_of_app; [by left|by right].
    + rewrite elem_of_list_singleton. split; [|intros H; right; left; congruence]. intros [H|[H|H]]; [|congruence|];
        exfalso; apply (NK v); apply elem_of_app; [by left|by right].
  - intros v. split; [apply SK|]. apply lm_eq; [apply SK|]. intros x w. destruct (decide (x = k)) as [-> |Ne].
    + rewrite lookup_insert, elem_of_app, elem_of_cons. split.
      * intros [H|[H|H]]; [|congruence|]; exfalso; apply (NK w); apply elem_of_app; [by left|by right].
      * intros H. right. left. congruence.
    + rewrite lookup_insert_ne by done. rewrite lm_lookup by done. rewrite NE by done. rewrite !elem_of_app, elem_of_cons. naive_solver.
  - apply lm_eq; [done|]. intros x w. destruct (decide (x = k)) as [-> |Ne].
    + rewrite lookup_delete. split; [intros H; exfalso; by apply (NK w)|done].
    + rewrite lookup_delete_ne by done. rewrite lm_lookup by done. by rewrite NE.
Qed.
Lemma filter_pairs l a b : ssorted l -> pairs_of (list_to_map l) a b (filter (fun e : Z * Z => (a <= e.1 <= b)%Z) l).
Proof.
  intros So. split.
  - induction So as [|e l So IH F]; [constructor|]. rewrite filter_cons. destruct (decide _); [|done]. constructor; [done|].
    apply Forall_forall. intros y Y. apply elem_of_list_filter in Y as [_ Y]. rewrite Forall_forall in F. by apply F.
  - intros k v. rewrite elem_of_list_filter, lm_lookup by done. cbn. tauto.
Qed.

(** ** The invariant *)
Definition tree_of (st : state) (t : gt) (d : nat) : Prop :=
  height st = S d /\ hroot st = Some (gid t) /\ wf (order st) d None None t /\ holds (pages st) (order st) true t None /\
  NoDup (ids t) /\ (forall i, i ∈ ids t -> i < fresh st).
Definition inv (st : state) (m : gmap Z Z) : Prop :=
  2 <= order st /\
  ((hroot st = None /\ m = ∅ /\ count st = 0 /\ height st = 0) \/
   (exists t d, tree_of st t d /\ m = list_to_map (kvs t) /\ count st = length (kvs t))).
Lemma inv_init ord : 2 <= ord -> inv (init ord) ∅.
Proof. intros H. split; [done|]. by left. Qed.

(** The leaf of a key in a tree. *)
Lemma at_leaf st t d k : tree_of st t d ->
  exists lid path l o r nx rt A B,
    find_leaf st (gid t) k = Ok (lid, path) /\ pages st !! lid = Some (Leaf (l ++ o ++ r) nx rt (order st)) /\
    rt = (d =? 0) /\ length (l ++ o ++ r) <= order st /\
    kvs t = A ++ (l ++ o ++ r) ++ B /\ below k A /\ below k l /\ one k o /\ above k r /\ above k B /\
    ssorted (l ++ o ++ r) /\
    (leaf_find (l ++ o ++ r) k = length l /\
     leaf_has (l ++ o ++ r) k = negb (bool_decide (o = [])) /\
     (forall v, leaf_put (l ++ o ++ r) k v = l ++ (k, v) :: r) /\
     (forall v, leaf_has (l ++ o ++ r) k = true -> <[leaf_find (l ++ o ++ r) k := (k, v)]> (l ++ o ++ r) = l ++ (k, v) :: r) /\
     (leaf_has (l ++ o ++ r) k = true -> delete (leaf_find (l ++ o ++ r) k) (l ++ o ++ r) = l ++ r) /\
     drop (leaf_find (l ++ o ++ r) k) (l ++ o ++ r) = o ++ r /\
     (if leaf_has (l ++ o ++ r) k then snd <$> (l ++ o ++ r) !! leaf_find (l ++ o ++ r) k else None) = snd <$> head o) /\
    (exists L1 L2, lvs t = L1 ++ (lid, l ++ o ++ r) :: L2 /\ A = flat_map snd L1 /\ B = flat_map snd L2) /\
    (forall es' ct', (exists v, es' = l ++ (k, v) :: r) \/ es' = l ++ r -> length es' <= order st -> (es' = [] -> rt = true) ->
       exists t', tree_of (set_header (set_page st lid (Leaf es' nx rt (order st))) (hroot st) (height st) ct') t' d /\
         kvs t' = A ++ es' ++ B) /\
    (forall v al, 2 <= order st -> S (S d) <= al -> o = [] -> length (l ++ o ++ r) = order st ->
       exists st' t' d', split_leaf (set_page st lid (Leaf (l ++ (k, v) :: r) nx rt (order st))) al lid path = (st', Ok tt) /\
         tree_of st' t' d' /\ order st' = order st /\ count st' = count st /\ kvs t' = A ++ (l ++ (k, v) :: r) ++ B /\ d' <= S d).
Proof.
  intros (Hh & Hr & W & H & ND & FR).
  destruct (leaf_found (order st) d None None t None true (pages st) k W H ND ltac:(done) I I) as
    (lid & path & es & nx & rt & lo & hi & A & B & De & LI & PL & RT & LV & KV & BA & AB & So & In & Le & F & U & D0 & REP & SPL).
  destruct (leaf_split es k So) as (l & o & r & -> & Bl & Ar & O & FACTS).
  exists lid, path, l, o, r, nx, rt, A, B.
  assert (forall es', (exists v, es' = l ++ (k, v) :: r) \/ es' = l ++ r -> ssorted es' /\ inside lo hi es') as NEWES.
  { intros es' X. destruct (lm_parts l o r k So Bl Ar O) as (_ & Y & Y2 & _).
    assert (inside lo hi (l ++ r)) as IN. { intros e E. apply In. rewrite !elem_of_app in *. tauto. }
    destruct X as [[v ->]| ->]; [|done]. split; [apply Y|]. intros e E. rewrite elem_of_app, elem_of_cons in E.
    destruct E as [E|[-> |E]]; [apply IN, elem_of_app; by left|done|apply IN, elem_of_app; by right]. }
  split. { unfold find_leaf. rewrite Hh. replace (S d - 1) with d by lia. by rewrite De, app_nil_r. }
  split; [done|]. split; [subst rt; by destruct d|]. split; [done|]. split; [done|]. split; [done|]. split; [done|]. split; [done|].
  split; [done|]. split; [done|]. split; [done|]. split; [exact FACTS|]. split; [done|]. split.
  - intros es' ct' X Ln NeE. destruct (NEWES es' X) as [So' In']. destruct (REP es' So' In' Ln ltac:(intros E; apply NeE in E; subst rt; destruct d; [by apply D0|done])) as (t' & T1 & T2 & T3 & T4 & T5 & T6).
    exists t'. split; [|done]. split; [done|]. split; [by rewrite T4|]. split; [done|]. split; [done|]. rewrite T3. done.
  - intros v al O2 Al -> Ln. destruct (NEWES (l ++ (k, v) :: r)) as [So' In']; [by left; exists v|].
    specialize (SPL [] (l ++ (k, v) :: r) (set_page st lid (Leaf (l ++ (k, v) :: r) nx rt (order st))) al O2 eq_refl eq_refl So' In').
    rewrite app_nil_r in SPL.
    destruct SPL as [(st' & t' & EQ & FM & HK & W' & H' & G & Fi & KV' & N' & NW)|[[X _]|(_ & st' & t' & EQ & FM & HR & HH & W' & H' & KV' & N' & NW)]]; [|done|by left| |done|].
    + rewrite !app_length in *. cbn in *. lia.
    + destruct FM as (F1 & F2 & F3 & F4). destruct HK as [K1 K2]. exists st', t', d. cbn in *. rewrite EQ. split; [done|].
      split; [|repeat apply conj; [done..|lia]]. unfold tree_of. rewrite F1, K2, K1, G. split; [done|]. split; [done|]. split; [done|]. split; [done|]. split; [done|].
      intros i I1. apply NW in I1 as [I1|I1]; [apply FR in I1; lia|lia].
    + destruct FM as (F1 & F2 & F3 & F4). exists st', t', (S d). cbn in *. rewrite EQ. split; [done|].
      split; [|repeat apply conj; [done..|lia]]. unfold tree_of. rewrite F1, HH, HR, Hh. split; [done|]. split; [done|]. split; [done|]. split; [done|]. split; [done|].
      intros i I1. apply NW in I1 as [I1|I1]; [apply FR in I1; lia|lia].
Qed.

Lemma tree_sorted st t d : tree_of st t d -> ssorted (kvs t).
Proof. intros (_ & _ & W & _). by apply wf_good in W as [W _]. Qed.
Lemma mid_parts A l o r B k : ssorted (A ++ (l ++ o ++ r) ++ B) -> below k A -> below k l -> one k o -> above k r -> above k B ->
  (list_to_map (A ++ (l ++ o ++ r) ++ B) : gmap Z Z) !! k = snd <$> head o /\
  (forall v, (list_to_map (A ++ (l ++ (k, v) :: r) ++ B) : gmap Z Z) = <[k := v]> (list_to_map (A ++ (l ++ o ++ r) ++ B))) /\
  (list_to_map (A ++ (l ++ r) ++ B) : gmap Z Z) = delete k (list_to_map (A ++ (l ++ o ++ r) ++ B)).
Proof.
  intros So BA Bl O Ar AB.
  assert (forall o : list (Z * Z), A ++ (l ++ o ++ r) ++ B = (A ++ l) ++ o ++ r ++ B) as E by (intros; by rewrite <- !app_assoc).
  assert (A ++ (l ++ r) ++ B = (A ++ l) ++ r ++ B) as -> by (by rewrite <- !app_assoc).
  assert (forall v, A ++ (l ++ (k, v) :: r) ++ B = (A ++ l) ++ (k, v) :: r ++ B) as E2 by (intros; by rewrite <- !app_assoc).
  rewrite E in *. destruct (lm_parts (A ++ l) o (r ++ B) k) as (X1 & X2 & X3 & X4); try done.
  - intros e X. apply elem_of_app in X as [X|X]; [by apply BA|by apply Bl].
  - intros e X. apply elem_of_app in X as [X|X]; [by apply Ar|by apply AB].
  - split; [done|]. split; [|done]. intros v. rewrite E2. apply X2.
Qed.
Lemma single_leaf st k v : 2 <= order st -> tree_of
  (set_header (new_page st (Leaf [(k, v)] None true (order st))) (Some (fresh st)) 1 1) (GL (fresh st) [(k, v)]) 0.
Proof.
  intros O2. split; [done|]. split; [done|]. split.
  - split; [repeat constructor|]. split; [done|]. split; [cbn; lia|done].
  - split; [cbn; apply lookup_insert|]. split; [apply NoDup_singleton|]. cbn. intros i X. apply elem_of_list_singleton in X as ->. lia.
Qed.
Lemma insert_ok st m al k v : inv st m -> S (height st) <= al ->
  exists st', insert st al k v = (st', Ok tt) /\ inv st' (<[k := v]> m) /\ order st' = order st /\ height st' <= S (height st).
Proof.
  intros [O2 H] Al. unfold insert. destruct H as [(Hr & -> & Hc & H0)|(t & d & T & -> & Hc)].
  - rewrite Hr. unfold insert_empty. destruct al as [|al]; [lia|].
    assert (leaf_insert (order st) [] k v = [(k, v)]) as ->. { unfold leaf_insert. cbn. destruct (order st) eqn:X; [lia|]. done. }
    eexists. split; [reflexivity|]. split; [|split; [done|cbn; lia]]. split; [done|]. right. exists (GL (fresh st) [(k, v)]), 0.
    split; [by apply single_leaf|]. done.
  - pose proof (tree_sorted _ _ _ T) as So. pose proof T as (Hh & Hr & _). rewrite Hr.
    destruct (at_leaf st t d k T) as (lid & path & l & o & r & nx & rt & A & B & FL & PL & RT & Le & KV & BA & Bl & O & Ar & AB & Sl & FACTS & _ & REP & SPL).
    destruct FACTS as (Hf & Hs & Put & Ins & _). rewrite KV in *.
    destruct (mid_parts A l o r B k So BA Bl O Ar AB) as (_ & MI & _). rewrite FL. unfold insert_at. rewrite PL.
    destruct (leaf_has (l ++ o ++ r) k) eqn:HAS.
    + (* the key is there *)
      rewrite (Ins v eq_refl).
      assert (exists w, o = [(k, w)]) as [w Eo]. { destruct O as [-> |O]; [done|done]. }
      destruct (REP (l ++ (k, v) :: r) (count st)) as (t' & T' & KV'); [left; by exists v|subst o; rewrite !app_length in *; cbn in *; lia|by destruct l|].
      eexists. split; [reflexivity|]. split; [|split; [done|cbn; lia]]. split; [done|]. right. exists t', d. split; [exact T'|]. rewrite KV', MI. split; [done|].
      cbn. rewrite Hc. subst o. rewrite !app_length. cbn. lia.
    + assert (o = []) as Eo. { destruct O as [O|[w ->]]; [done|]. done. }
      destruct (length (l ++ o ++ r) <? order st) eqn:X.
      * apply Nat.ltb_lt in X.
        assert (leaf_insert (order st) (l ++ o ++ r) k v = l ++ (k, v) :: r) as ->.
        { unfold leaf_insert. destruct (order st <=? length (l ++ o ++ r)) eqn:Y; [apply Nat.leb_le in Y; lia|]. apply Put. }
        destruct (REP (l ++ (k, v) :: r) (S (count st))) as (t' & T' & KV'); [left; by exists v|subst o; rewrite !app_length in *; cbn in *; lia|by destruct l|].
        eexists. split; [reflexivity|]. split; [|split; [done|cbn; lia]]. split; [done|]. right. exists t', d. split; [exact T'|]. rewrite KV', MI. split; [done|].
        cbn. rewrite Hc. subst o. rewrite !app_length. cbn. lia.
      * apply Nat.ltb_ge in X. rewrite Put.
        destruct (SPL v al O2) as (st' & t' & d' & EQ & T' & F1 & F2 & KV' & DD); [lia|done|lia|]. rewrite EQ. cbn [fst snd].
        eexists. split; [reflexivity|]. split; [|split; [done|]; destruct T' as (HT & _); cbn; rewrite HT; lia]. split; [by rewrite <- F1 in O2|]. right. exists t', d'. split; [exact T'|].
        rewrite KV', MI. split; [done|]. cbn. rewrite F2, Hc. subst o. rewrite !app_length. cbn. lia.
Qed.
Lemma insert_crab_ok st m al k v : inv st m -> S (height st) <= al ->
  exists st', insert_crab st al k v = (st', Ok tt) /\ inv st' (<[k := v]> m) /\ order st' = order st /\ height st' <= S (height st).
Proof.
  intros Iv Al. pose proof (insert_ok st m al k v Iv Al) as INS. destruct Iv as [O2 H]. unfold insert_crab.
  destruct H as [(Hr & -> & Hc & H0)|(t & d & T & -> & Hc)].
  - rewrite Hr. unfold insert in INS. by rewrite Hr in INS.
  - pose proof T as (Hh & Hr & _). rewrite Hr.
    destruct (at_leaf st t d k T) as (lid & path & l & o & r & nx & rt & A & B & FL & PL & RT & Le & KV & BA & Bl & O & Ar & AB & Sl & FACTS & _ & REP & SPL).
    rewrite FL. unfold insert_crab_at. rewrite PL. destruct (length (l ++ o ++ r) <? order st - 1) eqn:X; [|exact INS].
    apply Nat.ltb_lt in X. destruct INS as (st' & E & IN). exists st'. split; [|exact IN].
    unfold insert in E. rewrite Hr, FL in E. unfold insert_at in E. rewrite PL in E.
    destruct (leaf_has (l ++ o ++ r) k) eqn:HAS; [exact E|]. destruct (length (l ++ o ++ r) <? order st) eqn:Y; [exact E|]. apply Nat.ltb_ge in Y. lia.
Qed.
Lemma search_ok st m k : inv st m -> search st k = Ok (m !! k).
Proof.
  intros [O2 H]. unfold search. destruct H as [(Hr & -> & Hc & H0)|(t & d & T & -> & Hc)].
  - rewrite Hr. by rewrite lookup_empty.
  - pose proof (tree_sorted _ _ _ T) as So. pose proof T as (Hh & Hr & _). rewrite Hr.
    destruct (at_leaf st t d k T) as (lid & path & l & o & r & nx & rt & A & B & FL & PL & RT & Le & KV & BA & Bl & O & Ar & AB & Sl & FACTS & _).
    destruct FACTS as (_ & _ & _ & _ & _ & _ & Lk). rewrite KV in *.
    destruct (mid_parts A l o r B k So BA Bl O Ar AB) as (ML & _). rewrite FL, PL, ML. by rewrite Lk.
Qed.
Lemma size_ok st m : inv st m -> count st = size m.
Proof.
  intros [O2 H]. destruct H as [(Hr & -> & Hc & H0)|(t & d & T & -> & Hc)]; [by rewrite map_size_empty|].
  rewrite lm_size; [done|]. by apply (tree_sorted st t d).
Qed.
(** Removing from a leaf that is the root or keeps at least half its entries. *)
Definition keeps_half (st : state) (k : Z) : Prop :=
  forall r id path es nx rt mx, hroot st = Some r -> find_leaf st r k = Ok (id, path) -> pages st !! id = Some (Leaf es nx rt mx) ->
    leaf_has es k = true -> rt = true \/ order st / 2 < length es.
Lemma remove_ok st m k : inv st m -> keeps_half st k ->
  exists st', remove st k = (st', Ok (bool_decide (is_Some (m !! k)))) /\ inv st' (delete k m) /\ order st' = order st /\ height st' <= height st.
Proof.
  intros [O2 H] Kp. unfold remove. destruct H as [(Hr & -> & Hc & H0)|(t & d & T & -> & Hc)].
  - rewrite Hr. exists st. rewrite lookup_empty, delete_empty. split; [done|]. split; [|done]. split; [done|]. by left.
  - pose proof (tree_sorted _ _ _ T) as So. pose proof T as (Hh & Hr & _).
    destruct (at_leaf st t d k T) as (lid & path & l & o & r & nx & rt & A & B & FL & PL & RT & Le & KV & BA & Bl & O & Ar & AB & Sl & FACTS & (L1 & L2 & LV & EA & EB) & REP & _).
    destruct FACTS as (_ & Hs & _ & _ & De & _ & _). specialize (Kp _ _ _ _ _ _ _ Hr FL PL). pose proof T as T0. rewrite KV in *.
    destruct (mid_parts A l o r B k So BA Bl O Ar AB) as (ML & _ & MD). rewrite Hr, FL, PL.
    rewrite ML. destruct (leaf_has (l ++ o ++ r) k) eqn:HAS.
    + assert (exists w, o = [(k, w)]) as [w Eo]. { destruct O as [-> |O]; [done|done]. }
      rewrite De by done.
      assert (l ++ r = [] -> rt = true) as NER.
      { intros E. destruct Kp as [Kp|Kp]; [done|done|]. exfalso. subst o. apply app_nil in E as [-> ->]. cbn [length app] in Kp.
        pose proof (Nat.div_le_lower_bound (order st) 2 1 ltac:(lia) ltac:(lia)). lia. }
      destruct (REP (l ++ r) (count st - 1)) as (t' & T' & KV'); [by right|subst o; rewrite !app_length in *; cbn in *; lia|exact NER|]. rewrite Hr in T'.
      destruct (rt && (length (l ++ r) =? 0)) eqn:X.
      * apply andb_prop in X as [X1 X2]. apply Nat.eqb_eq in X2. eexists. split; [subst o; reflexivity|]. split; [|split; [done|cbn; lia]]. split; [done|]. left.
        split; [done|]. split; [|done]. rewrite <- MD.
        assert (A = [] /\ B = []) as [-> ->].
        { subst rt. apply Nat.eqb_eq in X1 as ->. destruct T0 as (_ & _ & W & _). destruct t as [id es|]; [|done]. cbn in LV.
          destruct L1 as [|x L1]; [|by destruct L1]. destruct L2; [|done]. done. }
        destruct l; [|done]. destruct r; [|done]. done.
      * destruct (negb rt && (length (l ++ r) <? order st / 2)) eqn:Y.
        { exfalso. apply andb_prop in Y as [Y1 Y2]. apply Nat.ltb_lt in Y2. destruct Kp as [-> |Kp]; [done|done|].
          subst o. rewrite !app_length in *. cbn in *. lia. }
        eexists. split; [subst o; reflexivity|]. split; [|split; [done|cbn; lia]]. split; [done|]. right. exists t', d. split; [exact T'|].
        rewrite KV', MD. split; [done|]. cbn. rewrite Hc. subst o. rewrite !app_length. cbn. lia.
    + assert (o = []) as ->. { destruct O as [O|[w ->]]; [done|]. done. }
      exists st. split; [done|]. split; [|done]. split; [done|]. right. exists t, d. rewrite KV. split; [done|]. split; [|done].
      rewrite <- MD. done.
Qed.
Lemma remove_crab_ok st m k : inv st m -> keeps_half st k ->
  exists st', remove_crab st k = (st', Ok (bool_decide (is_Some (m !! k)))) /\ inv st' (delete k m) /\ order st' = order st /\ height st' <= height st.
Proof.
  intros Iv Kp. pose proof (remove_ok st m k Iv Kp) as RM. destruct Iv as [O2 H]. unfold remove_crab. destruct H as [(Hr & -> & Hc & H0)|(t & d & T & -> & Hc)].
  - rewrite Hr. unfold remove in RM. by rewrite Hr in RM.
  - pose proof (tree_sorted _ _ _ T) as So. pose proof T as (Hh & Hr & _).
    destruct (at_leaf st t d k T) as (lid & path & l & o & r & nx & rt & A & B & FL & PL & RT & Le & KV & BA & Bl & O & Ar & AB & Sl & FACTS & _ & REP & _).
    destruct FACTS as (_ & Hs & _ & _ & De & _ & _). rewrite KV in *.
    destruct (mid_parts A l o r B k So BA Bl O Ar AB) as (ML & _ & MD). rewrite Hr, FL, PL.
    destruct (rt || ((order st + 1) / 2 <? length (l ++ o ++ r))) eqn:X; [|exact RM]. rewrite ML.
    destruct (leaf_has (l ++ o ++ r) k) eqn:HAS.
    + assert (exists w, o = [(k, w)]) as [w Eo]. { destruct O as [-> |O]; [done|done]. }
      rewrite De by done.
      assert (l ++ r = [] -> rt = true) as NER.
      { intros E. destruct rt; [done|]. exfalso. cbn [orb] in X. apply Nat.ltb_lt in X. subst o. apply app_nil in E as [-> ->]. cbn [length app] in X.
        pose proof (Nat.div_le_lower_bound (order st + 1) 2 1 ltac:(lia) ltac:(lia)). lia. }
      destruct (REP (l ++ r) (count st - 1)) as (t' & T' & KV'); [by right|subst o; rewrite !app_length in *; cbn in *; lia|exact NER|]. rewrite Hr in T'.
      eexists. split; [subst o; reflexivity|]. split; [|split; [done|cbn; lia]]. split; [done|]. right. exists t', d. split; [exact T'|].
      rewrite KV', MD. split; [done|]. cbn. rewrite Hc. subst o. rewrite !app_length. cbn. lia.
    + assert (o = []) as ->. { destruct O as [O|[w ->]]; [done|]. done. }
      exists st. split; [done|]. split; [|done]. split; [done|]. right. exists t, d. rewrite KV. split; [done|]. split; [|done].
      rewrite <- MD. done.
Qed.

(** ** Range scans *)
Fixpoint chain (P : gmap nat node) (ls : list (nat * list (Z * Z))) (nx : option nat) : Prop :=
  match ls with
  | [] => True
  | (id, es) :: r => (exists rt mx, P !! id = Some (Leaf es (match r with [] => nx | x :: _ => Some x.1 end) rt mx)) /\ chain P r nx
  end.
Lemma chain_app P l1 l2 nx : chain P (l1 ++ l2) nx <-> chain P l1 (match l2 with [] => nx | x :: _ => Some x.1 end) /\ chain P l2 nx.
Proof.
  induction l1 as [|[id es] l1 IH]; cbn; [tauto|]. rewrite IH.
  assert ((match l1 ++ l2 with [] => nx | x :: _ => Some x.1 end) =
          match l1 with [] => match l2 with [] => nx | x :: _ => Some x.1 end | x :: _ => Some x.1 end) as ->; [by destruct l1|]. tauto.
Qed.
Lemma holds_chain ord d : forall lo hi t P rt nx, wf ord d lo hi t -> holds P ord rt t nx ->
  chain P (lvs t) nx /\ exists es r, lvs t = (first t, es) :: r.
Proof.
  induction d as [|d IH]; intros lo hi t P rt nx W H; destruct t as [id es|id dm ts ks]; try done.
  - split; [|by exists es, []]. cbn. split; [|done]. by exists rt, ord.
  - apply holds_node in H as [_ H]. destruct W as (W & _). cbn [lvs first].
    clear dm rt. revert lo ks W. induction ts as [|t ts IH2]; intros lo ks W; [by destruct ks|]. destruct H as [H1 H2]. cbn [flat_map].
    destruct ks as [|k ks].
    + destruct ts; [|done]. cbn in W. destruct (IH lo hi t P false nx W H1) as (A & es & r & B). cbn. rewrite app_nil_r. split; [done|]. by exists es, r.
    + apply wfs_cons in W as (_ & _ & W1 & W2). destruct (IH2 H2 (Some k) ks W2) as (A & es & r & B).
      destruct (IH lo (Some k) t P false (nxt ts nx) W1 H1) as (A' & es' & r' & B').
      split; [|rewrite B'; by eexists _, _]. apply chain_app. split; [|done]. rewrite B. destruct ts as [|t2 ts]; [by destruct ks|]. exact A'.
Qed.
Lemma scan_leaf_spec D b : ssorted D ->
  (scan_leaf D b).1 = filter (fun e : Z * Z => (e.1 <= b)%Z) D /\
  ((scan_leaf D b).2 = false -> exists e, e ∈ D /\ (b < e.1)%Z).
Proof.
  induction 1 as [|e D So IH F]; [done|]. cbn [scan_leaf]. rewrite filter_cons. destruct (b <? e.1)%Z eqn:X.
  - apply Z.ltb_lt in X. split; [|intros _; exists e; split; [left|done]]. cbn. destruct (decide _); [lia|].
    symmetry. rewrite Forall_forall in F. clear - F X. induction D as [|y D IH]; [done|]. rewrite filter_cons. destruct (decide _) as [Y|Y].
    + specialize (F y ltac:(left)). cbn in F. lia.
    + apply IH. intros z Z. apply F. by right.
  - apply Z.ltb_ge in X. destruct IH as [I1 I2]. cbn. destruct (decide _); [|lia]. split; [by rewrite I1|]. intros Y. apply I2 in Y as (z & Z & ?).
    exists z. split; [by right|done].
Qed.
Lemma filter_none (l : list (Z * Z)) (p : Z * Z -> Prop) `{forall x, Decision (p x)} : (forall e, e ∈ l -> ~ p e) -> filter p l = [].
Proof. intros F. induction l as [|y l IH]; [done|]. rewrite filter_cons. destruct (decide _) as [Y|Y]; [by apply F in Y; [|left]|]. apply IH. intros z Z. apply F. by right. Qed.
Lemma filter_same (l : list (Z * Z)) (p q : Z * Z -> Prop) `{forall x, Decision (p x)} `{forall x, Decision (q x)} :
  (forall e, e ∈ l -> p e <-> q e) -> filter p l = filter q l.
Proof.
  intros F. induction l as [|y l IH]; [done|]. rewrite !filter_cons. pose proof (F y ltac:(left)) as Fy.
  assert (filter p l = filter q l) as ->; [apply IH; intros e X; apply F; by right|]. destruct (decide (p y)), (decide (q y)); tauto.
Qed.
Lemma scan_part es a b : ssorted es ->
  (scan_leaf (drop (leaf_find es a) es) b).1 = filter (fun e : Z * Z => (a <= e.1 <= b)%Z) es /\
  ((scan_leaf (drop (leaf_find es a) es) b).2 = false -> exists e, e ∈ es /\ (b < e.1)%Z).
Proof.
  intros Se. destruct (leaf_split es a Se) as (l & o & r & E & Bl & Ar & O & _ & _ & _ & _ & _ & Dr & _). rewrite Dr.
  assert (ssorted (o ++ r)) as Sor by (rewrite E in Se; by apply ss_app in Se as (_ & Se & _)).
  destruct (scan_leaf_spec (o ++ r) b Sor) as [S1 S2]. split.
  - rewrite S1, E, (filter_app _ l), (filter_none l) by (intros e X; apply Bl in X; lia). cbn [app].
    apply filter_same. intros e X. split; [|lia]. intros Y.
    assert (a <= e.1)%Z; [|lia]. apply elem_of_app in X as [X|X]; [|apply Ar in X; lia].
    destruct O as [-> |[w ->]]; [by apply elem_of_nil in X|]. apply elem_of_list_singleton in X as ->. cbn. lia.
  - intros X. apply S2 in X as (e & X & Y). exists e. split; [|done]. rewrite E. apply elem_of_app. by right.
Qed.
Lemma scan_spec P a b L : forall id es fuel acc, chain P ((id, es) :: L) None -> ssorted (es ++ flat_map snd L) -> length L < fuel ->
  scan fuel P a b id acc = Ok (acc ++ filter (fun e : Z * Z => (a <= e.1 <= b)%Z) (es ++ flat_map snd L)).
Proof.
  induction L as [|[id2 es2] L IH]; intros id es fuel acc C So Fu; (destruct fuel as [|fuel]; [lia|]).
  all: destruct C as [(rt & mx & C1) C2]; cbn [scan]; rewrite C1; pose proof So as So2; apply ss_app in So2 as (Se & SL & SX).
  all: destruct (scan_part es a b Se) as [S1 S2]; rewrite S1.
  - cbn [flat_map]. rewrite app_nil_r. by destruct (scan_leaf _ b).2.
  - cbn [fst]. destruct (scan_leaf (drop (leaf_find es a) es) b).2 eqn:X.
    + rewrite (IH id2 es2); [|done|done|cbn in Fu; lia]. rewrite (filter_app _ es). by rewrite app_assoc.
    + destruct (S2 eq_refl) as (e & E & L0). rewrite filter_app. rewrite (filter_none (flat_map snd ((id2, es2) :: L))); [by rewrite app_nil_r|].
      intros y Y Z. specialize (SX e y E Y). cbn in SX. lia.
Qed.
Lemma lvs_ids t : forall x, x ∈ (lvs t).*1 -> x ∈ ids t.
Proof.
  induction t as [id es|id d ts ks IH] using gt_ind'; intros x X; [done|]. cbn [lvs ids] in *. right.
  induction IH as [|t r Ht Hr IH2]; [done|]. cbn in *. rewrite fmap_app in X. apply elem_of_app in X as [X|X]; apply elem_of_app; [left; by apply Ht|right; by apply IH2].
Qed.
Lemma lvs_nodup t : NoDup (ids t) -> NoDup (lvs t).*1.
Proof.
  induction t as [id es|id d ts ks IH] using gt_ind'; intros N; [apply NoDup_singleton|]. cbn [lvs ids] in *. apply NoDup_cons in N as [_ N].
  induction IH as [|t r Ht Hr IH2]; [constructor|]. cbn in *. apply NoDup_app in N as (N1 & N2 & N3). rewrite fmap_app. apply NoDup_app.
  split; [by apply Ht|]. split; [|by apply IH2]. intros x X Y. apply (N2 x); [by apply lvs_ids|].
  clear - Y. induction r as [|t r IH]; [done|]. cbn in *. rewrite fmap_app in Y. apply elem_of_app in Y as [Y|Y]; apply elem_of_app; [left; by apply lvs_ids|right; by apply IH].
Qed.
Lemma chain_dom P ls nx : chain P ls nx -> forall x, x ∈ ls.*1 -> x ∈ dom P.
Proof.
  induction ls as [|[id es] ls IH]; intros C x X; [by apply elem_of_nil in X|]. destruct C as [(rt & mx & C1) C2]. cbn in X.
  apply elem_of_cons in X as [-> |X]; [by apply elem_of_dom_2 in C1|by apply IH].
Qed.
Lemma range_ok st m a b : inv st m -> exists l, range_scan st a b = Ok l /\ pairs_of m a b l.
Proof.
  intros [O2 H]. unfold range_scan. destruct (b <? a)%Z eqn:AB.
  { apply Z.ltb_lt in AB. exists []. split; [done|]. split; [constructor|]. intros k v. split; [intros X; by apply elem_of_nil in X|lia]. }
  destruct H as [(Hr & -> & Hc & H0)|(t & d & T & -> & Hc)].
  - rewrite Hr. exists []. split; [done|]. split; [constructor|]. intros k v. rewrite lookup_empty. split; [intros X; by apply elem_of_nil in X|by intros [? _]].
  - pose proof (tree_sorted _ _ _ T) as So. pose proof T as (Hh & Hr & W & H & ND & FR). rewrite Hr.
    destruct (at_leaf st t d a T) as (lid & path & l & o & r & nx & rt & A & B & FL & PL & RT & Le & KV & BA & Bl & O & Ar & AB' & Sl & FACTS & (L1 & L2 & LV & -> & ->) & _).
    exists (filter (fun e : Z * Z => (a <= e.1 <= b)%Z) (kvs t)). split; [|by apply filter_pairs].
    rewrite FL. destruct (holds_chain _ _ _ _ _ _ _ _ W H) as [C _]. pose proof (chain_dom _ _ _ C) as CD. pose proof (lvs_nodup t ND) as LN.
    rewrite LV in C. apply chain_app in C as [_ C]. rewrite (scan_spec _ a b L2 lid (l ++ o ++ r)); [|done| |].
    + rewrite KV, !filter_app. rewrite (filter_none (flat_map snd L1)); [done|]. intros e X. apply BA in X. lia.
    + rewrite KV in So. by apply ss_app in So as (_ & So & _).
    + assert (length (lvs t) <= size (pages st)) as SZ.
      { rewrite <- (fmap_length fst). rewrite <- (size_list_to_set (C := gset nat) _ LN). rewrite <- size_dom.
        apply subseteq_size. intros x X. apply elem_of_list_to_set in X. by apply CD. }
      rewrite LV, app_length in SZ. cbn in SZ. lia.
Qed.

(** ** Calls and runs *)
Lemma call_ok st m al crab o : inv st m -> S (height st) <= al -> (forall k, o = Remove k -> keeps_half st k) ->
  exists m', map_step m o (call st al crab o).2 m' /\ inv (call st al crab o).1 m' /\
    order (call st al crab o).1 = order st /\ height (call st al crab o).1 <= S (height st).
Proof.
  intros Iv Al Kp. destruct o as [k v|k|a b|k|]; cbn [call fst snd].
  - exists (<[k := v]> m).
    assert (exists st', (if crab then insert_crab else insert) st al k v = (st', Ok tt) /\ inv st' (<[k := v]> m) /\ order st' = order st /\ height st' <= S (height st)) as (st' & E & X)
      by (destruct crab; [by apply insert_crab_ok|by apply insert_ok]). rewrite E. cbn. split; [constructor|done].
  - exists m. rewrite (search_ok st m k Iv). split; [constructor|]. split; [done|]. split; [done|lia].
  - exists m. destruct (range_ok st m a b Iv) as (l & -> & P). split; [by constructor|]. split; [done|]. split; [done|lia].
  - exists (delete k m). specialize (Kp k eq_refl).
    assert (exists st', (if crab then remove_crab else remove) st k = (st', Ok (bool_decide (is_Some (m !! k)))) /\ inv st' (delete k m) /\ order st' = order st /\ height st' <= height st) as (st' & E & X1 & X2 & X3)
      by (destruct crab; [by apply remove_crab_ok|by apply remove_ok]). rewrite E. cbn. split; [constructor|]. split; [done|]. split; [done|lia].
  - exists m. rewrite (size_ok st m Iv). split; [constructor|]. split; [done|]. split; [done|lia].
Qed.
(** Every removal of a run spares its leaf. *)
Fixpoint spares (st : state) (al : nat) (l : list (bool * op)) : Prop :=
  match l with
  | [] => True
  | (crab, o) :: l => (forall k, o = Remove k -> keeps_half st k) /\ spares (call st al crab o).1 al l
  end.
Lemma run_ok l : forall st m al, inv st m -> height st + length l <= al -> spares st al l ->
  exists m', map_run m (zip l.*2 (run st al l).2) m' /\ inv (run st al l).1 m' /\ order (run st al l).1 = order st /\
    height (run st al l).1 <= height st + length l.
Proof.
  induction l as [|[crab o] l IH]; intros st m al Iv Al Sp; cbn [run fst snd].
  - exists m. cbn. split; [constructor|]. split; [done|]. split; [done|lia].
  - destruct Sp as [Sp1 Sp2]. cbn in Al. destruct (call_ok st m al crab o Iv ltac:(lia) Sp1) as (m1 & S1 & I1 & O1 & H1).
    destruct (IH _ m1 al I1 ltac:(lia) Sp2) as (m2 & S2 & I2 & O2 & H2). exists m2. cbn. split; [by econstructor|]. split; [done|]. split; [congruence|lia].
Qed.
Lemma no_remove_spares l : (forall b k, (b, Remove k) ∉ l) -> forall st al, spares st al l.
Proof.
  induction l as [|[b o] l IH]; intros H st al; [done|]. split.
  - intros k ->. exfalso. apply (H b k). left.
  - apply IH. intros b' k X. apply (H b' k). by right.
Qed.

(** ** A root that is a leaf *)
Definition small (st : state) : Prop := height st <= 1.
Lemma small_keeps st m k : inv st m -> small st -> keeps_half st k.
Proof.
  intros [O2 H] Sm r id path es nx rt mx Hr FL PL Hs. left. destruct H as [(Hr' & _)|(t & d & T & _)]; [congruence|].
  pose proof T as (Hh & Hr' & _). unfold small in Sm.
  destruct (at_leaf st t d k T) as (lid & p & l & o & r' & nx' & rt' & A & B & FL' & PL' & RT & _).
  assert (d = 0) as -> by lia. rewrite Hr' in Hr. injection Hr as <-. rewrite FL' in FL. injection FL as -> ->. rewrite PL' in PL. cbn in RT. congruence.
Qed.
Lemma descend_leaf P id es nx rt mx n k : P !! id = Some (Leaf es nx rt mx) -> (exists es' nx' rt' mx', n = Leaf es' nx' rt' mx') ->
  forall d r R, descend (<[id := n]> P) k d r R = descend P k d r R.
Proof.
  intros PL (es' & nx' & rt' & mx' & ->). induction d as [|d IH]; intros r R; cbn; (destruct (decide (r = id)) as [-> |Ne]; [rewrite lookup_insert, PL; done|rewrite lookup_insert_ne by done]).
  - done.
  - destruct (P !! r) as [[]|]; try done. destruct (find_child _ _ _); [apply IH|done].
Qed.
Lemma insert_small st m al k v (crab : bool) : inv st m -> small st -> S (height st) <= al -> size (<[k := v]> m) <= order st ->
  small ((if crab then insert_crab else insert) st al k v).1.
Proof.
  intros Iv Sm Al Sz.
  assert (small (insert st al k v).1) as INS.
  { destruct Iv as [O2 [(Hr & -> & Hc & H0)|(t & d & T & -> & Hc)]]; unfold small, insert in *.
    - rewrite Hr. unfold insert_empty. destruct al; [lia|]. cbn. lia.
    - pose proof (tree_sorted _ _ _ T) as So. pose proof T as (Hh & Hr & _). rewrite Hr.
      destruct (at_leaf st t d k T) as (lid & path & l & o & r & nx & rt & A & B & FL & PL & RT & Le & KV & BA & Bl & O & Ar & AB & Sl & FACTS & _ & REP & SPL).
      destruct FACTS as (Hf & Hs & _). rewrite FL. unfold insert_at. rewrite PL.
      destruct (leaf_has (l ++ o ++ r) k) eqn:HAS; [done|]. destruct (length (l ++ o ++ r) <? order st) eqn:X; [done|]. exfalso.
      assert (o = []) as ->. { destruct O as [O|[w ->]]; [done|]. done. }
      rewrite KV in *. destruct (mid_parts A l [] r B k So BA Bl O Ar AB) as (ML & _). rewrite map_size_insert_None in Sz by done.
      rewrite lm_size in Sz by done. apply Nat.ltb_ge in X. rewrite !app_length in *. lia. }
  destruct crab; [|done]. unfold insert_crab. destruct (hroot st) as [r|] eqn:Hr; [|unfold insert in INS; by rewrite Hr in INS].
  destruct (find_leaf st r k) as [[id p]| |]; [|done|done]. unfold insert_crab_at. destruct (pages st !! id) as [[es nx rt mx| |]|]; [|done..].
  destruct (length es <? mx - 1); [|done]. destruct (leaf_has es k); done.
Qed.
Lemma run_small l : forall st m al, inv st m -> small st -> 2 <= al -> fits (order st) m l.*2 ->
  exists m', map_run m (zip l.*2 (run st al l).2) m'.
Proof.
  induction l as [|[crab o] l IH]; intros st m al Iv Sm Al Fi; cbn [run fst snd].
  - exists m. constructor.
  - assert (forall k, o = Remove k -> keeps_half st k) as Kp by (intros k _; by apply (small_keeps st m)).
    unfold small in Sm. destruct (call_ok st m al crab o Iv ltac:(lia) Kp) as (m1 & S1 & I1 & O1 & H1).
    assert (small (call st al crab o).1 /\ fits (order st) m1 l.*2) as [Sm1 Fi1].
    { destruct o as [k v|k|a b|k|]; cbn in Fi; try (inversion S1; subst; split; [exact Sm|done]).
      - destruct Fi as [Fi Fi2]. inversion S1; subst. split; [|done]. cbn [call fst]. by apply (insert_small st m); [| |lia|].
      - inversion S1; subst. split; [|done]. cbn [call fst].
        specialize (Kp k eq_refl).
        assert (exists st', (if crab then remove_crab else remove) st k = (st', Ok (bool_decide (is_Some (m !! k)))) /\ inv st' (delete k m) /\ order st' = order st /\ height st' <= height st) as (st' & E & X1 & X2 & X3)
          by (destruct crab; [by apply remove_crab_ok|by apply remove_ok]). rewrite E. unfold small. cbn. lia. }
    destruct (IH _ m1 al I1 Sm1 Al) as (m2 & S2); [by rewrite O1|]. exists m2. cbn. by econstructor.
Qed.
Lemma root_fresh st al a k b : fresh st <= fresh (create_new_root st al a k b).1.
Proof. unfold create_new_root. destruct al; cbn; lia. Qed.
Lemma split_inner_fresh path : forall st al id, fresh st <= fresh (split_inner path st al id).1.
Proof.
  induction path as [|p path IH]; intros st al id; cbn [split_inner].
  all: destruct (pages st !! id) as [[|ks vs rt mx|]|]; try done.
  all: destruct (order st =? 0); [done|]; destruct al as [|al]; [done|].
  all: destruct (ks !! _); [|cbn; lia]; destruct (vs !! _); [|cbn; lia].
  all: destruct rt; [etrans; [|apply root_fresh]; cbn; lia|].
  - cbn. lia.
  - destruct (pages _ !! p) as [[| |]|]; try (cbn; lia). destruct (_ <=? _); [|cbn; lia]. etrans; [|apply IH]. cbn. lia.
Qed.
Lemma split_leaf_fresh st al id path st' : split_leaf st al id path = (st', Ok tt) -> fresh st < fresh st'.
Proof.
  unfold split_leaf. destruct (pages st !! id) as [[es nx rt mx| |]|]; try done.
  destruct (order st =? 0); [done|]. destruct al as [|al]; [done|]. set (right := leaf_insert_all _ _ _). clearbody right. destruct right as [|[sep sv] right]; [done|].
  destruct rt.
  - set (cr := create_new_root _ _ _ _ _). pose proof (root_fresh (set_page (new_page st (Leaf ((sep, sv) :: right) nx false (order st))) id (Leaf (take ((order st + 1) / 2) es) (Some (fresh st)) true mx)) al id sep (fresh st)) as M.
    fold cr in M. clearbody cr. destruct cr as [stc [[]| |]]; try done. cbn in *. intros E. injection E as <-. cbn. lia.
  - destruct path as [|p path]; [done|]. destruct (pages _ !! p) as [[|pks pvs prt pmx|]|]; try done. destruct (_ <=? _).
    + intros E. apply (f_equal fst) in E. cbn [fst] in E. rewrite <- E. eapply Nat.lt_le_trans; [|apply split_inner_fresh]. cbn. lia.
    + intros E. injection E as <-. cbn. lia.
Qed.
(** An insertion that finds room changes one leaf. *)
Lemma insert_room st m al k v st' : inv st m -> insert st al k v = (st', Ok tt) -> hroot st <> None -> fresh st' = fresh st -> S (height st) <= al ->
  forall k' r, hroot st = Some r -> hroot st' = Some r /\ height st' = height st /\ find_leaf st' r k' = find_leaf st r k'.
Proof.
  intros [O2 [(Hr & _)|(t & d & T & -> & Hc)]] E Hn Fr Al k' r Hr'; [done|].
  pose proof T as (Hh & Hr & _). unfold insert in E. rewrite Hr in E.
  destruct (at_leaf st t d k T) as (lid & path & l & o & r0 & nx & rt & A & B & FL & PL & RT & Le & KV & BA & Bl & O & Ar & AB & Sl & FACTS & _ & REP & SPL).
  rewrite FL in E. unfold insert_at in E. rewrite PL in E. destruct FACTS as (_ & Hs & Put & _).
  assert (forall (es' : list (Z * Z)) (ct : nat), find_leaf (set_header (set_page st lid (Leaf es' nx rt (order st))) (hroot st) (height st) ct) r k' = find_leaf st r k') as SAME.
  { intros es' ct. unfold find_leaf. cbn [set_header set_page pages height]. apply (descend_leaf _ _ _ _ _ _ _ _ PL). by eexists _, _, _, _. }
  destruct (leaf_has (l ++ o ++ r0) k) eqn:HAS.
  - injection E as <-. split; [done|]. split; [done|]. apply (SAME _ (count st)).
  - destruct (length (l ++ o ++ r0) <? order st) eqn:X.
    + injection E as <-. split; [done|]. split; [done|]. apply (SAME _ (S (count st))).
    + exfalso. destruct (split_leaf _ al lid path) as [s1 r1] eqn:SP. cbn in E. destruct r1 as [[]| |]; try done. apply split_leaf_fresh in SP.
      injection E as <-. cbn in *. lia.
Qed.
