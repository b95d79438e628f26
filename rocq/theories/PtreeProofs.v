(** * Proofs about the paged index *)
From Coq Require Import ZArith Lia.
From stdpp Require Import list gmap sorting.
From Verif Require Import PtreeSpec PtreeModel PtreePages.
Local Open Scope nat_scope.

(** ** The tree the pages represent *)
(** A node has children [ts] separated by [ks]. A page made by splitting an internal page also has a first pointer that is
    never followed, with the node's own lower bound as its key: [d]. *)
Inductive gt := GL (id : nat) (es : list (Z * Z)) | GN (id : nat) (d : option (Z * nat)) (ts : list gt) (ks : list Z).
Section Ind.
  Context (Q : gt -> Prop) (HL : forall id es, Q (GL id es)) (HN : forall id d ts ks, Forall Q ts -> Q (GN id d ts ks)).
  Fixpoint gt_ind' (t : gt) : Q t :=
    match t with
    | GL id es => HL id es
    | GN id d ts ks =>
        HN id d ts ks ((fix go ts : Forall Q ts := match ts with [] => Forall_nil_2 Q | t :: r => Forall_cons_2 Q t r (gt_ind' t) (go r) end) ts)
    end.
End Ind.
Definition gid (t : gt) : nat := match t with GL id _ => id | GN id _ _ _ => id end.
Definition dk (d : option (Z * nat)) : list Z := match d with Some p => [p.1] | None => [] end.
Definition dv (d : option (Z * nat)) : list nat := match d with Some p => [p.2] | None => [] end.
Fixpoint kvs (t : gt) : list (Z * Z) := match t with GL _ es => es | GN _ _ ts _ => flat_map kvs ts end.
Fixpoint ids (t : gt) : list nat := match t with GL id _ => [id] | GN id _ ts _ => id :: flat_map ids ts end.
Fixpoint first (t : gt) : nat := match t with GL id _ => id | GN id _ ts _ => match ts with [] => id | t :: _ => first t end end.
Definition nxt (ts : list gt) (nx : option nat) : option nat := match ts with [] => nx | t :: _ => Some (first t) end.

(** Bounds: lower ones included, upper ones not. *)
Definition from (lo : option Z) (k : Z) : Prop := match lo with Some a => (a <= k)%Z | None => True end.
Definition over (lo : option Z) (k : Z) : Prop := match lo with Some a => (a < k)%Z | None => True end.
Definition under (k : Z) (hi : option Z) : Prop := match hi with Some b => (k < b)%Z | None => True end.
Definition inside (lo hi : option Z) (l : list (Z * Z)) : Prop := forall e, e ∈ l -> from lo e.1 /\ under e.1 hi.

Fixpoint wfs (W : option Z -> option Z -> gt -> Prop) (lo hi : option Z) (ts : list gt) (ks : list Z) : Prop :=
  match ts, ks with
  | [t], [] => W lo hi t
  | t :: ts, k :: ks => over lo k /\ under k hi /\ W lo (Some k) t /\ wfs W (Some k) hi ts ks
  | _, _ => False
  end.
(** The first child's page. A node with a lower bound was made by a split, and its never followed pointer is that page. *)
Definition gid0 (ts : list gt) : nat := match ts with t :: _ => gid t | [] => 0 end.
Definition dum (lo : option Z) (dm : option (Z * nat)) (g : nat) : Prop := dm = (fun a => (a, g)) <$> lo.
Fixpoint wf (ord d : nat) (lo hi : option Z) (t : gt) : Prop :=
  match d, t with
  | O, GL _ es => ssorted es /\ inside lo hi es /\ length es <= ord /\ (es = [] -> lo = None /\ hi = None)
  | S d, GN _ dm ts ks =>
      wfs (wf ord d) lo hi ts ks /\ dum lo dm (gid0 ts) /\
      dk dm ++ ks <> [] /\ length (dk dm ++ ks) < ord
  | _, _ => False
  end.
Fixpoint holds (P : gmap nat node) (ord : nat) (rt : bool) (t : gt) (nx : option nat) : Prop :=
  match t with
  | GL id es => P !! id = Some (Leaf es nx rt ord)
  | GN id d ts ks =>
      P !! id = Some (Inner (dk d ++ ks) (dv d ++ map gid ts) rt ord) /\
      (fix go ts := match ts with [] => True | t :: r => holds P ord false t (nxt r nx) /\ go r end) ts
  end.
Fixpoint holds_l (P : gmap nat node) (ord : nat) (ts : list gt) (nx : option nat) : Prop :=
  match ts with [] => True | t :: r => holds P ord false t (nxt r nx) /\ holds_l P ord r nx end.
Lemma holds_node P ord rt id d ts ks nx :
  holds P ord rt (GN id d ts ks) nx <-> P !! id = Some (Inner (dk d ++ ks) (dv d ++ map gid ts) rt ord) /\ holds_l P ord ts nx.
Proof. cbn. split; intros [A B]; (split; [exact A|]); clear A; induction ts as [|t r IH]; cbn in *; naive_solver. Qed.

Lemma holds_frame P P' ord t : forall rt nx, holds P ord rt t nx -> (forall i, i ∈ ids t -> P' !! i = P !! i) -> holds P' ord rt t nx.
Proof.
  induction t as [id es|id d ts ks IH] using gt_ind'; intros rt nx H F.
  - cbn in *. rewrite F; [done|left].
  - rewrite holds_node in *. destruct H as [H1 H2]. split; [rewrite F; [done|left]|].
    assert (forall i, i ∈ flat_map ids ts -> P' !! i = P !! i) as F2. { intros i I. apply F. by right. }
    clear H1 F. induction IH as [|t r Ht Hr IH2]; [done|]. destruct H2 as [H1 H2]. split.
    + apply Ht; [done|]. intros i I. apply F2. cbn. apply elem_of_app. by left.
    + apply IH2; [done|]. intros i I. apply F2. cbn. apply elem_of_app. by right.
Qed.
Lemma holds_l_frame P P' ord ts nx : holds_l P ord ts nx -> (forall i, i ∈ flat_map ids ts -> P' !! i = P !! i) -> holds_l P' ord ts nx.
Proof.
  induction ts as [|t r IH]; [done|]. intros [H1 H2] F. split.
  - apply (holds_frame P); [done|]. intros i I. apply F. cbn. apply elem_of_app. by left.
  - apply IH; [done|]. intros i I. apply F. cbn. apply elem_of_app. by right.
Qed.
Lemma holds_l_app P ord tl tr nx : holds_l P ord (tl ++ tr) nx <-> holds_l P ord tl (nxt tr nx) /\ holds_l P ord tr nx.
Proof.
  induction tl as [|t tl IH]; cbn; [naive_solver|]. rewrite IH.
  assert (nxt (tl ++ tr) nx = nxt tl (nxt tr nx)) as ->; [|naive_solver]. by destruct tl.
Qed.
Lemma gid_ids t : gid t ∈ ids t.
Proof. destruct t; left. Qed.

(** ** Order *)
Lemma from_over lo k x : over lo k -> (k <= x)%Z -> from lo x.
Proof. destruct lo; cbn; [lia|done]. Qed.
Lemma under_trans k x hi : under k hi -> (x < k)%Z -> under x hi.
Proof. destruct hi; cbn; [lia|done]. Qed.
Lemma wfs_keys W lo hi ts : forall ks, wfs W lo hi ts ks ->
  ksorted ks /\ (forall k, k ∈ ks -> over lo k /\ under k hi) /\ length ts = S (length ks).
Proof.
  revert lo. induction ts as [|t ts IH]; intros lo ks H; [by destruct ks|].
  destruct ks as [|k ks]; cbn in H.
  - destruct ts; [|done]. split; [constructor|]. split; [|done]. intros k X. by apply elem_of_nil in X.
  - assert (over lo k /\ under k hi /\ W lo (Some k) t /\ wfs W (Some k) hi ts ks) as (O & U & _ & R) by by destruct ts. clear H.
    apply IH in R as (S1 & S2 & S3). split.
    + constructor; [done|]. apply Forall_forall. intros x X. apply S2 in X as [X _]. exact X.
    + split; [|cbn; by rewrite S3]. intros x X. apply elem_of_cons in X as [-> |X]; [done|].
      destruct (S2 x X) as [X1 X2]. split; [|done]. destruct lo; cbn in *; [lia|done].
Qed.
Lemma wfs_cons W lo hi t ts k ks : wfs W lo hi (t :: ts) (k :: ks) <-> over lo k /\ under k hi /\ W lo (Some k) t /\ wfs W (Some k) hi ts ks.
Proof. cbn. by destruct ts. Qed.
Definition good (lo hi : option Z) (l : list (Z * Z)) : Prop := ssorted l /\ inside lo hi l.
Lemma wfs_good (W : option Z -> option Z -> gt -> Prop) lo hi ts : (forall lo hi t, W lo hi t -> good lo hi (kvs t)) -> forall ks, wfs W lo hi ts ks -> good lo hi (flat_map kvs ts).
Proof.
  intros G. revert lo. induction ts as [|t ts IH]; intros lo ks H; [by destruct ks|].
  destruct ks as [|k ks].
  - destruct ts; [|done]. cbn. rewrite app_nil_r. by apply G.
  - apply wfs_cons in H as (O & U & H1 & H2). apply G in H1 as [S1 I1]. apply IH in H2 as [S2 I2]. cbn. split.
    + apply ss_app. split; [done|]. split; [done|]. intros x y X Y. apply I1 in X as [_ X]. apply I2 in Y as [Y _]. cbn in *. lia.
    + intros e E. apply elem_of_app in E as [E|E].
      * apply I1 in E as [E1 E2]. split; [done|]. by apply (under_trans k).
      * apply I2 in E as [E1 E2]. split; [|done]. by apply (from_over _ k).
Qed.
Lemma wf_good ord d : forall lo hi t, wf ord d lo hi t -> good lo hi (kvs t).
Proof.
  induction d as [|d IH]; intros lo hi t H; destruct t as [id es|id dm ts ks]; try done.
  - by destruct H as (A & B & _).
  - destruct H as (A & _). by apply (wfs_good _ _ _ _ IH ks).
Qed.
(** The child of a node where a key belongs. *)
Lemma wfs_find (W : option Z -> option Z -> gt -> Prop) lo hi ts k : (forall lo hi t, W lo hi t -> good lo hi (kvs t)) -> forall ks,
  wfs W lo hi ts ks -> from lo k -> under k hi ->
  exists tl t tr kl kr lo' hi', ts = tl ++ t :: tr /\ ks = kl ++ kr /\ length tl = length kl /\ length tr = length kr /\
    W lo' hi' t /\ from lo' k /\ under k hi' /\
    (forall x, x ∈ kl -> (x <= k)%Z) /\ (forall x, x ∈ kr -> (k < x)%Z) /\
    below k (flat_map kvs tl) /\ above k (flat_map kvs tr) /\
    (forall t', W lo' hi' t' -> wfs W lo hi (tl ++ t' :: tr) (kl ++ kr)) /\
    (forall l s r, over lo' s -> under s hi' -> W lo' (Some s) l -> W (Some s) hi' r ->
       wfs W lo hi (tl ++ l :: r :: tr) (kl ++ s :: kr)).
Proof.
  intros G. revert lo. induction ts as [|t ts IH]; intros lo ks H Lo Hi; [by destruct ks|].
  destruct ks as [|k1 ks].
  - destruct ts; [|done]. cbn in H. exists [], t, [], [], [], lo, hi.
    repeat apply conj; try done; try (intros x X; by apply elem_of_nil in X).
  - apply wfs_cons in H as (O & U & H1 & H2).
    destruct (Z.lt_ge_cases k k1) as [C|C].
    + exists [], t, ts, [], (k1 :: ks), lo, (Some k1).
      pose proof (wfs_keys _ _ _ _ _ H2) as (S1 & S2 & S3).
      repeat apply conj; try done; try (intros x X; by apply elem_of_nil in X).
      * intros x X. apply elem_of_cons in X as [-> |X]; [done|]. apply S2 in X as [X _]. cbn in X. lia.
      * apply (wfs_good _ _ _ _ G) in H2 as [_ I]. intros e E. apply I in E as [E _]. cbn in E. lia.
      * intros t' T. apply wfs_cons. done.
      * intros l s r O2 U2 L R. apply wfs_cons. split; [done|]. split; [by apply (under_trans k1)|]. split; [done|].
        apply wfs_cons. done.
    + destruct (IH (Some k1) ks H2 C Hi) as (tl & t0 & tr & kl & kr & lo' & hi' & -> & -> & L1 & L2 & W0 & F & V & A1 & A2 & B1 & B2 & X1 & X2).
      exists (t :: tl), t0, tr, (k1 :: kl), kr, lo', hi'.
      repeat apply conj; try done; try (cbn; by rewrite L1).
      * intros x X. apply elem_of_cons in X as [-> |X]; [done|by apply A1].
      * cbn. intros e E. apply elem_of_app in E as [E|E]; [|by apply B1].
        apply G in H1 as [_ I]. apply I in E as [_ E]. cbn in E. lia.
      * intros t' T. apply wfs_cons. split; [done|]. split; [done|]. split; [done|]. by apply X1.
      * intros l s r O2 U2 L R. apply wfs_cons. split; [done|]. split; [done|]. split; [done|]. by apply X2.
Qed.
(** A node's list of children cut in two. *)
Lemma wfs_cut W lo hi tsl : forall ksl tsr mk ksr, length tsl = S (length ksl) ->
  wfs W lo hi (tsl ++ tsr) (ksl ++ mk :: ksr) ->
  wfs W lo (Some mk) tsl ksl /\ wfs W (Some mk) hi tsr ksr /\ over lo mk /\ under mk hi.
Proof.
  revert lo. induction tsl as [|t tsl IH]; intros lo ksl tsr mk ksr L H; [done|]. cbn in L.
  destruct ksl as [|k ksl].
  - destruct tsl; [|done]. cbn [app] in H. apply wfs_cons in H as (O & U & H1 & H2). done.
  - cbn [app] in H. apply wfs_cons in H as (O & U & H1 & H2). apply IH in H2 as (A & B & C & D); [|cbn in L; lia].
    split; [apply wfs_cons; done|]. split; [done|]. split; [|done]. cbn in C. destruct lo; cbn in *; [lia|done].
Qed.

(** ** Going up *)
(** The part of a split that tells the parent. *)
Definition up (R : list nat) (st : state) (al : nat) (s : Z) (n : nat) : state * res unit :=
  match R with
  | [] => (st, Er)
  | p :: R =>
      match pages st !! p with
      | Some (Inner pks pvs prt pmx) =>
          let pn := inner_insert pmx pks pvs s n in
          let st3 := set_page st p (Inner pn.1 pn.2 prt pmx) in
          if order st <=? length pn.1 then split_inner R st3 al p else (st3, Ok tt)
      | Some Gone => (st, Pan)
      | _ => (st, Er)
      end
  end.
Lemma node_step ord rt id dm tl l r tr kl s kr R st al :
  order st = ord -> 2 <= ord ->
  pages st !! id = Some (Inner (dk dm ++ kl ++ kr) (dv dm ++ map gid (tl ++ l :: tr)) rt ord) ->
  length tl = length kl -> length tr = length kr -> dk dm ++ kl ++ kr <> [] -> length (dk dm ++ kl ++ kr) < ord ->
  ksorted (dk dm ++ kl ++ s :: kr) -> 1 <= al -> id < fresh st ->
  let ts' := tl ++ l :: r :: tr in let ks' := kl ++ s :: kr in
  let st3 := set_page st id (Inner (dk dm ++ ks') (dv dm ++ map gid ts') rt ord) in
  (length (dk dm ++ ks') < ord /\ up (id :: R) st al s (gid r) = (st3, Ok tt)) \/
  (exists tsl c tsr ksl mk ksr, ts' = tsl ++ c :: tsr /\ ks' = ksl ++ mk :: ksr /\
     length tsl = S (length ksl) /\ length tsr = length ksr /\
     dk dm ++ ksl <> [] /\ length (dk dm ++ ksl) < ord /\ length (mk :: ksr) < ord /\
     let st4 rt' := set_page (new_page st3 (Inner (mk :: ksr) (gid c :: map gid (c :: tsr)) false ord))
                      id (Inner (dk dm ++ ksl) (dv dm ++ map gid tsl) rt' ord) in
     up (id :: R) st al s (gid r) =
       if rt then create_new_root (st4 false) (al - 1) id mk (fresh st) else up R (st4 false) (al - 1) mk (fresh st)).
Proof.
  intros Or O2 Pg L1 L2 Ne Ln So Al Fr. cbn zeta.
  set (ts' := tl ++ l :: r :: tr). set (ks' := kl ++ s :: kr).
  assert (length (dv dm) = length (dk dm)) as LD by by destruct dm.
  assert (inner_insert ord (dk dm ++ kl ++ kr) (dv dm ++ map gid (tl ++ l :: tr)) s (gid r) =
          (dk dm ++ ks', dv dm ++ map gid ts')) as IN.
  { rewrite app_assoc in So. rewrite !app_assoc in Ne, Ln |- *. pose proof So as So2.
    apply ss_app in So2 as (S1 & S2 & S3). apply StronglySorted_inv in S2 as [S2 F]. rewrite Forall_forall in F.
    rewrite inner_insert_spec; try done.
    - unfold ks', ts'. f_equal; [by rewrite app_assoc|]. rewrite !map_app. cbn [map].
      assert (dv dm ++ map gid tl ++ gid l :: map gid tr = (dv dm ++ map gid tl ++ [gid l]) ++ map gid tr) as ->
        by (rewrite <- !app_assoc; done).
      assert (S (length (dk dm ++ kl)) = length (dv dm ++ map gid tl ++ [gid l])) as ->.
      { rewrite !app_length, map_length. cbn. lia. }
      rewrite take_app, drop_app. rewrite <- !app_assoc. done.
    - apply ss_app. split; [done|]. split; [done|]. intros x y X Y. apply S3; [done|by right].
    - intros x X. apply S3; [done|left].
    - rewrite !app_length, map_length, !app_length in *. cbn. lia. }
  cbn [up]. rewrite Pg, IN, Or. cbn [fst snd].
  assert (length (dk dm ++ ks') = S (length (dk dm ++ kl ++ kr))) as LK.
  { unfold ks'. rewrite !app_length. cbn. lia. }
  assert (length (dv dm ++ map gid ts') = S (length (dk dm ++ ks'))) as LV.
  { unfold ts', ks'. rewrite !app_length, map_length, !app_length. cbn. lia. }
  assert (length ts' = S (length ks')) as LT. { rewrite !app_length, map_length in LV. lia. }
  fold ks' in So. clearbody ts' ks'. clear IN L1 L2 Ne.
  destruct (ord <=? length (dk dm ++ ks')) eqn:X; [apply Nat.leb_le in X|apply Nat.leb_gt in X; by left].
  right.
  set (sp := ord / 2).
  assert (1 <= sp < ord) as SP.
  { unfold sp. pose proof (Nat.div_lt ord 2 ltac:(lia) ltac:(lia)). pose proof (Nat.div_le_lower_bound ord 2 1 ltac:(lia) ltac:(lia)). lia. }
  assert (length (dk dm) <= 1) as LD1 by (destruct dm; cbn; lia).
  set (m := sp - length (dk dm)).
  rewrite app_length in LK.
  destruct (lookup_lt_is_Some_2 ks' m) as [mk Mk]; [unfold m; rewrite app_length in X; lia|].
  destruct (lookup_lt_is_Some_2 ts' (S m)) as [c Hc]; [unfold m; rewrite app_length in X; lia|].
  assert (ks' = take m ks' ++ mk :: drop (S m) ks') as KE by (symmetry; by apply take_drop_middle).
  assert (ts' = take (S m) ts' ++ c :: drop (S (S m)) ts') as TE by (symmetry; by apply take_drop_middle).
  assert (m < length ks') as ML by (by apply lookup_lt_Some in Mk).
  assert (length (take m ks') = m) as LTK by (rewrite take_length; lia).
  assert (length (take (S m) ts') = S m) as LTT by (rewrite take_length; lia).
  exists (take (S m) ts'), c, (drop (S (S m)) ts'), (take m ks'), mk, (drop (S m) ks').
  assert (length (dk dm ++ take m ks') = sp) as LS. { rewrite app_length, LTK. unfold m. lia. }
  split; [done|]. split; [done|]. split; [lia|].
  split; [rewrite !drop_length; lia|].
  split; [intros E; rewrite E in LS; cbn [length] in LS; lia|]. split; [lia|].
  rewrite app_length in X.
  split; [cbn [length]; rewrite drop_length; unfold m; lia|].
  destruct al as [|al]; [lia|]. replace (S al - 1) with al by lia.
  (* the split of the internal page *)
  assert (forall A (a : list A) (b : list A) i, length a <= i -> take i (a ++ b) = a ++ take (i - length a) b) as TKA.
  { intros A a b i L. rewrite take_app_ge by done. done. }
  assert ((dk dm ++ ks') !! sp = Some mk) as K1. { rewrite lookup_app_r by lia. exact Mk. }
  assert ((dv dm ++ map gid ts') !! (sp + 1) = Some (gid c)) as K2.
  { rewrite lookup_app_r by lia. rewrite list_lookup_fmap. replace (sp + 1 - length (dv dm)) with (S m) by (unfold m; lia). by rewrite Hc. }
  assert (drop (sp + 1) (dk dm ++ ks') = drop (S m) ks') as K3.
  { rewrite drop_app_ge by lia. f_equal. unfold m. lia. }
  assert (drop (sp + 2) (dv dm ++ map gid ts') = map gid (drop (S (S m)) ts')) as K4.
  { rewrite drop_app_ge by lia. rewrite fmap_drop. f_equal. unfold m. lia. }
  assert (length (drop (S m) ks') = length (map gid (drop (S (S m)) ts'))) as K5. { rewrite map_length, !drop_length. lia. }
  assert (inner_insert_all ord (inner_insert ord [] [] mk (gid c)) (zip (drop (S m) ks') (map gid (drop (S (S m)) ts'))) =
          (mk :: drop (S m) ks', gid c :: map gid (c :: drop (S (S m)) ts'))) as K6.
  { unfold inner_insert. destruct (ord <=? length (@nil Z)) eqn:Y; [apply Nat.leb_le in Y; cbn in Y; lia|]. cbn [app].
    rewrite inner_insert_all_app.
    - change (@map (Z * nat) Z) with (@fmap list _ (Z * nat) Z). change (@map (Z * nat) nat) with (@fmap list _ (Z * nat) nat).
      rewrite fst_zip, snd_zip by lia. done.
    - change (@map (Z * nat) Z) with (@fmap list _ (Z * nat) Z). rewrite fst_zip by lia.
      rewrite KE in So. rewrite app_assoc in So. apply ss_app in So as (_ & So & _). exact So.
    - done.
    - done.
    - rewrite zip_with_length_l by lia. cbn. rewrite drop_length. unfold m. lia. }
  assert (Nat.iter (length (dk dm ++ ks') - sp) (fun x : list Z * list nat => inner_remove rt x sp) (dk dm ++ ks', dv dm ++ map gid ts') =
          (dk dm ++ take m ks', dv dm ++ map gid (take (S m) ts'))) as K7.
  { rewrite inner_remove_tail; [|lia| |done].
    - rewrite !TKA by lia. rewrite fmap_take.
      replace (sp - length (dk dm)) with m by done. replace (S sp - length (dv dm)) with (S m) by (unfold m; lia). done.
    - rewrite app_length. lia. }
  assert (forall st0, pages st0 !! id = Some (Inner (dk dm ++ ks') (dv dm ++ map gid ts') rt ord) -> order st0 = ord ->
    split_inner R st0 (S al) id =
      let st1 := new_page st0 (Inner (mk :: drop (S m) ks') (gid c :: map gid (c :: drop (S (S m)) ts')) false ord) in
      let st2 := set_page st1 id (Inner (dk dm ++ take m ks') (dv dm ++ map gid (take (S m) ts')) false ord) in
      if rt then create_new_root st2 al id mk (fresh st0) else up R st2 al mk (fresh st0)) as SPLIT.
  { intros st0 P0 O0. destruct R as [|p R]; cbn [split_inner]; rewrite P0, O0.
    all: destruct (ord =? 0) eqn:Y; [apply Nat.eqb_eq in Y; lia|]; fold sp; rewrite K1, K2, K3, K4, K6, K7; cbn [fst snd].
    all: destruct rt; [done|]; cbn [up].
    { done. }
    assert (order (set_page (new_page st0 (Inner (mk :: drop (S m) ks') (gid c :: map gid (c :: drop (S (S m)) ts')) false ord)) id
              (Inner (dk dm ++ take m ks') (dv dm ++ map gid (take (S m) ts')) false ord)) = ord) as -> by done. done. }
  rewrite SPLIT; [|cbn; apply lookup_insert|done]. done.
Qed.

(** ** Replacing and splitting a leaf *)
Definition frame (st st' : state) (I : list nat) : Prop :=
  order st' = order st /\ count st' = count st /\ fresh st <= fresh st' /\
  (forall i, i < fresh st -> i ∉ I -> pages st' !! i = pages st !! i).
Definition header_kept (st st' : state) : Prop := hroot st' = hroot st /\ height st' = height st.
Definition new_ids (st st' : state) (I I' : list nat) : Prop := forall i, i ∈ I' -> i ∈ I \/ fresh st <= i < fresh st'.
(** What becomes of a subtree: it stays one subtree, or two that the parent still has to be told of, or, for the whole
    tree, it gets a new root. *)
Definition outcome (ord : nat) (rt : bool) (d : nat) (lo hi : option Z) (t : gt) (nx : option nat) (R : list nat)
    (st : state) (al : nat) (r : state * res unit) (kv : list (Z * Z)) : Prop :=
  (exists st' t', r = (st', Ok tt) /\ frame st st' (ids t) /\ header_kept st st' /\ wf ord d lo hi t' /\
     holds (pages st') ord rt t' nx /\ gid t' = gid t /\ first t' = first t /\ kvs t' = kv /\ NoDup (ids t') /\
     new_ids st st' (ids t) (ids t')) \/
  (rt = false /\ exists st' l s r', r = up R st' (al - S d) s (gid r') /\ frame st st' (ids t) /\ header_kept st st' /\
     over lo s /\ under s hi /\ wf ord d lo (Some s) l /\ wf ord d (Some s) hi r' /\
     holds (pages st') ord false l (Some (first r')) /\ holds (pages st') ord false r' nx /\
     gid l = gid t /\ first l = first t /\ kvs l ++ kvs r' = kv /\ NoDup (ids l ++ ids r') /\
     new_ids st st' (ids t) (ids l ++ ids r')) \/
  (rt = true /\ exists st' t', r = (st', Ok tt) /\ frame st st' (ids t) /\ hroot st' = Some (gid t') /\
     height st' = S (height st) /\ wf ord (S d) lo hi t' /\ holds (pages st') ord true t' nx /\
     kvs t' = kv /\ NoDup (ids t') /\ new_ids st st' (ids t) (ids t')).

Lemma ssorted_in_lt (l : list (Z * Z)) e r x : ssorted (l ++ e :: r) -> x ∈ l -> (x.1 < e.1)%Z.
Proof. intros So X. apply ss_app in So as (_ & _ & H). apply (H x e X). left. Qed.
Lemma split_leaf_outcome ord rt lo hi id es es' nx R P st al :
  pages st = <[id := Leaf es' nx rt ord]> P -> order st = ord -> 2 <= ord -> ssorted es' -> inside lo hi es' ->
  length es' = S ord -> id < fresh st -> (rt = true -> lo = None) -> 2 <= al \/ 1 <= al /\ rt = false ->
  outcome ord rt 0 lo hi (GL id es) nx R st al (split_leaf st al id R) es'.
Proof.
  intros Pg Or O2 So In Ln Fr RtLo Al. unfold split_leaf. rewrite Pg, lookup_insert, Or.
  destruct (ord =? 0) eqn:Y; [apply Nat.eqb_eq in Y; lia|]. clear Y.
  destruct al as [|al]; [lia|].
  set (sp := (ord + 1) / 2).
  assert (1 <= sp <= ord) as SP.
  { unfold sp. pose proof (Nat.div_le_lower_bound (ord + 1) 2 1 ltac:(lia) ltac:(lia)).
    pose proof (Nat.div_le_upper_bound (ord + 1) 2 ord ltac:(lia) ltac:(lia)). lia. }
  clearbody sp.
  assert (es' = take sp es' ++ drop sp es') as E by (symmetry; apply take_drop).
  set (L := take sp es') in *. set (D := drop sp es') in *.
  assert (length L = sp) as LL by (unfold L; rewrite take_length; lia).
  assert (length D = S ord - sp) as LD by (unfold D; rewrite drop_length; lia).
  clearbody L D.
  pose proof So as So2. rewrite E in So2. apply ss_app in So2 as (SL & SD & SX).
  rewrite (leaf_insert_all_app ord D []); [|done|cbn; lia]. cbn [app].
  destruct D as [|[sep sv] D']; [cbn in LD; lia|]. set (D := (sep, sv) :: D') in *.
  assert (over lo sep) as OV.
  { destruct L as [|x L']; [cbn in LL; lia|]. specialize (SX x (sep, sv) ltac:(left) ltac:(left)). cbn in SX.
    specialize (In x). rewrite E in In. destruct In as [In _]; [left|]. destruct lo; cbn in *; [lia|done]. }
  assert (under sep hi) as UN. { specialize (In (sep, sv)). rewrite E in In. apply In. apply elem_of_app. right. left. }
  assert (wf ord 0 lo (Some sep) (GL id L)) as WL.
  { split; [done|]. split; [|split; [lia|intros ->; cbn in LL; lia]]. intros e X. split; [apply In; rewrite E; apply elem_of_app; by left|].
    apply (SX e (sep, sv) X). left. }
  assert (wf ord 0 (Some sep) hi (GL (fresh st) D)) as WD.
  { split; [done|]. split; [|split; [lia|done]]. intros e X. split; [|apply In; rewrite E; apply elem_of_app; by right]. cbn.
    unfold D in X. apply elem_of_cons in X as [-> |X]; [cbn; lia|]. apply StronglySorted_inv in SD as [_ F].
    rewrite Forall_forall in F. apply F in X. cbn in X. lia. }
  set (st2 := set_page (new_page st (Leaf D nx false ord)) id (Leaf L (Some (fresh st)) rt ord)).
  assert (frame st st2 [id]) as FR.
  { split; [done|]. split; [done|]. split; [cbn; lia|]. intros i I1 I2. cbn. rewrite lookup_insert_ne by set_solver.
    rewrite lookup_insert_ne by lia. done. }
  destruct rt.
  - (* the root *)
    right. right. split; [done|]. destruct al as [|al]; [lia|]. cbn [create_new_root fst snd].
    set (t' := GN (S (fresh st)) None [GL id L; GL (fresh st) D] [sep]).
    eexists _, t'. split; [reflexivity|]. split; [|split; [done|split; [done|]]].
    { destruct FR as (_ & _ & _ & F). split; [done|]. split; [done|]. split; [cbn; lia|]. intros i I1 I2.
      cbn. cbn [ids] in I2. rewrite lookup_insert_ne by set_solver. rewrite lookup_insert_ne by lia.
      rewrite lookup_insert_ne by set_solver. rewrite lookup_insert_ne by lia. done. }
    split; [|split; [|split; [by rewrite E; cbn; rewrite app_nil_r|]]].
    + split; [apply wfs_cons; done|]. split; [by rewrite (RtLo eq_refl)|]. split; [done|]. cbn. lia.
    + unfold t'. rewrite holds_node. cbn. split; [|split; [|split; [|done]]].
      * rewrite lookup_insert_ne by lia. rewrite Or. apply lookup_insert.
      * apply lookup_insert.
      * rewrite lookup_insert_ne by lia. rewrite lookup_insert_ne by lia. rewrite lookup_insert_ne by lia. apply lookup_insert.
    + unfold t'. cbn. split.
      * apply (NoDup_cons_2 (S (fresh st))); [intros X; repeat (apply elem_of_cons in X as [X|X]; [lia|]); by apply elem_of_nil in X|].
        apply NoDup_cons_2; [intros X; apply elem_of_cons in X as [X|X]; [lia|by apply elem_of_nil in X]|]. apply NoDup_singleton.
      * intros i X. cbn. apply elem_of_cons in X as [-> |X]; [right; lia|].
        apply elem_of_cons in X as [-> |X]; [left; left|]. apply elem_of_cons in X as [-> |X]; [right; lia|by apply elem_of_nil in X].
  - right. left. split; [done|]. exists st2, (GL id L), sep, (GL (fresh st) D).
    assert (S al - 1 = al) as -> by lia. cbn [gid first kvs].
    split. { unfold up. destruct R as [|p R]; [done|]. assert (order st2 = ord) as -> by done. done. }
    split; [exact FR|]. split; [done|]. split; [done|]. split; [done|]. split; [done|]. split; [done|].
    split; [apply lookup_insert|]. split; [cbn; rewrite lookup_insert_ne by lia; apply lookup_insert|].
    split; [done|]. split; [done|]. split; [done|]. cbn. split.
    + apply NoDup_cons_2; [intros X; apply elem_of_cons in X as [X|X]; [lia|by apply elem_of_nil in X]|]. apply NoDup_singleton.
    + intros i X. apply elem_of_cons in X as [-> |X]; [left; left|]. apply elem_of_cons in X as [-> |X]; [right; cbn; lia|by apply elem_of_nil in X].
Qed.

Ltac mem1 := first [assumption | apply elem_of_list_here | apply elem_of_list_further; mem1 | apply elem_of_app; left; mem1 | apply elem_of_app; right; mem1].
Ltac mem := 
  lazymatch goal with
  | |- _ ∈ _ => mem1
  | |- forall i, _ ∈ _ -> _ ∈ _ => intros ? ?; mem1
  | |- _ => let J := fresh in intros J; subst; match goal with H : _ ∉ _ |- _ => solve [apply H; mem1] end
  end.

Lemma nodup_mid (X I I' Y : list nat) (f : nat) :
  NoDup (X ++ I ++ Y) -> (forall i, i ∈ X ++ I ++ Y -> i < f) -> NoDup I' -> (forall i, i ∈ I' -> i ∈ I \/ f <= i) -> NoDup (X ++ I' ++ Y).
Proof.
  intros N F N' H. apply NoDup_app in N as (N1 & N2 & N3). apply NoDup_app in N3 as (N3 & N4 & N5).
  apply NoDup_app. split; [done|]. split.
  - intros i A B. apply elem_of_app in B as [B|B].
    + apply H in B as [B|B]; [apply (N2 i A), elem_of_app; by left|]. specialize (F i). rewrite !elem_of_app in F. specialize (F (or_introl A)). lia.
    + apply (N2 i A), elem_of_app. by right.
  - apply NoDup_app. split; [done|]. split; [|done]. intros i A B. apply H in A as [A|A]; [by apply (N4 i A)|].
    specialize (F i). rewrite !elem_of_app in F. specialize (F (or_intror (or_intror B))). lia.
Qed.
Lemma flat_map_mid {A} (f : gt -> list A) tl t tr : flat_map f (tl ++ t :: tr) = flat_map f tl ++ f t ++ flat_map f tr.
Proof. by rewrite flat_map_app. Qed.
Lemma map_gid_mid tl t t' tr : gid t' = gid t -> map gid (tl ++ t' :: tr) = map gid (tl ++ t :: tr).
Proof. intros E. rewrite !map_app. cbn. by rewrite E. Qed.
Lemma first_mid id dm tl t t' tr tr' ks ks' : first t' = first t -> first (GN id dm (tl ++ t' :: tr') ks') = first (GN id dm (tl ++ t :: tr) ks).
Proof. intros E. by destruct tl. Qed.
Lemma gid0_mid tl t t' tr tr' : gid t' = gid t -> gid0 (tl ++ t' :: tr') = gid0 (tl ++ t :: tr).
Proof. intros E. by destruct tl. Qed.
Lemma dum_some lo k p g : dum lo (Some (k, p)) g -> lo = Some k.
Proof. unfold dum. destruct lo; cbn; congruence. Qed.
Lemma node_outcome ord rt d lo hi id dm tl t tr kl kr lo' hi' nx R st al kv res :
  2 <= ord -> order st = ord -> NoDup (id :: flat_map ids (tl ++ t :: tr)) ->
  (forall i, i ∈ id :: flat_map ids (tl ++ t :: tr) -> i < fresh st) ->
  pages st !! id = Some (Inner (dk dm ++ kl ++ kr) (dv dm ++ map gid (tl ++ t :: tr)) rt ord) ->
  holds_l (pages st) ord tl (Some (first t)) -> holds_l (pages st) ord tr nx ->
  length tl = length kl -> length tr = length kr ->
  dum lo dm (gid0 (tl ++ t :: tr)) -> (rt = true -> lo = None) -> dk dm ++ kl ++ kr <> [] -> length (dk dm ++ kl ++ kr) < ord ->
  (forall t', wf ord d lo' hi' t' -> wfs (wf ord d) lo hi (tl ++ t' :: tr) (kl ++ kr)) ->
  (forall l s r, over lo' s -> under s hi' -> wf ord d lo' (Some s) l -> wf ord d (Some s) hi' r ->
     wfs (wf ord d) lo hi (tl ++ l :: r :: tr) (kl ++ s :: kr)) ->
  S (S (S d)) <= al \/ S (S d) <= al /\ rt = false ->
  outcome ord false d lo' hi' t (nxt tr nx) (id :: R) st al res kv ->
  outcome ord rt (S d) lo hi (GN id dm (tl ++ t :: tr) (kl ++ kr)) nx R st al res (flat_map kvs tl ++ kv ++ flat_map kvs tr).
Proof.
  intros O2 Or ND FR Pg H1 H2 L1 L2 Dm RtLo Ne Ln X1 X2 Al OUT.
  rewrite flat_map_mid in ND, FR. set (Il := flat_map ids tl) in *. set (Ir := flat_map ids tr) in *.
  assert (ids (GN id dm (tl ++ t :: tr) (kl ++ kr)) = id :: Il ++ ids t ++ Ir) as IDS. { cbn. by rewrite flat_map_mid. }
  apply NoDup_cons in ND as [NI ND].
  assert (id ∉ ids t) as NIt by mem.
  assert (forall st', frame st st' (ids t) -> pages st' !! id = pages st !! id /\
            holds_l (pages st') ord tl (Some (first t)) /\ holds_l (pages st') ord tr nx) as KEEP.
  { intros st' (_ & _ & _ & F). apply NoDup_app in ND as (N1 & N2 & N3). apply NoDup_app in N3 as (N3 & N4 & N5). split; [|split].
    - apply F; [apply FR; left|done].
    - apply (holds_l_frame (pages st)); [done|]. intros i I. apply F; [apply FR; mem|]. intros J. apply (N2 i I). mem.
    - apply (holds_l_frame (pages st)); [done|]. intros i I. apply F; [apply FR; mem|]. intros J. by apply (N4 i J). }
  assert (forall st' I, frame st st' (ids t) -> (forall i, i ∈ ids t -> i ∈ I) -> frame st st' I) as WIDE.
  { intros st' I (A & B & C & D) E. split; [done|]. split; [done|]. split; [done|]. intros i F1 F2. apply D; [done|]. intros J. by apply F2, E. }
  destruct OUT as [(st' & t' & -> & FM & HK & W & H & G & Fi & KV & N' & NW)|[(_ & st' & l & s & r & -> & FM & HK & OV & UN & WL & WR & HL & HR & G & Fi & KV & N' & NW)|[? _]]]; [| |done].
  - left. exists st', (GN id dm (tl ++ t' :: tr) (kl ++ kr)). destruct (KEEP st' FM) as (K1 & K2 & K3).
    split; [done|]. split; [apply WIDE; [done|]; rewrite IDS; mem|]. split; [done|].
    split; [split; [by apply X1|]; split; [by rewrite (gid0_mid tl t t' tr tr)|done]|]. split.
    { rewrite holds_node. rewrite (map_gid_mid tl t) by done. split; [by rewrite K1|]. apply holds_l_app. cbn. rewrite Fi. done. }
    split; [done|]. split; [by apply first_mid|]. split; [cbn; by rewrite flat_map_mid, KV|].
    cbn [ids]. rewrite (flat_map_mid ids tl t'). fold Il Ir. split.
    + apply NoDup_cons. split.
      * intros I. rewrite !elem_of_app in I. destruct I as [I|[I|I]]; [by apply NI; mem| |by apply NI; mem].
        apply NW in I as [I|I]; [done|]. specialize (FR id ltac:(left)). lia.
      * apply (nodup_mid Il (ids t) (ids t') Ir (fresh st)); try done.
        -- intros i I. apply FR. by right.
        -- intros i I. apply NW in I as [I|I]; [by left|right; lia].
    + rewrite (flat_map_mid ids tl t). fold Il Ir. intros i I. apply elem_of_cons in I as [-> |I]; [left; left|]. rewrite !elem_of_app in I.
      destruct I as [I|[I|I]]; [left; mem| |left; mem]. apply NW in I as [I|I]; [left; mem|by right].
  - destruct (KEEP st' FM) as (K1 & K2 & K3). pose proof FM as (F1 & F2 & F3 & F4).
    set (ts' := tl ++ l :: r :: tr). set (ks' := kl ++ s :: kr).
    assert (wfs (wf ord d) lo hi ts' ks') as WF' by by apply X2.
    pose proof (wfs_keys _ _ _ _ _ WF') as (S1 & S2 & S3).
    assert (ksorted (dk dm ++ ks')) as SK.
    { destruct dm as [[k0 p0]|]; [|done]. apply dum_some in Dm. subst lo. cbn. constructor; [done|]. apply Forall_forall. intros x X. by apply S2. }
    assert (holds_l (pages st') ord ts' nx) as HTS.
    { apply holds_l_app. cbn. rewrite Fi. done. }
    assert (flat_map ids ts' = Il ++ (ids l ++ ids r) ++ Ir) as IDT. { unfold ts'. rewrite flat_map_mid. cbn. by rewrite !app_assoc. }
    assert (NoDup (id :: flat_map ids ts')) as ND'.
    { rewrite IDT. apply NoDup_cons. split.
      * intros I. rewrite elem_of_app, (elem_of_app (ids l ++ ids r)) in I. destruct I as [I|[I|I]]; [by apply NI; mem| |by apply NI; mem].
        apply NW in I as [I|I]; [done|]. specialize (FR id ltac:(left)). lia.
      * apply (nodup_mid Il (ids t) (ids l ++ ids r) Ir (fresh st)); try done.
        -- intros i I. apply FR. by right.
        -- intros i I. apply NW in I as [I|I]; [by left|right; lia]. }
    assert (forall i, i ∈ flat_map ids ts' -> i ∈ ids (GN id dm (tl ++ t :: tr) (kl ++ kr)) \/ fresh st <= i < fresh st') as NEW.
    { rewrite IDT, IDS. intros i I. rewrite elem_of_app, (elem_of_app (ids l ++ ids r)) in I. destruct I as [I|[I|I]]; [left; mem| |left; mem].
      apply NW in I as [I|I]; [left; mem|by right]. }
    assert (forall i, i ∈ flat_map ids ts' -> i < fresh st') as BND.
    { intros i I. apply NEW in I as [I|I]; [|lia]. rewrite IDS in I. apply FR in I. lia. }
    assert (id < fresh st') as IDF. { specialize (FR id ltac:(left)). lia. }
    assert (flat_map kvs ts' = flat_map kvs tl ++ kv ++ flat_map kvs tr) as KVT. { unfold ts'. rewrite flat_map_mid. cbn. rewrite <- KV. by rewrite <- !app_assoc. }
    apply NoDup_cons in ND' as [NI' ND'].
    destruct (node_step ord rt id dm tl l r tr kl s kr R st' (al - S d)) as [[B1 EQ]|(tsl & c & tsr & ksl & mk & ksr & TE & KE & LTS & LTR & NE1 & LN1 & LN2 & EQ)]; try done; try lia.
    { rewrite K1, Pg. by rewrite (map_gid_mid tl t l tr G). }
    + (* room in the parent *)
      fold ts' ks' in EQ, B1. rewrite EQ. left. eexists _, (GN id dm ts' ks'). split; [reflexivity|].
      split; [|split; [done|]].
      { split; [done|]. split; [done|]. split; [done|]. intros i I1 I2. cbn. rewrite IDS in I2. rewrite lookup_insert_ne by mem. apply F4; [done|mem]. }
      split; [split; [done|]; split; [unfold ts'; by rewrite (gid0_mid tl t l tr (r :: tr))|]; split; [|done]; by destruct dm, kl|].
      split. { rewrite holds_node. cbn. split; [apply lookup_insert|]. apply (holds_l_frame (pages st')); [done|]. intros i I. rewrite lookup_insert_ne; [done|]. intros <-. done. }
      split; [done|]. split; [by apply first_mid|]. split; [done|]. cbn [ids]. split; [by apply NoDup_cons|].
      intros i I. apply elem_of_cons in I as [-> |I]; [left; left|by apply NEW].
    + (* the parent splits *)
      cbn zeta in EQ. fold ts' in TE. fold ks' in KE. rewrite EQ. clear EQ.
      set (st4 := set_page (new_page (set_page st' id (Inner (dk dm ++ kl ++ s :: kr) (dv dm ++ map gid (tl ++ l :: r :: tr)) rt ord))
                  (Inner (mk :: ksr) (gid c :: map gid (c :: tsr)) false ord)) id (Inner (dk dm ++ ksl) (dv dm ++ map gid tsl) false ord)).
      set (n := fresh st').
      assert (first (GN id dm tsl ksl) = first (GN id dm (tl ++ t :: tr) (kl ++ kr))) as FLT.
      { rewrite <- (first_mid id dm tl t l tr (r :: tr) (kl ++ kr) (kl ++ s :: kr)) by done. fold ts'. cbn [first]. rewrite TE. by destruct tsl. }
      assert (gid0 tsl = gid0 (tl ++ t :: tr)) as GLT.
      { rewrite <- (gid0_mid tl t l tr (r :: tr)) by done. fold ts'. rewrite TE. by destruct tsl. }
      clearbody ts' ks'. subst ts' ks'.
      apply wfs_cut in WF' as (WA & WB & OV2 & UN2); [|done].
      rewrite flat_map_app in IDT, NEW, BND, ND', NI', KVT.
      set (lt := GN id dm tsl ksl). set (rt' := GN n (Some (mk, gid c)) (c :: tsr) ksr).
      assert (pages st4 !! id = Some (Inner (dk dm ++ ksl) (dv dm ++ map gid tsl) false ord)) as P1 by apply lookup_insert.
      assert (pages st4 !! n = Some (Inner (mk :: ksr) (gid c :: map gid (c :: tsr)) false ord)) as P2.
      { cbn. rewrite lookup_insert_ne by (unfold n; lia). apply lookup_insert. }
      assert (forall i, i <> id -> i <> n -> pages st4 !! i = pages st' !! i) as P3.
      { intros i A B. cbn. rewrite lookup_insert_ne by done. rewrite lookup_insert_ne by done. by rewrite lookup_insert_ne by done. }
      assert (forall i, i ∈ flat_map ids tsl ++ flat_map ids (c :: tsr) -> pages st4 !! i = pages st' !! i) as P4.
      { intros i I. apply P3; [intros ->; done|]. apply BND in I. unfold n. lia. }
      apply holds_l_app in HTS as [HA HB].
      assert (wf ord (S d) lo (Some mk) lt) as WLT by (split; [done|]; split; [by rewrite GLT|]; split; done).
      assert (wf ord (S d) (Some mk) hi rt') as WRT by (split; [done|]; split; [done|]; split; done).
      assert (first rt' = first c) as FRT by done.
      assert (fresh st4 = S n) as FN by done.
      assert (forall P, (forall i, i <= n -> P !! i = pages st4 !! i) -> holds P ord false lt (Some (first rt')) /\ holds P ord false rt' nx) as HOLD.
      { intros P HP. unfold lt, rt'. rewrite !holds_node. split; split.
        - rewrite HP by (unfold n; lia). done.
        - apply (holds_l_frame (pages st')); [done|]. intros i I. rewrite HP; [apply P4; mem|]. assert (i < n); [apply BND; mem|lia].
        - rewrite HP by lia. done.
        - apply (holds_l_frame (pages st')); [done|]. intros i I. rewrite HP; [apply P4; mem|]. assert (i < n); [apply BND; mem|lia]. }
      assert (frame st st4 (ids (GN id dm (tl ++ t :: tr) (kl ++ kr)))) as FM4.
      { split; [done|]. split; [done|]. split; [cbn; lia|]. intros i I1 I2. rewrite IDS in I2. rewrite P3; [apply F4; [done|mem]|mem|unfold n; lia]. }
      assert (NoDup (ids lt ++ ids rt')) as ND4.
      { cbn [ids lt rt']. change ((id :: flat_map ids tsl) ++ n :: flat_map ids (c :: tsr)) with (id :: flat_map ids tsl ++ n :: flat_map ids (c :: tsr)).
        rewrite <- Permutation_middle. apply NoDup_cons. split.
        - intros I. apply elem_of_cons in I as [I|I]; [unfold n in I; lia|done].
        - apply NoDup_cons. split; [|done]. intros I. apply BND in I. unfold n in I. lia. }
      assert (forall i, i ∈ ids lt ++ ids rt' -> i ∈ ids (GN id dm (tl ++ t :: tr) (kl ++ kr)) \/ fresh st <= i < S n) as NEW4.
      { intros i I. cbn [ids lt rt'] in I. apply elem_of_app in I as [I|I]; apply elem_of_cons in I as [-> |I].
        - left. left.
        - destruct (NEW i) as [?|?]; [mem|by left|right; unfold n; lia].
        - right. unfold n. lia.
        - destruct (NEW i) as [?|?]; [mem|by left|right; unfold n; lia]. }
      destruct HK as [HK1 HK2].
      assert (al - S d - 1 = al - S (S d)) as -> by lia.
      destruct rt.
      * (* and it is the root *)
        right. right. split; [done|]. unfold create_new_root. destruct (al - S (S d)) as [|al'] eqn:AL; [lia|].
        set (t' := GN (S n) None [lt; rt'] [mk]). eexists _, t'. split; [reflexivity|].
        assert (forall i, i <= n -> pages (set_header (new_page st4 (Inner [mk] [id; n] true (order st4))) (Some (fresh st4)) (S (height st4)) (count st4)) !! i = pages st4 !! i) as Q.
        { intros i I. unfold set_header, new_page. cbn [pages]. rewrite FN. by rewrite lookup_insert_ne by lia. }
        split; [|split; [done|split]].
        { destruct FM4 as (G1 & G2 & G3 & G4). split; [done|]. split; [done|]. split; [cbn; lia|]. intros i I1 I2. rewrite Q by (unfold n; lia). by apply G4. }
        { cbn. by rewrite HK2. }
        split; [split; [apply wfs_cons; done|]; split; [by rewrite (RtLo eq_refl)|]; split; [done|cbn; lia]|].
        split. { destruct (HOLD _ Q) as [HO1 HO2]. unfold t'. rewrite holds_node. split; [|split; [exact HO1|split; [exact HO2|done]]].
                 unfold set_header, new_page. cbn [pages]. rewrite FN. assert (order st4 = ord) as -> by (cbn; by rewrite F1). apply lookup_insert. }
        split. { cbn. rewrite app_nil_r. rewrite <- KVT. done. }
        unfold t'. cbn [ids flat_map]. rewrite app_nil_r. split.
        -- apply NoDup_cons. split; [|done]. intros I. apply NEW4 in I as [I|I]; [|lia]. rewrite IDS in I. apply FR in I. unfold n in I. lia.
        -- intros i I. apply elem_of_cons in I as [-> |I]; [right; cbn; lia|]. apply NEW4 in I as [I|I]; [by left|right; cbn; unfold n in I; lia].
      * right. left. split; [done|]. exists st4, lt, mk, rt'.
        split; [done|]. split; [done|]. split; [done|]. split; [done|]. split; [done|]. split; [done|]. split; [done|].
        destruct (HOLD (pages st4)) as [HO1 HO2]; [done|].
        split; [done|]. split; [done|]. split; [done|]. split; [done|]. split; [cbn [lt rt' kvs]; done|]. split; [done|].
        intros i I. apply NEW4 in I as [I|I]; [by left|right; rewrite FN; lia].
Qed.

(** The leaves from left to right. *)
Fixpoint lvs (t : gt) : list (nat * list (Z * Z)) := match t with GL id es => [(id, es)] | GN _ _ ts _ => flat_map lvs ts end.
Lemma kvs_lvs t : kvs t = flat_map snd (lvs t).
Proof.
  induction t as [id es|id d ts ks IH] using gt_ind'; cbn; [by rewrite app_nil_r|].
  induction IH as [|t r Ht Hr IH2]; cbn; [done|]. by rewrite flat_map_app, Ht, IH2.
Qed.
Lemma flat_kvs_lvs ts : flat_map kvs ts = flat_map snd (flat_map lvs ts).
Proof. induction ts as [|t r IH]; cbn; [done|]. by rewrite flat_map_app, kvs_lvs, IH. Qed.
(** The leaf where a key belongs: how the search gets there, what the tree is with other entries in that leaf, and what
    splitting it does. *)
Lemma leaf_found ord d : forall lo hi t nx rt P k,
  wf ord d lo hi t -> holds P ord rt t nx -> NoDup (ids t) -> (rt = true -> lo = None) -> from lo k -> under k hi ->
  exists lid path es nxl rtl lo' hi' A B,
    (forall R, descend P k d (gid t) R = Ok (lid, path ++ R)) /\ lid ∈ ids t /\ P !! lid = Some (Leaf es nxl rtl ord) /\
    rtl = match d with O => rt | S _ => false end /\
    (exists L1 L2, lvs t = L1 ++ (lid, es) :: L2 /\ A = flat_map snd L1 /\ B = flat_map snd L2) /\
    kvs t = A ++ es ++ B /\ below k A /\ above k B /\ ssorted es /\ inside lo' hi' es /\ length es <= ord /\
    from lo' k /\ under k hi' /\ (d = 0 -> lo' = lo /\ hi' = hi) /\
    (forall es', ssorted es' -> inside lo' hi' es' -> length es' <= ord -> (es' = [] -> lo' = None /\ hi' = None) ->
       exists t', wf ord d lo hi t' /\ holds (<[lid := Leaf es' nxl rtl ord]> P) ord rt t' nx /\
         ids t' = ids t /\ gid t' = gid t /\ first t' = first t /\ kvs t' = A ++ es' ++ B) /\
    (forall R es' st al, 2 <= ord -> pages st = <[lid := Leaf es' nxl rtl ord]> P -> order st = ord ->
       ssorted es' -> inside lo' hi' es' -> length es' = S ord -> (forall i, i ∈ ids t -> i < fresh st) ->
       S (S d) <= al \/ S d <= al /\ rt = false ->
       outcome ord rt d lo hi t nx R st al (split_leaf st al lid (path ++ R)) (A ++ es' ++ B)).
Proof.
  induction d as [|d IH]; intros lo hi t nx rt P k W H ND RtLo Lo Hi; destruct t as [id es|id dm ts ks]; try done.
  - destruct W as (So & In & Ln & NeL). cbn in H.
    exists id, [], es, nx, rt, lo, hi, [], []. cbn [gid ids kvs app descend].
    assert (below k []) as X1 by (intros e X; by apply elem_of_nil in X).
    assert (above k []) as X2 by (intros e X; by apply elem_of_nil in X).
    repeat apply conj; try done; try (by rewrite app_nil_r).
    + intros R. by rewrite H.
    + left.
    + by exists [], [].
    + intros es' So' In' Ln' Ne'. exists (GL id es'). repeat apply conj; try done; try (cbn; by rewrite app_nil_r). cbn. apply lookup_insert.
    + intros R es' st al O2 Pg Or So' In' Ln' FR Al. rewrite app_nil_r. apply (split_leaf_outcome ord rt lo hi id es es' nx R P); try done.
      apply FR. left.
  - rewrite holds_node in H. destruct H as [Pg H]. destruct W as (Ws & Dm & Ne & Ln).
    pose proof (wfs_keys _ _ _ _ _ Ws) as (S1 & S2 & S3).
    destruct (wfs_find (wf ord d) lo hi ts k (wf_good ord d) ks Ws Lo Hi) as
      (tl & t & tr & kl & kr & lo1 & hi1 & -> & -> & L1 & L2 & W & F & U & K1 & K2 & B1 & B2 & X1 & X2).
    apply holds_l_app in H as [H1 [H2 H3]]. cbn [nxt] in H1.
    cbn [ids] in ND. pose proof ND as ND0. rewrite flat_map_mid in ND. apply NoDup_cons in ND as [NI ND].
    pose proof ND as NDs. apply NoDup_app in NDs as (N1 & N2 & N3). apply NoDup_app in N3 as (N3 & N4 & N5).
    destruct (IH lo1 hi1 t (nxt tr nx) false P k W H2 N3 ltac:(done) F U) as
      (lid & path & es & nxl & rtl & lo' & hi' & A & B & De & LI & PL & RT & (Ls1 & Ls2 & LV & -> & ->) & KV & BA & AB & So & In & Le & F' & U' & _ & REP & SPL).
    assert (rtl = false) as -> by (rewrite RT; by destruct d).
    exists lid, (path ++ [id]), es, nxl, false, lo', hi', (flat_map kvs tl ++ flat_map snd Ls1), (flat_map snd Ls2 ++ flat_map kvs tr).
    assert (length (dv dm) = length (dk dm)) as LD by by destruct dm.
    assert (ksorted (dk dm ++ kl ++ kr)) as SK.
    { destruct dm as [[k0 p0]|]; [|done]. apply dum_some in Dm. subst lo. cbn. constructor; [done|]. apply Forall_forall. intros x X. by apply S2. }
    assert (find_child (dk dm ++ kl ++ kr) (dv dm ++ map gid (tl ++ t :: tr)) k = Some (gid t)) as FC.
    { rewrite app_assoc in *. rewrite find_child_spec; try done.
      - rewrite app_length, lookup_app_r by lia. rewrite LD. replace (length (dk dm) + length kl - length (dk dm)) with (length tl) by lia.
        rewrite list_lookup_fmap. rewrite lookup_app_r, Nat.sub_diag by lia. done.
      - intros x X. apply elem_of_app in X as [X|X]; [|by apply K1]. destruct dm as [[k0 p0]|]; [|by apply elem_of_nil in X].
        apply elem_of_list_singleton in X as ->. apply dum_some in Dm. subst lo. exact Lo.
      - rewrite !app_length, map_length, app_length. cbn. lia. }
    assert (lid ∈ flat_map ids tl ++ ids t ++ flat_map ids tr) as LI2 by mem.
    assert (id <> lid) as NL by (intros <-; done).
    assert (forall n ord, holds_l P ord tl (Some (first t)) -> holds_l (<[lid := n]> P) ord tl (Some (first t))) as KL.
    { intros n o X. apply (holds_l_frame P); [done|]. intros i I. rewrite lookup_insert_ne; [done|]. intros <-. apply (N2 _ I). mem. }
    assert (forall n ord, holds_l P ord tr nx -> holds_l (<[lid := n]> P) ord tr nx) as KR.
    { intros n o X. apply (holds_l_frame P); [done|]. intros i I. rewrite lookup_insert_ne; [done|]. intros <-. by apply (N4 _ LI). }
    repeat apply conj; try done.
    + intros R. cbn [gid descend]. rewrite Pg, FC, De. by rewrite <- app_assoc.
    + cbn [ids]. rewrite flat_map_mid. mem.
    + exists (flat_map lvs tl ++ Ls1), (Ls2 ++ flat_map lvs tr). cbn [lvs]. rewrite flat_map_mid, LV. split; [by rewrite <- !app_assoc|].
      rewrite !flat_map_app. by rewrite !flat_kvs_lvs.
    + cbn [kvs]. rewrite flat_map_mid, KV. by rewrite <- !app_assoc.
    + intros e E. apply elem_of_app in E as [E|E]; [by apply B1|by apply BA].
    + intros e E. apply elem_of_app in E as [E|E]; [by apply AB|by apply B2].
    + intros es' So' In' Ln' Ne'. destruct (REP es' So' In' Ln' Ne') as (t' & T1 & T2 & T3 & T4 & T5 & T6).
      exists (GN id dm (tl ++ t' :: tr) (kl ++ kr)). split; [|split; [|split; [|split; [done|split]]]].
      * split; [by apply X1|]. split; [by rewrite (gid0_mid tl t t' tr tr)|done].
      * rewrite holds_node. rewrite (map_gid_mid tl t t' tr T4). rewrite lookup_insert_ne by done. split; [done|].
        apply holds_l_app. cbn. rewrite T5. split; [by apply KL|]. split; [done|by apply KR].
      * cbn. by rewrite !flat_map_mid, T3.
      * by apply first_mid.
      * cbn [kvs]. rewrite flat_map_mid, T6. by rewrite <- !app_assoc.
    + intros R es' st al O2 Ps Or So' In' Ln' FR Al. cbn [ids] in FR.
      replace ((path ++ [id]) ++ R) with (path ++ id :: R) by (by rewrite <- app_assoc).
      replace ((flat_map kvs tl ++ flat_map snd Ls1) ++ es' ++ flat_map snd Ls2 ++ flat_map kvs tr) with (flat_map kvs tl ++ (flat_map snd Ls1 ++ es' ++ flat_map snd Ls2) ++ flat_map kvs tr)
        by (by rewrite <- !app_assoc).
      apply (node_outcome ord rt d lo hi id dm tl t tr kl kr lo1 hi1); try done.
      * by rewrite Ps, lookup_insert_ne by done.
      * rewrite Ps. by apply KL.
      * rewrite Ps. by apply KR.
      * apply SPL; try done.
        -- intros i I. apply FR. rewrite flat_map_mid. mem.
        -- right. split; [lia|done].
Qed.
