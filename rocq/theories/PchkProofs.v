(** * Proofs about the index's checks and traversals *)
From Coq Require Import ZArith Lia.
From stdpp Require Import list gmap sorting.
From Verif Require Import PtreeSpec PtreeModel PtreePages PtreeProofs PtreeInv PchkSpec PchkModel.
Local Open Scope nat_scope.

(** ** How deep a tree is *)
Lemma holds_dom P ord t : forall rt nx, holds P ord rt t nx -> forall i, i ∈ ids t -> i ∈ dom P.
Proof.
  induction t as [id es|id d ts ks IH] using gt_ind'; intros rt nx H i I.
  - cbn in H, I. apply elem_of_list_singleton in I as ->. apply elem_of_dom. eauto.
  - rewrite holds_node in H. destruct H as [Pg H]. cbn in I. apply elem_of_cons in I as [-> |I]; [apply elem_of_dom; eauto|].
    clear Pg. revert H I. induction IH as [|t r Ht Hr IH2]; cbn; intros H I; [by apply elem_of_nil in I|]. destruct H as [H1 H2].
    apply elem_of_app in I as [I|I]; [by apply (Ht _ _ H1)|by apply IH2].
Qed.
Lemma ids_size P ord t rt nx : holds P ord rt t nx -> NoDup (ids t) -> length (ids t) <= size P.
Proof.
  intros H N. rewrite <- size_dom. rewrite <- (size_list_to_set (C := gset nat)) by done. apply subseteq_size.
  intros i I. apply elem_of_list_to_set in I. by apply (holds_dom P ord t rt nx).
Qed.
Lemma depth_ids ord d : forall lo hi t, wf ord d lo hi t -> d < length (ids t).
Proof.
  induction d as [|d IH]; intros lo hi [id es|id dm ts ks] W; try done; cbn; [lia|].
  destruct W as (Ws & _). destruct ts as [|t ts]; [by destruct ks|]. cbn. rewrite app_length.
  assert (exists lo hi, wf ord d lo hi t) as (a & b & Wt). { destruct ts, ks; cbn in Ws; try done; try naive_solver. }
  apply IH in Wt. lia.
Qed.

(** ** From leaf to leaf *)
Lemma wfs_head W lo hi t ts ks : wfs W lo hi (t :: ts) ks -> exists hi', W lo hi' t.
Proof. destruct ts, ks; cbn; naive_solver. Qed.
Lemma leftmost_ok ord d : forall hi t P rt nx fuel, wf ord d None hi t -> holds P ord rt t nx -> d < fuel -> leftmost fuel P (gid t) = Ok (first t).
Proof.
  induction d as [|d IH]; intros hi [id es|id dm ts ks] P rt nx fuel W H F; try done; (destruct fuel as [|fuel]; [lia|]).
  - cbn in *. by rewrite H.
  - rewrite holds_node in H. destruct H as [Pg H]. destruct W as (Ws & Dm & _). unfold dum in Dm. cbn in Dm. subst dm.
    cbn [gid leftmost]. rewrite Pg. destruct ts as [|t ts]; [by destruct ks|]. destruct (wfs_head _ _ _ _ _ _ Ws) as [hi' Wt].
    cbn. destruct H as [H _]. apply (IH hi' t P false (nxt ts nx)); [done|done|lia].
Qed.
Lemma in_order_chain P : forall ls fuel acc id es, chain P ((id, es) :: ls) None -> length ls < fuel ->
  in_order_from fuel P id acc = Ok (acc ++ (es ++ flat_map snd ls).*1).
Proof.
  induction ls as [|[id' es'] ls IH]; intros fuel acc id es C F; (destruct fuel as [|fuel]; [lia|]).
  all: destruct C as [(rt & mx & C1) C2]; cbn [in_order_from]; rewrite C1.
  - cbn [flat_map]. by rewrite app_nil_r.
  - cbn [fst]. rewrite (IH fuel _ id' es'); [|done|cbn in F; lia]. cbn [flat_map snd]. rewrite !fmap_app. by rewrite <- !app_assoc.
Qed.
Lemma links_chain P : forall ls fuel seen id es, chain P ((id, es) :: ls) None -> length ls < fuel -> NoDup (id :: ls.*1) ->
  (forall x, x ∈ seen -> x ∉ id :: ls.*1) -> links_from fuel P id seen = Ok tt.
Proof.
  induction ls as [|[id' es'] ls IH]; intros fuel seen id es C F N Se; (destruct fuel as [|fuel]; [lia|]).
  all: destruct C as [(rt & mx & C1) C2]; cbn [links_from]; rewrite C1.
  all: rewrite bool_decide_eq_false_2 by (intros X; apply (Se _ X); left).
  - done.
  - cbn [fst]. apply NoDup_cons in N as [N1 N2]. apply (IH fuel _ id' es'); [done|cbn in F; lia|done|].
    intros x X. apply elem_of_cons in X as [-> |X]; [done|]. intros Y. apply (Se x X). by right.
Qed.

(** ** What the checks count *)
(** The keys counted: those of the page listed twice are counted twice. *)
Fixpoint tot (t : gt) : nat :=
  match t with
  | GL _ es => length es
  | GN _ dm ts _ => match dm, ts with Some _, t :: _ => tot t | _, _ => 0 end + sum_list_with tot ts
  end.
(** The pages visited. *)
Fixpoint visits (t : gt) : list nat :=
  match t with
  | GL id _ => [id]
  | GN id dm ts _ => id :: match dm, ts with Some _, t :: _ => visits t | _, _ => [] end ++ flat_map visits ts
  end.
Lemma wfs_len W lo hi ts : forall ks, wfs W lo hi ts ks -> length ts = S (length ks).
Proof.
  revert lo. induction ts as [|t ts IH]; intros lo ks H; [by destruct ks|]. destruct ks as [|k ks]; [by destruct ts|].
  apply wfs_cons in H as (_ & _ & _ & H). apply IH in H. cbn. lia.
Qed.
Lemma wfs_all (W : option Z -> option Z -> gt -> Prop) ts : forall lo hi ks, wfs W lo hi ts ks -> Forall (fun t => exists lo' hi', W lo' hi' t) ts.
Proof.
  induction ts as [|t ts IH]; intros lo hi ks H; [constructor|]. destruct ks as [|k ks].
  - destruct ts; [|done]. constructor; [eauto|constructor].
  - apply wfs_cons in H as (_ & _ & H1 & H2). constructor; [eauto|by eapply IH].
Qed.
Lemma ascending_sorted ks : ksorted ks -> ascending ks = true.
Proof.
  induction 1 as [|a ks S IH F]; [done|]. destruct ks as [|b ks]; [done|].
  change (ascending (a :: b :: ks)) with ((a <? b)%Z && ascending (b :: ks)). rewrite IH, andb_true_r.
  apply Forall_cons_1 in F as [F _]. by apply Z.ltb_lt.
Qed.
Lemma ascending_leaf es : ssorted es -> ascending es.*1 = true.
Proof.
  intros H. apply ascending_sorted. induction H as [|e es S IH F]; cbn; constructor; [done|].
  apply Forall_fmap. exact F.
Qed.
Lemma dum_sorted (W : option Z -> option Z -> gt -> Prop) lo hi ts ks dm g : wfs W lo hi ts ks -> dum lo dm g -> ksorted (dk dm ++ ks).
Proof.
  intros H D. apply wfs_keys in H as (S1 & S2 & _). destruct dm as [[k0 p0]|]; [|done]. apply dum_some in D. subst lo. cbn. constructor; [done|].
  apply Forall_forall. intros x X. by apply S2.
Qed.
Definition seen_at (l : nat) (s : stats) : Prop := level s = None \/ level s = Some l.
Lemma validate_ok ord d : forall lo hi t P rt nx fuel dep s, wf ord d lo hi t -> holds P ord rt t nx -> d < fuel -> seen_at (dep + d) s ->
  validate_node fuel P (gid t) dep s = Ok (Stats (max_depth s `max` (dep + d)) (total s + tot t) (Some (dep + d))).
Proof.
  induction d as [|d IH]; intros lo hi t P rt nx fuel dep s W H F Lv; destruct t as [id es|id dm ts ks]; try done;
    (destruct fuel as [|fuel]; [lia|]).
  - cbn in W, H. cbn [gid validate_node]. rewrite H. unfold validate_leaf. cbn [level max_depth total].
    replace (dep + 0) with dep in * by lia.
    assert (match level s with Some l => l =? dep | None => true end = true) as ->.
    { destruct Lv as [-> | ->]; [done|apply Nat.eqb_refl]. }
    destruct W as (So & _ & Ln & _). destruct (ord <? length es) eqn:X; [apply Nat.ltb_lt in X; lia|]. by rewrite ascending_leaf.
  - rewrite holds_node in H. destruct H as [Pg H]. destruct W as (Ws & Dm & Ne & Ln).
    cbn [gid validate_node]. rewrite Pg. cbn [level max_depth total].
    destruct (ord <? length (dk dm ++ ks)) eqn:X; [apply Nat.ltb_lt in X; lia|]. clear X.
    pose proof (wfs_len _ _ _ _ _ Ws) as LT.
    assert (length (dv dm) = length (dk dm)) as LD by by destruct dm.
    assert (length (dv dm ++ map gid ts) = S (length (dk dm ++ ks))) as LV by (rewrite !app_length, map_length; lia).
    rewrite LV. destruct (S (length (dk dm ++ ks)) <=? length (dk dm ++ ks)) eqn:X; [apply Nat.leb_le in X; lia|]. clear X.
    rewrite (ascending_sorted (dk dm ++ ks)) by (by eapply dum_sorted).
    rewrite take_ge by lia.
    match goal with |- ?g (dv dm ++ map gid ts) ?s0 = _ => set (go := g); set (s1 := s0) end.
    assert (forall c l s0, go (c :: l) s0 = match validate_node fuel P c (S dep) s0 with Ok s => go l s | e => e end) as GC by done.
    assert (forall s0, go [] s0 = Ok s0) as GN0 by done. clearbody go.
    assert (forall ts nx s0, holds_l P ord ts nx -> Forall (fun t => exists lo' hi', wf ord d lo' hi' t) ts -> seen_at (S dep + d) s0 ->
      go (map gid ts) s0 = Ok (Stats (match ts with [] => max_depth s0 | _ => max_depth s0 `max` (S dep + d) end)
        (total s0 + sum_list_with tot ts) (match ts with [] => level s0 | _ => Some (S dep + d) end))) as GO.
    { clear -IH F GC GN0. intros ts. induction ts as [|t ts IHt]; intros nx s0 H A L0.
      - cbn. rewrite GN0, Nat.add_0_r. by destruct s0.
      - cbn [map]. rewrite GC. apply Forall_cons in A as [(lo' & hi' & A1) A2]. destruct H as [H1 H2].
        rewrite (IH lo' hi' t P false (nxt ts nx) fuel (S dep) s0); [|done|done|lia|done].
        rewrite (IHt nx); [|done|done|by right]. cbn [max_depth total level]. f_equal. f_equal; [|cbn; lia|by destruct ts]. destruct ts; lia. }
    pose proof (wfs_all _ _ _ _ _ Ws) as WA.
    destruct ts as [|t ts]; [by destruct ks|].
    destruct dm as [[k0 p0]|].
    + assert (p0 = gid t) as ->. { unfold dum in Dm. destruct lo; cbn in Dm; congruence. }
      cbn [dv app snd]. rewrite GC. apply Forall_cons in WA as [(lo' & hi' & A1) A2]. pose proof H as [H1 H2].
      rewrite (IH lo' hi' t P false (nxt ts nx) fuel (S dep) s1); [|done|done|lia|]; [|unfold s1, seen_at in *; cbn; by replace (S (dep + d)) with (dep + S d) by lia].
      rewrite (GO (t :: ts) nx); [|done|by constructor; [eauto|]|by right]. cbn [max_depth total level]. unfold s1. cbn [max_depth total].
      f_equal. f_equal; [lia|cbn [tot]; lia|f_equal; lia].
    + cbn [dv app snd]. rewrite (GO (t :: ts) nx); [|done|done|]; [|unfold s1, seen_at in *; cbn; by replace (S (dep + d)) with (dep + S d) by lia].
      unfold s1. cbn [max_depth total]. f_equal.
      assert (tot (GN id None (t :: ts) ks) = sum_list_with tot (t :: ts)) as -> by done. f_equal; [lia|f_equal; lia].
Qed.

(** ** Two levels and more *)
Lemma len_flat (f : gt -> list (Z * Z)) ts : length (flat_map f ts) = sum_list_with (fun t => length (f t)) ts.
Proof. induction ts as [|t ts IH]; cbn; [done|]. by rewrite app_length, IH. Qed.
Lemma wfs_bounded (W : option Z -> option Z -> gt -> Prop) lo hi ts ks : wfs W lo hi ts ks -> lo <> None \/ hi <> None ->
  exists t lo' hi', t ∈ ts /\ W lo' hi' t /\ (lo' <> None \/ hi' <> None).
Proof.
  destruct ts as [|t ts]; [by destruct ks|]. destruct ks as [|k ks].
  - destruct ts; [|done]. intros H B. exists t, lo, hi. split; [left|done].
  - intros H _. apply wfs_cons in H as (_ & _ & H & _). exists t, lo, (Some k). split; [left|]. split; [done|by right].
Qed.
Lemma bounded_filled ord d : forall lo hi t, wf ord d lo hi t -> lo <> None \/ hi <> None -> 0 < length (kvs t).
Proof.
  induction d as [|d IH]; intros lo hi [id es|id dm ts ks] W B; try done; cbn [kvs].
  - destruct W as (_ & _ & _ & W). destruct es; [|cbn; lia]. destruct W as [-> ->]; [done|]. by destruct B.
  - destruct W as (Ws & _). destruct (wfs_bounded _ _ _ _ _ Ws B) as (t & lo' & hi' & I & W & B'). apply IH in W; [|done].
    apply elem_of_list_split in I as (a & b & ->). rewrite flat_map_mid, !app_length. lia.
Qed.
Lemma sum_le (f g : gt -> nat) ts : Forall (fun t => f t <= g t) ts -> sum_list_with f ts <= sum_list_with g ts.
Proof. induction 1; cbn; lia. Qed.
Lemma tot_le ord d : forall lo hi t, wf ord d lo hi t -> length (kvs t) <= tot t.
Proof.
  induction d as [|d IH]; intros lo hi [id es|id dm ts ks] W; try done; cbn [kvs tot].
  destruct W as (Ws & _). apply wfs_all in Ws. rewrite len_flat.
  assert (sum_list_with (fun t => length (kvs t)) ts <= sum_list_with tot ts); [|lia].
  apply sum_le. eapply Forall_impl; [exact Ws|]. cbv beta. intros t (a & b & W). by eapply IH.
Qed.
Lemma tot_more ord d a hi t : wf ord (S d) (Some a) hi t -> length (kvs t) < tot t.
Proof.
  destruct t as [|id dm ts ks]; [done|]. intros (Ws & Dm & _). unfold dum in Dm. cbn in Dm. subst dm. cbn [kvs tot].
  destruct ts as [|t ts]; [by destruct ks|]. destruct (wfs_head _ _ _ _ _ _ Ws) as [hi' Wt].
  assert (0 < length (kvs t)) by (eapply bounded_filled; [exact Wt|by left]). pose proof (tot_le _ _ _ _ _ Wt).
  apply wfs_all in Ws. rewrite len_flat.
  assert (sum_list_with (fun t => length (kvs t)) (t :: ts) <= sum_list_with tot (t :: ts)); [|lia].
  apply sum_le. eapply Forall_impl; [exact Ws|]. cbv beta. intros t' (b & c & W). by eapply tot_le.
Qed.
(** The second child of a node without the extra pointer. *)
Lemma second_child ord d hi id dm ts ks : wf ord (S d) None hi (GN id dm ts ks) ->
  dm = None /\ exists t1 t2 ts' k ks' hi2, ts = t1 :: t2 :: ts' /\ ks = k :: ks' /\ wf ord d (Some k) hi2 t2.
Proof.
  intros (Ws & Dm & Ne & _). unfold dum in Dm. cbn in Dm. subst dm. split; [done|]. destruct ks as [|k ks]; [done|].
  destruct ts as [|t1 ts]; [done|]. apply wfs_cons in Ws as (_ & _ & _ & Ws). destruct ts as [|t2 ts]; [by destruct ks|].
  destruct (wfs_head _ _ _ _ _ _ Ws) as [hi' Wt]. eauto 10.
Qed.
Lemma tot_deep ord d hi t : wf ord (S (S d)) None hi t -> length (kvs t) < tot t.
Proof.
  destruct t as [|id dm ts ks]; [done|]. intros W. destruct (second_child _ _ _ _ _ _ _ W) as (-> & t1 & t2 & ts' & k & ks' & hi2 & -> & -> & W2).
  destruct W as (Ws & _). apply wfs_all in Ws. apply Forall_cons in Ws as [(a & b & W1) Ws]. apply Forall_cons in Ws as [_ Ws].
  cbn [kvs tot]. rewrite len_flat. cbn. apply tot_more in W2. apply tot_le in W1.
  assert (sum_list_with (fun t => length (kvs t)) ts' <= sum_list_with tot ts'); [|lia].
  apply sum_le. eapply Forall_impl; [exact Ws|]. cbv beta. intros t' (x & y & W). by eapply tot_le.
Qed.
Lemma leaves_only ord ts : Forall (fun t => exists lo' hi', wf ord 0 lo' hi' t) ts ->
  sum_list_with tot ts = length (flat_map kvs ts) /\ flat_map visits ts = flat_map ids ts.
Proof.
  induction 1 as [|t ts (a & b & W) _ [IH1 IH2]]; [done|]. destruct t as [id es|]; [|done]. cbn. rewrite app_length, IH1, IH2. done.
Qed.
Lemma tot_flat ord d hi t : d <= 1 -> wf ord d None hi t -> tot t = length (kvs t) /\ visits t = ids t.
Proof.
  intros D W. destruct d as [|[|]]; [by destruct t| |lia]. destruct t as [|id dm ts ks]; [done|].
  destruct (second_child _ _ _ _ _ _ _ W) as (-> & _). destruct W as (Ws & _). apply wfs_all in Ws. apply leaves_only in Ws as [E1 E2].
  cbn. by rewrite E1, E2.
Qed.

(** ** The traversals of pages *)
Lemma pre_order_ok ord d : forall lo hi t P rt nx fuel, wf ord d lo hi t -> holds P ord rt t nx -> d < fuel ->
  pre_order_at fuel P (gid t) = Ok (visits t).
Proof.
  induction d as [|d IH]; intros lo hi t P rt nx fuel W H F; destruct t as [id es|id dm ts ks]; try done;
    (destruct fuel as [|fuel]; [lia|]).
  - cbn in H. cbn. by rewrite H.
  - rewrite holds_node in H. destruct H as [Pg H]. destruct W as (Ws & Dm & Ne & Ln).
    cbn [gid pre_order_at]. rewrite Pg.
    pose proof (wfs_len _ _ _ _ _ Ws) as LT.
    assert (length (dv dm) = length (dk dm)) as LD by by destruct dm.
    assert (length (dv dm ++ map gid ts) = S (length (dk dm ++ ks))) as LV by (rewrite !app_length, map_length; lia).
    rewrite take_ge by lia.
    match goal with |- ?g (dv dm ++ map gid ts) _ = _ => set (go := g) end.
    assert (forall c l s0, go (c :: l) s0 = match pre_order_at fuel P c with Ok s => go l (s0 ++ s) | e => e end) as GC by done.
    assert (forall s0, go [] s0 = Ok s0) as GN0 by done. clearbody go.
    assert (forall ts nx s0, holds_l P ord ts nx -> Forall (fun t => exists lo' hi', wf ord d lo' hi' t) ts ->
      go (map gid ts) s0 = Ok (s0 ++ flat_map visits ts)) as GO.
    { clear -IH F GC GN0. intros ts. induction ts as [|t ts IHt]; intros nx s0 H A.
      - cbn. by rewrite GN0, app_nil_r.
      - cbn [map]. rewrite GC. apply Forall_cons in A as [(lo' & hi' & A1) A2]. destruct H as [H1 H2].
        rewrite (IH lo' hi' t P false (nxt ts nx) fuel); [|done|done|lia].
        rewrite (IHt nx); [|done|done]. cbn. by rewrite app_assoc. }
    pose proof (wfs_all _ _ _ _ _ Ws) as WA. destruct ts as [|t ts]; [by destruct ks|].
    destruct dm as [[k0 p0]|]; cbn [dv app snd].
    + assert (p0 = gid t) as ->. { unfold dum in Dm. destruct lo; cbn in Dm; congruence. }
      rewrite GC. pose proof WA as WA2. apply Forall_cons in WA2 as [(lo' & hi' & A1) A2]. pose proof H as [H1 H2].
      rewrite (IH lo' hi' t P false (nxt ts nx) fuel); [|done|done|lia]. rewrite (GO (t :: ts) nx) by done. done.
    + rewrite (GO (t :: ts) nx) by done. done.
Qed.
Lemma visits_gid t : gid t ∈ visits t.
Proof. destruct t; left. Qed.
Lemma visits_twice ord d a hi t : wf ord (S d) (Some a) hi t -> ~ NoDup (visits t).
Proof.
  destruct t as [|id dm ts ks]; [done|]. intros (Ws & Dm & _). unfold dum in Dm. cbn in Dm. subst dm.
  destruct ts as [|t ts]; [by destruct ks|]. cbn [visits]. intros N. apply NoDup_cons in N as [_ N]. apply NoDup_app in N as (_ & N & _).
  apply (N (gid t)); [apply visits_gid|]. cbn. apply elem_of_app. left. apply visits_gid.
Qed.
Lemma visits_deep ord d hi t : wf ord (S (S d)) None hi t -> ~ NoDup (visits t).
Proof.
  destruct t as [|id dm ts ks]; [done|]. intros W. destruct (second_child _ _ _ _ _ _ _ W) as (-> & t1 & t2 & ts' & k & ks' & hi2 & -> & -> & W2).
  cbn. intros N. apply NoDup_cons in N as [_ N]. apply NoDup_app in N as (_ & _ & N). apply NoDup_app in N as (N & _).
  by apply visits_twice in W2.
Qed.
(** The post-order traversal lists the same pages, the root last. *)
Lemma post_pre fuel : forall ps id l, pre_order_at fuel ps id = Ok l -> forall acc, exists l', post_order_at fuel ps id acc = Ok (acc ++ l' ++ [id]) /\ l' ++ [id] ≡ₚ l.
Proof.
  induction fuel as [|fuel IH]; intros ps id l H acc; [done|]. cbn in *.
  destruct (ps !! id) as [[es nx rt mx|ks vs rt mx|]|]; try done.
  - injection H as <-. by exists [].
  - revert H. generalize (take (S (length ks)) vs). intros cs H.
    match type of H with ?g cs [id] = _ => set (gop := g) in * end.
    match goal with |- exists _, match ?g cs acc with _ => _ end = _ /\ _ => set (goq := g) in * end.
    assert (forall cs p q l, gop cs p = Ok l -> exists y, goq cs q = Ok (q ++ y) /\ l ≡ₚ p ++ y) as GO.
    { clear -IH. intros cs. induction cs as [|c cs IHc]; intros p q l H.
      - cbn in H. injection H as <-. exists []. cbn. by rewrite !app_nil_r.
      - change (gop (c :: cs) p) with (match pre_order_at fuel ps c with Ok x => gop cs (p ++ x) | e => e end) in H.
        change (goq (c :: cs) q) with (match post_order_at fuel ps c q with Ok x => goq cs x | e => e end).
        destruct (pre_order_at fuel ps c) as [x| |] eqn:E; try done. destruct (IH _ _ _ E q) as (l' & -> & Pm).
        destruct (IHc _ (q ++ l' ++ [c]) _ H) as (y & -> & Pm2). exists ((l' ++ [c]) ++ y). split; [by rewrite <- !app_assoc|].
        rewrite Pm2. rewrite <- app_assoc. by rewrite Pm. }
    destruct (GO cs [id] acc l H) as (y & -> & Pm). exists y. split; [by rewrite <- app_assoc|]. rewrite Pm. cbn. by rewrite Permutation_app_comm.
  - injection H as <-. by exists [].
Qed.

(** ** States that hold a map *)
Lemma keys_sorted l : ssorted l -> keys_of (list_to_map l) l.*1.
Proof.
  intros So. split.
  - induction So as [|e l S IH F]; cbn; constructor; [done|]. apply Forall_fmap. exact F.
  - intros k. rewrite elem_of_list_fmap. split.
    + intros ([k' v] & -> & I). exists v. by apply lm_lookup.
    + intros [v H]. apply lm_lookup in H; [|done]. by exists (k, v).
Qed.
Lemma tree_chain st t d : tree_of st t d -> exists id es ls,
  lvs t = (id, es) :: ls /\ leftmost (S (size (pages st))) (pages st) (gid t) = Ok id /\
  chain (pages st) ((id, es) :: ls) None /\ length ls < S (size (pages st)) /\ NoDup (id :: ls.*1) /\ d < S (size (pages st)).
Proof.
  intros (Hh & Hr & W & H & ND & FR). pose proof (ids_size _ _ _ _ _ H ND) as SZ. pose proof (depth_ids _ _ _ _ _ W) as DI.
  destruct (holds_chain _ _ _ _ _ _ _ _ W H) as (C & es & ls & E).
  exists (first t), es, ls. pose proof (lvs_nodup t ND) as N. rewrite E in *. split; [done|]. split; [by eapply leftmost_ok; [done|done|lia]|].
  split; [done|]. cbn in N. split; [|split; [done|lia]].
  assert (length (lvs t).*1 <= length (ids t)) as LL. { apply submseteq_length, NoDup_submseteq; [by rewrite E|apply lvs_ids]. }
  rewrite E in LL. cbn in LL. rewrite fmap_length in LL. lia.
Qed.
Lemma in_order_ok st m : inv st m -> exists l, in_order st = Ok l /\ keys_of m l.
Proof.
  intros [O2 H]. unfold in_order. destruct H as [(Hr & -> & Hc & H0)|(t & d & T & -> & Hc)].
  - rewrite Hr. exists []. split; [done|]. split; [constructor|]. intros k. rewrite lookup_empty. split; [intros X; by apply elem_of_nil in X|]. intros [? ?]. done.
  - pose proof T as (_ & Hr & _). rewrite Hr. destruct (tree_chain st t d T) as (id & es & ls & E & -> & C & L & N & _).
    rewrite (in_order_chain _ ls _ [] id es C L). eexists. split; [reflexivity|]. cbn [app].
    replace (es ++ flat_map snd ls) with (kvs t) by (by rewrite kvs_lvs, E). apply keys_sorted. by apply (tree_sorted st t d).
Qed.
Lemma links_ok st m : inv st m -> validate_links st = Ok tt.
Proof.
  intros [O2 H]. unfold validate_links. destruct H as [(Hr & -> & Hc & H0)|(t & d & T & -> & Hc)]; [by rewrite Hr|].
  pose proof T as (_ & Hr & _). rewrite Hr. destruct (tree_chain st t d T) as (id & es & ls & E & -> & C & L & N & _).
  apply (links_chain _ ls _ [] id es); try done. intros x X. by apply elem_of_nil in X.
Qed.
Lemma health_ok st m : inv st m ->
  (height st <= 2 -> exists s, health_check st = Ok s /\ total s = size m /\ max_depth s = height st - 1) /\ (2 < height st -> health_check st = Er).
Proof.
  intros Iv. unfold health_check. rewrite (links_ok st m Iv). pose proof (size_ok st m Iv) as SZ. destruct Iv as [O2 H]. unfold validate_tree.
  destruct H as [(Hr & -> & Hc & H0)|(t & d & T & -> & Hc)].
  - rewrite Hr, Hc, H0. cbn. split; [|lia]. eexists. split; [reflexivity|]. done.
  - pose proof T as (Hh & Hr & W & Ho & ND & FR). rewrite Hr. destruct (tree_chain st t d T) as (_ & _ & _ & _ & _ & _ & _ & _ & Fu).
    rewrite (validate_ok _ d _ _ t _ _ _ _ 0 _ W Ho Fu); [|by left]. cbn [total max_depth level Nat.add Nat.max].
    rewrite Hh, Hc. replace (d + 1) with (S d) by lia. rewrite Nat.eqb_refl, Nat.eqb_refl. cbn [negb]. split; intros D.
    + destruct (tot_flat (order st) d None t) as [-> _]; [lia|done|]. rewrite Nat.eqb_refl. cbn [negb]. eexists. split; [reflexivity|].
      cbn [total max_depth]. rewrite <- SZ, Hc. split; [done|lia].
    + destruct d as [|[|d]]; [lia|lia|]. apply tot_deep in W. destruct (tot t =? length (kvs t)) eqn:X; [apply Nat.eqb_eq in X; lia|]. done.
Qed.
Lemma pre_order_iff st m : inv st m -> exists l, pre_order st = Ok l /\ (NoDup l <-> height st <= 2).
Proof.
  intros [O2 H]. unfold pre_order. destruct H as [(Hr & -> & Hc & H0)|(t & d & T & -> & Hc)].
  - rewrite Hr, H0. exists []. split; [done|]. split; [lia|constructor].
  - pose proof T as (Hh & Hr & W & Ho & ND & FR). rewrite Hr. destruct (tree_chain st t d T) as (_ & _ & _ & _ & _ & _ & _ & _ & Fu).
    rewrite (pre_order_ok _ d _ _ t _ _ _ _ W Ho Fu). eexists. split; [reflexivity|]. rewrite Hh. split.
    + intros N. destruct d as [|[|d]]; [lia|lia|]. by apply visits_deep in W.
    + intros D. destruct (tot_flat (order st) d None t) as [_ ->]; [lia|done|done].
Qed.
