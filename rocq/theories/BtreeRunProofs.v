(** * Proofs about the in-memory B+-tree: whole operations and scans *)
From Coq Require Import ZArith Lia Sorting.Permutation Sorting.Sorted.
From stdpp Require Import list.
From Verif Require Import ExprModel ExecProofs BtreeModel BtreeSpec BtreeProofs.
Open Scope nat_scope.

Lemma chain_pick st l1 a l2 nx : chain st (l1 ++ a :: l2) nx -> chain st (a :: l2) nx.
Proof. intros H. apply chain_app in H. tauto. Qed.

(** ** Range scans over sorted leaves *)
Definition beyond (hi : val) (incl : bool) (k : val) : Prop := klt hi k \/ (incl = false /\ k = hi).

Lemma beyond_up hi incl a b : beyond hi incl a -> kle a b -> beyond hi incl b.
Proof.
  intros [H|[Hi ->]] L; [left; eapply klt_kle_trans; eassumption|].
  destruct (kle_cases _ _ L) as [H|<-]; [left; exact H|right; auto].
Qed.

Lemma beyond_out lo hi incl e : beyond hi incl (fst e) -> in_range_b lo hi incl e = false.
Proof.
  unfold in_range_b, beyond, key_lt. intros [H|[-> ->]].
  - rewrite (val_cmp_antisym hi (fst e)), H. cbn. apply andb_false_r.
  - rewrite val_cmp_refl. apply andb_false_r.
Qed.
Lemma low_out lo hi incl e : klt (fst e) lo -> in_range_b lo hi incl e = false.
Proof. unfold in_range_b, key_lt. intros H. rewrite (val_cmp_antisym (fst e) lo), H. reflexivity. Qed.

Lemma filter_beyond lo hi incl es : Forall (beyond hi incl) (keys es) -> List.filter (in_range_b lo hi incl) es = [].
Proof.
  induction es as [|x es IH]; cbn [List.filter keys map]; intros F; [reflexivity|]. apply Forall_cons_1 in F as [Fx F].
  rewrite (beyond_out _ _ _ _ Fx). apply IH, F.
Qed.
Lemma filter_low lo hi incl es : Forall (fun x => klt x lo) (keys es) -> List.filter (in_range_b lo hi incl) es = [].
Proof.
  induction es as [|x es IH]; cbn [List.filter keys map]; intros F; [reflexivity|]. apply Forall_cons_1 in F as [Fx F].
  rewrite (low_out _ _ _ _ Fx). apply IH, F.
Qed.

Lemma range_leaf_ok T lo hi incl es : of_type T lo -> of_type T hi -> Forall (of_type T) (keys es) -> StronglySorted kle (keys es) ->
  match range_leaf lo hi incl es with
  | (l, stop) => l = List.filter (in_range_b lo hi incl) es /\ (stop = true -> exists x, x ∈ keys es /\ beyond hi incl x)
  end.
Proof.
  intros Tlo Thi. induction es as [|[k r] es IH]; intros HT S; cbn [range_leaf List.filter]; [split; [reflexivity|discriminate]|].
  cbn [keys map fst] in HT, S. apply Forall_cons_1 in HT as [Tk HT]. apply StronglySorted_inv in S as [S F]. specialize (IH HT S).
  destruct (holds Lt k lo) eqn:E1.
  - apply (holds_lt T) in E1; [|assumption|assumption]. rewrite (low_out lo hi incl (k, r) E1).
    destruct (range_leaf lo hi incl es) as [l stop]. destruct IH as [-> IH]. split; [reflexivity|]. intros Hs. destruct (IH Hs) as (x & Hx & Bx).
    exists x. split; [apply elem_of_cons; auto|exact Bx].
  - assert (Hlo : kle lo k). { destruct (klt_dec k lo) as [H|H]; [|exact H]. apply (holds_lt T) in H; [congruence|assumption|assumption]. }
    destruct (holds Gt k hi || negb incl && holds Eq k hi) eqn:E2.
    + assert (Bk : beyond hi incl k).
      { apply orb_true_iff in E2 as [E2|E2].
        - left. apply (holds_gt T) in E2; assumption.
        - apply andb_true_iff in E2 as [Ei E2]. right. split; [destruct incl; [discriminate|reflexivity]|]. apply (holds_eq T) in E2; assumption. }
      split.
      * rewrite (beyond_out lo hi incl (k, r) Bk). symmetry. apply filter_beyond. eapply Forall_impl; [exact F|]. intros y Hy. eapply beyond_up; eassumption.
      * intros _. exists k. split; [apply elem_of_cons; auto|exact Bk].
    + apply orb_false_iff in E2 as [E2 E3].
      assert (Hin : in_range_b lo hi incl (k, r) = true).
      { unfold in_range_b. cbn [fst]. unfold key_le in Hlo. destruct (val_cmp lo k) eqn:E4; try congruence; cbn.
        all: destruct (val_cmp k hi) eqn:E5; try reflexivity.
        1,3: apply val_cmp_eq in E5; subst k; destruct incl; [reflexivity|]; cbn in E3; rewrite (holds_typed T), val_cmp_refl in E3; [discriminate|assumption|assumption].
        all: rewrite (holds_typed T), E5 in E2; [discriminate|assumption|assumption]. }
      rewrite Hin. destruct (range_leaf lo hi incl es) as [l stop]. destruct IH as [-> IH]. split; [reflexivity|].
      intros Hs. destruct (IH Hs) as (x & Hx & Bx). exists x. split; [apply elem_of_cons; auto|exact Bx].
Qed.

Lemma range_walk_ok T lo hi incl st : of_type T lo -> of_type T hi -> forall ls a fuel, length ls < fuel -> chain st (a :: ls) None ->
  Forall (of_type T) (keys (flat st (a :: ls))) -> StronglySorted kle (keys (flat st (a :: ls))) ->
  range_walk fuel lo hi incl st a = Some (List.filter (in_range_b lo hi incl) (flat st (a :: ls))).
Proof.
  intros Tlo Thi. induction ls as [|b ls IH]; intros a fuel Hf C HT S; (destruct fuel as [|fuel]; [cbn in Hf; lia|]);
    cbn [chain] in C; destruct C as [[es E] C].
  - assert (Ef : flat st [a] = es) by (unfold flat; cbn; unfold ents; rewrite E; apply app_nil_r). rewrite Ef in *.
    cbn [range_walk]. rewrite E. pose proof (range_leaf_ok T lo hi incl es Tlo Thi HT S) as H.
    destruct (range_leaf lo hi incl es) as [l []]; destruct H as [-> _]; reflexivity.
  - assert (Ef : flat st (a :: b :: ls) = es ++ flat st (b :: ls)) by (unfold flat; cbn; unfold ents at 1; rewrite E; reflexivity). rewrite Ef in *.
    rewrite keys_app in HT, S. apply Forall_app in HT as [HT1 HT2]. apply sorted_app in S as (S1 & S2 & S12).
    cbn [range_walk]. rewrite E. pose proof (range_leaf_ok T lo hi incl es Tlo Thi HT1 S1) as H.
    rewrite List.filter_app. destruct (range_leaf lo hi incl es) as [l []]; destruct H as [-> H].
    + destruct (H eq_refl) as (x & Hx & Bx). rewrite (filter_beyond _ _ _ (flat st (b :: ls))), app_nil_r; [reflexivity|].
      apply Forall_forall. intros y Hy. eapply beyond_up; [exact Bx|]. apply S12; assumption.
    + rewrite (IH b fuel) by (auto; cbn in Hf; lia). reflexivity.
Qed.

Lemma nodup_bound (ls : list nat) N : NoDup ls -> Forall (fun a => a < N) ls -> length ls <= N.
Proof.
  intros HN HB. rewrite <- (seq_length N 0). apply NoDup_incl_length; [apply NoDup_ListNoDup, HN|].
  intros a Ha. apply elem_of_list_In in Ha. rewrite Forall_forall in HB. apply HB in Ha. apply in_seq. cbn in Ha. lia.
Qed.

Section whole.
  Context (T : tid) (m e : nat) (R : val -> val -> Prop).
  Context (R_kle : forall a b, R a b -> kle a b) (klt_R : forall a b, klt a b -> R a b)
          (R_l : forall a b c, kle a b -> R b c -> R a c) (R_r : forall a b c, R a b -> kle b c -> R a c).
  Context (Hm : 3 <= m) (He : (m - 1) / 2 < m - 1 - e).
  Context (R_left : (m - 1) / 2 <= e \/ forall a b, R a b -> klt a b).
  Local Notation good := (good T m e R).
  Local Notation ok := (ok T m e R).

  (** The index holds the entries [F], in this order. *)
  Definition inv (ix : index) (F : list entry) : Prop :=
    exists n ls, ok (store ix) n None None (root ix) ls /\ NoDup ls /\ Forall (fun a => a < length (store ix)) ls /\
      chain (store ix) ls None /\ flat (store ix) ls = F.

  Lemma inv_new : inv new_index [].
  Proof using All.
    exists 0, [0]. cbn. split; [|repeat split; auto].
    - split; [reflexivity|]. exists [], None. split; [reflexivity|]. split; [constructor|constructor|constructor|constructor|exact I|apply Nat.le_0_l].
    - constructor; [apply not_elem_of_nil|constructor].
    - exists []. reflexivity.
  Qed.

  Lemma ok_keylen st n lo hi t ls : ok st n lo hi t ls -> keylen st t <= m - 1.
  Proof.
    intros O. destruct n, t; try contradiction.
    - destruct O as [_ (es & nx0 & E & Gc)]. cbn [keylen]. unfold ents. rewrite E. pose proof (g_len _ _ _ _ _ _ _ Gc) as GL.
      unfold keys in GL. rewrite map_length in GL. exact GL.
    - destruct O as [Gc _]. apply (g_len _ _ _ _ _ _ _ Gc).
  Qed.

  Lemma insert_inv ix F k r : inv ix F -> of_type T k -> (forall x, x ∈ keys F -> kle x k -> R x k) ->
    exists b ix' F', insert m ix k r = Some (b, ix') /\ inv ix' F' /\ inserted b k r F F'.
  Proof using All.
    intros (n & ls & O & HN & HB & C & <-) Tk HR. destruct ix as [t st]. cbn [root store] in *.
    unfold insert. cbn [root store]. destruct (Nat.eqb_spec (keylen st t) (m - 1)) as [Ef|Ef].
    - destruct (split_ok T m e R R_kle klt_R R_l R_r Hm He R_left st n None None [] [] [] [] t ls None) as (K & cl & cr & st1 & la & lb & ES & Ol & Or & C1 & F1 & TK & RK & BK & KL & KR); auto.
      { constructor. } { constructor. }
      cbn [app length] in ES. rewrite ES. cbn [last_key first_key] in *.
      assert (O1 : ok st1 (S n) None None (TNode [K] [cl; cr]) (la ++ lb)).
      { split.
        - split; [repeat constructor; exact TK|repeat constructor|repeat constructor|repeat constructor|exact I|cbn [length]; lia].
        - cbn. exists la, lb. split; [reflexivity|]. split; [exact Ol|]. exists lb, []. rewrite app_nil_r. auto. }
      assert (HB1 : Forall (fun a => a < length st1) (la ++ lb)).
      { apply Forall_forall. intros a Ha. apply (ch_new _ _ _ _ _ C1) in Ha as [Ha|Ha]; [|lia].
        rewrite Forall_forall in HB. apply HB in Ha. pose proof (ch_len _ _ _ _ _ C1). cbn in Ha. lia. }
      pose proof (ch_nodup _ _ _ _ _ C1 HN) as HN1.
      destruct (insert_ok T m e R R_kle klt_R R_l R_r Hm He R_left (S n) (S (depth (TNode [K] [cl; cr]))) None None (TNode [K] [cl; cr]) (la ++ lb) st1 k r None)
        as (b & t' & st' & ls' & EI & O' & C' & I'); auto.
      { erewrite ok_depth by eassumption. lia. }
      { cbn [keylen length]. lia. }
      { rewrite F1. exact HR. }
      rewrite EI. exists b, (Index t' st'), (flat st' ls'). split; [reflexivity|]. split; [|rewrite <- F1; exact I'].
      exists (S n), ls'. split; [exact O'|]. split; [apply (ch_nodup _ _ _ _ _ C'), HN1|]. split; [|split; [|reflexivity]].
      + apply Forall_forall. intros a Ha. apply (ch_new _ _ _ _ _ C') in Ha as [Ha|Ha]; [|cbn; lia].
        rewrite Forall_forall in HB1. apply HB1 in Ha. pose proof (ch_len _ _ _ _ _ C'). cbn in *. lia.
      + apply (ch_chain _ _ _ _ _ C'); [|exact HN1]. apply (ch_chain _ _ _ _ _ C1); assumption.
    - pose proof (ok_keylen _ _ _ _ _ _ O) as KL.
      destruct (insert_ok T m e R R_kle klt_R R_l R_r Hm He R_left n (S (depth t)) None None t ls st k r None)
        as (b & t' & st' & ls' & EI & O' & C' & I'); auto.
      { erewrite ok_depth by eassumption. lia. }
      { lia. }
      { exact I. } { exact I. }
      rewrite EI. exists b, (Index t' st'), (flat st' ls'). split; [reflexivity|]. split; [|exact I'].
      exists n, ls'. split; [exact O'|]. split; [apply (ch_nodup _ _ _ _ _ C'), HN|]. split; [|split; [|reflexivity]].
      + apply Forall_forall. intros a Ha. apply (ch_new _ _ _ _ _ C') in Ha as [Ha|Ha]; [|cbn; lia].
        rewrite Forall_forall in HB. apply HB in Ha. pose proof (ch_len _ _ _ _ _ C'). cbn in *. lia.
      + apply (ch_chain _ _ _ _ _ C'); assumption.
  Qed.

  Lemma leftmost_ok st n : forall fuel lo hi t ls, n < fuel -> ok st n lo hi t ls -> leftmost fuel t = head ls.
  Proof.
    induction n as [|n IH]; intros fuel lo hi [a|ks cs] ls Hf O; try contradiction; (destruct fuel as [|fuel]; [lia|]).
    - destruct O as [-> _]. reflexivity.
    - destruct O as [_ A]. destruct cs as [|c cs]; [contradiction|]. destruct A as (l & l' & -> & Oc & _).
      cbn [leftmost]. rewrite (IH fuel _ _ _ _ ltac:(lia) Oc). apply ok_nonempty in Oc. destruct l; [congruence|reflexivity].
  Qed.

  Lemma scan_full_ok ix F : inv ix F -> scan_full ix = Some F.
  Proof.
    intros (n & ls & O & HN & HB & C & <-). unfold scan_full.
    rewrite (leftmost_ok (store ix) n _ None None (root ix) ls); [| |exact O].
    2: { erewrite ok_depth by eassumption. lia. }
    pose proof (nodup_bound _ _ HN HB) as L. destruct ls as [|a ls]; [exfalso; eapply ok_nonempty in O; [congruence|..]; eassumption|].
    cbn [head]. apply walk_chain; [cbn in L; lia|exact C].
  Qed.

  Lemma inv_sorted ix F : inv ix F -> StronglySorted kle (keys F) /\ Forall (of_type T) (keys F).
  Proof using All.
    intros (n & ls & O & _ & _ & _ & <-). split.
    - eapply ok_sorted; [exact R_kle|exact O].
    - apply ok_within in O. eapply Forall_impl; [exact O|]. intros x (H & _). exact H.
  Qed.

  Lemma position_split p ks :
    match position p ks with
    | Some i => exists ks1 k ks2, ks = ks1 ++ k :: ks2 /\ length ks1 = i /\ p k = true /\ Forall (fun x => p x = false) ks1
    | None => Forall (fun x => p x = false) ks
    end.
  Proof.
    induction ks as [|k ks IH]; cbn [position]; [constructor|]. destruct (p k) eqn:E.
    - exists [], k, ks. auto.
    - destruct (position p ks) as [i|]; cbn [option_map].
      + destruct IH as (ks1 & k' & ks2 & -> & <- & Hk & F). exists (k :: ks1), k', ks2. auto.
      + auto.
  Qed.

  Lemma before_below st n : forall ks lo cs ls, before (ok st n) lo ks cs ls ->
    Forall (fun x => exists y, y ∈ ks /\ kle x y) (keys (flat st ls)).
  Proof.
    induction ks as [|k ks IH]; intros lo [|c cs] ls B; try contradiction; [cbn in B; subst; constructor|].
    destruct B as (l & l' & -> & Oc & B). rewrite flat_app, keys_app. apply Forall_app. split.
    - eapply Forall_impl; [eapply ok_within, Oc|]. intros x (_ & _ & Ux). exists k. split; [apply elem_of_cons; auto|exact Ux].
    - eapply Forall_impl; [eapply IH, B|]. intros x (y & Hy & L). exists y. split; [apply elem_of_cons; auto|exact L].
  Qed.

  Lemma start_leaf_ok st n : forall fuel x lo hi t ls, n < fuel -> of_type T x -> ok st n lo hi t ls ->
    exists a l1 l2, start_leaf fuel x t = Some a /\ ls = l1 ++ a :: l2 /\ Forall (fun y => klt y x) (keys (flat st l1)).
  Proof using All.
    induction n as [|n IH]; intros fuel x lo hi [a|ks cs] ls Hf Tx O; try contradiction; (destruct fuel as [|fuel]; [lia|]).
    - destruct O as [-> _]. exists a, [], []. cbn. auto.
    - destruct O as [G A]. cbn [start_leaf]. pose proof (position_split (fun k => holds Ge k x) ks) as HP.
      pose proof (all_length _ _ _ _ _ _ A) as LC. pose proof (g_type _ _ _ _ _ _ _ G) as GT. pose proof (sorted_kle R R_kle _ (g_sorted _ _ _ _ _ _ _ G)) as GS.
      destruct (position (fun k => holds Ge k x) ks) as [i|].
      + destruct HP as (ka & k & kb & -> & <- & Hk & Fk).
        destruct (cs !! length ka) as [c|] eqn:Ec; [|apply lookup_ge_None in Ec; rewrite app_length in LC; lia].
        destruct (all_split _ _ _ _ _ _ _ _ A Ec) as (ks1 & ks2 & cs1 & cs2 & l1 & l & l2 & Ek & -> & Lk & Lc & -> & Bf & Oc & Af).
        apply app_inj_1 in Ek as [<- <-]; [|congruence].
        destruct (IH fuel x _ _ c l ltac:(lia) Tx Oc) as (a & l1' & l2' & Ea & -> & Fa).
        exists a, (l1 ++ l1'), (l2' ++ l2). split; [exact Ea|]. split; [rewrite <- !app_assoc; reflexivity|].
        rewrite flat_app, keys_app. apply Forall_app. split; [|exact Fa].
        apply sorted_app in GS as (GS1 & _ & _). apply Forall_app in GT as [GT1 _].
        eapply Forall_impl; [eapply before_below, Bf|].
        intros y (z & Hz & Ly). eapply kle_klt_trans; [exact Ly|].
        rewrite Forall_forall in Fk, GT1. specialize (Fk z Hz). destruct (klt_dec z x) as [H|H]; [exact H|].
        apply (holds_ge T) in H; [cbn in Fk; congruence|apply GT1, Hz|exact Tx].
      + destruct cs as [|c cs]; [contradiction|]. destruct A as (l & l' & -> & Oc & A). cbn [lookup list_lookup].
        destruct (IH fuel x _ _ c l ltac:(lia) Tx Oc) as (a & l1' & l2' & Ea & -> & Fa).
        exists a, l1', (l2' ++ l'). split; [exact Ea|]. split; [rewrite <- !app_assoc; reflexivity|exact Fa].
  Qed.

  Lemma scan_range_ok ix F lo hi incl : inv ix F -> of_type T lo -> of_type T hi ->
    scan_range ix lo hi incl = Some (List.filter (in_range_b lo hi incl) F).
  Proof using All.
    intros I Tlo Thi. pose proof (inv_sorted _ _ I) as [S HT]. destruct I as (n & ls & O & HN & HB & C & <-). unfold scan_range.
    destruct (start_leaf_ok (store ix) n (Datatypes.S (depth (root ix))) lo None None (root ix) ls) as (a & l1 & l2 & -> & -> & Fl); auto.
    { erewrite ok_depth by eassumption. lia. }
    pose proof (nodup_bound _ _ HN HB) as L. rewrite app_length in L. cbn [length] in L.
    rewrite flat_app, keys_app in S, HT. apply sorted_app in S as (_ & S & _). apply Forall_app in HT as [_ HT].
    rewrite flat_app, List.filter_app, (filter_low _ _ _ _ Fl). cbn [app].
    apply (range_walk_ok T); auto; [lia|]. eapply chain_pick, C.
  Qed.

  Lemma inserted_in b k r F F' : inserted b k r F F' -> (k, r) ∈ F' /\ (forall x, x ∈ F -> x ∈ F').
  Proof.
    unfold inserted. destruct b.
    - intros (F1 & F2 & -> & -> & _). split; [rewrite elem_of_app, elem_of_cons; auto|]. intros x. rewrite !elem_of_app, elem_of_cons. tauto.
    - intros [-> H]. auto.
  Qed.

  Lemma inserts_ok : forall es ix F, inv ix F -> Forall (of_type T) (keys es) ->
    ((forall a b, kle a b -> R a b) \/ NoDup (keys F ++ keys es)) ->
    exists bs ix' F', inserts m es ix = Some (bs, ix') /\ inv ix' F' /\ Permutation F' (F ++ said_yes es bs) /\
      length bs = length es /\ (forall x, x ∈ F \/ x ∈ es -> x ∈ F') /\ (NoDup (F ++ es) -> said_yes es bs = es).
  Proof using All.
    induction es as [|[k r] es IH]; intros ix F HI HT HC.
    - exists [], ix, F. cbn. rewrite app_nil_r. split; [reflexivity|]. split; [exact HI|]. split; [reflexivity|]. split; [reflexivity|].
      split; [|reflexivity]. intros x [H|H]; [exact H|]. apply elem_of_nil in H. contradiction.
    - cbn [keys map fst] in HT. apply Forall_cons_1 in HT as [Tk HT].
      destruct (insert_inv ix F k r HI Tk) as (b & ix1 & F1 & E1 & HI1 & Hins).
      { intros x Hx L. destruct HC as [HC|HC]; [auto|]. apply klt_R. destruct (kle_cases _ _ L) as [H| ->]; [exact H|].
        apply NoDup_app in HC as (_ & HC & _). exfalso. apply (HC k Hx). cbn. apply elem_of_cons. auto. }
      assert (P1 : Permutation F1 (F ++ said_yes [(k, r)] [b])).
      { destruct b; cbn in Hins |- *.
        - destruct Hins as (G1 & G2 & -> & -> & _). rewrite <- app_assoc. apply Permutation_app_head. apply Permutation_cons_append.
        - destruct Hins as [-> _]. rewrite app_nil_r. reflexivity. }
      destruct (IH ix1 F1 HI1 HT) as (bs & ix' & F' & E2 & HI' & P2 & L & Hin & Hall).
      { destruct HC as [HC|HC]; [auto|]. right. destruct b; cbn in P1.
        - rewrite (Permutation_map fst P1 : keys F1 ≡ₚ keys (F ++ [(k, r)])). rewrite keys_app, <- app_assoc. exact HC.
        - rewrite app_nil_r in P1. rewrite (Permutation_map fst P1 : keys F1 ≡ₚ keys F).
          apply NoDup_app in HC as (H1 & H2 & H3). cbn in H3. apply NoDup_cons in H3 as [_ H3]. apply NoDup_app. split; [exact H1|]. split; [|exact H3].
          intros x Hx Hx'. apply (H2 x Hx). cbn. apply elem_of_cons. auto. }
      exists (b :: bs), ix', F'. cbn [inserts]. rewrite E1, E2. split; [reflexivity|]. split; [exact HI'|].
      destruct (inserted_in _ _ _ _ _ Hins) as [Hk Hold].
      split; [|split; [cbn; congruence|split]].
      + rewrite P2, P1. rewrite <- app_assoc. destruct b; reflexivity.
      + intros x [Hx|Hx]; apply Hin; [left; auto|]. apply elem_of_cons in Hx as [->|Hx]; auto.
      + intros HN. destruct b.
        * cbn. f_equal. apply Hall. cbn in P1. rewrite P1, <- app_assoc. exact HN.
        * destruct Hins as [_ Hk']. apply NoDup_app in HN as (_ & HN & _). exfalso. apply (HN _ Hk'). apply elem_of_cons. auto.
  Qed.
End whole.
