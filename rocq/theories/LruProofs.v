From stdpp Require Import gmap list.
From Verif Require Import CacheSpec LruModel FifoProofs.

Section proofs.
  Context {V : Type}.
  Implicit Types c : lru V.
  Implicit Types h : gmap N (node V).

  (** An entry of the list: address, key, value. *)
  Definition entry : Type := N * N * V.
  Definition ea (e : entry) : N := e.1.1.
  Definition ek (e : entry) : N := e.1.2.
  Definition ev (e : entry) : V := e.2.
  Implicit Types es : list entry.
  Implicit Types e : entry.

  Definition addrs es : list N := ea <$> es.
  Definition keys es : list N := ek <$> es.
  Definition kvs es : list (N * V) := (fun e => (ek e, ev e)) <$> es.

  Local Typeclasses Opaque addrs keys kvs.
  Local Arguments addrs : simpl never.
  Local Arguments keys : simpl never.
  Local Arguments kvs : simpl never.
  Lemma addrs_cons e es : addrs (e :: es) = ea e :: addrs es.
  Proof. done. Qed.
  Lemma keys_cons e es : keys (e :: es) = ek e :: keys es.
  Proof. done. Qed.
  Lemma kvs_cons e es : kvs (e :: es) = (ek e, ev e) :: kvs es.
  Proof. done. Qed.
  Lemma addrs_app es1 es2 : addrs (es1 ++ es2) = addrs es1 ++ addrs es2.
  Proof. apply fmap_app. Qed.
  Lemma keys_app es1 es2 : keys (es1 ++ es2) = keys es1 ++ keys es2.
  Proof. apply fmap_app. Qed.
  Lemma kvs_app es1 es2 : kvs (es1 ++ es2) = kvs es1 ++ kvs es2.
  Proof. apply fmap_app. Qed.
  Ltac lsimpl :=
    repeat (progress (simpl in * || rewrite ?addrs_cons, ?keys_cons, ?kvs_cons, ?addrs_app, ?keys_app, ?kvs_app in * )).

  Definition hd_addr es (x : option N) : option N :=
    match es with [] => x | e :: _ => Some (ea e) end.
  Fixpoint last_addr (p : option N) es : option N :=
    match es with [] => p | e :: t => last_addr (Some (ea e)) t end.
  Fixpoint dseg h (p : option N) es (x : option N) : Prop :=
    match es with
    | [] => True
    | e :: t => h !! ea e = Some (mkNode (ek e) (ev e) p (hd_addr t x)) /\ dseg h (Some (ea e)) t x
    end.

  Local Ltac ss :=
    repeat match goal with
    | H : dseg _ _ _ _ |- _ => clear H
    | H : _ = Some _ |- _ => clear H
    | H : _ = hd_addr _ _ |- _ => clear H
    | H : _ = last_addr _ _ |- _ => clear H
    end;
    repeat match goal with
    | H : context [addrs (_ ++ _)] |- _ => rewrite addrs_app in H
    | H : context [addrs (_ :: _)] |- _ => rewrite addrs_cons in H
    | H : context [addrs []] |- _ => change (addrs []) with (@nil N) in H
    | H : context [keys (_ ++ _)] |- _ => rewrite keys_app in H
    | H : context [keys (_ :: _)] |- _ => rewrite keys_cons in H
    | |- context [addrs (_ ++ _)] => rewrite addrs_app
    | |- context [addrs (_ :: _)] => rewrite addrs_cons
    | |- context [addrs []] => change (addrs []) with (@nil N)
    | |- context [keys (_ ++ _)] => rewrite keys_app
    | |- context [keys (_ :: _)] => rewrite keys_cons
    end; set_solver.

  Local Ltac ne :=
    let E := fresh "E" in
    intros E; subst;
    first [ contradiction
          | match goal with H : _ ∉ _ |- _ => exfalso; apply H; clear;
               rewrite ?addrs_app, ?addrs_cons; set_solver end
          | ss ].

  Lemma hd_addr_app es1 es2 x : hd_addr (es1 ++ es2) x = hd_addr es1 (hd_addr es2 x).
  Proof. by destruct es1. Qed.
  Lemma last_addr_app p es1 es2 : last_addr p (es1 ++ es2) = last_addr (last_addr p es1) es2.
  Proof. revert p; induction es1 as [|e es1 IH]; intros p; simpl; [done|]. apply IH. Qed.
  Lemma last_addr_snoc p es e : last_addr p (es ++ [e]) = Some (ea e).
  Proof. by rewrite last_addr_app. Qed.

  Lemma dseg_app h p es1 es2 x :
    dseg h p (es1 ++ es2) x <-> dseg h p es1 (hd_addr es2 x) /\ dseg h (last_addr p es1) es2 x.
  Proof.
    revert p; induction es1 as [|e es1 IH]; intros p; simpl; [naive_solver|].
    rewrite IH, hd_addr_app. naive_solver.
  Qed.

  Lemma dseg_ext h h' p es x :
    (forall b, b ∈ addrs es -> h' !! b = h !! b) -> dseg h p es x -> dseg h' p es x.
  Proof.
    revert p; induction es as [|e es IH]; intros p He; simpl; [done|].
    intros [H1 H2]. split.
    - rewrite He; [done|]. by left.
    - apply IH; [|done]. intros b Hb. apply He. by right.
  Qed.

  (** The list part of the representation. *)
  Record lrep c es : Prop := {
    lr_nodup : NoDup (addrs es);
    lr_seg : dseg (l_heap c) None es None;
    lr_head : l_head c = hd_addr es None;
    lr_tail : l_tail c = last_addr None es }.

  (** Everything else is untouched by list surgery on the addresses [as]. *)
  Record same_rest c c' (as_ : list N) : Prop := {
    sr_map : l_map c' = l_map c;
    sr_cap : l_cap c' = l_cap c;
    sr_fresh : l_fresh c' = l_fresh c;
    sr_heap : forall b, b ∉ as_ -> l_heap c' !! b = l_heap c !! b;
    sr_dom : forall b, is_Some (l_heap c' !! b) <-> is_Some (l_heap c !! b) }.

  Lemma is_Some_insert_existing h a n n' b :
    h !! a = Some n -> is_Some (<[a := n']> h !! b) <-> is_Some (h !! b).
  Proof.
    intros H. destruct (decide (a = b)) as [->|Hne].
    - rewrite lookup_insert, H. split; eauto.
    - by rewrite lookup_insert_ne.
  Qed.


  Lemma remove_from_list_spec c es1 e es2 :
    lrep c (es1 ++ e :: es2) ->
    exists c', remove_from_list (ea e) c = Some c' /\ lrep c' (es1 ++ es2) /\
      same_rest c c' (addrs (es1 ++ es2)).
  Proof.
    intros [Hnd Hseg Hhd Htl].
    apply dseg_app in Hseg as [S1 S2]. simpl in S2, S1. destruct S2 as [Se S2].
    rewrite addrs_app, addrs_cons in Hnd.
    assert (Hnd1 := Hnd). apply NoDup_app in Hnd1 as (N1 & N12 & N2).
    apply NoDup_cons in N2 as [Ne N2].
    assert (Hnd' : NoDup (addrs (es1 ++ es2))).
    { rewrite addrs_app. apply NoDup_app. split_and!; [done| |done]. ss. }
    unfold remove_from_list. rewrite Se. simpl.
    destruct es1 as [|p es1 _] using rev_ind; simpl in *.
    - destruct es2 as [|y es2]; simpl in *.
      + eexists; split; [done|]. split; split; simpl; try done.
      + destruct S2 as [Sy S2]. unfold write_prev. rewrite Sy. simpl.
        eexists; split; [done|]. split; split; simpl; try done.
        * split; [by rewrite lookup_insert|].
          eapply dseg_ext; [|exact S2]. intros b Hb. rewrite addrs_cons in N2.
          apply NoDup_cons in N2 as [N2 _].
          rewrite lookup_insert_ne; [done|]. intros <-. done.
        * intros b Hb. rewrite addrs_cons in Hb. rewrite lookup_insert_ne; [done|ne].
        * intros b. by apply is_Some_insert_existing with (n := mkNode (ek y) (ev y) (Some (ea e)) (hd_addr es2 None)).
    - rewrite last_addr_snoc in *. rewrite addrs_app, addrs_cons in N1, N12.
      apply dseg_app in S1 as [S1 Sp]. simpl in Sp. destruct Sp as [Sp _].
      apply NoDup_app in N1 as (N1 & N1p & _).
      assert (Hpe : ea p ≠ ea e) by ss.
      assert (Hp2 : ea p ∉ addrs es2) by ss.
      assert (Hp1 : ea p ∉ addrs es1) by ss.
      destruct es2 as [|y es2]; simpl in *.
      + unfold write_next. rewrite Sp. simpl. eexists; split; [done|].
        split; split; simpl.
        * done.
        * rewrite app_nil_r. apply dseg_app. split; simpl.
          -- eapply dseg_ext; [|exact S1]. intros b Hb. rewrite lookup_insert_ne; [done|ne].
          -- by rewrite lookup_insert.
        * rewrite Hhd. rewrite !app_nil_r, !hd_addr_app. by destruct es1.
        * by rewrite app_nil_r, last_addr_snoc.
        * done.
        * done.
        * done.
        * intros b Hb. rewrite app_nil_r, addrs_app in Hb. rewrite lookup_insert_ne; [done|ne].
        * intros b. by eapply is_Some_insert_existing.
      + destruct S2 as [Sy S2]. apply NoDup_cons in N2 as [Ny N2].
        assert (Hpy : ea p ≠ ea y) by ss.
        assert (Hy1 : ea y ∉ addrs es1) by ss.
        unfold write_next. rewrite Sp. simpl. unfold write_prev. simpl.
        rewrite lookup_insert_ne by done. rewrite Sy. simpl.
        eexists; split; [done|]. split; split; simpl.
        * done.
        * rewrite <- app_assoc. apply dseg_app. simpl. split.
          -- eapply dseg_ext; [|exact S1]. intros b Hb. rewrite !lookup_insert_ne; [done|ne|ne].
          -- split; [|split].
             ++ rewrite lookup_insert_ne by done. by rewrite lookup_insert.
             ++ by rewrite lookup_insert.
             ++ eapply dseg_ext; [|exact S2]. intros b Hb. rewrite !lookup_insert_ne; [done|ne|ne].
        * rewrite Hhd. rewrite <- !app_assoc, !hd_addr_app. by destruct es1.
        * rewrite Htl. rewrite !last_addr_app. simpl. done.
        * done.
        * done.
        * done.
        * intros b Hb. rewrite addrs_app in Hb. simpl in Hb. rewrite addrs_app in Hb. simpl in Hb.
          rewrite !lookup_insert_ne; [done|ne|ne].
        * intros b. rewrite is_Some_insert_existing; [by eapply is_Some_insert_existing|].
          rewrite lookup_insert_ne by done. done.
  Qed.

  Lemma add_to_head_spec c es a n :
    lrep c es -> l_heap c !! a = Some n -> a ∉ addrs es ->
    exists c', add_to_head a c = Some c' /\ lrep c' ((a, n_key n, n_val n) :: es) /\
      same_rest c c' (a :: addrs es).
  Proof.
    intros [Hnd Hseg Hhd Htl] Ha Hna. unfold add_to_head. rewrite Hhd.
    destruct es as [|y es]; simpl in *.
    - unfold write_next. rewrite Ha. simpl. unfold write_prev. simpl. rewrite lookup_insert. simpl.
      eexists; split; [done|]. split; split; simpl; try done.
      + apply NoDup_singleton.
      + by rewrite lookup_insert.
      + intros b Hb. rewrite !lookup_insert_ne; [done|ne|ne].
      + intros b. rewrite is_Some_insert_existing; [by eapply is_Some_insert_existing|]. by rewrite lookup_insert.
    - destruct Hseg as [Sy Hseg]. apply NoDup_cons in Hnd as [Ny Hnd].
      assert (Hay : a ≠ ea y) by ss. assert (Hae : a ∉ addrs es) by ss.
      unfold write_next. rewrite Ha. simpl. unfold write_prev. simpl. rewrite lookup_insert. simpl.
      rewrite !lookup_insert_ne by done. rewrite Sy. simpl.
      eexists; split; [done|]. split; split; simpl; try done.
      + rewrite !addrs_cons. change (ea (a, n_key n, n_val n)) with a. apply NoDup_cons. split; [set_solver|]. by apply NoDup_cons.
      + split; [|split].
        * rewrite lookup_insert_ne by done. by rewrite lookup_insert.
        * by rewrite lookup_insert.
        * eapply dseg_ext; [|exact Hseg]. intros b Hb. rewrite !lookup_insert_ne; [done|ne..].
      + intros b Hb. rewrite !lookup_insert_ne; [done|ne..].
      + intros b. rewrite is_Some_insert_existing.
        * rewrite is_Some_insert_existing; [by eapply is_Some_insert_existing|]. by rewrite lookup_insert.
        * rewrite !lookup_insert_ne by done. done.
  Qed.

  (** The whole representation. *)
  Record rep c es : Prop := {
    rp_list : lrep c es;
    rp_keys : NoDup (keys es);
    rp_map : l_map c = list_to_map ((fun e => (ek e, ea e)) <$> es);
    rp_dom : forall a, is_Some (l_heap c !! a) <-> a ∈ addrs es;
    rp_fresh : forall a, a ∈ addrs es -> (a < l_fresh c)%N }.

  Lemma rep_new cap : rep (lru_new cap) [].
  Proof.
    split; simpl; try done.
    - split; simpl; try done. constructor.
    - constructor.
    - intros a. rewrite lookup_empty. split; [by intros []|ss].
    - ss.
  Qed.

  Definition km es : list (N * N) := (fun e => (ek e, ea e)) <$> es.
  Lemma km_fst es : (km es).*1 = keys es.
  Proof. unfold km, keys. rewrite <- list_fmap_compose. done. Qed.
  Lemma kvs_fst es : (kvs es).*1 = keys es.
  Proof. unfold kvs, keys. rewrite <- list_fmap_compose. done. Qed.

  Lemma map_lookup c es k : rep c es ->
    (l_map c !! k = None /\ assoc k (kvs es) = None /\ k ∉ keys es) \/
    (exists es1 e es2, es = es1 ++ e :: es2 /\ ek e = k /\ l_map c !! k = Some (ea e) /\
       assoc k (kvs es) = Some (ev e)).
  Proof.
    intros [_ Hk Hm _ _]. fold (km es) in Hm.
    destruct (decide (k ∈ keys es)) as [Hin|Hni].
    - right. apply elem_of_list_fmap in Hin as (e & -> & He).
      apply elem_of_list_split in He as (es1 & es2 & ->).
      exists es1, e, es2. split_and!; [done|done| |].
      + rewrite Hm. apply elem_of_list_to_map; [by rewrite km_fst|].
        unfold km. apply elem_of_list_fmap. exists e. split; [done|ss].
      + rewrite <- assoc_list_to_map. apply elem_of_list_to_map; [by rewrite kvs_fst|].
        unfold kvs. apply elem_of_list_fmap. exists e. split; [done|ss].
    - left. split_and!; [|by apply assoc_None; rewrite kvs_fst|done].
      rewrite Hm. apply not_elem_of_list_to_map_1. by rewrite km_fst.
  Qed.

  Lemma drop_key_mid es1 e es2 : NoDup (keys (es1 ++ e :: es2)) ->
    drop_key (ek e) (kvs (es1 ++ e :: es2)) = kvs (es1 ++ es2).
  Proof.
    induction es1 as [|y es1 IH]; intros Hnd.
    - rewrite ?app_nil_l, kvs_cons. cbn [drop_key position]. by rewrite N.eqb_refl.
    - rewrite <- !app_comm_cons in *. rewrite !kvs_cons. cbn [drop_key position].
      rewrite keys_cons in Hnd. apply NoDup_cons in Hnd as [Hy Hnd].
      destruct (N.eqb_spec (ek e) (ek y)) as [E|E].
      + exfalso. apply Hy. rewrite <- E, keys_app, keys_cons. clear. set_solver.
      + rewrite IH by done. done.
  Qed.

  Lemma keys_perm es1 e es2 : NoDup (keys (es1 ++ e :: es2)) ->
    NoDup (keys (es1 ++ es2)) /\ ek e ∉ keys (es1 ++ es2).
  Proof.
    intros H. assert (H' : NoDup (keys (e :: es1 ++ es2))).
    { eapply NoDup_Permutation_proper; [|exact H]. apply fmap_Permutation. by rewrite Permutation_middle. }
    by apply NoDup_cons in H' as [? ?].
  Qed.

  Lemma map_mid es1 e es2 : NoDup (keys (es1 ++ e :: es2)) ->
    list_to_map (M := gmap N N) (km (es1 ++ e :: es2)) = <[ek e := ea e]> (list_to_map (km (es1 ++ es2))).
  Proof.
    intros H. change (<[ek e := ea e]> (list_to_map (km (es1 ++ es2))))
      with (list_to_map (M := gmap N N) (km (e :: es1 ++ es2))).
    apply list_to_map_proper; [by rewrite km_fst|]. unfold km. apply fmap_Permutation.
    by rewrite Permutation_middle.
  Qed.

  Lemma addrs_mid es1 e es2 : NoDup (addrs (es1 ++ e :: es2)) -> ea e ∉ addrs (es1 ++ es2).
  Proof.
    intros H. assert (H' : NoDup (addrs (e :: es1 ++ es2))).
    { eapply NoDup_Permutation_proper; [|exact H]. apply fmap_Permutation. by rewrite Permutation_middle. }
    by apply NoDup_cons in H' as [? ?].
  Qed.

  Lemma lookup_mid h es1 e es2 : dseg h None (es1 ++ e :: es2) None ->
    h !! ea e = Some (mkNode (ek e) (ev e) (last_addr None es1) (hd_addr es2 None)).
  Proof. intros H. apply dseg_app in H as [_ H]. simpl in H. by destruct H. Qed.

  Lemma move_to_head_spec c es1 e es2 :
    rep c (es1 ++ e :: es2) ->
    exists c', move_to_head (ea e) c = Some c' /\ rep c' (e :: es1 ++ es2) /\ l_cap c' = l_cap c.
  Proof.
    intros [Hl Hk Hm Hd Hf]. unfold move_to_head.
    destruct (remove_from_list_spec c es1 e es2 Hl) as (c1 & E1 & L1 & R1). rewrite E1. simpl.
    pose proof (lookup_mid _ _ _ _ (lr_seg _ _ Hl)) as Hn.
    pose proof (addrs_mid _ _ _ (lr_nodup _ _ Hl)) as Hna.
    destruct (add_to_head_spec c1 (es1 ++ es2) (ea e) _ L1
      ltac:(rewrite (sr_heap _ _ _ R1) by done; exact Hn) Hna) as (c2 & E2 & L2 & R2).
    exists c2. split; [done|]. simpl in L2.
    assert (Ee : (ea e, ek e, ev e) = e) by (by destruct e as [[a k] v]). rewrite Ee in L2.
    assert (P : forall a, a ∈ addrs (e :: es1 ++ es2) <-> a ∈ addrs (es1 ++ e :: es2)).
    { intros a. rewrite addrs_cons, !addrs_app, addrs_cons. clear. set_solver. }
    split; [split|].
    - done.
    - eapply NoDup_Permutation_proper; [|exact Hk]. apply fmap_Permutation. by rewrite Permutation_middle.
    - rewrite (sr_map _ _ _ R2), (sr_map _ _ _ R1), Hm. fold (km (es1 ++ e :: es2)). by apply map_mid.
    - intros a. rewrite (sr_dom _ _ _ R2), (sr_dom _ _ _ R1), Hd, P. done.
    - intros a Ha. rewrite (sr_fresh _ _ _ R2), (sr_fresh _ _ _ R1). apply Hf. by apply P.
    - rewrite (sr_cap _ _ _ R2). apply R1.
  Qed.

  (** Unlink a node, forget its key and free it. *)
  Lemma unlink_free_spec c es1 e es2 :
    rep c (es1 ++ e :: es2) ->
    let c0 := set_map c (delete (ek e) (l_map c)) in
    exists c1 c2 n, remove_from_list (ea e) c0 = Some c1 /\ take_box (ea e) c1 = Some (c2, n) /\
      n_val n = ev e /\ n_key n = ek e /\ rep c2 (es1 ++ es2) /\ l_cap c2 = l_cap c.
  Proof.
    intros [Hl Hk Hm Hd Hf] c0.
    assert (Hl0 : lrep c0 (es1 ++ e :: es2)) by (destruct Hl; by split).
    destruct (remove_from_list_spec c0 es1 e es2 Hl0) as (c1 & E1 & L1 & R1).
    pose proof (lookup_mid _ _ _ _ (lr_seg _ _ Hl)) as Hn.
    pose proof (addrs_mid _ _ _ (lr_nodup _ _ Hl)) as Hna.
    pose proof (keys_perm _ _ _ Hk) as [Hk' Hke].
    assert (Hn1 : l_heap c1 !! ea e = Some (mkNode (ek e) (ev e) (last_addr None es1) (hd_addr es2 None))).
    { rewrite (sr_heap _ _ _ R1) by done. exact Hn. }
    exists c1. eexists _, _. split; [done|]. unfold take_box. rewrite Hn1. simpl.
    split; [done|]. split; [done|]. split; [done|]. split; [|simpl; by rewrite (sr_cap _ _ _ R1)].
    destruct L1 as [L1a L1b L1c L1d]. split; simpl.
    - split; simpl; try done. eapply dseg_ext; [|exact L1b]. intros b Hb.
      rewrite lookup_delete_ne; [done|ne].
    - done.
    - rewrite (sr_map _ _ _ R1). simpl. rewrite Hm. fold (km (es1 ++ e :: es2)). rewrite map_mid by done.
      rewrite delete_insert; [done|]. apply not_elem_of_list_to_map_1. by rewrite km_fst.
    - intros a. destruct (decide (a = ea e)) as [->|Hne].
      + rewrite lookup_delete. split; [by intros []|done].
      + rewrite lookup_delete_ne by done. rewrite (sr_dom _ _ _ R1). simpl. rewrite Hd.
        rewrite !addrs_app, ?addrs_cons. clear -Hne. set_solver.
    - intros a Ha. rewrite (sr_fresh _ _ _ R1). simpl. apply Hf. revert Ha. rewrite !addrs_app, addrs_cons. clear. set_solver.
  Qed.

  Lemma set_map_remove_comm c m a c1 : remove_from_list a c = Some c1 ->
    remove_from_list a (set_map c m) = Some (set_map c1 m).
  Proof.
    unfold remove_from_list. simpl. destruct (l_heap c !! a) as [n|]; simpl; [|done].
    destruct (n_prev n) as [p|], (n_next n) as [x|]; simpl.
    - unfold write_next. simpl. destruct (l_heap c !! p); simpl; [|done].
      unfold write_prev. simpl. destruct (<[p:=_]> (l_heap c) !! x); simpl; [|done]. by intros [= <-].
    - unfold write_next. simpl. destruct (l_heap c !! p); simpl; [|done]. by intros [= <-].
    - unfold write_prev. simpl. destruct (l_heap c !! x); simpl; [|done]. by intros [= <-].
    - by intros [= <-].
  Qed.

  Lemma kvs_snoc es e : kvs (es ++ [e]) = kvs es ++ [(ek e, ev e)].
  Proof. unfold kvs. by rewrite fmap_app. Qed.
  Lemma kvs_length es : length (kvs es) = length es.
  Proof. apply fmap_length. Qed.

  Lemma evict_tail_spec c es e :
    rep c (es ++ [e]) -> exists c', evict_tail c = Some c' /\ rep c' es /\ l_cap c' = l_cap c.
  Proof.
    intros Hr. unfold evict_tail. rewrite (lr_tail _ _ (rp_list _ _ Hr)), last_addr_snoc.
    destruct (unlink_free_spec c es e [] Hr) as (c1 & c2 & n & E1 & E2 & _ & Ek & Hr2 & Hc).
    destruct (remove_from_list_spec c es e [] (rp_list _ _ Hr)) as (c1' & E1' & _ & R1').
    pose proof (set_map_remove_comm c (delete (ek e) (l_map c)) (ea e) c1' E1') as E.
    rewrite E1 in E. injection E as ->.
    rewrite E1'. simpl. unfold take_box in *. simpl in E2.
    destruct (l_heap c1' !! ea e) as [n'|]; simpl in *; [|done]. injection E2 as <- ->.
    eexists; split; [done|]. rewrite app_nil_r in Hr2.
    rewrite Ek, (sr_map _ _ _ R1'). split; [done|]. simpl in *. exact Hc.
  Qed.

  Lemma insert_new_spec c es k v :
    rep c es -> k ∉ keys es ->
    exists c', (let '(c, a) := allocate_node c k v in
                let c := set_map c (<[k := a]> (l_map c)) in
                add_to_head a c) = Some c' /\
      rep c' ((l_fresh c, k, v) :: es) /\ l_cap c' = l_cap c.
  Proof.
    intros [Hl Hk Hm Hd Hf] Hni. unfold allocate_node. simpl.
    set (c0 := set_map _ _).
    assert (Hna : l_fresh c ∉ addrs es). { intros H. apply Hf in H. lia. }
    assert (Hl0 : lrep c0 es).
    { destruct Hl as [La Lb Lc Ld]. split; simpl; try done. eapply dseg_ext; [|exact Lb].
      intros b Hb. rewrite lookup_insert_ne; [done|ne]. }
    destruct (add_to_head_spec c0 es (l_fresh c) (mkNode k v None None) Hl0
      ltac:(simpl; by rewrite lookup_insert) Hna) as (c1 & E1 & L1 & R1).
    exists c1. split; [done|]. simpl in L1. split; [split|].
    - done.
    - rewrite keys_cons. by apply NoDup_cons.
    - rewrite (sr_map _ _ _ R1). simpl. rewrite Hm. done.
    - intros a. rewrite (sr_dom _ _ _ R1). rewrite addrs_cons. change (ea (l_fresh c, k, v)) with (l_fresh c). simpl.
      destruct (decide (a = l_fresh c)) as [->|Hne].
      + rewrite lookup_insert. split; [intros _; by left|eauto].
      + rewrite lookup_insert_ne by done. rewrite Hd. ss.
    - intros a Ha. rewrite (sr_fresh _ _ _ R1). simpl. rewrite addrs_cons in Ha. change (ea (l_fresh c, k, v)) with (l_fresh c) in Ha.
      apply elem_of_cons in Ha as [->|Ha]; [lia|]. apply Hf in Ha. lia.
    - rewrite (sr_cap _ _ _ R1). done.
  Qed.

  Lemma write_val_spec c es1 e es2 v :
    rep c (es1 ++ e :: es2) ->
    exists c' n, l_heap c !! ea e = Some n /\ n_val n = ev e /\ write_val (ea e) v c = Some c' /\
      rep c' (es1 ++ (ea e, ek e, v) :: es2) /\ l_cap c' = l_cap c.
  Proof.
    intros [Hl Hk Hm Hd Hf]. destruct Hl as [La Lb Lc Ld].
    pose proof (lookup_mid _ _ _ _ Lb) as Hn. eexists _, _. split; [exact Hn|]. split; [done|].
    unfold write_val. rewrite Hn. simpl. split; [done|]. split; [|done].
    set (e' := (ea e, ek e, v)).
    assert (A : addrs (es1 ++ e' :: es2) = addrs (es1 ++ e :: es2)).
    { unfold addrs. rewrite !fmap_app, !fmap_cons. done. }
    assert (K : keys (es1 ++ e' :: es2) = keys (es1 ++ e :: es2)).
    { unfold keys. rewrite !fmap_app, !fmap_cons. done. }
    split; simpl.
    - split; simpl.
      + by rewrite A.
      + apply dseg_app in Lb as [Lb1 Lb2]. simpl in Lb2. destruct Lb2 as [_ Lb2].
        rewrite addrs_app in La. simpl in La. apply NoDup_app in La as (_ & La1 & La2).
        apply NoDup_cons in La2 as [La2 _].
        apply dseg_app. split; simpl.
        * eapply dseg_ext; [|exact Lb1]. intros b Hb. rewrite lookup_insert_ne; [done|ne].
        * split; [by rewrite lookup_insert|]. eapply dseg_ext; [|exact Lb2]. intros b Hb.
          rewrite lookup_insert_ne; [done|ne].
      + rewrite Lc. by rewrite !hd_addr_app.
      + rewrite Ld. by rewrite !last_addr_app.
    - by rewrite K.
    - rewrite Hm. by rewrite !fmap_app, !fmap_cons.
    - intros a. rewrite A, <- Hd. by eapply is_Some_insert_existing.
    - rewrite A. done.
  Qed.

  Lemma rank_walk_spec h es1 e es2 p fuel r :
    dseg h p (es1 ++ e :: es2) None -> NoDup (addrs (es1 ++ e :: es2)) -> length es1 < fuel ->
    rank_walk fuel h (hd_addr (es1 ++ e :: es2) None) (ea e) r = Some (Some (r + length es1)).
  Proof.
    revert p fuel r. induction es1 as [|y es1 IH]; intros p fuel r Hs Hnd Hf; simpl in *.
    - destruct fuel as [|fuel]; [lia|]. simpl. rewrite N.eqb_refl. by rewrite Nat.add_0_r.
    - destruct fuel as [|fuel]; [lia|]. simpl. destruct Hs as [Hy Hs].
      apply NoDup_cons in Hnd as [Hny Hnd].
      destruct (N.eqb_spec (ea y) (ea e)) as [E|E].
      + exfalso. apply Hny. rewrite E, addrs_app. simpl. ss.
      + rewrite Hy. simpl. rewrite (IH _ _ _ Hs Hnd) by lia. do 2 f_equal. lia.
  Qed.

  Lemma position_mid es1 e es2 : NoDup (keys (es1 ++ e :: es2)) ->
    position (ek e) (kvs (es1 ++ e :: es2)) = Some (length es1).
  Proof.
    induction es1 as [|y es1 IH]; intros Hnd.
    - rewrite ?app_nil_l, kvs_cons. cbn [drop_key position]. by rewrite N.eqb_refl.
    - rewrite <- !app_comm_cons in *. rewrite !kvs_cons. cbn [drop_key position].
      rewrite keys_cons in Hnd. apply NoDup_cons in Hnd as [Hy Hnd].
      destruct (N.eqb_spec (ek e) (ek y)) as [E|E].
      + exfalso. apply Hy. rewrite <- E, keys_app, keys_cons. clear. set_solver.
      + by rewrite IH.
  Qed.

  Lemma position_None k (l : list (N * V)) : k ∉ l.*1 -> position k l = None.
  Proof.
    induction l as [|[k' v] l IH]; simpl; intros H; [done|].
    destruct (N.eqb_spec k k'); [ss|]. rewrite IH; [done|ss].
  Qed.
  Lemma drop_key_None k (l : list (N * V)) : k ∉ l.*1 -> drop_key k l = l.
  Proof.
    induction l as [|[k' v] l IH]; simpl; intros H; [done|].
    destruct (N.eqb_spec k k'); [ss|]. rewrite IH; [done|ss].
  Qed.

  Lemma clear_spec c es : rep c es ->
    exists c', lru_clear c = Some c' /\ rep c' [] /\ l_cap c' = l_cap c.
  Proof.
    intros [Hl Hk Hm Hd Hf]. unfold lru_clear.
    assert (P : (map_to_list (l_map c)).*2 ≡ₚ addrs es).
    { rewrite Hm. fold (km es). rewrite map_to_list_to_map by (by rewrite km_fst).
      unfold km. rewrite <- list_fmap_compose. done. }
    set (as_ := (map_to_list (l_map c)).*2) in *.
    assert (Hnd : NoDup as_) by (rewrite P; apply Hl).
    assert (Hdom : forall a, is_Some (l_heap c !! a) <-> a ∈ as_) by (intros a; rewrite P; apply Hd).
    assert (G : forall (as' : list N), NoDup as' -> (forall a, a ∈ as' -> is_Some (l_heap c !! a)) ->
      exists h, foldr (fun a (acc : option (gmap N (node V))) => h ← acc; n ← h !! a; Some (delete a h))
        (Some (l_heap c)) as' = Some h /\
      forall a, h !! a = if decide (a ∈ as') then None else l_heap c !! a).
    { induction as' as [|a as' IH]; simpl; intros Hnd' Hin.
      - eexists; split; [done|]. intros a. destruct (decide (a ∈ [])); [ss|done].
      - apply NoDup_cons in Hnd' as [Ha Hnd'].
        destruct IH as (h & -> & Hh); [done|intros b Hb; apply Hin; by right|]. simpl.
        pose proof (Hh a) as Hha. rewrite decide_False in Hha by done.
        destruct (Hin a) as [n Hn]; [by left|]. rewrite Hha, Hn. simpl.
        eexists; split; [done|]. intros b. destruct (decide (b = a)) as [->|Hne].
        + rewrite lookup_delete, decide_True; [done|by left].
        + rewrite lookup_delete_ne by done. rewrite Hh.
          destruct (decide (b ∈ as')); [rewrite decide_True; [done|by right]|].
          rewrite decide_False; [done|ss]. }
    destruct (G as_ Hnd) as (h & E & Hh); [intros a Ha; by apply Hdom|].
    rewrite E. simpl. eexists; split; [done|]. split; [|done]. split; simpl; try done.
    - split; simpl; try done. constructor.
    - constructor.
    - intros a. rewrite Hh. destruct (decide (a ∈ as_)) as [Ha|Ha].
      + split; [by intros []|ss].
      + rewrite Hdom. ss.
    - ss.
  Qed.

  Lemma removelast_snoc {A} (l : list A) x : removelast (l ++ [x]) = l.
  Proof. apply removelast_last. Qed.

  Lemma map_size c es : rep c es -> size (l_map c) = length es.
  Proof.
    intros [_ Hk Hm _ _]. rewrite Hm. fold (km es). rewrite size_list_to_map by (by rewrite km_fst).
    apply fmap_length.
  Qed.

  Lemma heap_size c es : rep c es -> length es <= size (l_heap c).
  Proof.
    intros [Hl _ _ Hd _]. rewrite <- (fmap_length ea es).
    assert (S : list_to_set (addrs es) ⊆ dom (l_heap c)).
    { intros a Ha. apply elem_of_list_to_set in Ha. apply elem_of_dom. by apply Hd. }
    apply subseteq_size in S. rewrite size_list_to_set in S by apply Hl. by rewrite size_dom in S.
  Qed.

  Lemma lru_step_spec c es o : rep c es ->
    exists c' es', lru_step c o = Some (c', snd (lru_spec (l_cap c) (kvs es) o)) /\
      rep c' es' /\ kvs es' = fst (lru_spec (l_cap c) (kvs es) o) /\ l_cap c' = l_cap c.
  Proof.
    intros Hr. destruct o as [k v|k|k|k| | |k| | |k|k]; simpl.
    - unfold lru_insert. destruct (map_lookup c es k Hr) as [(Em & Ea & Hni)|(es1 & e & es2 & -> & <- & Em & Ea)];
        rewrite Em, Ea.
      + destruct (Nat.eqb (l_cap c) 0); simpl; [by exists c, es|].
        rewrite (map_size c es Hr), kvs_length.
        assert (G : forall c0 es0, rep c0 es0 -> k ∉ keys es0 -> l_cap c0 = l_cap c ->
          exists c', (let '(c, a) := allocate_node c0 k v in
              let c := set_map c (<[k := a]> (l_map c)) in c ← add_to_head a c; Some (c, @None V)) = Some (c', None)
            /\ rep c' ((l_fresh c0, k, v) :: es0) /\ l_cap c' = l_cap c).
        { intros c0 es0 Hr0 Hni0 Hc0. destruct (insert_new_spec c0 es0 k v Hr0 Hni0) as (c' & E & Hr' & Hc').
          simpl in *. rewrite E. simpl. exists c'. split_and!; [done|done|congruence]. }
        destruct (Nat.leb_spec (l_cap c) (length es)) as [Hfull|Hfree].
        * destruct es as [|e es _] using rev_ind.
          -- unfold evict_tail. rewrite (lr_tail _ _ (rp_list _ _ Hr)). simpl.
             destruct (G c [] Hr Hni eq_refl) as (c' & E & Hr' & Hc'). simpl in E. rewrite E. simpl.
             eexists _, _. split; [done|]. by split_and!.
          -- destruct (evict_tail_spec c es e Hr) as (c1 & E1 & Hr1 & Hc1). rewrite E1. simpl.
             destruct (G c1 es Hr1) as (c' & E & Hr' & Hc').
             { unfold keys in Hni |- *. rewrite fmap_app in Hni. ss. }
             { done. }
             simpl in E. rewrite E. simpl. eexists _, _. split; [done|]. split; [done|]. split; [|done].
             simpl. f_equal. by rewrite kvs_snoc, removelast_snoc.
        * simpl. destruct (G c es Hr Hni eq_refl) as (c' & E & Hr' & Hc'). simpl in E. rewrite E. simpl.
          eexists _, _. split; [done|]. by split_and!.
      + destruct (write_val_spec c es1 e es2 v Hr) as (c1 & n & En & Ev & E1 & Hr1 & Hc1).
        rewrite En. simpl. rewrite E1. simpl.
        destruct (move_to_head_spec c1 es1 (ea e, ek e, v) es2 Hr1) as (c2 & E2 & Hr2 & Hc2).
        change (ea (ea e, ek e, v)) with (ea e) in E2. rewrite E2. simpl.
        eexists _, _. split; [by rewrite Ev|]. split; [exact Hr2|]. split; [|congruence].
        simpl. rewrite drop_key_mid by apply Hr. done.
    - unfold lru_get. destruct (map_lookup c es k Hr) as [(Em & Ea & Hni)|(es1 & e & es2 & -> & <- & Em & Ea)];
        rewrite Em, Ea.
      + by exists c, es.
      + destruct (move_to_head_spec c es1 e es2 Hr) as (c2 & E2 & Hr2 & Hc2). rewrite E2. simpl.
        pose proof (lookup_mid _ [] _ _ (lr_seg _ _ (rp_list _ _ Hr2))) as Hn. rewrite Hn. simpl.
        eexists _, _. split; [done|]. split; [exact Hr2|]. split; [|done].
        simpl. rewrite drop_key_mid by apply Hr. done.
    - unfold lru_peek. destruct (map_lookup c es k Hr) as [(Em & Ea & Hni)|(es1 & e & es2 & -> & <- & Em & Ea)];
        rewrite Em, Ea; simpl.
      + by exists c, es.
      + rewrite (lookup_mid _ _ _ _ (lr_seg _ _ (rp_list _ _ Hr))). simpl. eexists _, _. split; [done|]. by split.
    - exists c, es. split; [|done]. do 3 f_equal.
      destruct (map_lookup c es k Hr) as [(Em & Ea & Hni)|(es1 & e & es2 & -> & <- & Em & Ea)];
        rewrite Em, Ea; [done|]. apply bool_decide_ext. split; eauto.
    - exists c, es. split; [|done]. rewrite (map_size c es Hr). by rewrite kvs_length.
    - destruct (clear_spec c es Hr) as (c1 & E1 & Hr1 & Hc1). rewrite E1. simpl. by exists c1, [].
    - unfold lru_remove. destruct (map_lookup c es k Hr) as [(Em & Ea & Hni)|(es1 & e & es2 & -> & <- & Em & Ea)];
        rewrite Em, Ea; simpl.
      + exists c, es. split; [done|]. split; [done|]. split; [|done].
        by rewrite drop_key_None by (by rewrite kvs_fst).
      + destruct (unlink_free_spec c es1 e es2 Hr) as (c1 & c2 & n & E1 & E2 & Ev & _ & Hr2 & Hc2).
        rewrite E1. simpl. rewrite E2. simpl. eexists _, _. split; [by rewrite Ev|].
        split; [exact Hr2|]. split; [|done]. by rewrite drop_key_mid by apply Hr.
    - unfold lru_pop. rewrite (lr_tail _ _ (rp_list _ _ Hr)).
      destruct es as [|e es _] using rev_ind; simpl; [by exists c, []|].
      rewrite last_addr_snoc. rewrite (lookup_mid _ _ _ _ (lr_seg _ _ (rp_list _ _ Hr))). simpl.
      destruct (unlink_free_spec c es e [] Hr) as (c1 & c2 & n & E1 & E2 & Ev & _ & Hr2 & Hc2).
      rewrite E1. simpl. rewrite E2. simpl. rewrite app_nil_r in Hr2. eexists _, _.
      rewrite kvs_snoc, last_snoc, removelast_snoc, Ev. done.
    - unfold lru_peek_lru. rewrite (lr_tail _ _ (rp_list _ _ Hr)).
      destruct es as [|e es _] using rev_ind; simpl; [by exists c, []|].
      rewrite last_addr_snoc. rewrite (lookup_mid _ _ _ _ (lr_seg _ _ (rp_list _ _ Hr))). simpl.
      eexists _, _. rewrite kvs_snoc, last_snoc. split; [done|]. split; [exact Hr|]. by rewrite kvs_snoc.
    - unfold lru_touch. destruct (map_lookup c es k Hr) as [(Em & Ea & Hni)|(es1 & e & es2 & -> & <- & Em & Ea)];
        rewrite Em, Ea.
      + by exists c, es.
      + destruct (move_to_head_spec c es1 e es2 Hr) as (c2 & E2 & Hr2 & Hc2). rewrite E2. simpl.
        eexists _, _. split; [done|]. split; [exact Hr2|]. split; [|done].
        simpl. rewrite drop_key_mid by apply Hr. done.
    - unfold lru_rank. exists c, es.
      destruct (map_lookup c es k Hr) as [(Em & Ea & Hni)|(es1 & e & es2 & -> & <- & Em & Ea)]; rewrite Em.
      + simpl. by rewrite position_None by (by rewrite kvs_fst).
      + rewrite (lr_head _ _ (rp_list _ _ Hr)).
        rewrite (rank_walk_spec _ es1 e es2 None).
        * simpl. by rewrite position_mid by apply Hr.
        * apply Hr.
        * apply Hr.
        * pose proof (heap_size _ _ Hr) as Hs. rewrite app_length in Hs. simpl in Hs. lia.
  Qed.

  Lemma lru_run_spec ops : forall c es, rep c es ->
    exists c' es', lru_run c ops = Some (c', snd (run_ops (lru_spec (l_cap c)) (kvs es) ops)) /\ rep c' es' /\
      kvs es' = fst (run_ops (lru_spec (l_cap c)) (kvs es) ops).
  Proof.
    induction ops as [|o ops IH]; intros c es Hr; simpl; [by exists c, es|].
    destruct (lru_step_spec c es o Hr) as (c1 & es1 & E1 & Hr1 & K1 & Hc1). rewrite E1. simpl.
    destruct (lru_spec (l_cap c) (kvs es) o) as [l1 r1]; simpl in *. subst l1.
    destruct (IH c1 es1 Hr1) as (c2 & es2 & E2 & Hr2 & K2). rewrite E2. simpl. rewrite Hc1 in *.
    destruct (run_ops (lru_spec (l_cap c)) (kvs es1) ops) as [l2 rs]; simpl in *. by exists c2, es2.
  Qed.

  Lemma lru_refines cap (ops : list (lru_op V)) :
    exists c, lru_run (lru_new cap) ops = Some (c, snd (run_ops (lru_spec cap) [] ops)) /\
      (forall a, is_Some (l_heap c !! a) <-> exists k, l_map c !! k = Some a) /\
      (forall k a, l_map c !! k = Some a -> exists n, l_heap c !! a = Some n /\ n_key n = k).
  Proof.
    destruct (lru_run_spec ops (lru_new cap) [] (rep_new cap)) as (c & es & E & Hr & _).
    exists c. split; [exact E|]. split.
    - intros a. rewrite (rp_dom _ _ Hr). split.
      + intros Ha. apply elem_of_list_fmap in Ha as (e & -> & He). exists (ek e).
        rewrite (rp_map _ _ Hr). fold (km es). apply elem_of_list_to_map; [rewrite km_fst; apply Hr|].
        apply elem_of_list_fmap. by exists e.
      + intros (k & Hk). rewrite (rp_map _ _ Hr) in Hk. fold (km es) in Hk.
        apply elem_of_list_to_map in Hk; [|rewrite km_fst; apply Hr].
        apply elem_of_list_fmap in Hk as (e & [= -> ->] & He). apply elem_of_list_fmap. by exists e.
    - intros k a Hk. rewrite (rp_map _ _ Hr) in Hk. fold (km es) in Hk.
      apply elem_of_list_to_map in Hk; [|rewrite km_fst; apply Hr].
      apply elem_of_list_fmap in Hk as (e & [= -> ->] & He).
      apply elem_of_list_split in He as (es1 & es2 & ->).
      eexists; split; [apply (lookup_mid _ _ _ _ (lr_seg _ _ (rp_list _ _ Hr)))|done].
  Qed.

  Lemma lru_bounded cap (ops : list (lru_op V)) c rs :
    lru_run (lru_new cap) ops = Some (c, rs) -> size (l_map c) <= cap.
  Proof.
    destruct (lru_run_spec ops (lru_new cap) [] (rep_new cap)) as (c' & es & E & Hr & K).
    rewrite E. intros [= -> _]. rewrite (map_size c es Hr), <- kvs_length, K. simpl.
    assert (G : forall (l : list (N * V)), length l <= cap -> length (fst (run_ops (lru_spec cap) l ops)) <= cap).
    2: { apply G. simpl. lia. }
    clear. induction ops as [|o ops IH]; intros l Hl; simpl; [done|].
    destruct (lru_spec cap l o) as [l1 r] eqn:Es.
    assert (D : forall k (l : list (N * V)), length (drop_key k l) <= length l).
    { clear. intros k l. induction l as [|[k' v] l IH]; simpl; [lia|]. destruct (N.eqb k k'); simpl; lia. }
    assert (D2 : forall k v (l : list (N * V)), assoc k l = Some v -> length (drop_key k l) < length l).
    { clear. intros k v l. induction l as [|[k' v'] l IH]; simpl; [done|]. destruct (N.eqb k k'); simpl; [lia|].
      intros H. apply IH in H. lia. }
    assert (RL : forall (l : list (N * V)), length (removelast l) = length l - 1).
    { clear. intros l. destruct l as [|e l _] using rev_ind; [done|]. rewrite removelast_snoc, app_length. simpl. lia. }
    assert (length l1 <= cap).
    { destruct o as [k v|k|k|k| | |k| | |k|k]; simpl in Es; try (injection Es as <- _; simpl; lia).
      - destruct (assoc k l) eqn:Ea; [injection Es as <- _; simpl; apply D2 in Ea; lia|].
        destruct (Nat.eqb_spec cap 0); [injection Es as <- _; lia|]. injection Es as <- _. simpl.
        destruct (Nat.leb_spec cap (length l)); [rewrite RL|]; lia.
      - destruct (assoc k l) eqn:Ea; injection Es as <- _; [simpl; apply D2 in Ea|]; lia.
      - injection Es as <- _. specialize (D k l). lia.
      - injection Es as <- _. rewrite RL. lia.
      - destruct (assoc k l) eqn:Ea; injection Es as <- _; [simpl; apply D2 in Ea|]; lia. }
    specialize (IH l1 H). destruct (run_ops (lru_spec cap) l1 ops). done.
  Qed.
End proofs.
