(** * Proofs about table heaps *)
From stdpp Require Import gmap list.
From Coq Require Import NArith Lia ZifyBool ZifyNat ZifyN.
From Verif Require Import Bytes PageModel PageSpec PageProofs TheapModel TheapSpec.
Local Open Scope N_scope.

(** ** The chain of pages as a table *)

Notation chain := (list (N * list row)).

Definition tag (id : N) (rs : list row) : table := imap (fun k r => ((id, k), r)) rs.
Definition flat (ch : chain) : table := concat (map (fun e => tag e.1 e.2) ch).

Lemma tag_length id rs : length (tag id rs) = length rs.
Proof. apply imap_length. Qed.
Lemma tag_lookup id rs k : tag id rs !! k = (fun r => ((id, k), r)) <$> rs !! k.
Proof. unfold tag. by rewrite list_lookup_imap. Qed.
Lemma tag_snoc id rs r : tag id (rs ++ [r]) = tag id rs ++ [((id, length rs), r)].
Proof. unfold tag. rewrite imap_app. cbn. by rewrite Nat.add_0_r. Qed.

Lemma flat_app a b : flat (a ++ b) = flat a ++ flat b.
Proof. unfold flat. by rewrite map_app, concat_app. Qed.
Lemma flat_cons id rs b : flat ((id, rs) :: b) = tag id rs ++ flat b.
Proof. done. Qed.

Lemma tget_app t1 t2 r : tget (t1 ++ t2) r = match tget t1 r with Some x => Some x | None => tget t2 r end.
Proof. induction t1 as [|[r1 x] t1 IH]; cbn; [done|]. by destruct (decide (r1 = r)). Qed.

Lemma tget_none t r : (forall x, (r, x) ∉ t) -> tget t r = None.
Proof.
  induction t as [|[r1 x] t IH]; intros H; cbn; [done|]. destruct (decide (r1 = r)) as [->|].
  - exfalso. apply (H x). apply elem_of_cons. by left.
  - apply IH. intros y Hy. apply (H y). apply elem_of_cons. by right.
Qed.

Lemma elem_of_tag id rs r x : (r, x) ∈ tag id rs <-> r.1 = id /\ rs !! r.2 = Some x.
Proof.
  rewrite elem_of_list_lookup. split.
  - intros [k Hk]. rewrite tag_lookup in Hk. destruct (rs !! k) as [x0|] eqn:E; [|done]. cbn in Hk.
    assert (r = (id, k) /\ x = x0) as [-> ->] by (split; congruence). done.
  - destruct r as [i k]. cbn. intros [-> H]. exists k. by rewrite tag_lookup, H.
Qed.

Lemma tget_tag id rs k : tget (tag id rs) (id, k) = rs !! k.
Proof.
  assert (G : forall n, tget (imap (fun k r => ((id, (n + k)%nat), r)) rs) (id, (n + k)%nat) = rs !! k).
  { revert k. induction rs as [|r rs IH]; intros k n; cbn [imap tget]; [done|].
    destruct (decide ((id, (n + 0)%nat) = (id, (n + k)%nat))) as [E|E].
    - assert (k = 0%nat) by (injection E; lia). by subst.
    - destruct k as [|k]; [by rewrite Nat.add_0_r in E|]. change ((r :: rs) !! S k) with (rs !! k).
      rewrite <- (IH k (S n)). unfold compose. rewrite Nat.add_succ_r. f_equal. apply imap_ext. intros i x _. by rewrite Nat.add_succ_r. }
  apply (G 0%nat).
Qed.

Lemma elem_of_flat ch r x : (r, x) ∈ flat ch <-> exists i rs, ch !! i = Some (r.1, rs) /\ rs !! r.2 = Some x.
Proof.
  induction ch as [|[id rs] ch IH].
  - split; [intros H; by apply elem_of_nil in H|]. intros (i & rs & H & _). done.
  - rewrite flat_cons, elem_of_app, elem_of_tag, IH. split.
    + intros [[H1 H2]|(i & rs' & H1 & H2)]; [exists 0%nat, rs; by subst|by exists (S i), rs'].
    + intros (i & rs' & H1 & H2). destruct i as [|i]; [left|right; by exists i, rs'].
      cbn in H1. assert (id = r.1 /\ rs = rs') as [-> ->] by (split; congruence). done.
Qed.

Lemma tget_flat ch i id rs k :
  NoDup (map fst ch) -> ch !! i = Some (id, rs) -> tget (flat ch) (id, k) = rs !! k.
Proof.
  intros Hnd Hi. apply elem_of_list_split_length in Hi as (a & b & -> & _).
  rewrite map_app in Hnd. cbn in Hnd. apply NoDup_app in Hnd as (_ & Hd & Hnd). apply NoDup_cons in Hnd as [Hb _].
  rewrite flat_app, flat_cons, !tget_app, tget_tag.
  rewrite (tget_none (flat a)).
  - destruct (rs !! k) eqn:E; [done|]. apply tget_none. intros x Hx.
    apply elem_of_flat in Hx as (j & rs' & Hj & _). cbn in Hj. apply Hb. apply elem_of_list_fmap.
    exists (id, rs'). split; [done|]. by apply elem_of_list_lookup_2 in Hj.
  - intros x Hx. apply elem_of_flat in Hx as (j & rs' & Hj & _). cbn in Hj. apply (Hd id).
    + apply elem_of_list_fmap. exists (id, rs'). split; [done|]. by apply elem_of_list_lookup_2 in Hj.
    + by left.
Qed.

Lemma tget_flat_none ch id k : id ∉ map fst ch -> tget (flat ch) (id, k) = None.
Proof.
  intros H. apply tget_none. intros x Hx. apply elem_of_flat in Hx as (j & rs' & Hj & _). cbn in Hj. apply H.
  apply elem_of_list_fmap. exists (id, rs'). split; [done|]. by apply elem_of_list_lookup_2 in Hj.
Qed.

Lemma tset_app t1 t2 r f : tset (t1 ++ t2) r f = tset t1 r f ++ tset t2 r f.
Proof. apply map_app. Qed.

Lemma tset_other t r f : (forall x, (r, x) ∉ t) -> tset t r f = t.
Proof.
  intros H. unfold tset. rewrite <- (map_id t) at 2. apply map_ext_in. intros [r1 x] Hin. apply elem_of_list_In in Hin. cbn.
  destruct (decide (r1 = r)) as [->|]; [|done]. by apply H in Hin.
Qed.

Lemma tset_tag id rs k f : tset (tag id rs) (id, k) f = tag id (alter f k rs).
Proof.
  apply list_eq. intros j. unfold tset. rewrite list_lookup_fmap, !tag_lookup.
  destruct (decide (j = k)) as [->|Hj].
  - rewrite list_lookup_alter. destruct (rs !! k); cbn; [|done]. by destruct (decide ((id, k) = (id, k))).
  - rewrite list_lookup_alter_ne by congruence. destruct (rs !! j); cbn; [|done].
    destruct (decide ((id, j) = (id, k))) as [E|]; [|done]. congruence.
Qed.

Lemma tset_flat ch i id rs k f :
  NoDup (map fst ch) -> ch !! i = Some (id, rs) -> tset (flat ch) (id, k) f = flat (<[i := (id, alter f k rs)]> ch).
Proof.
  intros Hnd Hi. apply elem_of_list_split_length in Hi as (a & b & -> & ->).
  rewrite map_app in Hnd. cbn in Hnd. apply NoDup_app in Hnd as (_ & Hd & Hnd). apply NoDup_cons in Hnd as [Hb _].
  rewrite insert_app_r_alt by lia. rewrite Nat.sub_diag. cbn [insert list_insert].
  rewrite !flat_app, !flat_cons, !tset_app, tset_tag. f_equal; [|f_equal].
  - apply tset_other. intros x Hx. apply elem_of_flat in Hx as (j & rs' & Hj & _). cbn in Hj. apply (Hd id); [|by left].
    apply elem_of_list_fmap. exists (id, rs'). split; [done|]. by apply elem_of_list_lookup_2 in Hj.
  - apply tset_other. intros x Hx. apply elem_of_flat in Hx as (j & rs' & Hj & _). cbn in Hj. apply Hb.
    apply elem_of_list_fmap. exists (id, rs'). split; [done|]. by apply elem_of_list_lookup_2 in Hj.
Qed.

(** ** Invariant *)

Definition at_or_none (ch : chain) (i : nat) : N := match ch !! i with Some e => e.1 | None => no_page end.

Record heap_ok (grown : N -> Prop) (h : heap) (ch : chain) : Prop := HeapOk {
  ho_nodup : NoDup (map fst ch);
  ho_valid : no_page ∉ map fst ch;
  ho_page : forall i id rs, ch !! i = Some (id, rs) ->
    exists p, h_pages h !! id = Some p /\ p_id p = id /\ pinv (grown id) p rs /\
      p_next p = at_or_none ch (S i) /\ p_prev p = match i with O => no_page | S j => at_or_none ch j end;
  ho_dom : forall id p, h_pages h !! id = Some p -> id ∈ map fst ch;
  ho_first : h_first h = at_or_none ch 0;
  ho_last : h_last h = match last ch with Some e => e.1 | None => no_page end;
  ho_used : forall i id, ch !! i = Some (id, []) -> length ch = 1%nat
}.

Lemma heap_ok_new a : a <> Some no_page -> exists ch, heap_ok (fun _ => False) (new_heap a) ch /\ flat ch = [] /\
  map fst ch = omap id [a].
Proof.
  intros Ha. destruct a as [n|].
  - exists [(n, [])]. split; [|done]. split; cbn -[no_page].
    + apply NoDup_singleton.
    + intros H. apply elem_of_list_singleton in H. apply Ha. f_equal. symmetry. exact H.
    + intros i id rs Hi. destruct i as [|i]; [|done]. cbn in Hi. assert (n = id /\ rs = []) as [-> ->] by (split; congruence).
      exists (new_page id). rewrite lookup_singleton. split; [done|]. split; [done|]. split; [apply pinv_new|done].
    + intros id p H. apply lookup_singleton_Some in H as [<- _]. by left.
    + done.
    + done.
    + intros i id Hi. done.
  - exists []. split; [|done]. split; cbn; try done; first [constructor | by intros H%elem_of_nil | intros id p H; by rewrite lookup_empty in H].
Qed.

Lemma heap_get_ok g h ch r : heap_ok g h ch ->
  heap_get r h = match tget (flat ch) r with Some x => if tm_del x.1 then None else Some x | None => None end.
Proof.
  intros H. unfold heap_get. destruct r as [id k]. cbn [fst snd]. destruct (h_pages h !! id) as [p|] eqn:E.
  - pose proof (ho_dom _ _ _ H _ _ E) as Hin. apply elem_of_list_fmap in Hin as ([id' rs] & Eid & Hin). cbn in Eid. subst id'.
    apply elem_of_list_lookup in Hin as [i Hi]. destruct (ho_page _ _ _ H _ _ _ Hi) as (p' & Hp & Hid & I & _).
    assert (p' = p) by congruence. subst p'. rewrite (tget_flat ch i id rs k (ho_nodup _ _ _ H) Hi).
    rewrite <- Hid at 1. rewrite (pinv_get _ _ _ k false I). unfold row_get. destruct (rs !! k) as [[m bs]|]; [|done]. cbn.
    by destruct (tm_del m).
  - rewrite tget_flat_none; [done|]. intros Hin. apply elem_of_list_fmap in Hin as ([id' rs] & Eid & Hin). cbn in Eid. subst id'.
    apply elem_of_list_lookup in Hin as [i Hi]. destruct (ho_page _ _ _ H _ _ _ Hi) as (p' & Hp & _). congruence.
Qed.

(** ** Room on a fresh page *)

Lemma fresh_room n m bs p :
  p_info p = [] -> p_num p = 0 -> too_large (new_page n) bs = false ->
  has_space m bs p = true /\ exists p2, insert_with_rid m bs p = Some p2.
Proof.
  intros Hi Hn Ht. unfold too_large in Ht. apply orb_false_iff in Ht as [Ht _]. unfold max_tuple in Ht.
  assert (Eu : as_u16 (blen bs) = blen bs) by (unfold as_u16; apply N.mod_small; lia).
  pose proof (meta_enc_length m) as Hm.
  assert (Ef : footprint_new p m = 41 + blen (meta_enc m)) by (unfold footprint_new; rewrite Hi; cbn [info_bytes foldr]; lia).
  assert (Eo : next_offset p m bs = Some (4096 - blen bs)).
  { unfold next_offset, too_large. unfold footprint_new at 1. rewrite Hi. cbn [info_bytes foldr]. rewrite Eu.
    change (blen (meta_enc (TMeta 0 None false None))) with 4. unfold max_tuple, psize.
    destruct ((3500 <? blen bs) || (4096 <? blen bs + (1 + 28 + 4 + 0 + 4 + 4 + 4))) eqn:E; [lia|].
    destruct (3500 <? blen bs) eqn:E2; [lia|]. rewrite Hn. cbn [N.ltb N.compare].
    rewrite Ef. unfold as_u16. rewrite N.mod_small by lia.
    destruct (4096 - blen bs <? 41 + blen (meta_enc m)) eqn:E3; [lia|done]. }
  split.
  - unfold has_space. rewrite Eo. destruct (too_large p bs) eqn:E; [|done]. unfold next_offset in Eo. by rewrite E in Eo.
  - unfold insert_with_rid. rewrite Eo. destruct (4096 - blen bs + blen bs <=? psize) eqn:E; [by eexists|]. unfold psize in E. lia.
Qed.

(** ** Appending a row to the last page *)

Lemma insert_last_ok g h ch0 id rs p p2 m bs :
  heap_ok g h (ch0 ++ [(id, rs)]) -> h_pages h !! id = Some p -> insert_with_rid m bs p = Some p2 -> ~ g id ->
  heap_ok g (Heap (<[id := p2]> (h_pages h)) (h_first h) (h_last h)) (ch0 ++ [(id, rs ++ [(m, bs)])]).
Proof.
  intros H Hp E Hg.
  assert (Hi : (ch0 ++ [(id, rs)]) !! length ch0 = Some (id, rs)) by (by rewrite lookup_app_r, Nat.sub_diag by lia).
  destruct (ho_page _ _ _ H _ _ _ Hi) as (p' & Hp' & Hid & I & Hnx & Hpv). assert (p' = p) by congruence. subst p'.
  destruct (insert_pinv _ m bs p p2 rs I Hg E) as (I2 & Hid2 & o & _ & _ & _ & Hnx2 & Hpv2 & _).
  assert (Hfst : map fst (ch0 ++ [(id, rs ++ [(m, bs)])]) = map fst (ch0 ++ [(id, rs)])) by (by rewrite !map_app).
  assert (Hat : forall i, at_or_none (ch0 ++ [(id, rs ++ [(m, bs)])]) i = at_or_none (ch0 ++ [(id, rs)]) i).
  { intros i. unfold at_or_none. destruct (decide (i < length ch0)%nat).
    - by rewrite !lookup_app_l by lia.
    - rewrite !lookup_app_r by lia. by destruct (i - length ch0)%nat. }
  split; cbn [h_pages h_first h_last].
  - rewrite Hfst. apply (ho_nodup _ _ _ H).
  - rewrite Hfst. apply (ho_valid _ _ _ H).
  - intros i id' rs' Hl. rewrite Hat. apply lookup_snoc_Some in Hl as [[Hlt Hl]|[-> Hl]].
    + assert (Hl' : (ch0 ++ [(id, rs)]) !! i = Some (id', rs')) by (by rewrite lookup_app_l).
      destruct (ho_page _ _ _ H _ _ _ Hl') as (q & Hq & Hqid & Iq & Hqn & Hqp).
      assert (id' <> id).
      { intros ->. pose proof (ho_nodup _ _ _ H) as Hnd. rewrite map_app in Hnd. apply NoDup_app in Hnd as (_ & Hnd & _).
        apply (Hnd id); [|by left]. apply elem_of_list_fmap. exists (id, rs'). split; [done|]. by apply elem_of_list_lookup_2 with i. }
      exists q. rewrite lookup_insert_ne by congruence. do 4 (split; [done|]). destruct i; [done|]. by rewrite Hat.
    + assert (id' = id /\ rs' = rs ++ [(m, bs)]) as [-> ->] by (split; congruence).
      exists p2. rewrite lookup_insert. split; [done|]. split; [congruence|]. split; [done|]. split; [congruence|].
      rewrite Hpv2, Hpv. destruct (length ch0); [done|]. by rewrite Hat.
  - intros id' q Hq. rewrite Hfst. destruct (decide (id' = id)) as [->|Hne].
    + rewrite map_app. apply elem_of_app. right. by left.
    + rewrite lookup_insert_ne in Hq by congruence. by apply (ho_dom _ _ _ H _ _ Hq).
  - rewrite (ho_first _ _ _ H). by rewrite Hat.
  - rewrite (ho_last _ _ _ H). by rewrite !last_snoc.
  - intros i id' Hl. apply lookup_snoc_Some in Hl as [[Hlt Hl]|[-> Hl]].
    + assert (Hl' : (ch0 ++ [(id, rs)]) !! i = Some (id', [])) by (by rewrite lookup_app_l).
      pose proof (ho_used _ _ _ H _ _ Hl') as Hu. rewrite app_length in Hu |- *. cbn in *. lia.
    + exfalso. assert (rs ++ [(m, bs)] = []) as E0 by congruence. by destruct rs.
Qed.

Lemma flat_snoc_row ch0 id rs x : flat (ch0 ++ [(id, rs ++ [x])]) = flat (ch0 ++ [(id, rs)]) ++ [((id, length rs), x)].
Proof. rewrite !flat_app, !flat_cons, tag_snoc. cbn [flat map concat]. rewrite !app_nil_r. by rewrite <- app_assoc. Qed.

(** ** Adding a page *)

Lemma pinv_false_any (g : Prop) p rs : pinv False p rs -> pinv g p rs.
Proof. intros I. apply (pinv_grown False); [done|tauto]. Qed.

Lemma add_page_ok g h ch0 lid lrs lp n m bs np2 :
  heap_ok g h (ch0 ++ [(lid, lrs)]) -> h_pages h !! lid = Some lp -> lrs <> [] ->
  n ∉ map fst (ch0 ++ [(lid, lrs)]) -> n <> no_page ->
  insert_with_rid m bs (set_prev lid (new_page n)) = Some np2 ->
  heap_ok g (Heap (<[n := np2]> (<[lid := set_next n lp]> (<[n := set_prev lid (new_page n)]> (h_pages h)))) (h_first h) n)
          (ch0 ++ [(lid, lrs)] ++ [(n, [(m, bs)])]).
Proof.
  intros H Hlp Hne Hn Hnv E. rewrite app_assoc. set (ch := ch0 ++ [(lid, lrs)]) in *.
  assert (Hlast : ch !! length ch0 = Some (lid, lrs)) by (unfold ch; by rewrite lookup_app_r, Nat.sub_diag by lia).
  assert (Hlen : length ch = S (length ch0)) by (unfold ch; rewrite app_length; cbn; lia).
  assert (Hln : lid <> n).
  { intros ->. apply Hn. apply elem_of_list_fmap. exists (n, lrs). split; [done|]. by apply elem_of_list_lookup_2 in Hlast. }
  assert (Hat : forall i, (i < length ch)%nat -> at_or_none (ch ++ [(n, [(m, bs)])]) i = at_or_none ch i).
  { intros i Hi. unfold at_or_none. by rewrite lookup_app_l. }
  assert (Hatn : at_or_none (ch ++ [(n, [(m, bs)])]) (length ch) = n) by (unfold at_or_none; by rewrite lookup_app_r, Nat.sub_diag by lia).
  assert (Hato : at_or_none (ch ++ [(n, [(m, bs)])]) (S (length ch)) = no_page).
  { unfold at_or_none. rewrite lookup_ge_None_2; [done|]. rewrite app_length. cbn. lia. }
  assert (Inp : pinv False (set_prev lid (new_page n)) []) by (apply (links_pinv False (new_page n)); [apply pinv_new|done|done|done]).
  destruct (insert_pinv False m bs _ np2 [] Inp ltac:(tauto) E) as (I2 & Hid2 & o & _ & _ & _ & Hnx2 & Hpv2 & _).
  split; cbn [h_pages h_first h_last].
  - rewrite map_app. apply NoDup_app. split; [apply (ho_nodup _ _ _ H)|]. split; [|apply NoDup_singleton].
    intros x Hx Hx'. apply elem_of_list_singleton in Hx'. by subst.
  - rewrite map_app. intros Hx. apply elem_of_app in Hx as [Hx|Hx]; [by apply (ho_valid _ _ _ H)|].
    apply elem_of_list_singleton in Hx. cbn -[no_page] in Hx. congruence.
  - intros i id rs Hi. apply lookup_snoc_Some in Hi as [[Hlt Hi]|[-> Hi]].
    + destruct (ho_page _ _ _ H _ _ _ Hi) as (p & Hp & Hid & I & Hnx & Hpv).
      assert (id <> n).
      { intros ->. apply Hn. apply elem_of_list_fmap. exists (n, rs). split; [done|]. by apply elem_of_list_lookup_2 with i. }
      rewrite lookup_insert_ne by congruence.
      assert (Hpv3 : match i with O => no_page | S j => at_or_none (ch ++ [(n, [(m, bs)])]) j end = match i with O => no_page | S j => at_or_none ch j end)
        by (destruct i; [done|]; apply Hat; lia).
      rewrite Hpv3.
      destruct (decide (i = length ch0)) as [->|Hil].
      * assert (id = lid /\ rs = lrs) as [-> ->] by (split; congruence). assert (p = lp) by congruence. subst p.
        exists (set_next n lp). rewrite lookup_insert. split; [done|]. split; [done|].
        split; [by apply (links_pinv _ lp)|]. split; [|done]. cbn [p_next set_next]. rewrite <- Hlen. by rewrite Hatn.
      * assert (id <> lid).
        { intros ->. apply Hil. apply (NoDup_lookup (map fst ch) i (length ch0) lid (ho_nodup _ _ _ H)).
          - by rewrite list_lookup_fmap, Hi.
          - by rewrite list_lookup_fmap, Hlast. }
        exists p. rewrite !lookup_insert_ne by congruence. do 3 (split; [done|]). split; [|done]. rewrite Hnx. symmetry. apply Hat. lia.
    + assert (id = n /\ rs = [(m, bs)]) as [-> ->] by (split; congruence).
      exists np2. rewrite lookup_insert. split; [done|]. split; [done|]. split; [by apply pinv_false_any|].
      rewrite Hato. split; [done|]. rewrite Hlen. rewrite Hpv2. rewrite Hat by lia. unfold at_or_none. by rewrite Hlast.
  - intros id q Hq. rewrite map_app. apply elem_of_app. destruct (decide (id = n)) as [->|Hidn]; [right; by left|].
    rewrite lookup_insert_ne in Hq by congruence. left. destruct (decide (id = lid)) as [->|Hidl].
    + apply elem_of_list_fmap. exists (lid, lrs). split; [done|]. by apply elem_of_list_lookup_2 in Hlast.
    + rewrite !lookup_insert_ne in Hq by congruence. by apply (ho_dom _ _ _ H _ _ Hq).
  - rewrite (ho_first _ _ _ H). symmetry. apply Hat. lia.
  - by rewrite last_snoc.
  - intros i id Hi. apply lookup_snoc_Some in Hi as [[Hlt Hi]|[-> Hi]]; [|congruence]. exfalso.
    pose proof (ho_used _ _ _ H _ _ Hi) as Hu. assert (i = 0%nat) by lia. subst i.
    assert (length ch0 = 0%nat) as E0 by lia. rewrite E0 in Hlast. congruence.
Qed.

(** ** Changing a page in place *)

Lemma set_page_ok (g g' : N -> Prop) h ch i id rs rs2 p p2 :
  heap_ok g h ch -> ch !! i = Some (id, rs) -> h_pages h !! id = Some p ->
  p_id p2 = id -> p_next p2 = p_next p -> p_prev p2 = p_prev p -> pinv (g' id) p2 rs2 ->
  (rs2 = [] -> rs = []) -> (forall x, g x -> g' x) ->
  heap_ok g' (Heap (<[id := p2]> (h_pages h)) (h_first h) (h_last h)) (<[i := (id, rs2)]> ch).
Proof.
  intros H Hi Hp Hid Hnx Hpv I2 Hemp Hgg.
  pose proof (lookup_lt_Some _ _ _ Hi) as Hlt.
  assert (Hfst : map fst (<[i := (id, rs2)]> ch) = map fst ch).
  { change (fst <$> <[i := (id, rs2)]> ch = fst <$> ch). rewrite list_fmap_insert. apply list_insert_id. by rewrite list_lookup_fmap, Hi. }
  assert (Hat : forall j, at_or_none (<[i := (id, rs2)]> ch) j = at_or_none ch j).
  { intros j. unfold at_or_none. destruct (decide (i = j)) as [<-|Hij]; [by rewrite list_lookup_insert, Hi|by rewrite list_lookup_insert_ne]. }
  destruct (ho_page _ _ _ H _ _ _ Hi) as (p' & Hp' & Hid' & I & Hn1 & Hv1). assert (p' = p) by congruence. subst p'.
  split; cbn [h_pages h_first h_last].
  - rewrite Hfst. apply (ho_nodup _ _ _ H).
  - rewrite Hfst. apply (ho_valid _ _ _ H).
  - intros j id' rs' Hj. rewrite Hat. destruct (decide (i = j)) as [<-|Hij].
    + rewrite list_lookup_insert in Hj by done. assert (id' = id /\ rs' = rs2) as [-> ->] by (split; congruence).
      exists p2. rewrite lookup_insert. split; [done|]. split; [done|]. split; [done|]. split; [congruence|].
      rewrite Hpv, Hv1. destruct i; [done|]. by rewrite Hat.
    + rewrite list_lookup_insert_ne in Hj by done. destruct (ho_page _ _ _ H _ _ _ Hj) as (q & Hq & Hqid & Iq & Hqn & Hqv).
      assert (id' <> id).
      { intros ->. apply Hij. apply (NoDup_lookup (map fst ch) i j id (ho_nodup _ _ _ H)).
        - by rewrite list_lookup_fmap, Hi.
        - by rewrite list_lookup_fmap, Hj. }
      exists q. rewrite lookup_insert_ne by congruence. split; [done|]. split; [done|].
      split; [by apply (pinv_grown (g id')); [|apply Hgg]|]. split; [done|]. destruct j; [done|]. by rewrite Hat.
  - intros id' q Hq. rewrite Hfst. destruct (decide (id' = id)) as [->|Hne].
    + apply elem_of_list_fmap. exists (id, rs). split; [done|]. by apply elem_of_list_lookup_2 with i.
    + rewrite lookup_insert_ne in Hq by congruence. by apply (ho_dom _ _ _ H _ _ Hq).
  - rewrite (ho_first _ _ _ H). by rewrite Hat.
  - rewrite (ho_last _ _ _ H). rewrite !last_lookup, insert_length.
    destruct (decide (i = Init.Nat.pred (length ch))) as [<-|Hne]; [by rewrite list_lookup_insert, Hi|by rewrite list_lookup_insert_ne].
  - intros j id' Hj. rewrite insert_length. destruct (decide (i = j)) as [<-|Hij].
    + rewrite list_lookup_insert in Hj by done. assert (rs2 = []) as E2 by congruence. specialize (Hemp E2). subst rs.
      by apply (ho_used _ _ _ H _ _ Hi).
    + rewrite list_lookup_insert_ne in Hj by done. by apply (ho_used _ _ _ H _ _ Hj).
Qed.

Lemma heap_ok_grown (g g' : N -> Prop) h ch : heap_ok g h ch -> (forall x, g x -> g' x) -> heap_ok g' h ch.
Proof.
  intros [A B C D E F G] Hg. split; try done. intros i id rs Hi. destruct (C _ _ _ Hi) as (p & C1 & C2 & C3 & C4).
  exists p. do 2 (split; [done|]). split; [by apply (pinv_grown (g id)); [|apply Hg]|done].
Qed.
