(** * Table heaps: C33 *)
From stdpp Require Import gmap list.
From Coq Require Import NArith Lia ZifyBool ZifyNat ZifyN.
From Verif Require Import Bytes PageModel PageSpec PageProofs TheapModel TheapSpec TheapProofs TheapRunProofs.
Local Open Scope N_scope.

Local Definition mt (c : N) : tmeta := TMeta c None false None.

Lemma flat_nodup g h ch : heap_ok g h ch -> NoDup (map fst (flat ch)).
Proof.
  intros H. apply NoDup_alt. intros i j r Hi Hj.
  change (map fst (flat ch)) with (fst <$> flat ch) in Hi, Hj. rewrite list_lookup_fmap in Hi, Hj.
  destruct (flat ch !! i) as [[r1 x]|] eqn:Ei; [|done]. destruct (flat ch !! j) as [[r2 y]|] eqn:Ej; [|done]. cbn in Hi, Hj.
  assert (r1 = r /\ r2 = r) as [-> ->] by (split; congruence).
  destruct (flat_split _ _ _ _ Ei) as (a & rs & b & Ea & -> & _). destruct (flat_split _ _ _ _ Ej) as (a' & rs' & b' & Ea' & -> & _).
  assert (Hab : length a = length a').
  { apply (NoDup_lookup (map fst ch) _ _ r.1 (ho_nodup _ _ _ H)); change (map fst ch) with (fst <$> ch); rewrite list_lookup_fmap.
    - rewrite Ea. by rewrite lookup_app_r, Nat.sub_diag by lia.
    - rewrite Ea'. by rewrite lookup_app_r, Nat.sub_diag by lia. }
  rewrite Ea in Ea'. apply app_inj_1 in Ea' as [-> _]; done.
Qed.

Lemma pages_size g h ch : heap_ok g h ch -> size (h_pages h) = length ch.
Proof.
  intros H. rewrite <- size_dom, <- (map_length fst ch).
  pose proof (size_list_to_set (C := gset N) (map fst ch) (ho_nodup _ _ _ H)) as Hsz. rewrite <- Hsz.
  f_equal. apply leibniz_equiv, set_equiv. intros id. rewrite elem_of_dom, elem_of_list_to_set. split.
  - intros [p Hp]. destruct (page_of _ _ _ _ _ H Hp) as (i & rows & Hi & _).
    apply elem_of_list_lookup. exists i. change (map fst ch) with (fst <$> ch). by rewrite list_lookup_fmap, Hi.
  - intros Hi. apply elem_of_list_lookup in Hi as [i Hi]. change (map fst ch) with (fst <$> ch) in Hi. rewrite list_lookup_fmap in Hi.
    destruct (ch !! i) as [[id2 rows]|] eqn:E; [|done]. cbn in Hi. assert (id2 = id) by congruence. subst id2.
    destruct (ho_page _ _ _ H _ _ _ E) as (p & Hp & _). by exists p.
Qed.

Lemma live_all (t : table) : NoDup (map fst t) -> (forall r x, tget t r = Some x -> tm_del x.1 = false) -> live t = t.
Proof.
  induction t as [|[r x] t IH]; [done|]. cbn [map]. intros [Hn Hnd]%NoDup_cons Hd. unfold live in *.
  rewrite filter_cons_True.
  - f_equal. apply IH; [done|]. intros r2 x2 E. apply (Hd r2). cbn [tget]. destruct (decide (r = r2)) as [->|]; [|done].
    exfalso. apply Hn. clear -E. induction t as [|[r3 x3] t IH]; [done|]. cbn in *. destruct (decide (r3 = r2)) as [->|]; [by left|right; auto].
  - cbn. apply (Hd r). cbn. by rewrite decide_True.
Qed.

(** C33, partial: after any calls on a new heap in which no row is put on a page once an older
    row of that page was made longer, the heap holds the rows the accepted calls left: each at
    the RID its insert answered, all RIDs different; reading a RID returns its row unless
    deleted; a scan returns all rows that are not deleted, once each, in the order of insertion;
    and the counts are right.  The full claim has no condition on the order. *)
Theorem c33_heap_partial : forall a ops rs h,
  fresh_allocs a ops -> Forall hsmall ops -> hrun ops (new_heap a) = (rs, h) -> horderly (fun _ => False) ops rs [] ->
  let rows := table_after ops rs [] in
  NoDup (map fst rows) /\
  (forall r, heap_get r h = match tget rows r with Some x => if tm_del x.1 then None else Some x | None => None end) /\
  (exists n, forall fuel, (n <= fuel)%nat ->
     map snd (scan fuel h) = live rows /\
     count_tuples fuel (h_first h) h = N.of_nat (length rows) /\
     count_pages fuel (h_first h) h = size (h_pages h)).
Proof.
  intros a ops rs h Hfa Hs R Ho. cbv zeta. destruct (hrun_new a ops rs h Hfa Hs R Ho) as (g & ch & H & <-).
  split; [by apply (flat_nodup g h)|]. split; [intros r; by apply (heap_get_ok g)|].
  exists (S (length ch + length (flat ch)))%nat. intros fuel Hf.
  split; [by apply (scan_ok g h ch fuel H); lia|]. split.
  - rewrite (ho_first _ _ _ H). rewrite (count_tuples_ok g h ch H fuel 0) by lia. done.
  - rewrite (ho_first _ _ _ H), (count_pages_ok g h ch H) by lia. rewrite (pages_size g h ch H). lia.
Qed.
Print Assumptions c33_heap_partial.

(** The pages are linked in both directions, from the first to the last. *)
Theorem c33_links_partial : forall a ops rs h,
  fresh_allocs a ops -> Forall hsmall ops -> hrun ops (new_heap a) = (rs, h) -> horderly (fun _ => False) ops rs [] ->
  forall id p, h_pages h !! id = Some p ->
    (if decide (id = h_last h) then p_next p = no_page
     else exists q, h_pages h !! p_next p = Some q /\ p_prev q = id) /\
    (if decide (id = h_first h) then p_prev p = no_page
     else exists q, h_pages h !! p_prev p = Some q /\ p_next q = id).
Proof.
  intros a ops rs h Hfa Hs R Ho id p Hp. destruct (hrun_new a ops rs h Hfa Hs R Ho) as (g & ch & H & _).
  destruct (page_of _ _ _ _ _ H Hp) as (i & rows & Hi & _). destruct (ho_page _ _ _ H _ _ _ Hi) as (p' & Hp' & _ & _ & Hnx & Hpv).
  assert (p' = p) by congruence. subst p'.
  assert (Hinj : forall j e, ch !! j = Some e -> e.1 = id -> j = i).
  { intros j e Hj E. apply (NoDup_lookup (map fst ch) _ _ id (ho_nodup _ _ _ H)); change (map fst ch) with (fst <$> ch); rewrite list_lookup_fmap.
    - rewrite Hj. cbn. by f_equal.
    - by rewrite Hi. }
  split.
  - rewrite (ho_last _ _ _ H), last_lookup. destruct (ch !! Init.Nat.pred (length ch)) as [e|] eqn:El.
    2:{ apply lookup_ge_None in El. apply lookup_lt_Some in Hi. lia. }
    destruct (decide (id = e.1)) as [Ee|Ee].
    + assert (Init.Nat.pred (length ch) = i) as Hii by (by apply (Hinj _ e)). rewrite Hnx. unfold at_or_none.
      rewrite lookup_ge_None_2; [done|]. lia.
    + rewrite Hnx. unfold at_or_none. destruct (ch !! S i) as [[id2 rs2]|] eqn:E2.
      * destruct (ho_page _ _ _ H _ _ _ E2) as (q & Hq & _ & _ & _ & Hqv). exists q. split; [done|]. rewrite Hqv. unfold at_or_none. by rewrite Hi.
      * exfalso. apply lookup_ge_None in E2. apply Ee. pose proof (lookup_lt_Some _ _ _ Hi).
        replace (Init.Nat.pred (length ch)) with i in El by lia. assert (e = (id, rows)) by congruence. by subst.
  - rewrite (ho_first _ _ _ H). unfold at_or_none. destruct (ch !! 0%nat) as [e|] eqn:E0.
    2:{ apply lookup_ge_None in E0. apply lookup_lt_Some in Hi. lia. }
    destruct (decide (id = e.1)) as [Ee|Ee].
    + assert (0%nat = i) as <- by (by apply (Hinj _ e)). done.
    + destruct i as [|i]; [exfalso; apply Ee; assert (e = (id, rows)) by congruence; by subst|].
      destruct (lookup_lt_is_Some_2 ch i) as [[id2 rs2] E2]; [apply lookup_lt_Some in Hi; lia|].
      destruct (ho_page _ _ _ H _ _ _ E2) as (q & Hq & _ & _ & Hqn & _). rewrite Hpv. unfold at_or_none. rewrite E2.
      exists q. split; [done|]. rewrite Hqn. unfold at_or_none. by rewrite Hi.
Qed.
Print Assumptions c33_links_partial.

(** An INSERT of a row of at most 3500 bytes is accepted if the heap has a page and the buffer
    pool gives another one when asked. *)
Theorem c33_insert_accepted_partial : forall a ops rs h m bs n,
  fresh_allocs a (ops ++ [HValues m bs (Some n)]) -> Forall hsmall ops -> hrun ops (new_heap a) = (rs, h) ->
  horderly (fun _ => False) ops rs [] -> h_last h <> no_page -> blen bs <= 3500 ->
  exists r h2, insert_values m bs (Some n) h = (Some r, h2).
Proof.
  intros a ops rs h m bs n Hfa Hs R Ho Hl Hb.
  assert (Hfa1 : fresh_allocs a ops /\ n <> no_page).
  { destruct Hfa as [H1 H2]. unfold fresh_allocs. rewrite map_app, app_comm_cons, omap_app in H1, H2. cbn [map allocs] in H1, H2.
    apply NoDup_app in H1 as (H1 & _). split; [split; [done|]|].
    - intros Hx. apply H2. apply elem_of_app. by left.
    - intros ->. apply H2. apply elem_of_app. right. by left. }
  destruct Hfa1 as [Hfa1 Hnv].
  destruct (hrun_new a ops rs h Hfa1 Hs R Ho) as (g & ch & H & _).
  destruct (chain_last _ _ _ H Hl) as (ch0 & lid & lrs & p & -> & Hll & Hp & Hid & I).
  assert (Ht : too_large (new_page 0) bs = false).
  { unfold too_large, max_tuple, psize, footprint_new. cbn [p_info new_page info_bytes foldr].
    change (blen (meta_enc (TMeta 0 None false None))) with 4. lia. }
  assert (Hcreate : exists r h2, create_and_insert m bs (Some n) h = (Some r, h2)).
  { unfold create_and_insert. rewrite Ht, Hll, Hp.
    destruct (fresh_room 0 m bs (set_prev lid (new_page n)) eq_refl eq_refl Ht) as [Hs2 [np2 E]]. rewrite Hs2, E. by eexists _, _. }
  unfold insert_values. rewrite Hll, Hp. destruct (lid =? no_page) eqn:El; [apply N.eqb_eq in El; congruence|].
  destruct (has_space m bs p); [|done]. destruct (insert_with_rid m bs p); [by eexists _, _|done].
Qed.
Print Assumptions c33_insert_accepted_partial.

Local Definition big (x : N) : list N := repeat x 2000.
Local Definition rs1 : list (option rid) :=
  [Some (5, 0%nat); Some (5, 1%nat); Some (7, 0%nat); Some (5, 1%nat); Some (7, 1%nat); Some (7, 1%nat); None; Some (5, 0%nat)].

Local Definition ops1 : list hop :=
  [HValues (mt 1) (big 1) None; HValues (mt 1) (big 2) None; HValues (mt 1) (big 3) (Some 7);
   HMeta (5, 1%nat) (TMeta 1 None true None); HValues (mt 2) [4; 5] None; HUpdate (7, 1%nat) (mt 3) [6];
   HGiven (mt 4) [9] (5, 0%nat) None; HUpdate (5, 0%nat) (mt 3) [8; 8; 8]].

Example c33_heap_ex :
  fresh_allocs (Some 5) ops1 /\ Forall hsmall ops1 /\ horderly (fun _ => False) ops1 rs1 [] /\
  (let '(rs, h) := hrun ops1 (new_heap (Some 5)) in
   bool_decide (rs = rs1 /\ map (fun x => x.2.1) (scan 10 h) = [(5, 0%nat); (7, 0%nat); (7, 1%nat)] /\
     heap_get (5, 0%nat) h = Some (mt 3, [8; 8; 8]) /\ heap_get (5, 1%nat) h = None /\ heap_get (7, 1%nat) h = Some (mt 3, [6]) /\
     count_tuples 10 (h_first h) h = 4 /\ count_pages 10 (h_first h) h = 2%nat /\ h_last h = 7)) = true.
Proof.
  split; [split; cbn; [repeat constructor; set_solver|vm_compute; set_solver]|].
  split; [repeat constructor|]. split.
  - cbn [horderly ops1 rs1]. repeat split; intros pg k E Hi Hg; repeat (destruct Hg as [Hg|Hg]); contradiction || idtac;
      try (cbn in Hi; contradiction); try discriminate E; vm_compute in Hg; tauto.
  - vm_compute. reflexivity.
Qed.

(** A heap made when the buffer pool had no page: the next INSERT is refused although the
    buffer pool gives it a page, since the first row's RID is checked but not set.  The one after
    that is accepted. *)
Theorem c33_first_insert_refuted : exists m bs n,
  let '(r, h) := insert_values m bs (Some n) (new_heap None) in
  n <> no_page /\ blen bs <= 3500 /\ r = None /\ (insert_values m bs None h).1 = Some (n, 0%nat).
Proof. exists (mt 1), [1; 2], 3. vm_compute. repeat split; discriminate. Qed.
Print Assumptions c33_first_insert_refuted.

(** The RID a scan reports for each row is the row's own as long as no row was deleted ... *)
Theorem c33_reported_rid_partial : forall a ops rs h,
  fresh_allocs a ops -> Forall hsmall ops -> hrun ops (new_heap a) = (rs, h) -> horderly (fun _ => False) ops rs [] ->
  (forall r x, tget (table_after ops rs []) r = Some x -> tm_del x.1 = false) ->
  exists n, forall fuel, (n <= fuel)%nat -> map fst (scan fuel h) = map fst (table_after ops rs []).
Proof.
  intros a ops rs h Hfa Hs R Ho Hd. destruct (hrun_new a ops rs h Hfa Hs R Ho) as (g & ch & H & E). rewrite <- E in *.
  exists (S (length ch + length (flat ch)))%nat. intros fuel Hf.
  apply (scan_ok g h ch fuel H); [lia|]. apply (live_all _ (flat_nodup _ _ _ H) Hd).
Qed.
Print Assumptions c33_reported_rid_partial.

(** ... but after a deletion it may be the deleted row's. *)
Theorem c33_reported_rid_refuted : exists ops rs h r x,
  fresh_allocs (Some 5) ops /\ Forall hsmall ops /\ hrun ops (new_heap (Some 5)) = (rs, h) /\
  horderly (fun _ => False) ops rs [] /\ scan 10 h = [((5, 0%nat), (r, x))] /\ r <> (5, 0%nat) /\ heap_get (5, 0%nat) h = None.
Proof.
  set (ops := [HValues (mt 1) [1] None; HValues (mt 1) [2] None; HMeta (5, 0%nat) (TMeta 1 None true None)]).
  exists ops, (hrun ops (new_heap (Some 5))).1, (hrun ops (new_heap (Some 5))).2, (5, 1%nat), (mt 1, [2]).
  assert (Ers : (hrun ops (new_heap (Some 5))).1 = [Some (5, 0%nat); Some (5, 1%nat); Some (5, 0%nat)]) by (vm_compute; reflexivity).
  split; [split; cbn; [repeat constructor; set_solver|rewrite elem_of_list_singleton; discriminate]|].
  split; [repeat constructor|]. split; [apply surjective_pairing|]. split.
  - rewrite Ers. cbn. repeat split; intros pg k E Hi Hg; tauto.
  - split; [vm_compute; reflexivity|]. split; [discriminate|vm_compute; reflexivity].
Qed.
Print Assumptions c33_reported_rid_refuted.

(** Without the condition on the order a row is overwritten: an old row of a page is made longer,
    then a new row is put on that page. *)
Theorem c33_grow_refuted : exists ops rs h r x,
  fresh_allocs (Some 5) ops /\ Forall hsmall ops /\ hrun ops (new_heap (Some 5)) = (rs, h) /\ Forall is_Some rs /\
  tget (table_after ops rs []) r = Some x /\ tm_del x.1 = false /\ heap_get r h <> Some x.
Proof.
  set (ops := [HValues (mt 1) [1; 1; 1] None; HValues (mt 1) [2] None; HUpdate (5, 0%nat) (mt 1) [7; 8; 9; 10; 11]; HValues (mt 1) [3] None]).
  exists ops, (hrun ops (new_heap (Some 5))).1, (hrun ops (new_heap (Some 5))).2, (5, 0%nat), (mt 1, [7; 8; 9; 10; 11]).
  assert (Ers : (hrun ops (new_heap (Some 5))).1 = [Some (5, 0%nat); Some (5, 1%nat); Some (5, 0%nat); Some (5, 2%nat)]) by (vm_compute; reflexivity).
  split; [split; cbn; [repeat constructor; set_solver|rewrite elem_of_list_singleton; discriminate]|].
  split; [repeat constructor|]. split; [apply surjective_pairing|]. rewrite Ers. split; [repeat constructor; by eexists|].
  split; [vm_compute; reflexivity|]. split; [reflexivity|].
  assert (Hg : bool_decide (heap_get (5, 0%nat) (hrun ops (new_heap (Some 5))).2 = Some (mt 1, [7; 8; 9; 10; 11])) = false) by (vm_compute; reflexivity).
  by apply bool_decide_eq_false in Hg.
Qed.
Print Assumptions c33_grow_refuted.

Example c33_accepted_ex :
  let '(_, h) := hrun ops1 (new_heap (Some 5)) in
  bool_decide (fresh_allocs (Some 5) (ops1 ++ [HValues (mt 1) (repeat 1 3500) (Some 9)]) /\ h_last h <> no_page /\
    (insert_values (mt 1) (repeat 1 3500) (Some 9) h).1 = Some (9, 0%nat)) = true.
Proof. vm_compute. reflexivity. Qed.
