(** * Proofs about table heaps: histories and scans *)
From stdpp Require Import gmap list.
From Coq Require Import NArith Lia ZifyBool ZifyNat ZifyN.
From Verif Require Import Bytes PageModel PageSpec PageProofs TheapModel TheapSpec TheapProofs.
Local Open Scope N_scope.

(** ** One call *)

Lemma chain_last g h ch : heap_ok g h ch -> h_last h <> no_page ->
  exists ch0 lid lrs p, ch = ch0 ++ [(lid, lrs)] /\ h_last h = lid /\ h_pages h !! lid = Some p /\ p_id p = lid /\
    pinv (g lid) p lrs.
Proof.
  intros H Hn. rewrite (ho_last _ _ _ H) in Hn |- *. destruct ch as [|e ch0] using rev_ind; [done|].
  rewrite last_snoc in *. destruct e as [lid lrs].
  destruct (ho_page _ _ _ H (length ch0) lid lrs) as (p & Hp & Hid & I & _); [by rewrite lookup_app_r, Nat.sub_diag by lia|].
  exists ch0, lid, lrs, p. done.
Qed.

Lemma chain_empty g h ch : heap_ok g h ch -> h_last h = no_page -> ch = [].
Proof.
  intros H Hn. rewrite (ho_last _ _ _ H) in Hn. destruct ch as [|e ch0] using rev_ind; [done|]. exfalso.
  rewrite last_snoc in Hn. apply (ho_valid _ _ _ H). rewrite <- Hn. rewrite map_app. apply elem_of_app. right. by left.
Qed.

(** The outcome of an insert. *)
Definition ins_ok (g : N -> Prop) (h2 : heap) (ch : chain) (m : tmeta) (bs : list N) (a : option N) (res : option rid) : Prop :=
  exists ch2, heap_ok g h2 ch2 /\ (forall x, x ∈ map fst ch2 -> x ∈ map fst ch \/ a = Some x) /\
    match res with
    | Some r => flat ch2 = flat ch ++ [(r, (m, bs))] /\ tget (flat ch) r = None
    | None => flat ch2 = flat ch
    end.

Lemma create_ok g h ch0 lid lrs p m bs a :
  heap_ok g h (ch0 ++ [(lid, lrs)]) -> h_last h = lid -> h_pages h !! lid = Some p ->
  (forall n, a = Some n -> n ∉ map fst (ch0 ++ [(lid, lrs)]) /\ n <> no_page) ->
  (too_large (new_page 0) bs = false -> lrs <> []) ->
  let '(res, h2) := create_and_insert m bs a h in
  ins_ok g h2 (ch0 ++ [(lid, lrs)]) m bs a res /\ (res = None -> too_large (new_page 0) bs = true \/ a = None).
Proof.
  intros H Hl Hp Ha Hne. unfold create_and_insert. destruct (too_large (new_page 0) bs) eqn:Et.
  { split; [|tauto]. eexists. split; [exact H|]. split; [by left|done]. }
  destruct a as [n|].
  2:{ split; [|tauto]. eexists. split; [exact H|]. split; [by left|done]. }
  destruct (Ha n eq_refl) as [Hn Hnv]. rewrite Hl, Hp.
  destruct (fresh_room 0 m bs (set_prev lid (new_page n)) eq_refl eq_refl Et) as [Hs [np2 E]].
  rewrite Hs, E. split; [|done]. cbn [h_pages h_first h_last].
  exists (ch0 ++ [(lid, lrs)] ++ [(n, [(m, bs)])]). split; [by apply (add_page_ok g h ch0 lid lrs p n m bs np2 H Hp (Hne eq_refl) Hn Hnv E)|].
  split.
  - intros x Hx. rewrite app_assoc, map_app in Hx. apply elem_of_app in Hx as [Hx|Hx]; [by left|right].
    apply elem_of_list_singleton in Hx. by subst.
  - split; [|by apply tget_flat_none]. rewrite app_assoc, flat_app. done.
Qed.

Lemma first_ok g h m bs r a :
  heap_ok g h [] -> (forall n, a = Some n -> n <> no_page) ->
  let '(res, h2) := create_first m bs r a h in ins_ok g h2 [] m bs a res.
Proof.
  intros H Ha. unfold create_first. destruct (too_large (new_page 0) bs) eqn:Et.
  { eexists. split; [exact H|]. split; [by left|done]. }
  destruct a as [n|].
  2:{ eexists. split; [exact H|]. split; [by left|done]. }
  assert (Hpages : h_pages h = ∅).
  { apply map_empty. intros x. destruct (h_pages h !! x) eqn:E; [|done]. apply (ho_dom _ _ _ H) in E. by apply elem_of_nil in E. }
  assert (Hone : forall rs p, p_id p = n -> p_next p = no_page -> p_prev p = no_page -> pinv (g n) p rs ->
    heap_ok g (Heap (<[n := p]> (h_pages h)) n n) [(n, rs)]).
  { intros rs p H1 H2 H3 H4. specialize (Ha n eq_refl). split; cbn -[no_page].
    - apply NoDup_singleton.
    - intros Hx. apply elem_of_list_singleton in Hx. congruence.
    - intros i id rs' Hi. destruct i as [|i]; [|done]. cbn in Hi. assert (n = id /\ rs = rs') as [<- <-] by (split; congruence).
      exists p. by rewrite lookup_insert.
    - intros id q Hq. rewrite Hpages, insert_empty in Hq. apply lookup_singleton_Some in Hq as [<- _]. by left.
    - done.
    - done.
    - done. }
  destruct (fresh_room 0 m bs (new_page n) eq_refl eq_refl Et) as [Hs [np2 E]]. rewrite Hs.
  unfold insert_tuple. destruct (next_offset (new_page n) m bs) eqn:Eo.
  2:{ unfold insert_with_rid in E. by rewrite Eo in E. }
  cbn [p_id p_num new_page fst snd]. destruct ((r.1 =? n) && (N.of_nat r.2 =? 0)) eqn:Er.
  - rewrite E. destruct (insert_pinv False m bs (new_page n) np2 [] (pinv_new n) ltac:(tauto) E) as (I2 & Hid2 & o & _ & _ & _ & Hnx & Hpv & _).
    cbn [h_pages h_first h_last]. rewrite insert_insert. exists [(n, [(m, bs)])]. split; [|split].
    + apply Hone; [done|done|done|by apply pinv_false_any].
    + intros x Hx. apply elem_of_list_singleton in Hx. by right; subst.
    + split; [|done]. cbn. done.
  - exists [(n, [])]. split; [|split; [|done]].
    + apply Hone; [done|done|done|apply pinv_false_any, pinv_new].
    + intros x Hx. apply elem_of_list_singleton in Hx. by right; subst.
Qed.

Lemma insert_page_ok g h ch0 lid lrs p p2 m bs a :
  heap_ok g h (ch0 ++ [(lid, lrs)]) -> h_last h = lid -> h_pages h !! lid = Some p -> p_id p = lid -> pinv (g lid) p lrs ->
  insert_with_rid m bs p = Some p2 -> ~ g lid ->
  ins_ok g (Heap (<[h_last h := p2]> (h_pages h)) (h_first h) (h_last h)) (ch0 ++ [(lid, lrs)]) m bs a
         (Some (p_id p, N.to_nat (p_num p))).
Proof.
  intros H Hl Hp Hid I E Hg. exists (ch0 ++ [(lid, lrs ++ [(m, bs)])]). rewrite Hl. split.
  - pose proof (insert_last_ok g h ch0 lid lrs p p2 m bs H Hp E Hg) as G. rewrite Hl in G. exact G.
  - split; [intros x Hx; left; rewrite map_app in *; done|].
    rewrite (pi_num _ _ _ I), Nat2N.id, (pinv_len _ _ _ I), Hid. split; [apply flat_snoc_row|].
    rewrite (tget_flat _ (length ch0) lid lrs); [by apply lookup_ge_None|apply (ho_nodup _ _ _ H)|].
    by rewrite lookup_app_r, Nat.sub_diag by lia.
Qed.

Lemma empty_page g p : pinv g p [] -> p_info p = [] /\ p_num p = 0.
Proof.
  intros I. pose proof (pinv_len _ _ _ I) as Hl. assert (p_info p = []) as E by (by apply nil_length_inv).
  split; [done|]. rewrite (pi_num _ _ _ I), E. done.
Qed.

Lemma has_space_false n m bs p lrs (g : Prop) : pinv g p lrs ->
  has_space m bs p = false \/ insert_with_rid m bs p = None -> too_large (new_page n) bs = false -> lrs <> [].
Proof.
  intros I Hs Ht ->. destruct (empty_page _ _ I) as [E1 E2]. destruct (fresh_room n m bs p E1 E2 Ht) as [H1 [p2 H2]].
  destruct Hs; congruence.
Qed.

Lemma values_ok g h ch m bs a :
  heap_ok g h ch -> (forall n, a = Some n -> n ∉ map fst ch /\ n <> no_page) ->
  let '(res, h2) := insert_values m bs a h in
  (forall pg k, res = Some (pg, k) -> ~ g pg) -> ins_ok g h2 ch m bs a res.
Proof.
  intros H Ha. unfold insert_values. destruct (h_last h =? no_page) eqn:El.
  { apply N.eqb_eq in El. pose proof (chain_empty _ _ _ H El). subst ch.
    pose proof (first_ok g h m bs (no_page, 0%nat) a H ltac:(intros n Hn; by apply Ha)) as G.
    destruct (create_first m bs (no_page, 0%nat) a h). auto. }
  apply N.eqb_neq in El. destruct (chain_last _ _ _ H El) as (ch0 & lid & lrs & p & -> & Hl & Hp & Hid & I).
  rewrite Hl, Hp.
  assert (Hcreate : (too_large (new_page 0) bs = false -> lrs <> []) ->
    let '(res, h2) := create_and_insert m bs a h in
    (forall pg k, res = Some (pg, k) -> ~ g pg) -> ins_ok g h2 (ch0 ++ [(lid, lrs)]) m bs a res).
  { intros Hne. pose proof (create_ok g h ch0 lid lrs p m bs a H Hl Hp Ha Hne) as G. destruct (create_and_insert m bs a h). tauto. }
  destruct (has_space m bs p) eqn:Hs; [|by apply Hcreate, (has_space_false 0 m bs p lrs _ I); left].
  destruct (insert_with_rid m bs p) as [p2|] eqn:E; [|by apply Hcreate, (has_space_false 0 m bs p lrs _ I); right].
  intros Hg. pose proof (insert_page_ok g h ch0 lid lrs p p2 m bs a H Hl Hp Hid I E) as G. rewrite Hl in G. apply G.
  rewrite <- Hid. by apply (Hg _ _ eq_refl).
Qed.

Lemma given_ok g h ch m bs r a :
  heap_ok g h ch -> (forall n, a = Some n -> n ∉ map fst ch /\ n <> no_page) ->
  let '(res, h2) := insert_given m bs r a h in
  (forall pg k, res = Some (pg, k) -> ~ g pg) -> ins_ok g h2 ch m bs a res.
Proof.
  intros H Ha. unfold insert_given. destruct (h_last h =? no_page) eqn:El.
  { apply N.eqb_eq in El. pose proof (chain_empty _ _ _ H El). subst ch.
    pose proof (first_ok g h m bs r a H ltac:(intros n Hn; by apply Ha)) as G.
    destruct (create_first m bs r a h). auto. }
  apply N.eqb_neq in El. destruct (chain_last _ _ _ H El) as (ch0 & lid & lrs & p & -> & Hl & Hp & Hid & I).
  rewrite Hl, Hp.
  destruct (has_space m bs p) eqn:Hs.
  - unfold insert_tuple. destruct (next_offset p m bs) eqn:Eo.
    2:{ intros _. eexists. split; [exact H|]. split; [by left|done]. }
    destruct (((r.1, N.of_nat r.2).1 =? p_id p) && ((r.1, N.of_nat r.2).2 =? p_num p)).
    2:{ intros _. eexists. split; [exact H|]. split; [by left|done]. }
    destruct (insert_with_rid m bs p) as [p2|] eqn:E.
    2:{ intros _. eexists. split; [exact H|]. split; [by left|done]. }
    intros Hg. pose proof (insert_page_ok g h ch0 lid lrs p p2 m bs a H Hl Hp Hid I E) as G. rewrite Hl in G. apply G.
    rewrite <- Hid. by apply (Hg _ _ eq_refl).
  - pose proof (create_ok g h ch0 lid lrs p m bs a H Hl Hp Ha (has_space_false 0 m bs p lrs _ I (or_introl Hs))) as G.
    destruct (create_and_insert m bs a h). tauto.
Qed.

Lemma page_of g h ch id p : heap_ok g h ch -> h_pages h !! id = Some p ->
  exists i rs, ch !! i = Some (id, rs) /\ p_id p = id /\ pinv (g id) p rs.
Proof.
  intros H Hp. pose proof (ho_dom _ _ _ H _ _ Hp) as Hin. apply elem_of_list_fmap in Hin as ([id' rs] & Eid & Hin). cbn in Eid. subst id'.
  apply elem_of_list_lookup in Hin as [i Hi]. destruct (ho_page _ _ _ H _ _ _ Hi) as (p' & Hp' & Hid & I & _).
  assert (p' = p) by congruence. subst p'. by exists i, rs.
Qed.

Lemma alter_const {A} (x : A) (k : nat) (l : list A) : alter (fun _ => x) k l = <[k := x]> l.
Proof.
  apply list_eq. intros j. destruct (decide (j = k)) as [->|Hne].
  - rewrite list_lookup_alter. destruct (l !! k) eqn:E; cbn.
    + rewrite list_lookup_insert; [done|]. by apply lookup_lt_Some in E.
    + rewrite list_insert_ge; [done|]. by apply lookup_ge_None.
  - by rewrite list_lookup_alter_ne, list_lookup_insert_ne by congruence.
Qed.

(** The outcome of a call that changes a row in place. *)
Definition set_ok (g' : N -> Prop) (h2 : heap) (ch : chain) (r : rid) (f : row -> row) (ok : bool) : Prop :=
  exists ch2, heap_ok g' h2 ch2 /\ map fst ch2 = map fst ch /\ flat ch2 = if ok then tset (flat ch) r f else flat ch.

Lemma same_page_ok g h ch id p : heap_ok g h ch -> h_pages h !! id = Some p ->
  heap_ok g (Heap (<[id := p]> (h_pages h)) (h_first h) (h_last h)) ch.
Proof. intros H Hp. rewrite insert_id by done. by destruct h. Qed.

Lemma map_fst_insert (ch : chain) i id rs rs2 : ch !! i = Some (id, rs) -> map fst (<[i := (id, rs2)]> ch) = map fst ch.
Proof.
  intros Hi. change (fst <$> <[i := (id, rs2)]> ch = fst <$> ch). rewrite list_fmap_insert. apply list_insert_id. by rewrite list_lookup_fmap, Hi.
Qed.

Lemma update_ok (g : N -> Prop) h ch r m bs :
  heap_ok g h ch -> blen bs < 65536 ->
  let '(ok, h2) := heap_update r m bs h in
  set_ok (fun pg => g pg \/ houtgrows (HUpdate r m bs) (if ok then Some r else None) (flat ch) pg) h2 ch r (fun _ => (m, bs)) ok.
Proof.
  intros H Hb. unfold heap_update, with_page. destruct r as [id k]. cbn [fst snd]. destruct (h_pages h !! id) as [p|] eqn:Hp.
  2:{ exists ch. split; [by apply (heap_ok_grown g); [|auto]|done]. }
  destruct (page_of _ _ _ _ _ H Hp) as (i & rs & Hi & Hid & I).
  pose proof (update_pinv (g id) k m bs p rs I Hb) as G. destruct (update_tuple k m bs p) as [p2|p2|]; [| |done].
  - destruct G as (I2 & Hid2 & Hnx & Hpv & _). exists (<[i := (id, <[k := (m, bs)]> rs)]> ch). split; [|split].
    + apply (set_page_ok g _ h ch i id rs _ p p2 H Hi Hp); [congruence|done|done| | |auto].
      * apply (pinv_grown _ _ _ _ I2). intros [Hg|(x & Hx & Hl1 & Hl2)]; [by left|right]. split; [done|].
        exists x. cbn [fst snd]. rewrite !(tget_flat ch i id rs _ (ho_nodup _ _ _ H) Hi). split; [done|]. split; [done|].
        by apply lookup_lt_is_Some.
      * intros E. destruct rs; [done|]. by destruct k.
    + by apply map_fst_insert with rs.
    + rewrite (tset_flat ch i id rs k _ (ho_nodup _ _ _ H) Hi), alter_const. done.
  - subst p2. exists ch. split; [|done]. apply (heap_ok_grown g); [|auto]. by apply same_page_ok.
Qed.

Lemma meta_ok (g : N -> Prop) h ch r m :
  heap_ok g h ch ->
  let '(ok, h2) := heap_meta r m h in set_ok g h2 ch r (fun x => (m, x.2)) ok.
Proof.
  intros H. unfold heap_meta. destruct (heap_get r h) as [[old bs]|]; [|by exists ch].
  destruct (negb (tm_creator old =? tm_creator m) && _); [by exists ch|].
  unfold with_page. destruct r as [id k]. cbn [fst snd]. destruct (h_pages h !! id) as [p|] eqn:Hp; [|by exists ch].
  destruct (page_of _ _ _ _ _ H Hp) as (i & rs & Hi & Hid & I).
  pose proof (meta_pinv (g id) k m p rs I) as G. destruct (update_meta k m p) as [p2|p2|]; [| |done].
  - destruct G as (I2 & Hid2 & Hnx & Hpv). exists (<[i := (id, alter (fun r => (m, r.2)) k rs)]> ch). split; [|split].
    + apply (set_page_ok g _ h ch i id rs _ p p2 H Hi Hp); [congruence|done|done|done| |auto].
      intros E. destruct rs; [done|]. by destruct k.
    + by apply map_fst_insert with rs.
    + by rewrite (tset_flat ch i id rs k _ (ho_nodup _ _ _ H) Hi).
  - subst p2. exists ch. split; [|done]. by apply same_page_ok.
Qed.

Lemma hstep_ok (g : N -> Prop) h ch o :
  heap_ok g h ch -> hsmall o -> (forall n, allocs o = Some n -> n ∉ map fst ch /\ n <> no_page) ->
  let '(res, h2) := hstep o h in
  (forall pg k, res = Some (pg, k) -> inserts o -> ~ g pg) ->
  exists ch2, heap_ok (fun pg => g pg \/ houtgrows o res (flat ch) pg) h2 ch2 /\
    (forall x, x ∈ map fst ch2 -> x ∈ map fst ch \/ allocs o = Some x) /\
    flat ch2 = tnext o res (flat ch) /\ (inserts o -> forall r, res = Some r -> tget (flat ch) r = None).
Proof.
  intros H Hs Ha. destruct o as [m bs a|m bs r a|r m bs|r m]; cbn [hstep allocs inserts hsmall] in *.
  - pose proof (values_ok g h ch m bs a H Ha) as G. destruct (insert_values m bs a h) as [res h2]. intros Hg.
    destruct (G ltac:(intros pg k E; by apply (Hg pg k))) as (ch2 & H2 & Hsub & Hres). exists ch2.
    split; [by apply (heap_ok_grown g); [|auto]|]. split; [done|]. destruct res as [r|]; [|done].
    destruct Hres as [Hf Hn]. split; [done|]. intros _ r' E. by assert (r' = r) as -> by congruence.
  - pose proof (given_ok g h ch m bs r a H Ha) as G. destruct (insert_given m bs r a h) as [res h2]. intros Hg.
    destruct (G ltac:(intros pg k E; by apply (Hg pg k))) as (ch2 & H2 & Hsub & Hres). exists ch2.
    split; [by apply (heap_ok_grown g); [|auto]|]. split; [done|]. destruct res as [r'|]; [|done].
    destruct Hres as [Hf Hn]. split; [done|]. intros _ r2 E. by assert (r2 = r') as -> by congruence.
  - pose proof (update_ok g h ch r m bs H Hs) as G. destruct (heap_update r m bs h) as [ok h2]. intros _.
    destruct G as (ch2 & H2 & Hfst & Hf). exists ch2. split; [done|]. split; [rewrite Hfst; by left|]. split; [|done].
    rewrite Hf. by destruct ok.
  - pose proof (meta_ok g h ch r m H) as G. destruct (heap_meta r m h) as [ok h2]. intros _.
    destruct G as (ch2 & H2 & Hfst & Hf). exists ch2. split; [by apply (heap_ok_grown g); [|auto]|]. split; [rewrite Hfst; by left|].
    split; [|done]. rewrite Hf. by destruct ok.
Qed.

(** ** Histories *)

Lemma horderly_weaken (g g' : N -> Prop) ops rs t : (forall x, g' x -> g x) -> horderly g ops rs t -> horderly g' ops rs t.
Proof.
  revert g g' rs t. induction ops as [|o ops IH]; intros g g' rs t Hg H; [done|]. destruct rs as [|r rs]; [done|].
  destruct H as [H1 H2]. split; [intros pg k E Hi Hg'; by apply (H1 pg k E Hi), Hg|].
  eapply IH; [|exact H2]. intros x [Hx|Hx]; [left; by apply Hg|by right].
Qed.

Lemma hrun_ok (seen : list N) (g : N -> Prop) ops h ch rs h2 :
  heap_ok g h ch -> (forall x, x ∈ map fst ch -> x ∈ seen) ->
  NoDup (seen ++ omap id (map allocs ops)) -> no_page ∉ omap id (map allocs ops) ->
  Forall hsmall ops -> hrun ops h = (rs, h2) -> horderly g ops rs (flat ch) ->
  exists g' ch2, heap_ok g' h2 ch2 /\ flat ch2 = table_after ops rs (flat ch).
Proof.
  revert seen g h ch rs. induction ops as [|o ops IH]; intros seen g h ch rs H Hseen Hnd Hnp Hs R Ho; cbn in R.
  { assert (rs = [] /\ h2 = h) as [-> ->] by (split; congruence). by exists g, ch. }
  apply Forall_cons in Hs as [Hs Hss].
  assert (Ha : forall n, allocs o = Some n -> n ∉ map fst ch /\ n <> no_page).
  { intros n En. cbn in Hnd, Hnp. rewrite En in Hnd, Hnp. cbn in Hnd, Hnp. split.
    - intros Hin. apply Hseen in Hin. apply NoDup_app in Hnd as (_ & Hd & _). apply (Hd n Hin). by left.
    - intros ->. apply Hnp. by left. }
  pose proof (hstep_ok g h ch o H Hs Ha) as G. destruct (hstep o h) as [r h1]. destruct (hrun ops h1) as [rs1 h3] eqn:R1.
  assert (rs = r :: rs1 /\ h2 = h3) as [-> ->] by (split; congruence). destruct Ho as [Ho1 Ho2].
  destruct (G Ho1) as (ch1 & H1 & Hsub & Hf & _). cbn [table_after]. rewrite <- Hf in Ho2 |- *.
  apply (IH (seen ++ option_list (allocs o)) _ h1 ch1 rs1 H1); [| | |done|done|done].
  - intros x Hx. apply elem_of_app. destruct (Hsub x Hx) as [Hx2|Hx2]; [left; by apply Hseen|right; rewrite Hx2; by left].
  - cbn in Hnd. destruct (allocs o) as [n|]; cbn in *; [|by rewrite app_nil_r]. by rewrite <- app_assoc.
  - cbn in Hnp. destruct (allocs o); cbn in *; [|done]. intros Hx. apply Hnp. by right.
Qed.

Lemma hrun_new a ops rs h :
  fresh_allocs a ops -> Forall hsmall ops -> hrun ops (new_heap a) = (rs, h) -> horderly (fun _ => False) ops rs [] ->
  exists g ch, heap_ok g h ch /\ flat ch = table_after ops rs [].
Proof.
  intros [Hnd Hnp] Hs R Ho. destruct (heap_ok_new a) as (ch & H & Hf & Hfst).
  { intros ->. apply Hnp. by left. }
  rewrite <- Hf in Ho |- *. apply (hrun_ok (omap id [a]) (fun _ => False) ops (new_heap a) ch rs h H); [| | |done|done|done].
  - intros x Hx. by rewrite <- Hfst.
  - destruct a; done.
  - intros Hx. apply Hnp. destruct a; cbn; [right|]; done.
Qed.

(** ** Scans *)

Definition posn (ch : chain) (j : nat) : rid := match flat ch !! j with Some e => e.1 | None => (no_page, 0%nat) end.

Lemma at_or_none_valid g h ch i e : heap_ok g h ch -> ch !! i = Some e -> e.1 <> no_page.
Proof.
  intros H Hi E. apply (ho_valid _ _ _ H). rewrite <- E. apply elem_of_list_fmap. exists e. split; [done|]. by apply elem_of_list_lookup_2 with i.
Qed.

Lemma flat_next g h ch0 id rs ch1 k :
  heap_ok g h (ch0 ++ (id, rs) :: ch1) -> (k < length rs)%nat ->
  posn (ch0 ++ (id, rs) :: ch1) (length (flat ch0) + k) = (id, k) /\
  posn (ch0 ++ (id, rs) :: ch1) (S (length (flat ch0) + k)) =
    if decide (S k < length rs)%nat then (id, S k) else (at_or_none (ch0 ++ (id, rs) :: ch1) (S (length ch0)), 0%nat).
Proof.
  intros H Hk. unfold posn. rewrite flat_app, flat_cons.
  rewrite (lookup_app_r (flat ch0) _ (length (flat ch0) + k)), (lookup_app_r (flat ch0) _ (S (length (flat ch0) + k))) by lia.
  replace (length (flat ch0) + k - length (flat ch0))%nat with k by lia.
  replace (S (length (flat ch0) + k) - length (flat ch0))%nat with (S k) by lia.
  destruct (lookup_lt_is_Some_2 rs k Hk) as [x Hx]. split.
  - rewrite lookup_app_l by (by rewrite tag_length). by rewrite tag_lookup, Hx.
  - destruct (decide (S k < length rs)%nat) as [Hlt|Hge].
    + destruct (lookup_lt_is_Some_2 rs (S k) Hlt) as [y Hy].
      rewrite lookup_app_l by (by rewrite tag_length). by rewrite tag_lookup, Hy.
    + rewrite lookup_app_r by (rewrite tag_length; lia). rewrite tag_length. replace (S k - length rs)%nat with 0%nat by lia.
      unfold at_or_none. rewrite lookup_app_r by lia. replace (S (length ch0) - length ch0)%nat with 1%nat by lia. cbn.
      destruct ch1 as [|[id1 rs1] ch1]; [done|]. cbn [lookup list_lookup].
      destruct rs1 as [|y rs1]; [|done]. exfalso.
      assert (Hu : length (ch0 ++ (id, rs) :: (id1, []) :: ch1) = 1%nat).
      { apply (ho_used _ _ _ H (S (length ch0)) id1). rewrite lookup_app_r by lia.
        by replace (S (length ch0) - length ch0)%nat with 1%nat by lia. }
      rewrite app_length in Hu. cbn in Hu. lia.
Qed.

Lemma flat_split ch j r x : flat ch !! j = Some (r, x) ->
  exists ch0 rs ch1, ch = ch0 ++ (r.1, rs) :: ch1 /\ j = (length (flat ch0) + r.2)%nat /\ rs !! r.2 = Some x.
Proof.
  revert j. induction ch as [|[id rs] ch IH]; intros j Hj; [done|]. rewrite flat_cons in Hj.
  destruct (decide (j < length rs)%nat) as [Hlt|Hge].
  - rewrite lookup_app_l in Hj by (by rewrite tag_length). rewrite tag_lookup in Hj.
    destruct (rs !! j) as [y|] eqn:E; [|done]. cbn in Hj. assert (r = (id, j) /\ x = y) as [-> ->] by (split; congruence).
    by exists [], rs, ch.
  - rewrite lookup_app_r in Hj by (rewrite tag_length; lia). rewrite tag_length in Hj.
    destruct (IH _ Hj) as (ch0 & rs' & ch1 & -> & Hj2 & Hx). exists ((id, rs) :: ch0), rs', ch1. split; [done|].
    split; [|done]. rewrite flat_cons, app_length, tag_length. lia.
Qed.

Lemma advance_ok g h ch j r x : heap_ok g h ch -> flat ch !! j = Some (r, x) ->
  it_end r = false /\ it_advance r h = posn ch (S j).
Proof.
  intros H Hj. destruct (flat_split _ _ _ _ Hj) as (ch0 & rs & ch1 & -> & -> & Hx). destruct r as [id k]. cbn [fst snd] in *.
  assert (Hi : (ch0 ++ (id, rs) :: ch1) !! length ch0 = Some (id, rs)) by (by rewrite lookup_app_r, Nat.sub_diag by lia).
  pose proof (at_or_none_valid _ _ _ _ _ H Hi) as Hv. cbn in Hv.
  assert (He : it_end (id, k) = false) by (unfold it_end; cbn; by apply N.eqb_neq). split; [done|].
  destruct (ho_page _ _ _ H _ _ _ Hi) as (p & Hp & Hid & I & Hnx & _).
  pose proof (lookup_lt_Some _ _ _ Hx) as Hk.
  destruct (flat_next g h ch0 id rs ch1 k H Hk) as [_ ->]. unfold it_advance. rewrite He. cbn [fst snd]. rewrite Hp.
  rewrite (pi_num _ _ _ I), (pinv_len _ _ _ I). destruct (decide (S k < length rs)%nat).
  - destruct (N.of_nat (length rs) <=? N.of_nat (S k)) eqn:E; [lia|done].
  - destruct (N.of_nat (length rs) <=? N.of_nat (S k)) eqn:E; [by rewrite Hnx|lia].
Qed.

Lemma live_nil_app a b : live (a ++ b) = live a ++ live b.
Proof. apply filter_app. Qed.

Lemma tget_flat_lookup g h ch j r x : heap_ok g h ch -> flat ch !! j = Some (r, x) -> tget (flat ch) r = Some x.
Proof.
  intros H Hj. destruct (flat_split _ _ _ _ Hj) as (ch0 & rs & ch1 & E & -> & Hx). destruct r as [id k]. cbn [fst snd] in *.
  rewrite (tget_flat ch (length ch0) id rs k (ho_nodup _ _ _ H)); [done|]. rewrite E. by rewrite lookup_app_r, Nat.sub_diag by lia.
Qed.

Lemma next_ok g h ch fuel : heap_ok g h ch -> forall pre L, flat ch = pre ++ L -> (length L < fuel)%nat ->
  (live L = [] /\ it_next fuel (posn ch (length pre)) h = (None, (no_page, 0%nat))) \/
  (exists dead e L', L = dead ++ e :: L' /\ live dead = [] /\ tm_del e.2.1 = false /\
     it_next fuel (posn ch (length pre)) h = (Some e, posn ch (length (pre ++ dead ++ [e])))).
Proof.
  intros H. induction fuel as [|f IH]; intros pre L HL Hf; [lia|]. cbn [it_next]. destruct L as [|[r x] L].
  - left. split; [done|]. unfold posn. rewrite HL, app_nil_r, lookup_ge_None_2 by lia. done.
  - assert (Hj : flat ch !! length pre = Some (r, x)) by (rewrite HL; by rewrite lookup_app_r, Nat.sub_diag by lia).
    destruct (advance_ok _ _ _ _ _ _ H Hj) as [He Ha].
    assert (Hp : posn ch (length pre) = r) by (unfold posn; by rewrite Hj). rewrite Hp, He, Ha.
    rewrite (heap_get_ok _ _ _ _ H), (tget_flat_lookup _ _ _ _ _ _ H Hj).
    destruct (tm_del x.1) eqn:Ed.
    + cbn [length] in Hf. destruct (IH (pre ++ [(r, x)]) L) as [[Hl Hn]|(dead & e & L' & -> & Hd & He2 & Hn)].
      * rewrite HL. by rewrite <- app_assoc.
      * lia.
      * left. rewrite app_length in Hn. cbn in Hn. rewrite Nat.add_1_r in Hn. split; [|done].
        unfold live. rewrite filter_cons_False; [done|]. cbn. congruence.
      * right. exists ((r, x) :: dead), e, L'. split; [done|]. split.
        { unfold live. rewrite filter_cons_False; [done|]. cbn. congruence. }
        split; [done|]. rewrite app_length in Hn at 1. cbn [length] in Hn. rewrite Nat.add_1_r in Hn. rewrite Hn.
        f_equal. f_equal. by rewrite <- app_assoc.
    + right. exists [], (r, x), L. split; [done|]. split; [done|]. split; [done|]. cbn [app]. rewrite app_length. cbn. by rewrite Nat.add_1_r.
Qed.

Lemma all_ok g h ch fuel : heap_ok g h ch -> forall bound pre L, flat ch = pre ++ L -> (length L < fuel)%nat -> (length L < bound)%nat ->
  map snd (it_all fuel bound (posn ch (length pre)) h) = live L /\
  (live L = L -> map fst (it_all fuel bound (posn ch (length pre)) h) = map fst L).
Proof.
  intros H. induction bound as [|b IH]; intros pre L HL Hf Hb; [lia|]. cbn [it_all].
  destruct (next_ok g h ch fuel H pre L HL Hf) as [[Hl Hn]|(dead & e & L' & -> & Hd & He & Hn)]; rewrite Hn.
  - rewrite Hl. split; [done|]. intros <-. done.
  - rewrite app_length in Hf, Hb. cbn in Hf, Hb.
    destruct (IH (pre ++ dead ++ [e]) L') as [I1 I2]; [rewrite HL; by rewrite <- !app_assoc|lia|lia|].
    assert (Hlive : live (dead ++ e :: L') = e :: live L').
    { rewrite live_nil_app, Hd. cbn [app]. unfold live. by rewrite filter_cons_True. }
    cbn [map fst snd]. rewrite I1, Hlive. split; [done|]. intros E.
    assert (Hdead : dead = []).
    { assert (Hlen : length (live (dead ++ e :: L')) = length (dead ++ e :: L')) by (by rewrite Hlive, E).
      rewrite live_nil_app, Hd, !app_length in Hlen. pose proof (filter_length (fun e : rid * row => tm_del e.2.1 = false) (e :: L')) as Hle.
      fold (live (e :: L')) in Hle. cbn [length app] in *. apply nil_length_inv. lia. }
    subst dead. cbn [app] in *. rewrite I2 by congruence. f_equal. unfold posn. rewrite HL.
    by rewrite lookup_app_r, Nat.sub_diag by lia.
Qed.

(** Loops over the chain. *)

Lemma at_or_none_eqb g h ch i : heap_ok g h ch -> (at_or_none ch i =? no_page) = bool_decide (length ch <= i)%nat.
Proof.
  intros H. unfold at_or_none. destruct (ch !! i) as [e|] eqn:E.
  - rewrite bool_decide_eq_false_2 by (apply lookup_lt_Some in E; lia). apply N.eqb_neq. by apply (at_or_none_valid _ _ _ _ _ H E).
  - rewrite bool_decide_eq_true_2 by (by apply lookup_ge_None). done.
Qed.

Lemma count_pages_ok g h ch : heap_ok g h ch -> forall fuel i, (length ch < fuel + i)%nat -> (i <= length ch)%nat ->
  count_pages fuel (at_or_none ch i) h = (length ch - i)%nat.
Proof.
  intros H. induction fuel as [|f IH]; intros i Hf Hi; [lia|]. cbn [count_pages]. rewrite (at_or_none_eqb _ _ _ _ H).
  destruct (decide (length ch <= i)%nat) as [Hle|Hlt]; [rewrite bool_decide_eq_true_2 by done; lia|].
  rewrite bool_decide_eq_false_2 by done. destruct (lookup_lt_is_Some_2 ch i ltac:(lia)) as [[id rs] E].
  destruct (ho_page _ _ _ H _ _ _ E) as (p & Hp & _ & _ & Hnx & _). unfold at_or_none at 1. rewrite E. cbn [fst]. rewrite Hp, Hnx.
  rewrite IH by lia. lia.
Qed.

Lemma count_tuples_ok g h ch : heap_ok g h ch -> forall fuel i, (length ch < fuel + i)%nat -> (i <= length ch)%nat ->
  count_tuples fuel (at_or_none ch i) h = N.of_nat (length (flat (drop i ch))).
Proof.
  intros H. induction fuel as [|f IH]; intros i Hf Hi; [lia|]. cbn [count_tuples]. rewrite (at_or_none_eqb _ _ _ _ H).
  destruct (decide (length ch <= i)%nat) as [Hle|Hlt].
  { rewrite bool_decide_eq_true_2 by done. by rewrite drop_ge by lia. }
  rewrite bool_decide_eq_false_2 by done. destruct (lookup_lt_is_Some_2 ch i ltac:(lia)) as [[id rs] E].
  destruct (ho_page _ _ _ H _ _ _ E) as (p & Hp & _ & I & Hnx & _). unfold at_or_none at 1. rewrite E. cbn [fst]. rewrite Hp, Hnx.
  rewrite IH by lia. rewrite (drop_S ch (id, rs) i E), flat_cons, app_length, tag_length.
  rewrite (pi_num _ _ _ I), (pinv_len _ _ _ I). lia.
Qed.

Lemma first_used_ok g h ch fuel : heap_ok g h ch -> (0 < fuel)%nat -> first_used fuel (h_first h) h = (posn ch 0).1.
Proof.
  intros H Hf. rewrite (ho_first _ _ _ H). destruct fuel as [|f]; [lia|]. cbn [first_used]. rewrite (at_or_none_eqb _ _ _ _ H).
  destruct ch as [|[id rs] ch]; [done|]. rewrite bool_decide_eq_false_2 by (cbn; lia).
  destruct (ho_page _ _ _ H 0%nat id rs eq_refl) as (p & Hp & Hid & I & Hnx & _). unfold at_or_none. cbn [lookup list_lookup fst]. rewrite Hp.
  rewrite (pi_num _ _ _ I), (pinv_len _ _ _ I). destruct rs as [|x rs].
  - pose proof (ho_used _ _ _ H 0%nat id eq_refl) as Hl. cbn in Hl. assert (ch = []) by (apply nil_length_inv; lia). subst ch.
    cbn [length N.of_nat N.ltb N.compare]. rewrite Hnx. unfold at_or_none. cbn -[no_page]. by destruct f.
  - unfold posn. done.
Qed.

Lemma scan_ok g h ch fuel : heap_ok g h ch -> (length (flat ch) < fuel)%nat ->
  map snd (scan fuel h) = live (flat ch) /\ (live (flat ch) = flat ch -> map fst (scan fuel h) = map fst (flat ch)).
Proof.
  intros H Hf. unfold scan, it_init. rewrite !(first_used_ok _ _ _ _ H) by lia.
  assert (Hinit : (if (posn ch 0).1 =? no_page then (no_page, 0%nat)
            else if ((posn ch 0).1, 0%nat).1 =? no_page then ((posn ch 0).1, 0%nat)
            else match h_pages h !! ((posn ch 0).1, 0%nat).1 with
                 | Some p => if p_num p <=? N.of_nat ((posn ch 0).1, 0%nat).2 then (((posn ch 0).1, 0%nat).1, 0%nat) else ((posn ch 0).1, 0%nat)
                 | None => ((posn ch 0).1, 0%nat)
                 end) = posn ch 0).
  { cbn [fst snd]. unfold posn. destruct (flat ch !! 0%nat) as [[r x]|] eqn:E; [|done]. cbn [fst snd].
    destruct (flat_split _ _ _ _ E) as (ch0 & rs & ch1 & -> & Hj & Hx).
    assert (r = (r.1, 0%nat)) as Er by (destruct r; cbn in *; f_equal; lia). rewrite Er. cbn [fst].
    assert (Hi : (ch0 ++ (r.1, rs) :: ch1) !! length ch0 = Some (r.1, rs)) by (by rewrite lookup_app_r, Nat.sub_diag by lia).
    pose proof (at_or_none_valid _ _ _ _ _ H Hi) as Hv. cbn in Hv.
    destruct (r.1 =? no_page) eqn:E2; [apply N.eqb_eq in E2; congruence|].
    destruct (h_pages h !! r.1); [|done]. by destruct (p_num p <=? N.of_nat 0). }
  rewrite Hinit. apply (all_ok g h ch fuel H fuel [] (flat ch)); done.
Qed.
