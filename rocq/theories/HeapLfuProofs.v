From stdpp Require Import gmap list.
From Coq Require Import Lia ZifyBool ZifyNat ZifyN Sorted.
From Verif Require Import CacheSpec LfuSpec LfuModel LfuProofs.

Section hlfu.
  Context {V : Type}.
  Implicit Types (q : hlfu V) (h : list (N * N)).

  Definition rec_le (a b : N * N) : Prop := (a.1 < b.1)%N \/ a.1 = b.1 /\ (a.2 <= b.2)%N.
  Lemma rec_leb_spec a b : rec_leb a b = true <-> rec_le a b.
  Proof.
    unfold rec_leb, rec_le. destruct (N.eqb_spec a.1 b.1) as [E|E].
    - rewrite N.leb_le. lia.
    - rewrite N.ltb_lt. lia.
  Qed.
  Lemma rec_leb_false a b : rec_leb a b = false -> rec_le b a.
  Proof.
    unfold rec_leb, rec_le. destruct (N.eqb_spec a.1 b.1) as [E|E].
    - rewrite N.leb_gt. lia.
    - rewrite N.ltb_ge. lia.
  Qed.
  Lemma rec_le_trans a b c : rec_le a b -> rec_le b c -> rec_le a c.
  Proof. unfold rec_le. lia. Qed.

  (** Sorted: every record is below all later ones. *)
  Fixpoint sorted h : Prop :=
    match h with [] => True | x :: t => (forall y, y ∈ t -> rec_le x y) /\ sorted t end.

  Lemma heap_push_elem x y h : y ∈ heap_push x h <-> y = x \/ y ∈ h.
  Proof.
    induction h as [|z t IH]; simpl; [by rewrite elem_of_list_singleton, elem_of_nil; naive_solver|].
    destruct (rec_leb x z); rewrite !elem_of_cons; [naive_solver|]. rewrite IH. naive_solver.
  Qed.
  Lemma heap_push_sorted x h : sorted h -> sorted (heap_push x h).
  Proof.
    induction h as [|z t IH]; simpl; [intros _; split; [intros y Hy; by apply elem_of_nil in Hy|done]|].
    intros [Hz Ht]. destruct (rec_leb x z) eqn:E; simpl.
    - apply rec_leb_spec in E. split; [|done].
      intros y [->|Hy]%elem_of_cons; [done|]. eapply rec_le_trans; eauto.
    - split; [|auto]. intros y [->|Hy]%heap_push_elem; [by apply rec_leb_false|auto].
  Qed.

  (** Every key with data has a count, and the heap holds its current record. *)
  Record hinv q : Prop := {
    hi_dom : forall k, is_Some (h_data q !! k) <-> is_Some (h_freq q !! k);
    hi_sorted : sorted (h_heap q);
    hi_heap : forall k f, h_freq q !! k = Some f -> (f, k) ∈ h_heap q }.

  Lemma hinv_new cap : hinv (hlfu_new cap).
  Proof. split; simpl; [|done|]; intros k *; rewrite ?lookup_empty; [|done]. split; intros [? ?]; done. Qed.

  Lemma contents_lookup q k : hlfu_contents q !! k =
    match h_data q !! k, h_freq q !! k with Some v, Some f => Some (v, f) | _, _ => None end.
  Proof. unfold hlfu_contents. rewrite map_lookup_zip_with. by destruct (h_data q !! k), (h_freq q !! k). Qed.
  Lemma contents_Some q k v f : hlfu_contents q !! k = Some (v, f) <-> h_data q !! k = Some v /\ h_freq q !! k = Some f.
  Proof.
    rewrite contents_lookup. destruct (h_data q !! k), (h_freq q !! k); naive_solver.
  Qed.
  Lemma contents_None q k : hinv q -> hlfu_contents q !! k = None <-> h_data q !! k = None.
  Proof.
    intros [Hd _ _]. specialize (Hd k). rewrite contents_lookup.
    destruct (h_data q !! k), (h_freq q !! k); try naive_solver.
    destruct Hd as [[x Hx] _]; [by eexists|done].
  Qed.
  Lemma contents_size q : hinv q -> size (hlfu_contents q) = size (h_data q).
  Proof.
    intros Hi. rewrite <- !size_dom. f_equal. apply set_eq. intros k.
    rewrite !elem_of_dom. rewrite <- !not_eq_None_Some. by rewrite (contents_None q k Hi).
  Qed.
  Lemma contents_fst q k : hinv q -> fst <$> hlfu_contents q !! k = h_data q !! k.
  Proof.
    intros Hi. destruct (h_data q !! k) as [v|] eqn:E.
    - destruct (proj1 (hi_dom _ Hi k)) as [f Hf]; [by eexists|]. by rewrite (proj2 (contents_Some q k v f)).
    - by rewrite (proj2 (contents_None q k Hi)).
  Qed.
  Lemma contents_snd q k : hinv q -> snd <$> hlfu_contents q !! k = h_freq q !! k.
  Proof.
    intros Hi. destruct (h_freq q !! k) as [f|] eqn:E.
    - destruct (proj2 (hi_dom _ Hi k)) as [v Hv]; [by eexists|]. by rewrite (proj2 (contents_Some q k v f)).
    - destruct (h_data q !! k) as [v|] eqn:Ed.
      + destruct (proj1 (hi_dom _ Hi k)) as [f Hf]; [by eexists|congruence].
      + by rewrite (proj2 (contents_None q k Hi)).
  Qed.

  Lemma pop_internal_spec (fr : gmap N N) h h1 r : sorted h ->
    (forall k f, fr !! k = Some f -> (f, k) ∈ h) -> pop_internal fr h = (h1, r) ->
    sorted h1 /\
    match r with
    | None => fr = ∅
    | Some (k, f) => fr !! k = Some f /\
        (forall k' f', fr !! k' = Some f' -> rec_le (f, k) (f', k')) /\
        (forall k' f', k' <> k -> fr !! k' = Some f' -> (f', k') ∈ h1)
    end.
  Proof.
    revert h1 r. induction h as [|[f k] t IH]; intros h1 r Hs Hh Hp; simpl in *.
    - injection Hp as <- <-. split; [done|]. apply map_empty. intros k.
      destruct (fr !! k) as [f|] eqn:E; [|done]. apply Hh in E. by apply elem_of_nil in E.
    - destruct Hs as [Hle Hs].
      destruct (fr !! k) as [cur|] eqn:Ek; [destruct (N.eqb_spec f cur) as [->|Hne]|].
      + assert (h1 = t) by congruence. assert (r = Some (k, cur)) by congruence. subst.
        split; [done|]. split; [done|]. split.
        * intros k' f' H'. apply Hh in H' as [E|H']%elem_of_cons; [|auto].
          injection E; intros; subst. unfold rec_le; simpl; lia.
        * intros k' f' Hk H'. apply Hh in H' as [E|H']%elem_of_cons; [congruence|done].
      + apply IH; [done| |done]. intros k' f' H'. pose proof (Hh _ _ H') as [E|Hin]%elem_of_cons; [|done].
        congruence.
      + apply IH; [done| |done]. intros k' f' H'. pose proof (Hh _ _ H') as [E|Hin]%elem_of_cons; [|done].
        congruence.
  Qed.

  (** [x] has the least (count, key) pair. *)
  Definition lex_least (s : gmap N (V * N)) (x : N) : Prop :=
    exists v f, s !! x = Some (v, f) /\
      forall y v' f', s !! y = Some (v', f') -> (f < f')%N \/ f = f' /\ (x <= y)%N.
  Lemma lex_least_used s x : lex_least s x -> least_used s x.
  Proof. intros (v & f & Hx & H). exists v, f. split; [done|]. intros y v' f' Hy. specialize (H _ _ _ Hy). lia. Qed.

  Lemma contents_empty q : hinv q -> h_freq q = ∅ -> hlfu_contents q = ∅.
  Proof.
    intros Hi E. apply map_empty. intros k. rewrite contents_lookup, E, lookup_empty. by destruct (h_data q !! k).
  Qed.

  Lemma hlfu_pop_spec q q1 r : hinv q -> hlfu_pop q = (q1, r) ->
    hinv q1 /\ h_cap q1 = h_cap q /\
    (hlfu_contents q = ∅ /\ hlfu_contents q1 = ∅ /\ r = None \/
     exists x v, lex_least (hlfu_contents q) x /\ fst <$> hlfu_contents q !! x = Some v /\
       hlfu_contents q1 = delete x (hlfu_contents q) /\ r = Some (x, v)).
  Proof.
    intros Hi H. unfold hlfu_pop in H.
    destruct (pop_internal (h_freq q) (h_heap q)) as [h1 [[k f]|]] eqn:Ep;
      destruct (pop_internal_spec _ _ _ _ (hi_sorted _ Hi) (hi_heap _ Hi) Ep) as [Hs1 Hr].
    - destruct Hr as (Hk & Hle & Hrest).
      destruct (proj2 (hi_dom _ Hi k)) as [v Hv]; [by eexists|]. rewrite Hv in H.
      injection H as <- <-. simpl. split; [|split; [done|]].
      + split; simpl; [|done|].
        * intros y. destruct (decide (y = k)) as [->|Hy]; [rewrite !lookup_delete; split; intros [? ?]; done|].
          rewrite !lookup_delete_ne by done. apply Hi.
        * intros y fy Hy%lookup_delete_Some. apply Hrest; [by intros ->; apply (proj1 Hy)|apply Hy].
      + right. exists k, v. split; [|split; [|split; [|done]]].
        * exists v, f. split; [by apply contents_Some|]. intros y v' f' [_ Hy]%contents_Some.
          apply (Hle _ _ Hy).
        * rewrite contents_fst by done. done.
        * apply map_eq. intros y. rewrite contents_lookup. simpl.
          destruct (decide (y = k)) as [->|Hy]; [by rewrite !lookup_delete|].
          by rewrite !lookup_delete_ne, contents_lookup by done.
    - injection H as <- <-. simpl. split; [|split; [done|]].
      + split; simpl; [apply Hi|done|]. intros y fy Hy. rewrite Hr in Hy. by rewrite lookup_empty in Hy.
      + left. split; [by apply contents_empty|]. split; [|done].
        apply (map_empty (hlfu_contents _)). intros y. rewrite contents_lookup. simpl. rewrite Hr, lookup_empty. by destruct (h_data q !! y).
  Qed.

  Lemma list_min_spec (l : list N) x : (forall y, y ∈ l -> (fold_left N.min l x <= y)%N) /\ (fold_left N.min l x <= x)%N /\
    (fold_left N.min l x = x \/ fold_left N.min l x ∈ l).
  Proof.
    revert x. induction l as [|a l IH]; intros x; simpl.
    - split; [intros y Hy; by apply elem_of_nil in Hy|]. split; [lia|by left].
    - destruct (IH (N.min x a)) as (H1 & H2 & H3). split; [|split].
      + intros y [->|Hy]%elem_of_cons; [lia|auto].
      + lia.
      + destruct H3 as [H3|H3]; [|right; by constructor].
        destruct (N.le_ge_cases x a); [left; lia|right]. rewrite H3, N.min_r by done. constructor.
  Qed.
  Lemma first_freq_Some mf (it : list (N * N)) k : first_freq mf it = Some k -> (k, mf) ∈ it.
  Proof.
    induction it as [|[k' f] t IH]; simpl; [done|].
    destruct (N.eqb_spec f mf) as [->|]; intros H; [|constructor; auto].
    assert (k = k') by congruence. subst. constructor.
  Qed.
  Lemma first_freq_ex mf (it : list (N * N)) : mf ∈ it.*2 -> exists k, first_freq mf it = Some k.
  Proof.
    induction it as [|[k' f] t IH]; simpl; [by intros H%elem_of_nil|].
    intros [->|H]%elem_of_cons; [rewrite N.eqb_refl; eauto|].
    destruct (N.eqb f mf); eauto.
  Qed.

  Lemma hlfu_peek_spec q it : hinv q -> it ≡ₚ map_to_list (h_freq q) ->
    hlfu_contents q = ∅ /\ hlfu_peek q it = None \/
    exists x v f, least_used (hlfu_contents q) x /\ hlfu_contents q !! x = Some (v, f) /\ hlfu_peek q it = Some (x, v).
  Proof.
    intros Hi Hp. unfold hlfu_peek.
    assert (Hl : forall k f, (k, f) ∈ it <-> h_freq q !! k = Some f).
    { intros k f. rewrite Hp. apply elem_of_map_to_list. }
    destruct (it.*2) as [|x l] eqn:El.
    - left. apply fmap_nil_inv in El. subst it. symmetry in Hp. apply Permutation_nil_r in Hp.
      apply map_to_list_empty_iff in Hp. split; [by apply contents_empty|done].
    - right. unfold list_min_opt. set (mf := fold_left N.min l x). cbn [mbind option_bind].
      destruct (list_min_spec l x) as (H1 & H2 & H3). fold mf in H1, H2, H3.
      assert (Hmin : forall y, y ∈ it.*2 -> (mf <= y)%N).
      { rewrite El. intros y [->|Hy]%elem_of_cons; auto. }
      assert (Hin : mf ∈ it.*2). { rewrite El. destruct H3 as [->|H3]; by constructor. }
      destruct (first_freq_ex _ _ Hin) as [k Hk]. rewrite Hk. cbn [mbind option_bind].
      apply first_freq_Some, Hl in Hk.
      destruct (proj2 (hi_dom _ Hi k)) as [v Hv]; [by eexists|]. rewrite Hv. simpl.
      exists k, v, mf. assert (Hc : hlfu_contents q !! k = Some (v, mf)) by by apply contents_Some.
      split; [|done]. exists v, mf. split; [done|]. intros y v' f' [_ Hy]%contents_Some.
      apply Hmin. apply Hl in Hy. by apply (elem_of_list_fmap_1 snd) in Hy.
  Qed.

  (** Bumping a count: new record pushed. *)
  Lemma hinv_bump q k v f : hinv q -> h_data q !! k = Some v ->
    hinv (mkHlfu (h_cap q) (h_data q) (<[k := f]> (h_freq q)) (heap_push (f, k) (h_heap q))) /\
    hlfu_contents (mkHlfu (h_cap q) (h_data q) (<[k := f]> (h_freq q)) (heap_push (f, k) (h_heap q)))
      = <[k := (v, f)]> (hlfu_contents q).
  Proof.
    intros Hi Hv. split.
    - split; simpl.
      + intros y. destruct (decide (y = k)) as [->|Hy]; [rewrite lookup_insert, Hv; split; by eexists|].
        rewrite lookup_insert_ne by done. apply Hi.
      + apply heap_push_sorted, Hi.
      + intros y fy. destruct (decide (y = k)) as [->|Hy].
        * rewrite lookup_insert. intros [= ->]. apply heap_push_elem. by left.
        * rewrite lookup_insert_ne by done. intros H. apply heap_push_elem. right. by apply Hi.
    - apply map_eq. intros y. rewrite contents_lookup. simpl. destruct (decide (y = k)) as [->|Hy].
      + by rewrite !lookup_insert, Hv.
      + by rewrite !lookup_insert_ne, contents_lookup by done.
  Qed.

  (** Adding a key. *)
  Lemma hinv_add q k v : hinv q ->
    hinv (mkHlfu (h_cap q) (<[k := v]> (h_data q)) (<[k := 1%N]> (h_freq q)) (heap_push (1%N, k) (h_heap q))) /\
    hlfu_contents (mkHlfu (h_cap q) (<[k := v]> (h_data q)) (<[k := 1%N]> (h_freq q)) (heap_push (1%N, k) (h_heap q)))
      = <[k := (v, 1%N)]> (hlfu_contents q).
  Proof.
    intros Hi. split.
    - split; simpl.
      + intros y. destruct (decide (y = k)) as [->|Hy]; [rewrite !lookup_insert; split; by eexists|].
        rewrite !lookup_insert_ne by done. apply Hi.
      + apply heap_push_sorted, Hi.
      + intros y fy. destruct (decide (y = k)) as [->|Hy].
        * rewrite lookup_insert. intros [= <-]. apply heap_push_elem. by left.
        * rewrite lookup_insert_ne by done. intros H. apply heap_push_elem. right. by apply Hi.
    - apply map_eq. intros y. rewrite contents_lookup. simpl. destruct (decide (y = k)) as [->|Hy].
      + by rewrite !lookup_insert.
      + by rewrite !lookup_insert_ne, contents_lookup by done.
  Qed.

  Lemma contents_decide q k : hinv q ->
    bool_decide (is_Some (h_data q !! k)) = bool_decide (is_Some (hlfu_contents q !! k)).
  Proof. intros Hi. apply bool_decide_ext. rewrite <- !not_eq_None_Some. by rewrite (contents_None q k Hi). Qed.

  Lemma hlfu_step_spec q o it q1 r : 0 < h_cap q -> hinv q -> it ≡ₚ map_to_list (h_freq q) ->
    hlfu_step q o it = (q1, r) ->
    hinv q1 /\ h_cap q1 = h_cap q /\ lfu_spec (h_cap q) (hlfu_contents q) o (hlfu_contents q1) r.
  Proof.
    intros Hcap Hi Hp H. destruct o; simpl in H.
    - unfold hlfu_insert in H. destruct (h_data q !! k) as [old|] eqn:Ek.
      + injection H as <- <-. destruct (proj1 (hi_dom _ Hi k)) as [f Hf]; [by eexists|].
        split; [|split; [done|]].
        * split; simpl; [|apply Hi|apply Hi]. intros y. destruct (decide (y = k)) as [->|Hy].
          { rewrite lookup_insert, Hf. split; by eexists. }
          rewrite lookup_insert_ne by done. apply Hi.
        * assert (E : hlfu_contents (mkHlfu (h_cap q) (<[k:=v]> (h_data q)) (h_freq q) (h_heap q)) = <[k := (v, f)]> (hlfu_contents q)).
          { apply map_eq. intros y. rewrite contents_lookup. simpl. destruct (decide (y = k)) as [->|Hy].
            - by rewrite !lookup_insert, Hf.
            - by rewrite !lookup_insert_ne, contents_lookup by done. }
          rewrite E. constructor. by apply contents_Some.
      + assert (Hn : hlfu_contents q !! k = None) by by apply contents_None.
        destruct (Nat.leb_spec (h_cap q) (size (h_data q))) as [Hfull|Hroom].
        * destruct (hlfu_pop q) as [q' r'] eqn:Epop. simpl in H.
          destruct (hlfu_pop_spec _ _ _ Hi Epop) as (Hi' & Hc' & [(E1 & _)|(x & w & Hl & Hx & E1 & _)]).
          { rewrite <- contents_size, E1, map_size_empty in Hfull by done. lia. }
          injection H as <- <-. destruct (hinv_add q' k v Hi') as [Hi1 Ec]. split; [done|]. split; [done|].
          rewrite Ec, E1. apply sp_insert_full; [done|done|by rewrite contents_size|by apply lex_least_used].
        * injection H as <- <-. destruct (hinv_add q k v Hi) as [Hi1 Ec]. split; [done|]. split; [done|].
          rewrite Ec. apply sp_insert_room; [done|]. by rewrite contents_size.
    - unfold hlfu_get in H. destruct (h_data q !! k) as [v|] eqn:Ek.
      + destruct (proj1 (hi_dom _ Hi k)) as [f Hf]; [by eexists|]. rewrite Hf in H. injection H as <- <-.
        destruct (hinv_bump q k v (f + 1)%N Hi Ek) as [Hi1 Ec]. split; [done|]. split; [done|].
        rewrite Ec. constructor. by apply contents_Some.
      + injection H as <- <-. split; [done|]. split; [done|]. constructor. by apply contents_None.
    - injection H as <- <-. split; [done|]. split; [done|]. rewrite contents_decide by done. constructor.
    - injection H as <- <-. split; [done|]. split; [done|]. rewrite <- contents_size by done. constructor.
    - injection H as <- <-. split; [|split; [done|]].
      + split; simpl; [|done|]; intros y *; rewrite ?lookup_empty; [|done]. split; intros [? ?]; done.
      + assert (E : hlfu_contents (mkHlfu (h_cap q) (∅ : gmap N V) ∅ []) = ∅).
        { apply map_empty. intros y. rewrite contents_lookup. simpl. by rewrite lookup_empty. }
        rewrite E. constructor.
    - unfold hlfu_remove in H. destruct (h_data q !! k) as [v|] eqn:Ek.
      + injection H as <- <-. split; [|split; [done|]].
        * split; simpl; [|apply Hi|].
          { intros y. destruct (decide (y = k)) as [->|Hy]; [rewrite !lookup_delete; split; intros [? ?]; done|].
            rewrite !lookup_delete_ne by done. apply Hi. }
          { intros y fy [_ Hy]%lookup_delete_Some. by apply Hi. }
        * assert (E : hlfu_contents (mkHlfu (h_cap q) (delete k (h_data q)) (delete k (h_freq q)) (h_heap q)) = delete k (hlfu_contents q)).
          { apply map_eq. intros y. rewrite contents_lookup. simpl. destruct (decide (y = k)) as [->|Hy].
            - by rewrite !lookup_delete.
            - by rewrite !lookup_delete_ne, contents_lookup by done. }
          rewrite E. replace (Some v) with (fst <$> hlfu_contents q !! k) by (rewrite contents_fst; done).
          constructor.
      + injection H as <- <-. split; [done|]. split; [done|].
        assert (Hn : hlfu_contents q !! k = None) by by apply contents_None.
        rewrite <- (delete_notin _ _ Hn) at 2.
        replace None with (fst <$> hlfu_contents q !! k) by by rewrite Hn. constructor.
    - destruct (hlfu_pop q) as [q' r'] eqn:Epop. injection H as <- <-.
      destruct (hlfu_pop_spec _ _ _ Hi Epop) as (Hi' & Hc' & [(E1 & E2 & ->)|(x & w & Hl & Hx & E1 & ->)]);
        (split; [done|]); (split; [done|]).
      + rewrite E1, E2. constructor.
      + rewrite E1. destruct (hlfu_contents q !! x) as [[v' f]|] eqn:Ex; [|done]. simpl in Hx.
        assert (v' = w) by congruence. subst. eapply sp_pop; [by apply lex_least_used|done].
    - injection H as <- <-. split; [done|]. split; [done|].
      destruct (hlfu_peek_spec q it Hi Hp) as [[E ->]|(x & v & f & Hl & Hx & ->)].
      + rewrite E. constructor.
      + by eapply sp_peek.
    - injection H as <- <-. split; [done|]. split; [done|].
      rewrite <- contents_snd by done. constructor.
    - unfold hlfu_reset in H. destruct (h_freq q !! k) as [f|] eqn:Ek.
      + destruct (proj2 (hi_dom _ Hi k)) as [v Hv]; [by eexists|]. injection H as <- <-.
        destruct (hinv_bump q k v 1%N Hi Hv) as [Hi1 Ec]. split; [done|]. split; [done|].
        rewrite Ec. econstructor. by apply contents_Some.
      + injection H as <- <-. split; [done|]. split; [done|]. constructor.
        destruct (hlfu_contents q !! k) as [[v f]|] eqn:E; [|done]. apply contents_Some in E. naive_solver.
    - unfold hlfu_incr in H. destruct (h_freq q !! k) as [f|] eqn:Ek.
      + destruct (proj2 (hi_dom _ Hi k)) as [v Hv]; [by eexists|]. injection H as <- <-.
        destruct (hinv_bump q k v (f + 1)%N Hi Hv) as [Hi1 Ec]. split; [done|]. split; [done|].
        rewrite Ec. econstructor. by apply contents_Some.
      + injection H as <- <-. split; [done|]. split; [done|]. constructor.
        destruct (hlfu_contents q !! k) as [[v f]|] eqn:E; [|done]. apply contents_Some in E. naive_solver.
  Qed.

  Lemma hlfu_run_hist q tr q2 : hlfu_run q tr q2 -> 0 < h_cap q -> hinv q ->
    hinv q2 /\ h_cap q2 = h_cap q /\ lfu_hist (h_cap q) (hlfu_contents q) tr (hlfu_contents q2).
  Proof.
    induction 1 as [|q o it q1 r tr q2 Hp Hs Hr IH]; intros Hc Hi; [split; [done|split; [done|constructor]]|].
    destruct (hlfu_step_spec _ _ _ _ _ Hc Hi Hp Hs) as (Hi1 & Hc1 & Hsp).
    destruct IH as (Hi2 & Hc2 & Hh); [by rewrite Hc1|done|]. split; [done|]. split; [congruence|].
    econstructor; [done|]. by rewrite <- Hc1.
  Qed.

  Lemma contents_new cap : hlfu_contents (hlfu_new cap : hlfu V) = ∅.
  Proof. apply map_empty. intros y. rewrite contents_lookup. simpl. by rewrite lookup_empty. Qed.
End hlfu.
