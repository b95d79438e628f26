From stdpp Require Import gmap list.
From Coq Require Import Lia ZifyBool ZifyNat ZifyN.
From Verif Require Import CacheSpec LrukSpec LrukModel.

(** ** Histories *)
Lemma lastn_length {A} n (l : list A) : length (lastn n l) = Nat.min n (length l).
Proof. unfold lastn. rewrite drop_length. lia. Qed.
Lemma lastn_all {A} n (l : list A) : length l <= n -> lastn n l = l.
Proof. intros H. unfold lastn. by replace (length l - n) with 0 by lia. Qed.

Lemma push_access_lastn k h now : push_access k (lastn k h) now = lastn k (h ++ [now]).
Proof.
  unfold push_access. rewrite app_length, lastn_length. simpl.
  destruct (Nat.ltb_spec k (Nat.min k (length h) + 1)) as [H|H].
  - unfold lastn at 2. rewrite app_length. simpl.
    replace (length h + 1 - k) with (S (length h - k)) by lia.
    replace (S (length h - k)) with ((length h - k) + 1) by lia.
    rewrite <- drop_drop, (drop_app_le h) by lia. unfold lastn.
    by destruct (drop (length h - k) h ++ [now]).
  - rewrite !lastn_all; [done| |]; rewrite ?app_length; simpl; lia.
Qed.

Lemma nth_drop0 {A} i (h : list A) d : nth 0 (drop i h) d = nth i h d.
Proof. revert i. induction h as [|x t IH]; intros [|i]; try done. simpl drop. rewrite IH. done. Qed.

Definition meas (k : nat) (h : list N) : nat * N :=
  if Nat.ltb (length h) k then (length h, nth 0 h never) else (k, nth (length h - k) h never).
Definition lexlt (a b : nat * N) : Prop := a.1 < b.1 \/ a.1 = b.1 /\ (a.2 < b.2)%N.

Lemma goes_before_meas k h1 h2 : goes_before k h1 h2 <-> lexlt (meas k h1) (meas k h2).
Proof.
  unfold goes_before, lexlt, meas, first_access, kth_recent.
  destruct (Nat.ltb_spec (length h1) k), (Nat.ltb_spec (length h2) k); simpl; lia.
Qed.

Lemma meas_lastn k h : meas k (lastn k h) = meas k h.
Proof.
  unfold meas. rewrite lastn_length.
  destruct (Nat.ltb_spec (length h) k) as [H|H].
  - rewrite lastn_all by lia. rewrite (proj2 (Nat.ltb_lt _ _)) by lia. f_equal. lia.
  - rewrite (proj2 (Nat.ltb_ge _ _)) by lia. f_equal. unfold lastn.
    replace (Nat.min k (length h) - k) with 0 by lia.
    apply nth_drop0.
Qed.

Lemma meas_le k h : (meas k h).1 <= k.
Proof. unfold meas. destruct (Nat.ltb_spec (length h) k); simpl; lia. Qed.

Lemma scan_step_none k key h : scan_step k None (key, h) = Some (key, (meas k h).1, (meas k h).2).
Proof. unfold scan_step, meas. by destruct (length h <? k). Qed.
Lemma scan_step_some k key h x m o : m <= k ->
  scan_step k (Some (x, m, o)) (key, h) = Some (key, (meas k h).1, (meas k h).2) /\ lexlt (meas k h) (m, o) \/
  scan_step k (Some (x, m, o)) (key, h) = Some (x, m, o) /\ ~ lexlt (meas k h) (m, o).
Proof.
  intros Hm. unfold scan_step, meas, lexlt. destruct (Nat.ltb_spec (length h) k) as [H|H]; simpl.
  - destruct (Nat.ltb_spec (length h) m); [left; split; [done|lia]|].
    destruct (Nat.eqb_spec (length h) m) as [E|E]; [|right; split; [done|lia]].
    destruct (N.ltb_spec (nth 0 h never) o); [left; split; [by rewrite E|lia]|right; split; [done|lia]].
  - destruct (Nat.leb_spec k m); [|right; split; [done|lia]].
    destruct (N.ltb_spec (nth (length h - k) h never) o); [left; split; [done|lia]|right; split; [done|lia]].
Qed.

Lemma lexlt_irrefl a : ~ lexlt a a.
Proof. unfold lexlt. lia. Qed.
Lemma lexlt_nle_trans a b c : ~ lexlt a b -> ~ lexlt b c -> ~ lexlt a c.
Proof. unfold lexlt. lia. Qed.
Lemma lexlt_asym a b : lexlt a b -> ~ lexlt b a.
Proof. unfold lexlt. lia. Qed.

Lemma scan_fold k l x0 m0 o0 : m0 <= k -> exists x m o,
  fold_left (scan_step k) l (Some (x0, m0, o0)) = Some (x, m, o) /\
  ((x, m, o) = (x0, m0, o0) \/ exists h, (x, h) ∈ l /\ meas k h = (m, o)) /\
  ~ lexlt (m0, o0) (m, o) /\ (forall y h, (y, h) ∈ l -> ~ lexlt (meas k h) (m, o)).
Proof.
  revert x0 m0 o0. induction l as [|[key h] t IH]; intros x0 m0 o0 Hm.
  - exists x0, m0, o0. split; [done|]. split; [by left|]. split; [apply lexlt_irrefl|].
    intros y h H. by apply elem_of_nil in H.
  - cbn [fold_left]. destruct (scan_step_some k key h x0 m0 o0 Hm) as [[-> Hlt]|[-> Hge]].
    + destruct (IH key (meas k h).1 (meas k h).2 (meas_le k h)) as (x & m & o & -> & Hin & H0 & Hall).
      rewrite <- surjective_pairing in H0.
      exists x, m, o. split; [done|]. split; [|split].
      * right. destruct Hin as [E|(h' & Hin & E)].
        { exists h. assert (x = key) by congruence. subst. split; [constructor|].
          rewrite (surjective_pairing (meas k h)). congruence. }
        { exists h'. split; [by constructor|done]. }
      * eapply lexlt_nle_trans; [|exact H0]. by apply lexlt_asym.
      * intros y h' [E|H]%elem_of_cons; [|eauto]. assert (h' = h) by congruence. by subst.
    + destruct (IH x0 m0 o0 Hm) as (x & m & o & -> & Hin & H0 & Hall).
      exists x, m, o. split; [done|]. split; [|split; [done|]].
      * destruct Hin as [E|(h' & Hin & E)]; [by left|]. right. exists h'. split; [by constructor|done].
      * intros y h' [E|H]%elem_of_cons; [|eauto]. assert (h' = h) by congruence. subst.
        by eapply lexlt_nle_trans.
Qed.

Lemma scan_spec k l :
  match scan k l with
  | None => l = []
  | Some x => exists h, (x, h) ∈ l /\ forall y h', (y, h') ∈ l -> ~ goes_before k h' h
  end.
Proof.
  unfold scan. destruct l as [|[key h] t]; [done|]. cbn [fold_left]. rewrite scan_step_none.
  destruct (scan_fold k t key (meas k h).1 (meas k h).2 (meas_le k h)) as (x & m & o & -> & Hin & H0 & Hall).
  rewrite <- surjective_pairing in H0. simpl.
  assert (exists h', (x, h') ∈ (key, h) :: t /\ meas k h' = (m, o)) as (h' & Hin' & E').
  { destruct Hin as [E|(h' & Hin & E)].
    - exists h. assert (x = key) by congruence. subst. split; [constructor|].
      rewrite (surjective_pairing (meas k h)). congruence.
    - exists h'. split; [by constructor|done]. }
  exists h'. split; [done|]. intros y h'' Hy. rewrite goes_before_meas, E'.
  apply elem_of_cons in Hy as [E|Hy]; [|eauto]. assert (h'' = h) by congruence. by subst.
Qed.

Lemma goes_before_lastn k h1 h2 : goes_before k (lastn k h1) (lastn k h2) <-> goes_before k h1 h2.
Proof. by rewrite !goes_before_meas, !meas_lastn. Qed.

(** ** Cache *)
Section lruk.
  Context {V : Type}.
  Implicit Types (c : lruk V) (s : gmap N (V * list N)) (it : list (N * (V * list N))).

  (** The cache stores the last K accesses of the reference. *)
  Definition trunc (k : nat) (e : V * list N) : V * list N := (e.1, lastn k e.2).
  Definition kabs c s : Prop := k_map c = trunc (k_k c) <$> s.

  Lemma kabs_lookup c s x : kabs c s -> k_map c !! x = trunc (k_k c) <$> s !! x.
  Proof. intros ->. by rewrite lookup_fmap. Qed.
  Lemma kabs_size c s : kabs c s -> size (k_map c) = size s.
  Proof. intros ->. apply map_size_fmap. Qed.

  Lemma kabs_scan c s it : kabs c s -> it ≡ₚ map_to_list (k_map c) ->
    match scan (k_k c) (hists it) with
    | None => s = ∅
    | Some x => lruk_victim (k_k c) s x
    end.
  Proof.
    intros Ha Hp. pose proof (scan_spec (k_k c) (hists it)) as H.
    assert (Hl : forall x h, (x, h) ∈ hists it <-> exists v, k_map c !! x = Some (v, h)).
    { intros x h. unfold hists. rewrite elem_of_list_fmap. split.
      - intros ([y [v h']] & E & Hin). simpl in E. injection E; intros; subst.
        rewrite Hp, elem_of_map_to_list in Hin. eauto.
      - intros [v Hv]. exists (x, (v, h)). split; [done|]. by rewrite Hp, elem_of_map_to_list. }
    destruct (scan (k_k c) (hists it)) as [x|].
    - destruct H as (h & Hin & Hall). apply Hl in Hin as [v Hv].
      rewrite (kabs_lookup _ _ _ Ha) in Hv. destruct (s !! x) as [[v' hf]|] eqn:Es; [|done].
      simpl in Hv. assert (v' = v) by (unfold trunc in Hv; simpl in Hv; congruence).
      assert (h = lastn (k_k c) hf) by (unfold trunc in Hv; simpl in Hv; congruence). subst.
      exists v, hf. split; [done|]. intros y w hy Hy.
      rewrite <- goes_before_lastn. apply (Hall y). apply Hl. exists w.
      rewrite (kabs_lookup _ _ _ Ha), Hy. done.
    - unfold hists in H. apply fmap_nil_inv in H. subst it. symmetry in Hp. apply Permutation_nil_r in Hp.
      apply map_to_list_empty_iff in Hp. rewrite Ha in Hp. by apply fmap_empty_inv in Hp.
  Qed.

  Lemma kabs_insert c s x v h : kabs c s ->
    <[x := (v, lastn (k_k c) h)]> (k_map c) = trunc (k_k c) <$> <[x := (v, h)]> s.
  Proof. intros ->. by rewrite fmap_insert. Qed.
  Lemma kabs_delete c s x : kabs c s -> delete x (k_map c) = trunc (k_k c) <$> delete x s.
  Proof. intros ->. by rewrite fmap_delete. Qed.

  Lemma lookup_trunc c s x v h : kabs c s -> k_map c !! x = Some (v, h) ->
    exists hf, s !! x = Some (v, hf) /\ h = lastn (k_k c) hf.
  Proof.
    intros Ha H. rewrite (kabs_lookup _ _ _ Ha) in H. destruct (s !! x) as [[v' hf]|]; [|done].
    simpl in H. unfold trunc in H. simpl in H. exists hf. split; congruence.
  Qed.
  Lemma lookup_trunc_none c s x : kabs c s -> k_map c !! x = None -> s !! x = None.
  Proof. intros Ha H. rewrite (kabs_lookup _ _ _ Ha) in H. by destruct (s !! x). Qed.

  Lemma singleton_lastn k (now : N) : 0 < k -> [now] = lastn k [now].
  Proof. intros H. rewrite lastn_all; [done|simpl; lia]. Qed.

  Ltac fin := split; [done|split; [done|]].

  Lemma lruk_step_spec c s o it c1 r : 0 < k_k c -> kabs c s -> it ≡ₚ map_to_list (k_map c) ->
    lruk_step c o it = (c1, r) ->
    exists s1, kabs c1 s1 /\ k_k c1 = k_k c /\ k_cap c1 = k_cap c /\ lruk_spec (k_cap c) (k_k c) s o s1 r.
  Proof.
    intros Hk Ha Hp H. destruct o; simpl in H.
    - unfold lruk_insert in H. destruct (Nat.eqb_spec (k_cap c) 0) as [H0|H0].
      { injection H as <- <-. exists s. do 3 (split; [done|]). by constructor. }
      destruct (k_map c !! k) as [[old h]|] eqn:Ek.
      { injection H as <- <-. destruct (lookup_trunc _ _ _ _ _ Ha Ek) as (hf & Es & ->).
        rewrite push_access_lastn. eexists. split; [by apply (kabs_insert c s)|]. fin.
        econstructor; [lia|done]. }
      pose proof (lookup_trunc_none _ _ _ Ha Ek) as Es.
      rewrite (kabs_size _ _ Ha) in H.
      destruct (Nat.leb_spec (k_cap c) (size s)) as [Hf|Hr]; simpl in H.
      + destruct (Nat.eqb_spec (size s) 0) as [E0|E0]; simpl in H; [lia|].
        pose proof (kabs_scan c s it Ha Hp) as Hs. destruct (scan (k_k c) (hists it)) as [x|].
        * replace (delete x (k_map c) !! k) with (None : option (V * list N)) in H
            by (symmetry; apply lookup_delete_None; by right).
          injection H as <- <-. exists (<[k := (v, [now])]> (delete x s)). split.
          { unfold kabs. cbn [k_map k_k]. rewrite fmap_insert, (kabs_delete _ _ _ Ha). f_equal. unfold trunc. simpl.
            by rewrite <- singleton_lastn. }
          fin. constructor; [lia|done|lia|done].
        * subst s. by rewrite map_size_empty in E0.
      + rewrite Ek in H. injection H as <- <-. exists (<[k := (v, [now])]> s). split.
        { unfold kabs. cbn [k_map k_k]. rewrite fmap_insert, Ha. f_equal. unfold trunc. simpl. by rewrite <- singleton_lastn. }
        fin. by constructor.
    - unfold lruk_get in H. destruct (k_map c !! k) as [[v h]|] eqn:Ek.
      + injection H as <- <-. destruct (lookup_trunc _ _ _ _ _ Ha Ek) as (hf & Es & ->).
        rewrite push_access_lastn. eexists. split; [by apply (kabs_insert c s)|]. fin. by constructor.
      + injection H as <- <-. exists s. split; [done|]. fin. constructor. by apply (lookup_trunc_none c).
    - injection H as <- <-. exists s. split; [done|]. fin. rewrite (kabs_lookup _ _ _ Ha).
      replace (bool_decide _) with (bool_decide (is_Some (s !! k))); [constructor|].
      apply bool_decide_ext. by rewrite fmap_is_Some.
    - injection H as <- <-. exists s. split; [done|]. fin. rewrite (kabs_size _ _ Ha). constructor.
    - injection H as <- <-. exists ∅. split; [by unfold kabs; simpl; rewrite fmap_empty|]. fin. constructor.
    - injection H as <- <-. exists (delete k s). split; [by apply (kabs_delete c s)|]. fin.
      replace (fst <$> k_map c !! k) with (fst <$> s !! k); [constructor|].
      rewrite (kabs_lookup _ _ _ Ha). by destruct (s !! k).
    - unfold lruk_pop in H. rewrite (kabs_size _ _ Ha) in H. destruct (Nat.eqb_spec (size s) 0) as [E0|E0].
      + injection H as <- <-. exists s. split; [done|]. fin. apply map_size_empty_iff in E0. subst. constructor.
      + pose proof (kabs_scan c s it Ha Hp) as Hs. destruct (scan (k_k c) (hists it)) as [x|].
        * pose proof Hs as (v & h & Es & _). rewrite (kabs_lookup _ _ _ Ha), Es in H. simpl in H.
          injection H as <- <-. exists (delete x s). split; [by apply (kabs_delete c s)|]. fin. by econstructor.
        * subst s. by rewrite map_size_empty in E0.
    - injection H as <- <-. exists s. split; [done|]. fin. unfold lruk_peek. rewrite (kabs_size _ _ Ha).
      destruct (Nat.eqb_spec (size s) 0) as [E0|E0].
      + apply map_size_empty_iff in E0. subst. constructor.
      + pose proof (kabs_scan c s it Ha Hp) as Hs. destruct (scan (k_k c) (hists it)) as [x|].
        * pose proof Hs as (v & h & Es & _). cbn [mbind option_bind]. rewrite (kabs_lookup _ _ _ Ha), Es. simpl.
          by econstructor.
        * subst s. by rewrite map_size_empty in E0.
    - injection H as <- <-. exists s. split; [done|]. fin. rewrite (kabs_lookup _ _ _ Ha).
      replace ((λ e : V * list N, rev e.2) <$> (trunc (k_k c) <$> s !! k))
        with ((fun e : V * list N => rev (lastn (k_k c) e.2)) <$> s !! k); [constructor|]. by destruct (s !! k).
    - injection H as <- <-. exists s. split; [done|]. fin. rewrite (kabs_lookup _ _ _ Ha).
      replace ((λ e : V * list N, length e.2) <$> (trunc (k_k c) <$> s !! k))
        with ((fun e : V * list N => Nat.min (k_k c) (length e.2)) <$> s !! k); [constructor|].
      destruct (s !! k); simpl; [|done]. by rewrite lastn_length.
    - injection H as <- <-. exists s. split; [done|]. fin. unfold lruk_distance. rewrite (kabs_lookup _ _ _ Ha).
      replace (match _ with Some _ => _ | None => _ end)
        with (e ← s !! k; if decide (k_k c <= length e.2) then Some (kth_recent (k_k c) e.2) else None); [constructor|].
      destruct (s !! k) as [[v h]|]; simpl; [|done]. rewrite lastn_length.
      destruct (decide (k_k c <= length h)) as [Hle|Hle].
      + rewrite (proj2 (Nat.leb_le _ _)) by lia. unfold kth_recent, lastn.
        replace (Nat.min (k_k c) (length h) - k_k c) with 0 by lia.
        rewrite <- nth_drop0.
        destruct (drop (length h - k_k c) h) eqn:Ed; [|done].
        apply (f_equal length) in Ed. rewrite drop_length in Ed. simpl in Ed. lia.
      + by rewrite (proj2 (Nat.leb_gt _ _)) by lia.
    - unfold lruk_touch in H. destruct (k_map c !! k) as [[v h]|] eqn:Ek.
      + injection H as <- <-. destruct (lookup_trunc _ _ _ _ _ Ha Ek) as (hf & Es & ->).
        rewrite push_access_lastn. eexists. split; [by apply (kabs_insert c s)|]. fin. by econstructor.
      + injection H as <- <-. exists s. split; [done|]. fin. constructor. by apply (lookup_trunc_none c).
  Qed.

  Lemma lruk_run_hist c tr c2 : lruk_run c tr c2 -> 0 < k_k c -> forall s, kabs c s ->
    exists s2, kabs c2 s2 /\ k_k c2 = k_k c /\ lruk_hist (k_cap c) (k_k c) s tr s2.
  Proof.
    induction 1 as [c|c o it c1 r tr c2 Hp Hs Hr IH]; intros Hk s Ha.
    - exists s. split; [done|]. split; [done|constructor].
    - destruct (lruk_step_spec _ _ _ _ _ _ Hk Ha Hp Hs) as (s1 & Ha1 & Ek & Ec & Hsp).
      rewrite Ek in IH. destruct (IH Hk s1 Ha1) as (s2 & Ha2 & Ek2 & Hh). exists s2. split; [done|].
      split; [congruence|]. econstructor; [done|]. by rewrite <- Ec.
  Qed.

  Lemma lruk_spec_bound cap K s s1 o r : lruk_spec cap K s o s1 r -> size s <= cap -> size s1 <= cap.
  Proof.
    intros H Hs. destruct H; try done;
      rewrite ?map_size_insert, ?map_size_delete, ?map_size_empty; try lia;
      repeat match goal with H : ?s !! ?k = _ |- context [?s !! ?k] => rewrite H end; simpl; try lia.
    - match goal with H : lruk_victim _ _ _ |- _ => destruct H as (vx & fx & Hx & _) end. rewrite Hx.
      rewrite lookup_delete_ne by congruence.
      match goal with H : s !! k = None |- _ => rewrite H end. lia.
    - destruct (s !! k); simpl; unfold id; lia.
  Qed.
  Lemma lruk_hist_bound cap K s s1 tr : lruk_hist cap K s tr s1 -> size s <= cap -> size s1 <= cap.
  Proof. induction 1; [done|]. intros Hs. apply IHlruk_hist. by eapply lruk_spec_bound. Qed.

  (** ** Rank *)
  Definition item_lt (a b : bool * N) : Prop :=
    a.1 = false /\ b.1 = true \/ a.1 = b.1 /\ (a.2 < b.2)%N.
  Global Instance item_lt_dec a b : Decision (item_lt a b).
  Proof. unfold item_lt. apply _. Defined.

  Lemma item_leb_lt a b : item_leb a b = false <-> item_lt b a.
  Proof.
    unfold item_leb, item_lt. destruct a as [[] x], b as [[] y]; simpl; rewrite ?N.leb_gt;
      intuition (try lia; try discriminate).
  Qed.
  Lemma item_eqb_eq a b : item_eqb a b = true <-> a = b.
  Proof.
    unfold item_eqb. destruct a as [x p], b as [y q]. simpl. rewrite andb_true_iff, eqb_true_iff, N.eqb_eq.
    split; [intros [-> ->]; done|]. intros E. split; congruence.
  Qed.

  Fixpoint isorted (l : list (bool * N)) : Prop :=
    match l with [] => True | x :: t => (forall y, y ∈ t -> ~ item_lt y x) /\ isorted t end.
  Lemma item_insert_perm x l : item_insert x l ≡ₚ x :: l.
  Proof.
    induction l as [|y t IH]; simpl; [done|]. destruct (item_leb x y); [done|].
    rewrite IH. apply Permutation_swap.
  Qed.
  Lemma item_sort_perm l : item_sort l ≡ₚ l.
  Proof. induction l as [|x t IH]; simpl; [done|]. by rewrite item_insert_perm, IH. Qed.
  Lemma item_lt_nle_trans (a b c : bool * N) : ~ item_lt a b -> ~ item_lt b c -> ~ item_lt a c.
  Proof. unfold item_lt. destruct a as [[] ?], b as [[] ?], c as [[] ?]; simpl; intuition (try lia; try discriminate). Qed.
  Lemma item_insert_sorted x l : isorted l -> isorted (item_insert x l).
  Proof.
    induction l as [|y t IH]; simpl; [intros _; split; [intros z Hz; by apply elem_of_nil in Hz|done]|].
    intros [Hy Ht]. destruct (item_leb x y) eqn:E; simpl.
    - split; [|done]. intros z [->|Hz]%elem_of_cons.
      + intros Hlt. apply item_leb_lt in Hlt. congruence.
      + eapply item_lt_nle_trans; [by apply Hy|]. intros Hlt. apply item_leb_lt in Hlt. congruence.
    - split; [|auto]. intros z. rewrite (item_insert_perm x t). intros [->|Hz]%elem_of_cons; [|auto].
      apply item_leb_lt in E. unfold item_lt in *. destruct x as [[] ?], y as [[] ?]; simpl in *; intuition (try lia; try discriminate).
  Qed.
  Lemma item_sort_sorted l : isorted (item_sort l).
  Proof. induction l; simpl; [done|]. by apply item_insert_sorted. Qed.

  Lemma position_sorted x l : isorted l -> x ∈ l ->
    item_position x l = Some (length (filter (fun y => item_lt y x) l)).
  Proof.
    induction l as [|y t IH]; [by intros _ H%elem_of_nil|]. simpl. intros [Hy Ht] Hin.
    destruct (item_eqb y x) eqn:E.
    - apply item_eqb_eq in E. subst. rewrite filter_cons_False by (unfold item_lt; destruct x; simpl; intuition (try lia; congruence)).
      destruct (filter (fun y => item_lt y x) t) as [|z l] eqn:Ef; [done|].
      assert (Hz : z ∈ filter (fun y => item_lt y x) t) by (rewrite Ef; constructor).
      apply elem_of_list_filter in Hz as [Hz1 Hz2]. by destruct (Hy _ Hz2).
    - apply elem_of_cons in Hin as [->|Hin].
      { rewrite (proj2 (item_eqb_eq y y)) in E; done. }
      assert (Hne : y <> x). { intros ->. rewrite (proj2 (item_eqb_eq x x)) in E; done. }
      assert (Hlt : item_lt y x).
      { specialize (Hy x Hin). unfold item_lt in *. destruct x as [[] px], y as [[] py]; simpl in *;
          try (by left); try (by destruct Hy; left); right; (split; [done|]);
          destruct (N.lt_trichotomy py px) as [?|[->|?]]; try done; destruct Hy; right; done. }
      rewrite filter_cons_True by done. rewrite (IH Ht Hin). done.
  Qed.

  Lemma rank_count c it x v h : it ≡ₚ map_to_list (k_map c) -> k_map c !! x = Some (v, h) ->
    lruk_rank c it x = Some (length (filter (fun e : N * (V * list N) => item_lt (rank_item (k_k c) e.2.2) (rank_item (k_k c) h)) (map_to_list (k_map c)))).
  Proof.
    intros Hp Hx. unfold lruk_rank. rewrite Hx. rewrite position_sorted.
    - f_equal. rewrite (filter_Permutation _ _ _ (item_sort_perm _)).
      rewrite <- (filter_Permutation _ _ _ Hp). clear Hp. induction it as [|e t IH]; [done|].
      rewrite fmap_cons. rewrite !filter_cons. simpl. repeat case_decide; simpl; try done; by rewrite IH.
    - apply item_sort_sorted.
    - rewrite item_sort_perm. apply elem_of_list_fmap. exists (x, (v, h)). split; [done|].
      by rewrite Hp, elem_of_map_to_list.
  Qed.

  Lemma rank_item_small k h1 h2 : k <= 2 -> h1 <> [] -> h2 <> [] ->
    item_lt (rank_item k (lastn k h1)) (rank_item k (lastn k h2)) <-> goes_before k h1 h2.
  Proof.
    intros Hk H1 H2. rewrite <- goes_before_lastn. unfold rank_item, item_lt, goes_before, first_access, kth_recent.
    assert (0 < length h1) by (destruct h1; [done|simpl; lia]).
    assert (0 < length h2) by (destruct h2; [done|simpl; lia]).
    rewrite !lastn_length.
    destruct (Nat.ltb_spec (Nat.min k (length h1)) k), (Nat.ltb_spec (Nat.min k (length h2)) k); simpl;
      intuition (try lia; try discriminate).
  Qed.

  (** Reference histories are never empty. *)
  Lemma lruk_hist_nonempty cap K s s1 tr : lruk_hist cap K s tr s1 ->
    (forall x v h, s !! x = Some (v, h) -> h <> []) -> forall x v h, s1 !! x = Some (v, h) -> h <> [].
  Proof.
    induction 1 as [|s o r sm tr s2 Hsp Hh IH]; intros Hs; [done|]. apply IH. clear IH Hh. intros x v0 h0 Hx.
    assert (Hnil : forall (h : list N) n, h ++ [n] <> []) by (intros []; done).
    destruct Hsp; try (eapply Hs; eassumption);
      repeat match goal with
      | H : <[?k := _]> _ !! ?x = Some _ |- _ => apply lookup_insert_Some in H as [[_ H]|[_ H]]
      | H : delete ?k _ !! ?x = Some _ |- _ => apply lookup_delete_Some in H as [_ H]
      end; simplify_eq; try done; try (eapply Hs; eassumption); try (by apply Hnil).
  Qed.
End lruk.

Lemma NoDup_fmap_fst_filter {V : Type} (P : N * (V * list N) -> Prop) `{forall x, Decision (P x)} (m : gmap N (V * list N)) :
  NoDup (fst <$> filter P (map_to_list m)).
Proof.
  pose proof (NoDup_fst_map_to_list m) as Hnd. revert Hnd. generalize (map_to_list m) as l.
  induction l as [|e t IH]; [done|]. rewrite fmap_cons, NoDup_cons. intros [Hni Hnd].
  rewrite filter_cons. case_decide; [|auto]. rewrite fmap_cons, NoDup_cons. split; [|auto].
  intros Hin. apply Hni. apply elem_of_list_fmap in Hin as (e' & -> & Hin).
  apply elem_of_list_filter in Hin as [_ Hin]. by apply elem_of_list_fmap_1.
Qed.

(** Runs with the enumeration fixed, to exhibit runs. *)
Fixpoint lruk_exec {V} (c : lruk V) (ops : list (lruk_op V)) : list (lruk_op V * lruk_out V) * lruk V :=
  match ops with
  | [] => ([], c)
  | o :: t =>
      let '(c1, r) := lruk_step c o (map_to_list (k_map c)) in
      let '(tr, c2) := lruk_exec c1 t in ((o, r) :: tr, c2)
  end.
Lemma lruk_exec_run {V} (c : lruk V) ops tr c2 : lruk_exec c ops = (tr, c2) -> lruk_run c tr c2.
Proof.
  revert c tr c2. induction ops as [|o t IH]; intros c tr c2 H; simpl in H.
  - injection H as <- <-. constructor.
  - destruct (lruk_step c o (map_to_list (k_map c))) as [c1 r] eqn:Es.
    destruct (lruk_exec c1 t) as [tr' c'] eqn:Ee. injection H as <- <-.
    econstructor; [reflexivity|exact Es|]. apply IH. exact Ee.
Qed.


Section rank.
  Context {V : Type}.
  Lemma rank_partial (c : lruk V) s it x n cap K tr : lruk_hist cap K ∅ tr s -> kabs c s -> k_k c = K ->
    0 < K <= 2 -> it ≡ₚ map_to_list (k_map c) -> lruk_rank c it x = Some n -> eviction_rank K s x n.
  Proof.
    intros Hh Ha Ek HK Hp Hr.
    assert (Hne : forall x v h, s !! x = Some (v, h) -> h <> []).
    { apply (lruk_hist_nonempty cap K ∅ s tr Hh). intros y v h E. by rewrite lookup_empty in E. }
    destruct (k_map c !! x) as [[v h]|] eqn:Ex; [|unfold lruk_rank in Hr; by rewrite Ex in Hr].
    destruct (lookup_trunc _ _ _ _ _ Ha Ex) as (hf & Es & ->).
    rewrite (rank_count c it x v _ Hp Ex) in Hr.
    assert (Hn : n = length (filter (fun e : N * (V * list N) => item_lt (rank_item (k_k c) e.2.2) (rank_item (k_k c) (lastn (k_k c) hf))) (map_to_list (k_map c)))) by congruence.
    clear Hr. rewrite Ek in *.
    exists v, hf, (list_to_set (fst <$> filter (fun e : N * (V * list N) => item_lt (rank_item K e.2.2) (rank_item K (lastn K hf))) (map_to_list (k_map c)))).
    split; [done|]. split.
    - rewrite size_list_to_set.
      + by rewrite fmap_length.
      + apply (NoDup_fmap_fst_filter).
    - intros y. rewrite elem_of_list_to_set, elem_of_list_fmap. split.
      + intros ([y' [w hy]] & -> & Hin). apply elem_of_list_filter in Hin as [Hlt Hin]. simpl in *.
        apply elem_of_map_to_list in Hin. destruct (lookup_trunc _ _ _ _ _ Ha Hin) as (hyf & Ey & ->).
        exists w, hyf. split; [done|]. rewrite Ek in Hlt. apply rank_item_small in Hlt; [done|lia|eauto|eauto].
      + intros (w & hy & Ey & Hlt). exists (y, (w, lastn K hy)). split; [done|]. apply elem_of_list_filter.
        split; [simpl; apply rank_item_small; [lia|eauto|eauto|done]|]. apply elem_of_map_to_list.
        by rewrite (kabs_lookup _ _ _ Ha), Ey, Ek.
  Qed.
End rank.
