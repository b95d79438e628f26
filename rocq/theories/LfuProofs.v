From stdpp Require Import gmap list.
From Coq Require Import Lia ZifyBool ZifyNat ZifyN Sorted.
From Verif Require Import CacheSpec LfuSpec LfuModel.

Section lfu.
  Context {V : Type}.
  Implicit Types (c : lfu V) (it : list (N * (V * N))) (m : gmap N (V * N)).

  Lemma enum_lookup it m k e : it ≡ₚ map_to_list m -> (k, e) ∈ it <-> m !! k = Some e.
  Proof. intros H. rewrite H. apply elem_of_map_to_list. Qed.

  Lemma min_freq_None it : min_freq it = None -> it = [].
  Proof. destruct it as [|[k [v f]] t]; simpl; [done|]. by destruct (min_freq t). Qed.

  Lemma min_freq_le it mf : min_freq it = Some mf ->
    (forall k v f, (k, (v, f)) ∈ it -> (mf <= f)%N) /\ exists k v, (k, (v, mf)) ∈ it.
  Proof.
    revert mf. induction it as [|[k [v f]] t IH]; simpl; intros mf Hm; [done|].
    destruct (min_freq t) as [m|] eqn:Ht.
    - assert (mf = N.min f m) by congruence. subst mf.
      destruct (IH m eq_refl) as [Hle (k0 & v0 & Hin)]. split.
      + intros k1 v1 f1 [E|H1]%elem_of_cons.
        * injection E; intros; subst. lia.
        * specialize (Hle _ _ _ H1). lia.
      + destruct (N.le_ge_cases f m).
        * exists k, v. rewrite N.min_l by done. constructor.
        * exists k0, v0. rewrite N.min_r by done. by constructor.
    - apply min_freq_None in Ht. subst t. assert (mf = f) by congruence. subst mf. split.
      + intros k1 v1 f1 [E|H1]%elem_of_cons; [injection E; intros; subst; lia|by apply elem_of_nil in H1].
      + exists k, v. constructor.
  Qed.

  Lemma first_with_Some it mf x v : first_with mf it = Some (x, v) -> (x, (v, mf)) ∈ it.
  Proof.
    induction it as [|[k [w f]] t IH]; simpl; [done|].
    destruct (N.eqb_spec f mf) as [->|]; intros H.
    - assert (x = k) by congruence. assert (v = w) by congruence. subst. constructor.
    - constructor. auto.
  Qed.
  Lemma first_with_None it mf k v : first_with mf it = None -> (k, (v, mf)) ∉ it.
  Proof.
    induction it as [|[k' [w f]] t IH]; simpl; [intros _; apply not_elem_of_nil|].
    destruct (N.eqb_spec f mf) as [->|Hne]; [done|].
    intros H [E|H1]%elem_of_cons; [congruence|]. by apply IH.
  Qed.

  Lemma enum_least it m mf x v : it ≡ₚ map_to_list m -> min_freq it = Some mf ->
    (x, (v, mf)) ∈ it -> least_used m x.
  Proof.
    intros Hp Hm Hin. destruct (min_freq_le _ _ Hm) as [Hle _].
    exists v, mf. split; [by rewrite <- (enum_lookup it m x (v, mf) Hp)|].
    intros y v' f' Hy. rewrite <- (enum_lookup it m y (v', f') Hp) in Hy. eauto.
  Qed.

  Lemma first_with_min it mf : min_freq it = Some mf -> exists x v, first_with mf it = Some (x, v).
  Proof.
    intros Hm. destruct (min_freq_le _ _ Hm) as [_ (k & v & Hin)].
    destruct (first_with mf it) as [[x w]|] eqn:E; [eauto|].
    by destruct (first_with_None _ _ k v E).
  Qed.

  Lemma drain_some mf it r acc k :
    NoDup it.*1 ->
    (drain_loop mf it (Some r) acc).2 = Some r /\
    (drain_loop mf it (Some r) acc).1 !! k = match (list_to_map it : gmap N (V*N)) !! k with Some e => Some e | None => acc !! k end.
  Proof.
    revert acc. induction it as [|[k' [v f]] t IH]; intros acc Hnd; simpl; [by rewrite lookup_empty|].
    simpl in Hnd. apply NoDup_cons in Hnd as [Hni Hnd].
    destruct (IH (<[k':=(v, f)]> acc) Hnd) as [-> ->]. split; [done|].
    destruct (decide (k = k')) as [->|Hne].
    - rewrite lookup_insert. rewrite not_elem_of_list_to_map_1 by done. by rewrite lookup_insert.
    - rewrite !lookup_insert_ne by done. done.
  Qed.

  Lemma drain_none mf it acc x v k :
    NoDup it.*1 -> first_with mf it = Some (x, v) -> (forall y, y ∈ it.*1 -> acc !! y = None) ->
    (drain_loop mf it None acc).2 = Some (x, v) /\
    (drain_loop mf it None acc).1 !! k =
      if decide (k = x) then None else match (list_to_map it : gmap N (V*N)) !! k with Some e => Some e | None => acc !! k end.
  Proof.
    revert acc. induction it as [|[k' [w f]] t IH]; intros acc Hnd Hf Hacc; simpl in *; [done|].
    apply NoDup_cons in Hnd as [Hni Hnd].
    destruct (N.eqb_spec f mf) as [->|Hne].
    - assert (x = k') by congruence. assert (v = w) by congruence. subst.
      destruct (drain_some mf t (k', w) acc k Hnd) as [-> ->]. split; [done|].
      case_decide as Hd.
      + subst. rewrite not_elem_of_list_to_map_1 by done. apply Hacc. constructor.
      + rewrite lookup_insert_ne by done. done.
    - assert (Hxk : x <> k').
      { intros ->. apply Hni. apply first_with_Some in Hf. by apply (elem_of_list_fmap_1 fst) in Hf. }
      destruct (IH (<[k':=(w, f)]> acc) Hnd Hf) as [-> ->].
      + intros y Hy. rewrite lookup_insert_ne by (intros ->; done). apply Hacc. by constructor.
      + split; [done|]. case_decide; [done|]. destruct (decide (k = k')) as [->|Hk].
        * rewrite lookup_insert. rewrite not_elem_of_list_to_map_1 by done. by rewrite lookup_insert.
        * rewrite !lookup_insert_ne by done. done.
  Qed.

  Lemma enum_nodup it m : it ≡ₚ map_to_list m -> NoDup it.*1.
  Proof. intros H. rewrite H. apply NoDup_fst_map_to_list. Qed.
  Lemma enum_list_to_map it m : it ≡ₚ map_to_list m -> list_to_map it = m.
  Proof.
    intros H. rewrite <- (list_to_map_to_list m). apply list_to_map_proper; [by apply (enum_nodup it m)|done].
  Qed.

  Lemma lfu_pop_spec c it c1 r : it ≡ₚ map_to_list (u_map c) -> lfu_pop c it = (c1, r) ->
    u_cap c1 = u_cap c /\
    (u_map c = ∅ /\ u_map c1 = ∅ /\ r = None \/
     exists x v, least_used (u_map c) x /\ fst <$> u_map c !! x = Some v /\ u_map c1 = delete x (u_map c) /\ r = Some (x, v)).
  Proof.
    intros Hp H. unfold lfu_pop in H. destruct (min_freq it) as [mf|] eqn:Em.
    - destruct (first_with_min _ _ Em) as (x & v & Hf).
      assert (HD := fun k => drain_none mf it ∅ x v k (enum_nodup _ _ Hp) Hf (fun y _ => lookup_empty y)).
      destruct (drain_loop mf it None ∅) as [m1 r1]. simpl in HD.
      assert (c1 = mkLfu (u_cap c) m1) by congruence. assert (r1 = r) by congruence. subst c1 r1. simpl.
      split; [done|]. right. exists x, v.
      pose proof (first_with_Some _ _ _ _ Hf) as Hin. split; [by eapply enum_least|].
      split; [by rewrite (proj1 (enum_lookup _ _ _ _ Hp) Hin)|]. split; [|apply (HD 0%N)].
      apply map_eq. intros k. rewrite (proj2 (HD k)). rewrite (enum_list_to_map _ _ Hp).
      case_decide as Hd; [subst; by rewrite lookup_delete|]. rewrite lookup_delete_ne by done.
      rewrite lookup_empty. by destruct (u_map c !! k).
    - apply min_freq_None in Em. subst it.
      assert (c1 = c) by congruence. assert (r = None) by congruence. subst.
      symmetry in Hp. apply Permutation_nil_r in Hp. apply map_to_list_empty_iff in Hp.
      split; [done|]. left. done.
  Qed.

  Lemma peek_loop_spec it b :
    (forall k v f, b = Some (k, v, f) -> True) ->
    match peek_loop it b with
    | None => it = [] /\ b = None
    | Some (k, v, f) => ((k, (v, f)) ∈ it \/ b = Some (k, v, f)) /\
        (forall k' v' f', (k', (v', f')) ∈ it -> (f <= f')%N) /\
        (forall k' v' f', b = Some (k', v', f') -> (f <= f')%N)
    end.
  Proof.
    intros _. revert b. induction it as [|[k0 [v0 f0]] t IH]; intros b; simpl.
    - destruct b as [[[k v] f]|]; [|done]. split; [by right|]. split.
      + intros k' v' f' H. by apply elem_of_nil in H.
      + intros k' v' f' [= -> -> ->]. done.
    - destruct b as [[[kb vb] fb]|].
      + destruct (N.ltb_spec f0 fb) as [Hlt|Hge].
        * specialize (IH (Some (k0, v0, f0))). destruct (peek_loop t _) as [[[k v] f]|]; [|naive_solver].
          destruct IH as (H1 & H2 & H3). specialize (H3 _ _ _ eq_refl). split.
          { left. destruct H1 as [H1|H1]; [by constructor|]. injection H1; intros; subst. constructor. }
          split.
          { intros k' v' f' [E|H']%elem_of_cons; [injection E; intros; subst; done|eauto]. }
          { intros k' v' f' E. injection E; intros; subst. lia. }
        * specialize (IH (Some (kb, vb, fb))). destruct (peek_loop t _) as [[[k v] f]|]; [|naive_solver].
          destruct IH as (H1 & H2 & H3). split.
          { destruct H1; [left; by constructor|by right]. }
          split; [|done].
          intros k' v' f' [E|H']%elem_of_cons; [|eauto]. injection E; intros; subst.
          specialize (H3 _ _ _ eq_refl). lia.
      + specialize (IH (Some (k0, v0, f0))). destruct (peek_loop t _) as [[[k v] f]|]; [|naive_solver].
        destruct IH as (H1 & H2 & H3). specialize (H3 _ _ _ eq_refl). split.
        { left. destruct H1 as [H1|H1]; [by constructor|]. injection H1; intros; subst. constructor. }
        split; [|done].
        intros k' v' f' [E|H']%elem_of_cons; [injection E; intros; subst; done|eauto].
  Qed.

  Lemma lfu_peek_spec it m : it ≡ₚ map_to_list m ->
    m = ∅ /\ lfu_peek it = None \/
    exists x v f, least_used m x /\ m !! x = Some (v, f) /\ lfu_peek it = Some (x, v).
  Proof.
    intros Hp. unfold lfu_peek. pose proof (peek_loop_spec it None ltac:(done)) as H.
    destruct (peek_loop it None) as [[[k v] f]|]; simpl.
    - right. exists k, v, f. destruct H as ([H|H] & Hle & _); [|done].
      rewrite (enum_lookup _ _ _ _ Hp) in H. split; [|done].
      exists v, f. split; [done|]. intros y v' f' Hy. rewrite <- (enum_lookup _ _ _ _ Hp) in Hy. eauto.
    - left. destruct H as [-> _]. symmetry in Hp. apply Permutation_nil_r in Hp.
      by apply map_to_list_empty_iff in Hp.
  Qed.

  Lemma lfu_step_spec c o it c1 r : it ≡ₚ map_to_list (u_map c) -> lfu_step c o it = (c1, r) ->
    u_cap c1 = u_cap c /\ lfu_spec (u_cap c) (u_map c) o (u_map c1) r.
  Proof.
    intros Hp H. destruct o; simpl in H.
    - unfold lfu_insert in H. destruct (u_map c !! k) as [[old f]|] eqn:Ek.
      { assert (c1 = mkLfu (u_cap c) (<[k:=(v, f)]> (u_map c))) by congruence.
        assert (r = OVal (Some old)) by congruence. subst. split; [done|]. by constructor. }
      destruct (Nat.eqb_spec (u_cap c) 0) as [H0|H0].
      { assert (c1 = c) by congruence. assert (r = OVal None) by congruence. subst.
        split; [done|]. by constructor. }
      destruct (Nat.leb_spec (u_cap c) (size (u_map c))) as [Hfull|Hroom].
      + destruct (min_freq it) as [mf|] eqn:Em; simpl in H.
        * destruct (first_with_min _ _ Em) as (x & w & Hf). rewrite Hf in H.
          pose proof (first_with_Some _ _ _ _ Hf) as Hin.
          assert (c1 = mkLfu (u_cap c) (<[k:=(v, 1%N)]> (delete x (u_map c)))) by congruence.
          assert (r = OVal (fst <$> delete x (u_map c) !! k)) by congruence. subst. simpl. split; [done|].
          replace (delete x (u_map c) !! k) with (None : option (V * N)).
          { simpl. apply sp_insert_full; [done|lia|done|by eapply enum_least]. }
          symmetry. apply lookup_delete_None. by right.
        * apply min_freq_None in Em. subst it. symmetry in Hp. apply Permutation_nil_r in Hp.
          apply map_to_list_empty_iff in Hp. rewrite Hp, map_size_empty in Hfull. lia.
      + assert (c1 = mkLfu (u_cap c) (<[k:=(v, 1%N)]> (u_map c))) by congruence.
        assert (r = OVal (fst <$> u_map c !! k)) by congruence. subst. simpl. split; [done|].
        rewrite Ek. simpl. by apply sp_insert_room.
    - unfold lfu_get in H. destruct (u_map c !! k) as [[v f]|] eqn:Ek; injection H as <- <-; (split; [done|]); by constructor.
    - injection H as <- <-. split; [done|]. constructor.
    - injection H as <- <-. split; [done|]. constructor.
    - injection H as <- <-. split; [done|]. constructor.
    - injection H as <- <-. split; [done|]. constructor.
    - destruct (lfu_pop c it) as [c' r'] eqn:E. assert (c' = c1) by congruence.
      assert (r = OPair r') by congruence. subst.
      destruct (lfu_pop_spec _ _ _ _ Hp E) as [Hc [(E1 & E2 & ->)|(x & v & Hl & Hx & E1 & ->)]]; (split; [done|]).
      + rewrite E1, E2. constructor.
      + rewrite E1. destruct (u_map c !! x) as [[v' f]|] eqn:Ex; [|done]. simpl in Hx.
        assert (v' = v) by congruence. subst. by eapply sp_pop.
    - injection H as <- <-. split; [done|].
      destruct (lfu_peek_spec _ _ Hp) as [[E ->]|(x & v & f & Hl & Hx & ->)].
      + rewrite E. constructor.
      + by eapply sp_peek.
    - injection H as <- <-. split; [done|]. constructor.
    - unfold lfu_reset in H. destruct (u_map c !! k) as [[v f]|] eqn:Ek; injection H as <- <-; (split; [done|]);
        [by econstructor|by constructor].
    - unfold lfu_incr in H. destruct (u_map c !! k) as [[v f]|] eqn:Ek; injection H as <- <-; (split; [done|]);
        [by econstructor|by constructor].
  Qed.

  Lemma lfu_run_hist c tr c2 : lfu_run c tr c2 ->
    u_cap c2 = u_cap c /\ lfu_hist (u_cap c) (u_map c) tr (u_map c2).
  Proof.
    induction 1 as [|c o it c1 r tr c2 Hp Hs Hr [IHc IH]]; [split; [done|constructor]|].
    destruct (lfu_step_spec _ _ _ _ _ Hp Hs) as [Hc Hsp]. split; [congruence|].
    econstructor; [done|]. by rewrite <- Hc.
  Qed.

  (** Facts about the reference itself. *)
  Lemma lfu_spec_bound cap (s s1 : gmap N (V * N)) o r : lfu_spec cap s o s1 r -> size s <= cap -> size s1 <= cap.
  Proof.
    intros H Hs. destruct H; try done;
      rewrite ?map_size_insert, ?map_size_delete, ?map_size_empty; try lia;
      repeat match goal with H : ?s !! ?k = _ |- context [?s !! ?k] => rewrite H end; simpl; try lia.
    - match goal with H : least_used _ _ |- _ => destruct H as (vx & fx & Hx & _) end. rewrite Hx.
      rewrite lookup_delete_ne by congruence.
      match goal with H : s !! k = None |- _ => rewrite H end. lia.
    - destruct (s !! k); simpl; unfold id; lia.
  Qed.

  Lemma lfu_hist_bound cap (s s1 : gmap N (V * N)) tr : lfu_hist cap s tr s1 -> size s <= cap -> size s1 <= cap.
  Proof. induction 1; [done|]. intros Hs. apply IHlfu_hist. by eapply lfu_spec_bound. Qed.

  Lemma lfu_hist_uses cap (s s1 : gmap N (V * N)) tr : lfu_hist cap s tr s1 ->
    forall k n, (forall v f, s !! k = Some (v, f) -> f = n) ->
    forall v f, s1 !! k = Some (v, f) -> f = fold_left (count_event k) tr n.
  Proof.
    induction 1 as [s|s o r sm tr s2 Hsp Hh IH]; intros kk n Hn vv ff Hf; simpl; [eapply Hn; eassumption|].
    eapply IH; [|exact Hf]. clear IH Hh Hf vv ff. intros vv ff Hf.
    destruct Hsp; simpl; try (eapply Hn; eassumption); repeat case_match; simplify_eq;
      repeat match goal with H : (_ =? _)%N = true |- _ => apply N.eqb_eq in H; subst
        | H : (_ =? _)%N = false |- _ => apply N.eqb_neq in H end;
      rewrite ?lookup_insert in Hf;
      repeat match goal with H : kk <> _ |- _ => rewrite lookup_insert_ne in Hf by done end;
      simplify_eq; try done; try (eapply Hn; eassumption).
    - destruct (decide (k = kk)) as [->|]; [rewrite lookup_insert in Hf; simplify_eq; eapply Hn; eassumption
        |rewrite lookup_insert_ne in Hf by done; eapply Hn; eassumption].
    - apply lookup_delete_Some in Hf as [_ Hf]. eapply Hn; eassumption.
    - f_equal; eapply Hn; eassumption.
    - apply lookup_delete_Some in Hf as [_ Hf]. eapply Hn; eassumption.
    - apply lookup_delete_Some in Hf as [_ Hf]. eapply Hn; eassumption.
    - f_equal; eapply Hn; eassumption.
  Qed.
End lfu.

(** A runner that fixes the enumeration, to exhibit runs. *)
Section exec.
  Context {V : Type}.
  Fixpoint lfu_exec (c : lfu V) (ops : list (lfu_op V)) : list (lfu_op V * cout V) * lfu V :=
    match ops with
    | [] => ([], c)
    | o :: t =>
        let '(c1, r) := lfu_step c o (map_to_list (u_map c)) in
        let '(tr, c2) := lfu_exec c1 t in ((o, r) :: tr, c2)
    end.
  Lemma lfu_exec_run (c : lfu V) ops tr c2 : lfu_exec c ops = (tr, c2) -> lfu_run c tr c2.
  Proof.
    revert c tr c2. induction ops as [|o t IH]; intros c tr c2 H; simpl in H.
    - injection H as <- <-. constructor.
    - destruct (lfu_step c o (map_to_list (u_map c))) as [c1 r] eqn:Es.
      destruct (lfu_exec c1 t) as [tr' c'] eqn:Ee. injection H as <- <-.
      econstructor; [reflexivity|done|]. by apply IH.
  Qed.
  Fixpoint hlfu_exec (c : hlfu V) (ops : list (lfu_op V)) : list (lfu_op V * cout V) * hlfu V :=
    match ops with
    | [] => ([], c)
    | o :: t =>
        let '(c1, r) := hlfu_step c o (map_to_list (h_freq c)) in
        let '(tr, c2) := hlfu_exec c1 t in ((o, r) :: tr, c2)
    end.
  Lemma hlfu_exec_run (c : hlfu V) ops tr c2 : hlfu_exec c ops = (tr, c2) -> hlfu_run c tr c2.
  Proof.
    revert c tr c2. induction ops as [|o t IH]; intros c tr c2 H; simpl in H.
    - injection H as <- <-. constructor.
    - destruct (hlfu_step c o (map_to_list (h_freq c))) as [c1 r] eqn:Es.
      destruct (hlfu_exec c1 t) as [tr' c'] eqn:Ee. injection H as <- <-.
      econstructor; [reflexivity|done|]. by apply IH.
  Qed.
End exec.
