(** The array heap of TopnModel.v: permutation and heap order. *)
From stdpp Require Import list.
From Coq Require Import Lia.
From Verif Require Import ExprModel ExecModel TopnModel.
Local Open Scope nat_scope.

Lemma parent_lt i : 0 < i -> parent i < i.
Proof. intros H. unfold parent. apply Nat.div_lt_upper_bound; lia. Qed.

Lemma parent_spec i p : 0 < i -> parent i = p <-> i = 2 * p + 1 \/ i = 2 * p + 2.
Proof.
  intros H. unfold parent. pose proof (Nat.div_mod (i - 1) 2 ltac:(lia)) as D.
  pose proof (Nat.mod_upper_bound (i - 1) 2 ltac:(lia)). lia.
Qed.

Section heap.
  Context {T : Type} (le : T -> T -> bool) (ok : T -> Prop).
  Context (le_total : forall x y, ok x -> ok y -> le x y = false -> le y x = true).
  Context (le_trans : forall x y z, ok x -> ok y -> ok z -> le x y = true -> le y z = true -> le x z = true).
  Context (le_refl : forall x, ok x -> le x x = true).

  Lemma swap_lookup i j (l : list T) x y n : l !! i = Some x -> l !! j = Some y -> i <> j ->
    swap i j l !! n = if decide (n = i) then Some y else if decide (n = j) then Some x else l !! n.
  Proof.
    intros Hi Hj N. unfold swap. rewrite Hi, Hj.
    assert (Li : i < length l) by (eapply lookup_lt_Some; eassumption).
    assert (Lj : j < length l) by (eapply lookup_lt_Some; eassumption).
    repeat case_decide; subst.
    - by rewrite list_lookup_insert by (by rewrite insert_length).
    - rewrite list_lookup_insert_ne by congruence. by rewrite list_lookup_insert.
    - by rewrite !list_lookup_insert_ne by congruence.
  Qed.

  Lemma swap_length i j (l : list T) : length (swap i j l) = length l.
  Proof. unfold swap. destruct (l !! i), (l !! j); rewrite ?insert_length; done. Qed.

  Lemma swap_perm i j (l : list T) : swap i j l ≡ₚ l.
  Proof.
    destruct (l !! i) as [x|] eqn:Hi; [|unfold swap; by rewrite Hi].
    destruct (l !! j) as [y|] eqn:Hj; [|unfold swap; by rewrite Hi, Hj].
    destruct (decide (i = j)) as [->|N].
    - unfold swap. rewrite Hi. rewrite list_insert_insert. by rewrite list_insert_id.
    - apply Permutation_inj. split; [apply swap_length|].
      exists (fun n => if decide (n = i) then j else if decide (n = j) then i else n). split.
      + intros a b. repeat case_decide; lia.
      + intros n. rewrite (swap_lookup _ _ _ _ _ _ Hi Hj N). repeat case_decide; congruence.
  Qed.

  (** Heap order: no element is above its parent. *)
  Definition heap (l : list T) : Prop :=
    forall i x y, 0 < i -> l !! i = Some x -> l !! parent i = Some y -> le x y = true.

  (** Heap order except between [pos] and its parent. *)
  Definition heap_up (pos : nat) (l : list T) : Prop :=
    (forall i x y, 0 < i -> i <> pos -> l !! i = Some x -> l !! parent i = Some y -> le x y = true) /\
    (forall i x y, 0 < pos -> 0 < i -> parent i = pos -> l !! i = Some x -> l !! parent pos = Some y -> le x y = true).

  (** Heap order except around [pos], whose children are below its parent. *)
  Definition heap_down (pos : nat) (l : list T) : Prop :=
    (forall i x y, 0 < i -> i <> pos -> parent i <> pos -> l !! i = Some x -> l !! parent i = Some y -> le x y = true) /\
    (forall i x y, 0 < pos -> 0 < i -> parent i = pos -> l !! i = Some x -> l !! parent pos = Some y -> le x y = true).

  Lemma sift_up_S fuel q l : sift_up le (S fuel) (S q) l =
    match l !! S q, l !! parent (S q) with
    | Some x, Some y => if le x y then l else sift_up le fuel (parent (S q)) (swap (S q) (parent (S q)) l)
    | _, _ => l
    end.
  Proof. reflexivity. Qed.

  Lemma sift_up_perm fuel : forall pos l, sift_up le fuel pos l ≡ₚ l.
  Proof.
    induction fuel as [|fuel IH]; intros [|pos] l; [reflexivity..|]. rewrite sift_up_S.
    destruct (l !! S pos) as [x|], (l !! parent (S pos)) as [y|]; try reflexivity.
    destruct (le x y); [reflexivity|]. rewrite IH. apply swap_perm.
  Qed.

  Lemma perm_ok (l k : list T) : l ≡ₚ k -> Forall ok k -> Forall ok l.
  Proof. by intros ->. Qed.

  Lemma Forall_lookup_ok (l : list T) i x : Forall ok l -> l !! i = Some x -> ok x.
  Proof. intros F H. eapply Forall_lookup_1; eassumption. Qed.

  Lemma sift_up_heap fuel : forall pos l, pos <= fuel -> Forall ok l -> heap_up pos l -> heap (sift_up le fuel pos l).
  Proof.
    induction fuel as [|fuel IH]; intros pos l L F [H1 H2].
    { replace pos with 0 in * by lia. cbn. intros i x y Hi. apply H1; lia. }
    destruct pos as [|q]; [cbn; intros i x y Hi; apply H1; lia|].
    remember (S q) as pos eqn:Ep. assert (Hpos : 0 < pos) by lia.
    assert (E : sift_up le (S fuel) pos l = match l !! pos, l !! parent pos with
        | Some x, Some y => if le x y then l else sift_up le fuel (parent pos) (swap pos (parent pos) l)
        | _, _ => l end) by (subst pos; reflexivity).
    rewrite E. clear E. pose proof (parent_lt pos Hpos) as PL.
    destruct (l !! pos) as [x|] eqn:Hx.
    2:{ intros i a b Hi Ha Hb. destruct (decide (i = pos)); [congruence|]. eapply H1; eassumption. }
    destruct (l !! parent pos) as [y|] eqn:Hy.
    2:{ exfalso. apply lookup_ge_None in Hy. apply lookup_lt_Some in Hx. lia. }
    destruct (le x y) eqn:Lxy.
    { intros i a b Hi Ha Hb. destruct (decide (i = pos)) as [->|]; [congruence|]. eapply H1; eassumption. }
    assert (Ox : ok x) by (eapply Forall_lookup_ok; eassumption).
    assert (Oy : ok y) by (eapply Forall_lookup_ok; eassumption).
    pose proof (le_total _ _ Ox Oy Lxy) as Lyx.
    apply IH; [lia| |].
    { eapply perm_ok; [apply swap_perm|exact F]. }
    assert (N : pos <> parent pos) by lia.
    split.
    - intros i a b Hi Ni Ha Hb.
      rewrite (swap_lookup _ _ _ _ _ _ Hx Hy N) in Ha. rewrite (swap_lookup _ _ _ _ _ _ Hx Hy N) in Hb.
      destruct (decide (i = pos)) as [->|Nip].
      + rewrite decide_False in Hb by lia. rewrite decide_True in Hb by done. congruence.
      + rewrite decide_False in Ha by done.
        destruct (decide (parent i = pos)) as [Epi|Npi].
        * injection Hb as <-. apply (H2 i a y); assumption || reflexivity.
        * destruct (decide (parent i = parent pos)) as [Epp|Npp].
          -- injection Hb as <-. apply (le_trans a y x); try assumption.
             ++ eapply Forall_lookup_ok; eassumption.
             ++ apply (H1 i a y); [lia..|exact Ha|congruence].
          -- eapply H1; eassumption.
    - intros i a b Hp Hi Epi Ha Hb.
      pose proof (parent_lt (parent pos) Hp) as PPL.
      rewrite (swap_lookup _ _ _ _ _ _ Hx Hy N) in Ha. rewrite (swap_lookup _ _ _ _ _ _ Hx Hy N) in Hb.
      rewrite !decide_False in Hb by lia.
      assert (Lyb : le y b = true) by (apply (H1 (parent pos) y b); [lia|lia|exact Hy|exact Hb]).
      assert (Ob : ok b) by (eapply Forall_lookup_ok; eassumption).
      destruct (decide (i = pos)) as [->|Nip]; [congruence|].
      rewrite decide_False in Ha by (intros ->; pose proof (parent_lt _ Hp); lia).
      apply (le_trans a y b); try assumption.
      + eapply Forall_lookup_ok; eassumption.
      + apply (H1 i a y); [lia|lia|exact Ha|congruence].
  Qed.

  Lemma heap_push_perm x l : heap_push le x l ≡ₚ x :: l.
  Proof. unfold heap_push. rewrite sift_up_perm. rewrite (comm (++)). done. Qed.

  Lemma heap_push_heap x l : ok x -> Forall ok l -> heap l -> heap (heap_push le x l).
  Proof.
    intros Ox F H. apply sift_up_heap; [done| |].
    { apply Forall_app. split; [done|]. by repeat constructor. }
    split.
    - intros i a b Hi Ni Ha Hb. assert (i < length l) as Li.
      { apply lookup_lt_Some in Ha. rewrite app_length in Ha. cbn in Ha. lia. }
      pose proof (parent_lt i Hi). rewrite lookup_app_l in Ha by done. rewrite lookup_app_l in Hb by lia.
      eapply H; eassumption.
    - intros i a b Hp Hi E Ha _. exfalso. apply lookup_lt_Some in Ha. rewrite app_length in Ha. cbn in Ha.
      pose proof (parent_lt i Hi). lia.
  Qed.

  Lemma sift_down_spec fuel : forall pos l, length l - pos <= fuel -> Forall ok l -> heap_down pos l ->
    let '(pos2, l2) := sift_down le fuel pos l in
    l2 ≡ₚ l /\ heap_up pos2 l2.
  Proof.
    induction fuel as [|fuel IH]; intros pos l L F [H1 H2]; cbn [sift_down].
    { split; [done|]. split; [|exact H2]. intros i x y Hi Ni Ha Hb.
      apply (H1 i x y); try assumption. pose proof (parent_lt i Hi). apply lookup_lt_Some in Ha. lia. }
    destruct (l !! (2 * pos + 1)) as [a|] eqn:Ha.
    2:{ split; [done|]. split; [|exact H2]. intros i x y Hi Ni Hx Hy.
        apply (H1 i x y); try assumption. intros E. apply parent_spec in E as [->| ->]; [congruence| |lia].
        apply lookup_ge_None in Ha. apply lookup_lt_Some in Hx. lia. }
    destruct (lookup_lt_is_Some_2 l pos) as [z Hz]; [apply lookup_lt_Some in Ha; lia|].
    (* one step down to child [c], not below its sibling *)
    assert (Step : forall c x, (c = 2 * pos + 1 \/ c = 2 * pos + 2) -> l !! c = Some x ->
      (forall i w, 0 < i -> parent i = pos -> l !! i = Some w -> le w x = true) ->
      heap_down c (swap pos c l)).
    { intros c x Hc Hx Sib. assert (N : pos <> c) by lia. assert (Pc : parent c = pos) by (apply parent_spec; lia).
      split.
      - intros i u w Hi Nic Npc Hu Hw.
        rewrite (swap_lookup _ _ _ _ _ _ Hz Hx N) in Hu. rewrite (swap_lookup _ _ _ _ _ _ Hz Hx N) in Hw.
        rewrite (decide_False (P := parent i = c)) in Hw by done.
        rewrite (decide_False (P := i = c)) in Hu by done.
        destruct (decide (i = pos)) as [->|Nip].
        + rewrite decide_False in Hw by (pose proof (parent_lt pos Hi); lia). injection Hu as <-.
          apply (H2 c x w); [lia|lia|exact Pc|exact Hx|exact Hw].
        + destruct (decide (parent i = pos)) as [Epi|].
          * injection Hw as <-. eapply Sib; eassumption.
          * eapply H1; eassumption.
      - intros i u w Hp Hi Epi Hu Hw. pose proof (parent_lt i Hi).
        rewrite Pc in Hw.
        rewrite (swap_lookup _ _ _ _ _ _ Hz Hx N) in Hu. rewrite (swap_lookup _ _ _ _ _ _ Hz Hx N) in Hw.
        rewrite decide_True in Hw by done. injection Hw as <-.
        rewrite !decide_False in Hu by lia.
        apply (H1 i u x); [lia|lia|lia|exact Hu|congruence]. }
    assert (Oa : ok a) by (eapply Forall_lookup_ok; eassumption).
    destruct (l !! (2 * pos + 2)) as [b|] eqn:Hb.
    - assert (Ob : ok b) by (eapply Forall_lookup_ok; eassumption).
      destruct (le a b) eqn:Lab.
      + specialize (IH (2 * pos + 2) (swap pos (2 * pos + 2) l)).
        destruct (sift_down le fuel (2 * pos + 2) (swap pos (2 * pos + 2) l)) as [p2 l2].
        destruct IH as [IH1 IH2].
        * rewrite swap_length. lia.
        * eapply perm_ok; [apply swap_perm|exact F].
        * apply (Step _ b); [auto|done|]. intros i w Hi Epi Hw.
          apply parent_spec in Epi as [->| ->]; [| |lia]; assert (w = a \/ w = b) as [->| ->] by (left; congruence) || (right; congruence); auto.
        * split; [|exact IH2]. rewrite IH1. apply swap_perm.
      + specialize (IH (2 * pos + 1) (swap pos (2 * pos + 1) l)).
        destruct (sift_down le fuel (2 * pos + 1) (swap pos (2 * pos + 1) l)) as [p2 l2].
        destruct IH as [IH1 IH2].
        * rewrite swap_length. lia.
        * eapply perm_ok; [apply swap_perm|exact F].
        * apply (Step _ a); [auto|done|]. intros i w Hi Epi Hw.
          apply parent_spec in Epi as [->| ->]; [| |lia].
          -- assert (w = a) as -> by congruence. auto.
          -- assert (w = b) as -> by congruence. auto.
        * split; [|exact IH2]. rewrite IH1. apply swap_perm.
    - split; [apply swap_perm|].
      assert (HD : heap_down (2 * pos + 1) (swap pos (2 * pos + 1) l)).
      { apply (Step _ a); [auto|done|]. intros i w Hi Epi Hw.
        apply parent_spec in Epi as [->| ->]; [| |lia]; [assert (w = a) as -> by congruence; auto|congruence]. }
      destruct HD as [D1 D2]. split; [|exact D2].
      intros i x y Hi Ni Hx Hy. apply (D1 i x y); try assumption.
      intros E. apply lookup_ge_None in Hb. apply lookup_lt_Some in Hx. rewrite swap_length in Hx.
      apply parent_spec in E; lia.
  Qed.

  Lemma heap_pop_spec m h : Forall ok (m :: h) -> heap (m :: h) ->
    heap_pop le (m :: h) ≡ₚ h /\ heap (heap_pop le (m :: h)).
  Proof.
    intros F H. unfold heap_pop.
    destruct (last (m :: h)) as [x|] eqn:Lx; [|by apply last_None in Lx].
    assert (E : m :: h = take (length (m :: h) - 1) (m :: h) ++ [x]).
    { apply last_Some in Lx as (l' & ->). rewrite app_length. cbn.
      replace (length l' + 1 - 1) with (length l') by lia. by rewrite take_app. }
    destruct (take (length (m :: h) - 1) (m :: h)) as [|m2 r] eqn:Tk.
    { cbn in E. injection E as -> ->. split; [done|]. intros i ? ? ? Hx. by rewrite lookup_nil in Hx. }
    cbn in E. injection E as <- Eh.
    pose proof (sift_down_spec (length (m :: h)) 0 (x :: r)) as SD.
    destruct (sift_down le (length (m :: h)) 0 (x :: r)) as [pos l2].
    assert (Fx : Forall ok (x :: r)).
    { apply Forall_cons in F as [Fm Fh]. rewrite Eh in Fh. apply Forall_app in Fh as [Fr Fx].
      apply Forall_cons in Fx as [? ?]. by constructor. }
    destruct SD as [P HU].
    { rewrite Eh. cbn. rewrite app_length. cbn. lia. }
    { exact Fx. }
    { split.
      - intros i u w Hi _ Np Hu Hw. destruct i as [|i]; [lia|].
        assert (0 < parent (S i)) by lia. pose proof (parent_lt (S i) Hi) as PL.
        apply (H (S i) u w); [lia| |].
        + change (h !! i = Some u). change (r !! i = Some u) in Hu. rewrite Eh. rewrite lookup_app_l by (eapply lookup_lt_Some; eassumption). exact Hu.
        + destruct (parent (S i)) as [|p] eqn:Pp; [lia|].
          change (h !! p = Some w). change (r !! p = Some w) in Hw. rewrite Eh.
          rewrite lookup_app_l by (eapply lookup_lt_Some; eassumption). exact Hw.
      - intros. lia. }
    split.
    - rewrite sift_up_perm, P, Eh. rewrite (comm (++)). done.
    - apply sift_up_heap; [done| |exact HU].
      eapply perm_ok; [exact P|exact Fx].
  Qed.

  (** The first slot is above everything. *)
  Lemma heap_root m h x : Forall ok (m :: h) -> heap (m :: h) -> x ∈ m :: h -> le x m = true.
  Proof.
    intros F H Hx. apply elem_of_list_lookup in Hx as [i Hi].
    revert x Hi. induction i as [i IH] using lt_wf_ind. intros x Hi.
    destruct (decide (i = 0)) as [->|Ni].
    - cbn in Hi. injection Hi as ->. apply le_refl. by apply Forall_cons in F as [? ?].
    - pose proof (parent_lt i ltac:(lia)) as PL.
      destruct (lookup_lt_is_Some_2 (m :: h) (parent i)) as [y Hy].
      { apply lookup_lt_Some in Hi. lia. }
      apply (le_trans x y m).
      + eapply Forall_lookup_ok; eassumption.
      + eapply Forall_lookup_ok; eassumption.
      + by apply Forall_cons in F as [? ?].
      + apply (H i x y); [lia|exact Hi|exact Hy].
      + apply (IH (parent i)); assumption.
  Qed.
End heap.
