(** * Proofs about the in-memory B+-tree: inserting *)
From Coq Require Import ZArith Lia Sorting.Permutation Sorting.Sorted.
From stdpp Require Import list.
From Verif Require Import ExprModel ExecProofs BtreeModel BtreeSpec.
Open Scope nat_scope.

(** ** The order on keys *)
Notation kle := key_le.
Notation klt := key_lt.

Lemma cmp_cases a b :
  (val_cmp a b = Datatypes.Lt /\ val_cmp b a = Datatypes.Gt) \/ a = b \/ (val_cmp a b = Datatypes.Gt /\ val_cmp b a = Datatypes.Lt).
Proof.
  rewrite (val_cmp_antisym a b). destruct (val_cmp a b) eqn:E; cbn; auto. right; left. apply val_cmp_eq, E.
Qed.
Lemma kle_refl a : kle a a. Proof. unfold key_le. rewrite val_cmp_refl. congruence. Qed.
Lemma klt_le a b : klt a b -> kle a b. Proof. unfold key_lt, key_le. congruence. Qed.
Lemma klt_irrefl a : ~ klt a a. Proof. unfold key_lt. rewrite val_cmp_refl. congruence. Qed.
Lemma kle_cases a b : kle a b -> klt a b \/ a = b.
Proof. unfold key_le, key_lt. destruct (cmp_cases a b) as [[-> _]|[->|[-> _]]]; auto. congruence. Qed.
Lemma klt_trans a b c : klt a b -> klt b c -> klt a c. Proof. apply val_cmp_lt_trans. Qed.
Lemma klt_kle_trans a b c : klt a b -> kle b c -> klt a c.
Proof. intros H1 H2. destruct (kle_cases _ _ H2) as [H| ->]; [eapply klt_trans; eassumption|assumption]. Qed.
Lemma kle_klt_trans a b c : kle a b -> klt b c -> klt a c.
Proof. intros H1 H2. destruct (kle_cases _ _ H1) as [H| ->]; [eapply klt_trans; eassumption|assumption]. Qed.
Lemma kle_trans a b c : kle a b -> kle b c -> kle a c.
Proof. intros H1 H2. destruct (kle_cases _ _ H1) as [H| ->]; [|assumption]. eapply klt_le, klt_kle_trans; eassumption. Qed.
Lemma klt_not_le a b : klt a b -> ~ kle b a.
Proof. intros H1 H2. apply (klt_irrefl a). eapply klt_kle_trans; eassumption. Qed.
Lemma klt_dec a b : klt a b \/ kle b a.
Proof.
  destruct (cmp_cases a b) as [[H _]|[->|[_ H]]]; [left; exact H|right; apply kle_refl|right; apply klt_le; exact H].
Qed.
Lemma kle_antisym a b : kle a b -> kle b a -> a = b.
Proof. intros H1 H2. destruct (kle_cases _ _ H1) as [H|]; [|assumption]. destruct (klt_not_le _ _ H H2). Qed.

(** ** Comparisons between keys of one type *)
Lemma compare_typed T op a b : of_type T a -> of_type T b -> compare_op op a b = of_bool (by_order op (val_cmp a b)).
Proof.
  unfold of_type. intros Ha Hb. destruct a as [|x|t x|x|x], b as [|y|u y|y|y]; cbn in *; try congruence.
  assert (t = u) as -> by congruence. rewrite N.eqb_refl. reflexivity.
Qed.
Lemma holds_typed T op a b : of_type T a -> of_type T b -> holds op a b = by_order op (val_cmp a b).
Proof. intros Ha Hb. unfold holds. rewrite (compare_typed T) by assumption. destruct (by_order op (val_cmp a b)); reflexivity. Qed.

Lemma holds_gt T a b : of_type T a -> of_type T b -> holds Gt a b = true <-> klt b a.
Proof.
  intros Ha Hb. rewrite (holds_typed T) by assumption. unfold key_lt.
  destruct (cmp_cases a b) as [[-> ->]|[->|[-> ->]]]; [| rewrite val_cmp_refl |]; cbn; split; congruence.
Qed.
Lemma holds_lt T a b : of_type T a -> of_type T b -> holds Lt a b = true <-> klt a b.
Proof. intros Ha Hb. rewrite (holds_typed T) by assumption. unfold key_lt. destruct (val_cmp a b); cbn; split; congruence. Qed.
Lemma holds_eq T a b : of_type T a -> of_type T b -> holds Eq a b = true <-> a = b.
Proof.
  intros Ha Hb. rewrite (holds_typed T) by assumption. split.
  - destruct (val_cmp a b) eqn:E; cbn; try congruence. intros _. apply val_cmp_eq, E.
  - intros ->. rewrite val_cmp_refl. reflexivity.
Qed.
Lemma holds_ge T a b : of_type T a -> of_type T b -> holds Ge a b = true <-> kle b a.
Proof.
  intros Ha Hb. rewrite (holds_typed T) by assumption. unfold key_le.
  destruct (cmp_cases a b) as [[-> ->]|[->|[-> ->]]]; [| rewrite val_cmp_refl |]; cbn; split; congruence.
Qed.

(** The insert position in a list that splits into keys up to [k] and keys above it. *)
Lemma fip_split T k l1 l2 : Forall (of_type T) (l1 ++ l2) -> of_type T k ->
  Forall (fun x => kle x k) l1 -> match l2 with [] => True | x :: _ => klt k x end ->
  find_insert_position (l1 ++ l2) k = length l1.
Proof.
  intros HT Hk. induction l1 as [|x l1 IH]; intros H1 H2; cbn [app find_insert_position length].
  - destruct l2 as [|y l2]; [reflexivity|]. cbn. apply Forall_cons_1 in HT as [Hy _].
    destruct (holds Eq y k) eqn:E; [apply (holds_eq T) in E; try assumption; subst; destruct (klt_irrefl _ H2)|].
    cbn. destruct (holds Gt y k) eqn:G; [reflexivity|]. apply (holds_gt T) in H2; congruence.
  - apply Forall_cons_1 in H1 as [Hx H1]. apply Forall_cons_1 in HT as [Tx HT].
    destruct (holds Gt x k) eqn:G.
    + apply (holds_gt T) in G; try assumption. destruct (klt_not_le _ _ G Hx).
    + rewrite andb_false_r. f_equal. apply IH; assumption.
Qed.

(** Every sorted list splits that way. *)
Lemma split_at_key k (l : list val) : StronglySorted kle l ->
  exists l1 l2, l = l1 ++ l2 /\ Forall (fun x => kle x k) l1 /\ Forall (klt k) l2.
Proof.
  induction l as [|x l IH]; intros S; [exists [], []; auto|].
  apply StronglySorted_inv in S as [S F]. destruct (klt_dec k x) as [H|H].
  - exists [], (x :: l). split; [reflexivity|]. split; [constructor|]. constructor; [assumption|].
    apply Forall_forall. intros y Hy. rewrite Forall_forall in F. eapply klt_kle_trans; [exact H|]. apply F, Hy.
  - destruct (IH S) as (l1 & l2 & -> & H1 & H2). exists (x :: l1), l2. auto.
Qed.

(** ** Walking the leaves *)
Definition flat (st : list leaf) (ls : list nat) : list entry := concat (map (ents st) ls).
Definition keys (es : list entry) : list val := map fst es.

Lemma flat_app st l1 l2 : flat st (l1 ++ l2) = flat st l1 ++ flat st l2.
Proof. unfold flat. rewrite map_app, concat_app. reflexivity. Qed.
Lemma keys_app a b : keys (a ++ b) = keys a ++ keys b. Proof. apply map_app. Qed.

Lemma flat_frame st st' ls : (forall a, a ∈ ls -> st' !! a = st !! a) -> flat st' ls = flat st ls.
Proof.
  intros H. unfold flat. f_equal. apply map_ext_in. intros a Ha. unfold ents. rewrite H; [reflexivity|]. apply elem_of_list_In, Ha.
Qed.

Definition next_is (st : list leaf) (a : nat) (nx : option nat) : Prop := exists es, st !! a = Some (Leaf es nx).

(** Each leaf points to the next one, and the last one to [nx]. *)
Fixpoint chain (st : list leaf) (ls : list nat) (nx : option nat) : Prop :=
  match ls with
  | [] => True
  | a :: r => next_is st a (match r with [] => nx | b :: _ => Some b end) /\ chain st r nx
  end.
Definition first_or (ls : list nat) (nx : option nat) : option nat := match ls with [] => nx | a :: _ => Some a end.

Lemma chain_app st l1 l2 nx : chain st (l1 ++ l2) nx <-> chain st l1 (first_or l2 nx) /\ chain st l2 nx.
Proof.
  induction l1 as [|a l1 IH]; cbn [app chain]; [tauto|]. rewrite IH.
  destruct l1 as [|b l1]; cbn [app]; [destruct l2; cbn [first_or]; tauto|tauto].
Qed.
Lemma chain_frame st st' ls nx : (forall a, a ∈ ls -> st' !! a = st !! a) -> chain st ls nx -> chain st' ls nx.
Proof.
  induction ls as [|a ls IH]; intros H C; cbn in *; [exact I|]. destruct C as [[es C1] C2]. split.
  - exists es. rewrite H; [exact C1|apply elem_of_cons; auto].
  - apply IH; [|exact C2]. intros b Hb. apply H, elem_of_cons. auto.
Qed.

Lemma walk_chain st : forall ls a fuel, length ls < fuel -> chain st (a :: ls) None -> walk fuel st a = Some (flat st (a :: ls)).
Proof.
  induction ls as [|b ls IH]; intros a fuel Hf C; destruct fuel as [|fuel]; try (cbn in Hf; lia); cbn [chain] in C; destruct C as [[es E] C];
    cbn [walk]; unfold flat; cbn [map concat]; unfold ents at 1; rewrite E; cbn [lents].
  - rewrite app_nil_r. reflexivity.
  - rewrite (IH b fuel) by (try exact C; cbn in Hf; lia). reflexivity.
Qed.

(** How one operation changes the leaves [ls] of a tree or part of one, followed by [nx]. *)
Record change (nx : option nat) (st : list leaf) (ls : list nat) (st' : list leaf) (ls' : list nat) : Prop := Change {
  ch_len : length st <= length st';
  ch_old : forall a, a < length st -> a ∉ ls -> st' !! a = st !! a;
  ch_nodup : NoDup ls -> NoDup ls';
  ch_new : forall a, a ∈ ls' -> a ∈ ls \/ length st <= a < length st';
  ch_chain : chain st ls nx -> NoDup ls -> chain st' ls' nx;
  ch_head : head ls' = head ls }.

Lemma change_refl nx st ls : change nx st ls st ls.
Proof. split; auto. Qed.

Lemma change_trans nx st1 l1 st2 l2 st3 l3 :
  change nx st1 l1 st2 l2 -> change nx st2 l2 st3 l3 -> change nx st1 l1 st3 l3.
Proof.
  intros C D. split.
  - pose proof (ch_len _ _ _ _ _ C). pose proof (ch_len _ _ _ _ _ D). lia.
  - intros a Ha Hn. rewrite (ch_old _ _ _ _ _ D), (ch_old _ _ _ _ _ C); auto.
    + pose proof (ch_len _ _ _ _ _ C). lia.
    + intros Hi. apply (ch_new _ _ _ _ _ C) in Hi as [Hi|Hi]; [auto|lia].
  - intros H. apply (ch_nodup _ _ _ _ _ D), (ch_nodup _ _ _ _ _ C), H.
  - intros a Ha. apply (ch_new _ _ _ _ _ D) in Ha as [Ha|Ha].
    + apply (ch_new _ _ _ _ _ C) in Ha as [Ha|Ha]; [auto|]. right. pose proof (ch_len _ _ _ _ _ D). lia.
    + right. pose proof (ch_len _ _ _ _ _ C). lia.
  - intros H HN. apply (ch_chain _ _ _ _ _ D); [apply (ch_chain _ _ _ _ _ C); assumption|]. apply (ch_nodup _ _ _ _ _ C), HN.
  - rewrite (ch_head _ _ _ _ _ D). apply (ch_head _ _ _ _ _ C).
Qed.

(** A change of the middle, seen from the whole. *)
Section around.
  Context (nx : option nat) (st st' : list leaf) (l1 l l' l2 : list nat).
  Context (C : change (first_or l2 nx) st l st' l') (Hne : l <> []) (HN : NoDup (l1 ++ l ++ l2))
          (HB : Forall (fun a => a < length st) (l1 ++ l ++ l2)).
  Lemma around_pre a : a ∈ l1 -> st' !! a = st !! a.
  Proof using C HN HB.
    intros Ha. apply (ch_old _ _ _ _ _ C).
    - pose proof HB as HB'. rewrite Forall_forall in HB'. apply HB', elem_of_app. auto.
    - intros Hl. apply NoDup_app in HN as (_ & H & _). apply (H a Ha), elem_of_app. auto.
  Qed.
  Lemma around_post a : a ∈ l2 -> st' !! a = st !! a.
  Proof using C HN HB.
    intros Ha. apply (ch_old _ _ _ _ _ C).
    - pose proof HB as HB'. rewrite Forall_forall in HB'. apply HB'. rewrite !elem_of_app. auto.
    - intros Hl. apply NoDup_app in HN as (_ & _ & H). apply NoDup_app in H as (_ & H & _). apply (H a Hl Ha).
  Qed.
  Lemma around : change nx st (l1 ++ l ++ l2) st' (l1 ++ l' ++ l2).
  Proof using C Hne HN HB.
    assert (Hhd : head l' = head l) by apply (ch_head _ _ _ _ _ C).
    assert (Hne' : l' <> []) by (intros ->; destruct l; [congruence|discriminate]).
    pose proof HN as HN'. apply NoDup_app in HN' as (N1 & D1 & N2). apply NoDup_app in N2 as (N2 & D2 & N3).
    split.
    - apply (ch_len _ _ _ _ _ C).
    - intros a Ha Hn. rewrite !elem_of_app in Hn. apply (ch_old _ _ _ _ _ C); [assumption|tauto].
    - intros _. pose proof HB as HB'. rewrite Forall_forall in HB'.
      apply NoDup_app. split; [assumption|]. split.
      + intros a Ha Hi. apply elem_of_app in Hi as [Hi|Hi].
        * apply (ch_new _ _ _ _ _ C) in Hi as [Hi|Hi]; [apply (D1 a Ha), elem_of_app; auto|].
          specialize (HB' a). rewrite elem_of_app in HB'. specialize (HB' (or_introl Ha)). cbn in HB'. lia.
        * apply (D1 a Ha), elem_of_app. auto.
      + apply NoDup_app. split; [apply (ch_nodup _ _ _ _ _ C), N2|]. split; [|assumption].
        intros a Hi Ha. apply (ch_new _ _ _ _ _ C) in Hi as [Hi|Hi]; [apply (D2 a Hi Ha)|].
        specialize (HB' a). rewrite !elem_of_app in HB'. specialize (HB' (or_intror (or_intror Ha))). cbn in HB'. lia.
    - intros a Ha. rewrite !elem_of_app in Ha. destruct Ha as [Ha|[Ha|Ha]].
      + left. rewrite !elem_of_app. auto.
      + apply (ch_new _ _ _ _ _ C) in Ha as [Ha|Ha]; [left; rewrite !elem_of_app; auto|auto].
      + left. rewrite !elem_of_app. auto.
    - intros H _. apply chain_app in H as [H1 H]. apply chain_app in H as [H2 H3].
      apply chain_app. split; [|apply chain_app; split].
      + apply (chain_frame st); [apply around_pre|].
        destruct l as [|x l0]; [congruence|]. destruct l' as [|y l0']; [congruence|]. cbn in Hhd. injection Hhd as ->. exact H1.
      + apply (ch_chain _ _ _ _ _ C); assumption.
      + apply (chain_frame st); [apply around_post|exact H3].
    - destruct l1 as [|b l1']; [|reflexivity]. cbn. destruct l as [|x l0]; [congruence|]. destruct l'; [congruence|]. cbn in *. congruence.
  Qed.
  Lemma around_flat : flat st' (l1 ++ l' ++ l2) = flat st l1 ++ flat st' l' ++ flat st l2.
  Proof using C HN HB.
    rewrite !flat_app. rewrite (flat_frame st st' l1) by apply around_pre. rewrite (flat_frame st st' l2) by apply around_post. reflexivity.
  Qed.
End around.

Lemma sorted_app {A} (Q : A -> A -> Prop) a b : StronglySorted Q (a ++ b) <->
    StronglySorted Q a /\ StronglySorted Q b /\ (forall x y, x ∈ a -> y ∈ b -> Q x y).
  Proof.
    induction a as [|x a IH]; cbn.
    - split; [intros H; split; [constructor|]; split; [exact H|]; intros x y Hx; apply elem_of_nil in Hx; contradiction|tauto].
    - split.
      + intros H. apply StronglySorted_inv in H as [H F]. apply IH in H as (Sa & Sb & Hab).
        apply Forall_app in F as [Fa Fb]. split; [constructor; assumption|]. split; [exact Sb|].
        intros u y Hu Hy. apply elem_of_cons in Hu as [->|Hu]; [|auto]. rewrite Forall_forall in Fb. auto.
      + intros (Sa & Sb & Hab). apply StronglySorted_inv in Sa as [Sa Fa]. constructor.
        * apply IH. split; [exact Sa|]. split; [exact Sb|]. intros u y Hu Hy. apply Hab; [apply elem_of_cons; auto|exact Hy].
        * apply Forall_app. split; [exact Fa|]. apply Forall_forall. intros y Hy. apply Hab; [apply elem_of_cons; auto|exact Hy].
  Qed.

(** ** The shape of the tree *)
Section shape.
  (** [e]: how many keys of a node may equal the separator that follows it; [R]: how keys of a node
      are ordered. *)
  Context (T : tid) (m e : nat) (R : val -> val -> Prop).
  Context (R_kle : forall a b, R a b -> kle a b) (klt_R : forall a b, klt a b -> R a b)
          (R_l : forall a b c, kle a b -> R b c -> R a c) (R_r : forall a b c, R a b -> kle b c -> R a c).
  Context (Hm : 3 <= m) (He : (m - 1) / 2 < m - 1 - e).
  Context (R_left : (m - 1) / 2 <= e \/ forall a b, R a b -> klt a b).

  Definition kltb (a b : val) : bool := match val_cmp a b with Datatypes.Lt => true | _ => false end.
  Lemma kltb_spec a b : kltb a b = true <-> klt a b.
  Proof. unfold kltb, key_lt. destruct (val_cmp a b); split; congruence. Qed.

  (** How many keys are not below [h]. *)
  Fixpoint not_below (h : val) (ks : list val) : nat :=
    match ks with [] => 0 | k :: ks => (if kltb k h then 0 else 1) + not_below h ks end.

  Lemma not_below_app h a b : not_below h (a ++ b) = not_below h a + not_below h b.
  Proof. induction a as [|x a IH]; cbn; [reflexivity|]. rewrite IH. lia. Qed.
  Lemma not_below_le h a : not_below h a <= length a.
  Proof. induction a as [|x a IH]; cbn; [lia|]. destruct (kltb x h); lia. Qed.
  Lemma not_below_0 h a : Forall (fun k => klt k h) a -> not_below h a = 0.
  Proof. induction 1 as [|x a Hx _ IH]; cbn; [reflexivity|]. apply kltb_spec in Hx. rewrite Hx, IH. reflexivity. Qed.
  Lemma not_below_all h a : Forall (kle h) a -> not_below h a = length a.
  Proof.
    induction 1 as [|x a Hx _ IH]; cbn; [reflexivity|]. destruct (kltb x h) eqn:E; [|lia].
    apply kltb_spec in E. destruct (klt_not_le _ _ E Hx).
  Qed.

  Definition above (lo : option val) (k : val) : Prop := match lo with None => True | Some l => kle l k end.
  Definition below (hi : option val) (k : val) : Prop := match hi with None => True | Some h => klt k h end.
  Definition upto (hi : option val) (k : val) : Prop := match hi with None => True | Some h => kle k h end.
  Definition few (hi : option val) (ks : list val) : Prop := match hi with None => True | Some h => not_below h ks <= e end.

  Record good (lo hi : option val) (ks : list val) : Prop := Good {
    g_type : Forall (of_type T) ks;
    g_sorted : StronglySorted R ks;
    g_lo : Forall (above lo) ks;
    g_hi : Forall (upto hi) ks;
    g_few : few hi ks;
    g_len : length ks <= m - 1 }.

  Definition first_key (ks : list val) (hi : option val) : option val := match ks with [] => hi | k :: _ => Some k end.
  Fixpoint last_key (ks : list val) (lo : option val) : option val := match ks with [] => lo | k :: ks => last_key ks (Some k) end.

  (** Children that follow the keys of [ks], and children that precede them. *)
  Fixpoint after (P : option val -> option val -> tree -> list nat -> Prop) (hi : option val) (ks : list val) (cs : list tree) (ls : list nat) : Prop :=
    match ks, cs with
    | [], [] => ls = []
    | k :: ks, c :: cs => exists l l', ls = l ++ l' /\ P (Some k) (first_key ks hi) c l /\ after P hi ks cs l'
    | _, _ => False
    end.
  Fixpoint before (P : option val -> option val -> tree -> list nat -> Prop) (lo : option val) (ks : list val) (cs : list tree) (ls : list nat) : Prop :=
    match ks, cs with
    | [], [] => ls = []
    | k :: ks, c :: cs => exists l l', ls = l ++ l' /\ P lo (Some k) c l /\ before P (Some k) ks cs l'
    | _, _ => False
    end.
  Definition all (P : option val -> option val -> tree -> list nat -> Prop) (lo hi : option val) (ks : list val) (cs : list tree) (ls : list nat) : Prop :=
    match cs with
    | [] => False
    | c :: cs => exists l l', ls = l ++ l' /\ P lo (first_key ks hi) c l /\ after P hi ks cs l'
    end.

  (** A tree of height [n] with keys from [lo] to [hi] and the leaves [ls]. *)
  Fixpoint ok (st : list leaf) (n : nat) (lo hi : option val) (t : tree) (ls : list nat) : Prop :=
    match n, t with
    | 0, TLeaf a => ls = [a] /\ exists es nx, st !! a = Some (Leaf es nx) /\ good lo hi (keys es)
    | S n, TNode ks cs => good lo hi ks /\ all (ok st n) lo hi ks cs ls
    | _, _ => False
    end.

  Section family.
    Context (P : option val -> option val -> tree -> list nat -> Prop).
    Lemma all_split lo hi i ks cs ls c : all P lo hi ks cs ls -> cs !! i = Some c ->
      exists ks1 ks2 cs1 cs2 l1 l l2, ks = ks1 ++ ks2 /\ cs = cs1 ++ c :: cs2 /\ length ks1 = i /\ length cs1 = i /\
        ls = l1 ++ l ++ l2 /\ before P lo ks1 cs1 l1 /\ P (last_key ks1 lo) (first_key ks2 hi) c l /\ after P hi ks2 cs2 l2.
    Proof.
      revert lo ks cs ls. induction i as [|i IH]; intros lo ks cs ls A E; destruct cs as [|c0 cs]; try discriminate; cbn in A, E;
        destruct A as (l & l' & -> & Pc & A).
      - injection E as ->. exists [], ks, [], cs, [], l, l'. cbn. repeat (split; [reflexivity|]). split; [exact Pc|exact A].
      - destruct ks as [|k ks]; [destruct cs; [discriminate|contradiction]|].
        assert (A' : all P (Some k) hi ks cs l') by (destruct cs; [discriminate|exact A]).
        destruct (IH (Some k) ks cs l' A' E) as (ks1 & ks2 & cs1 & cs2 & l1 & lc & l2 & -> & -> & <- & L & -> & B & Pc' & A2).
        exists (k :: ks1), ks2, (c0 :: cs1), cs2, (l ++ l1), lc, l2. cbn [length app]. split; [reflexivity|]. split; [reflexivity|].
        split; [reflexivity|]. split; [congruence|]. split; [rewrite <- app_assoc; reflexivity|].
        split; [cbn [before]; exists l, l1; auto|]. split; assumption.
    Qed.

    Lemma all_join : forall ks1 cs1 lo hi ks2 cs2 l1 l l2 c, before P lo ks1 cs1 l1 -> P (last_key ks1 lo) (first_key ks2 hi) c l ->
      after P hi ks2 cs2 l2 -> all P lo hi (ks1 ++ ks2) (cs1 ++ c :: cs2) (l1 ++ l ++ l2).
    Proof.
      induction ks1 as [|k ks1 IH]; intros cs1 lo hi ks2 cs2 l1 l l2 c B Pc A; destruct cs1 as [|c0 cs1]; try contradiction.
      - cbn in B. subst l1. cbn. exists l, l2. auto.
      - cbn in B. destruct B as (la & lb & -> & P0 & B). specialize (IH cs1 (Some k) hi ks2 cs2 lb l l2 c B Pc A).
        cbn. exists la, (lb ++ l ++ l2). split; [rewrite <- app_assoc; reflexivity|]. split; [exact P0|].
        destruct (cs1 ++ c :: cs2) as [|c1 cs] eqn:E; [destruct cs1; discriminate|]. cbn in IH. exact IH.
    Qed.

    Lemma after_length hi : forall ks cs ls, after P hi ks cs ls -> length cs = length ks.
    Proof. induction ks as [|k ks IH]; intros [|c cs] ls A; try contradiction; [reflexivity|]. destruct A as (? & ? & _ & _ & A). cbn. f_equal. eapply IH, A. Qed.
    Lemma all_length lo hi ks cs ls : all P lo hi ks cs ls -> length cs = S (length ks).
    Proof. destruct cs as [|c cs]; [contradiction|]. intros (? & ? & _ & _ & A). cbn. f_equal. eapply after_length, A. Qed.
  End family.

  Lemma after_impl (P Q : option val -> option val -> tree -> list nat -> Prop) hi : forall ks cs ls,
    (forall lo hi c l, (forall a, a ∈ l -> a ∈ ls) -> P lo hi c l -> Q lo hi c l) -> after P hi ks cs ls -> after Q hi ks cs ls.
  Proof.
    induction ks as [|k ks IH]; intros [|c cs] ls H A; try contradiction; [exact A|].
    destruct A as (l & l' & -> & Pc & A). exists l, l'. split; [reflexivity|]. split.
    - apply H; [|exact Pc]. intros a Ha. apply elem_of_app. auto.
    - apply IH; [|exact A]. intros lo' hi' c' l0 Hin. apply H. intros a Ha. apply elem_of_app. auto.
  Qed.
  Lemma before_impl (P Q : option val -> option val -> tree -> list nat -> Prop) : forall ks lo cs ls,
    (forall lo hi c l, (forall a, a ∈ l -> a ∈ ls) -> P lo hi c l -> Q lo hi c l) -> before P lo ks cs ls -> before Q lo ks cs ls.
  Proof.
    induction ks as [|k ks IH]; intros lo [|c cs] ls H A; try contradiction; [exact A|].
    destruct A as (l & l' & -> & Pc & A). exists l, l'. split; [reflexivity|]. split.
    - apply H; [|exact Pc]. intros a Ha. apply elem_of_app. auto.
    - apply IH; [|exact A]. intros lo' hi' c' l0 Hin. apply H. intros a Ha. apply elem_of_app. auto.
  Qed.

  Lemma ok_frame st st' n : forall lo hi t ls, (forall a, a ∈ ls -> st' !! a = st !! a) -> ok st n lo hi t ls -> ok st' n lo hi t ls.
  Proof.
    induction n as [|n IH]; intros lo hi [a|ks cs] ls H O; try contradiction.
    - destruct O as [-> (es & nx & E & G)]. split; [reflexivity|]. exists es, nx. split; [|exact G].
      rewrite H; [exact E|]. apply elem_of_list_singleton. reflexivity.
    - destruct O as [G A]. split; [exact G|]. destruct cs as [|c cs]; [contradiction|]. cbn in A |- *.
      destruct A as (l & l' & -> & Oc & A). exists l, l'. split; [reflexivity|]. split.
      + apply IH; [|exact Oc]. intros a Ha. apply H, elem_of_app. auto.
      + eapply after_impl; [|exact A]. intros lo' hi' c' l0 Hin. apply IH. intros a Ha. apply H, elem_of_app. auto.
  Qed.

  Lemma ok_nonempty st n : forall lo hi t ls, ok st n lo hi t ls -> ls <> [].
  Proof.
    induction n as [|n IH]; intros lo hi [a|ks cs] ls O; try contradiction.
    - destruct O as [-> _]. congruence.
    - destruct O as [_ A]. destruct cs as [|c cs]; [contradiction|]. destruct A as (l & l' & -> & Oc & _).
      apply IH in Oc. destruct l; [congruence|discriminate].
  Qed.

  Lemma ok_depth st n : forall lo hi t ls, ok st n lo hi t ls -> depth t = n.
  Proof.
    induction n as [|n IH]; intros lo hi [a|ks cs] ls O; try contradiction; [reflexivity|].
    destruct O as [_ A]. destruct cs as [|c cs]; [contradiction|]. destruct A as (l & l' & _ & Oc & A).
    cbn [depth]. f_equal. rewrite (IH _ _ _ _ Oc).
    assert (H : forall ks cs l', after (ok st n) hi ks cs l' ->
      (fix go cs := match cs with [] => 0 | c :: cs => Nat.max (depth c) (go cs) end) cs <= n).
    { clear - IH. induction ks as [|k ks IHk]; intros [|c cs] ls A; try contradiction; [lia|].
      destruct A as (l & l' & _ & Oc & A). rewrite (IH _ _ _ _ Oc). specialize (IHk _ _ A). lia. }
    specialize (H _ _ _ A). lia.
  Qed.

  (** The keys of the leaves lie in the range. *)
  Lemma above_trans lo k x : above lo k -> kle k x -> above lo x.
  Proof. destruct lo; cbn; [intros; eapply kle_trans; eassumption|auto]. Qed.
  Lemma upto_trans hi k x : upto hi k -> kle x k -> upto hi x.
  Proof. destruct hi; cbn; [intros; eapply kle_trans; eassumption|auto]. Qed.

  Definition within (lo hi : option val) (x : val) : Prop := of_type T x /\ above lo x /\ upto hi x.

  Lemma first_upto hi ks : Forall (upto hi) ks -> forall x, upto (first_key ks hi) x -> upto hi x.
  Proof. destruct ks as [|k ks]; cbn; [auto|]. intros H x Hx. apply Forall_cons_1 in H as [H _]. eapply upto_trans; eassumption. Qed.

  Lemma after_within st n hi : (forall lo hi t ls, ok st n lo hi t ls -> Forall (within lo hi) (keys (flat st ls))) ->
    forall ks cs ls lo, Forall (upto hi) ks -> Forall (above lo) ks ->
    after (ok st n) hi ks cs ls -> Forall (within lo hi) (keys (flat st ls)).
  Proof.
    intros IH. induction ks as [|k ks IHk]; intros [|c cs] ls lo Hh Hl A; try contradiction.
    - cbn in A. subst. constructor.
    - destruct A as (l & l' & -> & Oc & A). apply Forall_cons_1 in Hh as [Hk Hh]. apply Forall_cons_1 in Hl as [Hlk Hl].
      rewrite flat_app, keys_app. apply Forall_app. split; [|eapply IHk; eassumption].
      apply IH in Oc. eapply Forall_impl; [exact Oc|]. intros x (Tx & Ax & Ux). split; [exact Tx|]. split.
      + cbn in Ax. eapply above_trans; eassumption.
      + eapply first_upto; eassumption.
  Qed.

  Lemma ok_within st n : forall lo hi t ls, ok st n lo hi t ls -> Forall (within lo hi) (keys (flat st ls)).
  Proof.
    induction n as [|n IH]; intros lo hi [a|ks cs] ls O; try contradiction.
    - destruct O as [-> (es & nx & E & G)]. unfold flat. cbn. unfold ents. rewrite E, app_nil_r. cbn [lents].
      apply Forall_forall. intros x Hx. destruct G as [G1 _ G3 G4 _ _]. rewrite Forall_forall in G1, G3, G4. repeat split; auto.
    - destruct O as [G A]. destruct cs as [|c cs]; [contradiction|]. destruct A as (l & l' & -> & Oc & A).
      rewrite flat_app, keys_app. apply Forall_app. split.
      + apply IH in Oc. eapply Forall_impl; [exact Oc|]. intros x (Tx & Ax & Ux). split; [exact Tx|]. split; [exact Ax|].
        eapply first_upto; [apply (g_hi _ _ _ G)|exact Ux].
      + eapply after_within; [exact IH|apply (g_hi _ _ _ G)|apply (g_lo _ _ _ G)|exact A].
  Qed.

  Lemma sorted_kle ks : StronglySorted R ks -> StronglySorted kle ks.
  Proof. induction 1 as [|x ks S IH F]; constructor; [exact IH|]. eapply Forall_impl; [exact F|]. intros y. apply R_kle. Qed.

  Lemma after_sorted st n hi : (forall lo hi t ls, ok st n lo hi t ls -> StronglySorted kle (keys (flat st ls))) ->
    forall ks cs ls, StronglySorted kle ks -> Forall (upto hi) ks -> after (ok st n) hi ks cs ls -> StronglySorted kle (keys (flat st ls)).
  Proof.
    intros IH. induction ks as [|k ks IHk]; intros [|c cs] ls S Hh A; try contradiction.
    - cbn in A. subst. constructor.
    - destruct A as (l & l' & -> & Oc & A). apply StronglySorted_inv in S as [S F]. apply Forall_cons_1 in Hh as [_ Hh].
      rewrite flat_app, keys_app. apply sorted_app. split; [eapply IH, Oc|]. split; [apply (IHk _ _ S Hh A)|].
      intros x y Hx Hy. pose proof (ok_within _ _ _ _ _ _ Oc) as W. rewrite Forall_forall in W. destruct (W x Hx) as (_ & _ & Ux).
      destruct ks as [|k2 ks].
      + destruct cs; [|contradiction]. cbn in A. subst. apply elem_of_nil in Hy. contradiction.
      + assert (W2 : Forall (within (Some k2) hi) (keys (flat st l'))).
        { eapply after_within; [apply ok_within|exact Hh| |exact A]. constructor; [apply kle_refl|].
          apply StronglySorted_inv in S as [_ S]. exact S. }
        rewrite Forall_forall in W2. destruct (W2 y Hy) as (_ & Ay & _). cbn in Ux, Ay. eapply kle_trans; eassumption.
  Qed.

  Lemma ok_sorted st n : forall lo hi t ls, ok st n lo hi t ls -> StronglySorted kle (keys (flat st ls)).
  Proof.
    induction n as [|n IH]; intros lo hi [a|ks cs] ls O; try contradiction.
    - destruct O as [-> (es & nx & E & G)]. unfold flat. cbn. unfold ents. rewrite E, app_nil_r. apply sorted_kle, (g_sorted _ _ _ G).
    - destruct O as [G A]. destruct cs as [|c cs]; [contradiction|]. destruct A as (l & l' & -> & Oc & A).
      pose proof (sorted_kle _ (g_sorted _ _ _ G)) as S.
      rewrite flat_app, keys_app. apply sorted_app. split; [eapply IH, Oc|].
      split; [eapply after_sorted; [exact IH|exact S|apply (g_hi _ _ _ G)|exact A]|].
      intros x y Hx Hy. pose proof (ok_within _ _ _ _ _ _ Oc) as W. rewrite Forall_forall in W. destruct (W x Hx) as (_ & _ & Ux).
      destruct ks as [|k2 ks].
      + destruct cs; [|contradiction]. cbn in A. subst. apply elem_of_nil in Hy. contradiction.
      + assert (W2 : Forall (within (Some k2) hi) (keys (flat st l'))).
        { eapply after_within; [apply ok_within|apply (g_hi _ _ _ G)| |exact A]. constructor; [apply kle_refl|].
          apply StronglySorted_inv in S as [_ S]. exact S. }
        rewrite Forall_forall in W2. destruct (W2 y Hy) as (_ & Ay & _). cbn in Ux, Ay. eapply kle_trans; eassumption.
  Qed.

  (** ** Splitting a node *)
  Lemma good_split lo hi ks kA K kB : good lo hi ks -> ks = kA ++ K :: kB -> length ks = m - 1 -> length kA = (m - 1) / 2 ->
    of_type T K /\ below hi K /\ match lo with Some x => R x K | None => True end /\
    good lo (Some K) kA /\ good (Some K) hi kB /\ good (Some K) hi (K :: kB).
  Proof using All.
    intros [G1 G2 G3 G4 G5 G6] -> L LA. apply sorted_app in G2 as (SA & SB & AB). pose proof SB as SB'. apply StronglySorted_inv in SB' as [SB' FB].
    apply Forall_app in G1 as [TA TB]. apply Forall_cons_1 in TB as [TK TB].
    apply Forall_app in G3 as [LoA LoB]. apply Forall_cons_1 in LoB as [LoK LoB].
    apply Forall_app in G4 as [HiA HiB]. apply Forall_cons_1 in HiB as [HiK HiB].
    rewrite app_length in L, G6. cbn [length] in L, G6.
    assert (s1 : 1 <= (m - 1) / 2) by (apply (Nat.div_le_lower_bound (m - 1) 2 1); lia).
    assert (FB' : Forall (kle K) kB) by (eapply Forall_impl; [exact FB|]; intros y; apply R_kle).
    assert (HfB : few hi (K :: kB)).
    { destruct hi as [h|]; [|exact I]. cbn in G5 |- *. rewrite not_below_app in G5. cbn in G5. lia. }
    assert (HKhi : below hi K).
    { destruct hi as [h|]; [|exact I]. cbn in G5. rewrite not_below_app in G5. destruct (klt_dec K h) as [H|H]; [exact H|exfalso].
      rewrite (not_below_all h (K :: kB)) in G5; [cbn [length] in G5; lia|]. constructor; [exact H|].
      eapply Forall_impl; [exact FB'|]. intros y Hy. eapply kle_trans; eassumption. }
    split; [exact TK|]. split; [exact HKhi|]. split.
    { destruct lo as [x|]; [|exact I]. destruct kA as [|z kA]; [cbn [length] in LA; lia|]. apply Forall_cons_1 in LoA as [Lz _].
      eapply R_l; [exact Lz|]. apply AB; apply elem_of_cons; auto. }
    split; [|split].
    - split; auto; [|cbn|lia].
      + apply Forall_forall. intros x Hx. apply R_kle, AB; [exact Hx|apply elem_of_cons; auto].
      + destruct R_left as [Hs|Hs]; [pose proof (not_below_le K kA); lia|].
        rewrite not_below_0; [lia|]. apply Forall_forall. intros x Hx. apply Hs, AB; [exact Hx|apply elem_of_cons; auto].
    - split; auto; [|lia]. destruct hi as [h|]; [|exact I]. cbn in HfB |- *. lia.
    - split; auto; cbn [length]; try lia; constructor; auto. apply kle_refl.
  Qed.

  Lemma insert_at_app {A} (a b : list A) x i : i = length a -> insert_at i x (a ++ b) = a ++ x :: b.
  Proof. intros ->. unfold insert_at. rewrite take_app, drop_app. reflexivity. Qed.

  Lemma last_key_bound ks : forall lo x, StronglySorted kle ks -> x ∈ ks -> exists y, last_key ks lo = Some y /\ kle x y.
  Proof.
    induction ks as [|k ks IH]; intros lo x S Hx; [apply elem_of_nil in Hx; contradiction|].
    apply StronglySorted_inv in S as [S F]. cbn [last_key]. apply elem_of_cons in Hx as [->|Hx]; [|apply IH; assumption].
    destruct ks as [|k2 ks]; [exists k; split; [reflexivity|apply kle_refl]|].
    destruct (IH (Some k) k2 S) as (y & E & L); [apply elem_of_cons; auto|]. exists y. split; [exact E|].
    apply Forall_cons_1 in F as [F _]. eapply kle_trans; eassumption.
  Qed.

  (** Where a key that belongs to a child goes among the separators. *)
  Lemma fip_at lo hi ks1 ks2 K : Forall (of_type T) (ks1 ++ ks2) -> StronglySorted kle (ks1 ++ ks2) -> of_type T K ->
    above (last_key ks1 lo) K -> below (first_key ks2 hi) K -> find_insert_position (ks1 ++ ks2) K = length ks1.
  Proof.
    intros HT S TK HA HB. apply (fip_split T); auto.
    - apply sorted_app in S as (S & _ & _). apply Forall_forall. intros x Hx.
      destruct (last_key_bound ks1 lo x S Hx) as (y & E & L). rewrite E in HA. cbn in HA. eapply kle_trans; eassumption.
    - destruct ks2; cbn in HB; [exact I|exact HB].
  Qed.

  Lemma keylen_frame st st' n lo hi t ls : (forall a, a ∈ ls -> st' !! a = st !! a) -> ok st n lo hi t ls -> keylen st' t = keylen st t.
  Proof.
    intros H O. destruct n, t; try contradiction; [|reflexivity]. destruct O as [-> _]. cbn. unfold ents. rewrite H; [reflexivity|].
    apply elem_of_list_singleton. reflexivity.
  Qed.

  Lemma split_ok st n lo hi ks1 ks2 cs1 cs2 c l nx :
    Forall (of_type T) (ks1 ++ ks2) -> StronglySorted kle (ks1 ++ ks2) -> length cs1 = length ks1 ->
    ok st n (last_key ks1 lo) (first_key ks2 hi) c l -> keylen st c = m - 1 -> Forall (fun a => a < length st) l ->
    exists K cl cr st' la lb,
      split_child (ks1 ++ ks2) (cs1 ++ c :: cs2) (length cs1) st = Some (ks1 ++ K :: ks2, cs1 ++ cl :: cr :: cs2, st') /\
      ok st' n (last_key ks1 lo) (Some K) cl la /\ ok st' n (Some K) (first_key ks2 hi) cr lb /\
      change nx st l st' (la ++ lb) /\ flat st' (la ++ lb) = flat st l /\
      of_type T K /\ match last_key ks1 lo with Some x => R x K | None => True end /\ below (first_key ks2 hi) K /\
      keylen st' cl < m - 1 /\ keylen st' cr < m - 1.
  Proof using All.
    intros HT HS HL O HK HB.
    assert (s1 : 1 <= (m - 1) / 2) by (apply (Nat.div_le_lower_bound (m - 1) 2 1); lia).
    assert (s2 : (m - 1) / 2 < m - 1) by lia.
    assert (Hup : forall K, match last_key ks1 lo with Some x => R x K | None => True end -> above (last_key ks1 lo) K).
    { intros K. destruct (last_key ks1 lo); cbn; auto. }
    destruct n as [|n]; destruct c as [a|kk dd]; try contradiction.
    - (* a leaf *)
      destruct O as [-> (es & nx0 & E & G)]. cbn [keylen] in HK. unfold ents in HK. rewrite E in HK. cbn [lents] in HK.
      apply Forall_cons_1 in HB as [Ha _].
      destruct (drop ((m - 1) / 2) es) as [|[K r] eB] eqn:ED.
      { apply (f_equal length) in ED. rewrite drop_length in ED. cbn [length] in ED. lia. }
      assert (Ees : es = take ((m - 1) / 2) es ++ (K, r) :: eB) by (rewrite <- (take_drop ((m - 1) / 2) es) at 1; rewrite ED; reflexivity).
      set (eA := take ((m - 1) / 2) es) in *.
      assert (LA : length eA = (m - 1) / 2) by (unfold eA; rewrite take_length; lia).
      destruct (good_split _ _ _ (keys eA) K (keys eB) G) as (TK & BK & AK & GA & _ & GB).
      { rewrite Ees at 1. rewrite keys_app. reflexivity. }
      { unfold keys. rewrite map_length. exact HK. }
      { unfold keys. rewrite map_length. exact LA. }
      set (st' := <[a := Leaf eA (Some (length st))]> st ++ [Leaf ((K, r) :: eB) nx0]).
      assert (E1 : st' !! a = Some (Leaf eA (Some (length st)))).
      { unfold st'. rewrite lookup_app_l by (rewrite insert_length; exact Ha). apply list_lookup_insert, Ha. }
      assert (E2 : st' !! length st = Some (Leaf ((K, r) :: eB) nx0)).
      { unfold st'. rewrite lookup_app_r by (rewrite insert_length; lia). rewrite insert_length, Nat.sub_diag. reflexivity. }
      exists K, (TLeaf a), (TLeaf (length st)), st', [a], [length st].
      assert (HLen : length eA + S (length eB) = m - 1).
      { rewrite <- HK. apply (f_equal length) in Ees. rewrite app_length in Ees. cbn [length] in Ees. lia. }
      split; [|split; [|split; [|split; [|split; [|split; [|split; [|split; [|split]]]]]]]].
      + unfold split_child. rewrite list_lookup_middle by reflexivity. rewrite E. rewrite HK. fold eA. rewrite ED. fold st'.
        rewrite (fip_at lo hi) by auto.
        rewrite (insert_at_app ks1 ks2) by reflexivity.
        replace (cs1 ++ TLeaf a :: cs2) with ((cs1 ++ [TLeaf a]) ++ cs2) by (rewrite <- app_assoc; reflexivity).
        rewrite insert_at_app by (rewrite app_length; cbn; lia). rewrite <- app_assoc. reflexivity.
      + split; [reflexivity|]. eauto.
      + split; [reflexivity|]. eexists _, _. split; [exact E2|exact GB].
      + split.
        * unfold st'. rewrite app_length, insert_length. cbn. lia.
        * intros b Hb Hn. unfold st'. rewrite lookup_app_l by (rewrite insert_length; exact Hb).
          apply list_lookup_insert_ne. intros ->. apply Hn, elem_of_list_singleton. reflexivity.
        * intros _. cbn. repeat constructor; rewrite ?elem_of_list_singleton; [lia|apply not_elem_of_nil].
        * intros b Hb. cbn in Hb. apply elem_of_cons in Hb as [->|Hb]; [left; apply elem_of_list_singleton; reflexivity|].
          apply elem_of_list_singleton in Hb. right. unfold st'. rewrite app_length, insert_length. cbn. lia.
        * intros [[es' C] _] _. cbn. assert (nx0 = nx) as -> by congruence. split; [eexists; exact E1|]. split; [eexists; exact E2|exact I].
        * reflexivity.
      + unfold flat. cbn. unfold ents. rewrite E1, E2, E. cbn. rewrite !app_nil_r. symmetry. exact Ees.
      + exact TK.
      + exact AK.
      + exact BK.
      + cbn [keylen]. unfold ents. rewrite E1. cbn [lents length]. lia.
      + cbn [keylen]. unfold ents. rewrite E2. cbn [lents length]. lia.
    - (* an internal node *)
      destruct O as [G A]. cbn [keylen] in HK. pose proof (all_length _ _ _ _ _ _ A) as LD.
      destruct (dd !! ((m - 1) / 2)) as [c|] eqn:Ec.
      2: { apply lookup_ge_None in Ec. lia. }
      destruct (all_split _ _ _ _ _ _ _ _ A Ec) as (kA & kB' & dA & dB & l1 & lc & l2 & -> & -> & LkA & LdA & -> & Bf & Oc & Af).
      destruct kB' as [|K kB]; [rewrite app_nil_r in HK; lia|].
      destruct (good_split _ _ _ kA K kB G eq_refl HK LkA) as (TK & BK & AK & GA & GB & _).
      destruct dB as [|d dB]; [contradiction|]. destruct Af as (ld & l2' & -> & Od & Af).
      exists K, (TNode kA (dA ++ [c])), (TNode kB (d :: dB)), st, (l1 ++ lc), (ld ++ l2').
      rewrite app_length in HK. cbn [length] in HK.
      split; [|split; [|split; [|split; [|split; [|split; [|split; [|split; [|split]]]]]]]]; auto.
      + unfold split_child. rewrite list_lookup_middle by reflexivity.
        replace (length (kA ++ K :: kB) / 2) with (length kA) by (rewrite app_length; cbn [length]; rewrite HK; exact LkA).
        rewrite list_lookup_middle by reflexivity. rewrite (fip_at lo hi) by auto.
        rewrite (insert_at_app ks1 ks2) by reflexivity.
        rewrite insert_app_r_alt by lia. rewrite ?Nat.sub_diag.
        replace (S (length kA)) with (length (dA ++ [c])) by (rewrite app_length; cbn; lia).
        replace (dA ++ c :: d :: dB) with ((dA ++ [c]) ++ d :: dB) by (rewrite <- app_assoc; reflexivity).
        rewrite take_app, drop_app.
        replace (drop (length (dA ++ [c])) (kA ++ K :: kB)) with kB.
        2: { replace (kA ++ K :: kB) with ((kA ++ [K]) ++ kB) by (rewrite <- app_assoc; reflexivity).
             rewrite drop_app_alt; [reflexivity|]. rewrite !app_length. cbn. lia. }
        rewrite take_app.
        change (<[0:=TNode kA (dA ++ [c])]> (TNode (kA ++ K :: kB) ((dA ++ [c]) ++ d :: dB) :: cs2)) with (TNode kA (dA ++ [c]) :: cs2).
        replace (cs1 ++ TNode kA (dA ++ [c]) :: cs2) with ((cs1 ++ [TNode kA (dA ++ [c])]) ++ cs2) by (rewrite <- app_assoc; reflexivity).
        rewrite insert_at_app by (rewrite app_length; cbn; lia). rewrite <- app_assoc. reflexivity.
      + split; [exact GA|]. replace kA with (kA ++ []) by apply app_nil_r. rewrite <- (app_nil_r (l1 ++ lc)), <- app_assoc.
        apply all_join; [exact Bf|exact Oc|reflexivity].
      + split; [exact GB|]. cbn. exists ld, l2'. auto.
      + rewrite <- !app_assoc. apply change_refl.
      + rewrite <- !app_assoc. reflexivity.
      + cbn [keylen]. lia.
      + cbn [keylen]. lia.
  Qed.

  (** ** Inserting *)
  Definition inserted (b : bool) (k : val) (r : rid) (F F' : list entry) : Prop :=
    if b then exists F1 F2, F = F1 ++ F2 /\ F' = F1 ++ (k, r) :: F2 /\ Forall (fun x => kle x k) (keys F1) /\ Forall (klt k) (keys F2)
    else F' = F /\ (k, r) ∈ F.

  Lemma before_upto st n : forall ks lo cs ls, StronglySorted kle ks -> before (ok st n) lo ks cs ls ->
    Forall (fun x => exists y, last_key ks lo = Some y /\ kle x y) (keys (flat st ls)).
  Proof.
    induction ks as [|k ks IH]; intros lo [|c cs] ls S B; try contradiction; [cbn in B; subst; constructor|].
    destruct B as (l & l' & -> & Oc & B). apply StronglySorted_inv in S as [S F]. rewrite flat_app, keys_app. apply Forall_app. split; [|apply (IH (Some k) _ _ S B)].
    eapply Forall_impl; [eapply ok_within, Oc|]. intros x (_ & _ & Ux). cbn in Ux.
    destruct (last_key_bound (k :: ks) lo k) as (y & E & L); [constructor; assumption|apply elem_of_cons; auto|].
    exists y. split; [exact E|]. eapply kle_trans; eassumption.
  Qed.

  Lemma after_above st n hi ks cs ls : StronglySorted kle ks -> Forall (upto hi) ks -> after (ok st n) hi ks cs ls ->
    Forall (fun x => exists y, first_key ks hi = Some y /\ kle y x) (keys (flat st ls)).
  Proof.
    intros S Hh A. destruct ks as [|k ks]; [destruct cs; [cbn in A; subst; constructor|contradiction]|].
    apply StronglySorted_inv in S as [S F].
    assert (W : Forall (within (Some k) hi) (keys (flat st ls))).
    { eapply after_within; [apply ok_within|exact Hh| |exact A]. constructor; [apply kle_refl|exact F]. }
    eapply Forall_impl; [exact W|]. intros x (_ & Ax & _). exists k. split; [reflexivity|exact Ax].
  Qed.

  Lemma descend st n lo hi ks1 ks2 cs1 cs2 l1 l l2 b c' st' l' k r nx :
    good lo hi (ks1 ++ ks2) -> before (ok st n) lo ks1 cs1 l1 -> after (ok st n) hi ks2 cs2 l2 ->
    NoDup (l1 ++ l ++ l2) -> Forall (fun a => a < length st) (l1 ++ l ++ l2) -> l <> [] ->
    ok st' n (last_key ks1 lo) (first_key ks2 hi) c' l' -> change (first_or l2 nx) st l st' l' ->
    inserted b k r (flat st l) (flat st' l') -> above (last_key ks1 lo) k -> below (first_key ks2 hi) k ->
    ok st' (S n) lo hi (TNode (ks1 ++ ks2) (cs1 ++ c' :: cs2)) (l1 ++ l' ++ l2) /\
    change nx st (l1 ++ l ++ l2) st' (l1 ++ l' ++ l2) /\
    inserted b k r (flat st (l1 ++ l ++ l2)) (flat st' (l1 ++ l' ++ l2)).
  Proof using All.
    intros G B A HN HB Hne O C I HA HBl.
    pose proof (sorted_kle _ (g_sorted _ _ _ G)) as S. apply sorted_app in S as (S1 & S2 & _).
    split; [|split].
    - split; [exact G|]. apply all_join; [|exact O|].
      + eapply before_impl; [|exact B]. intros lo' hi' d ld Hin. apply ok_frame. intros a Ha.
        eapply around_pre; [exact C|exact HN|exact HB|apply Hin, Ha].
      + eapply after_impl; [|exact A]. intros lo' hi' d ld Hin. apply ok_frame. intros a Ha.
        eapply around_post; [exact C|exact HN|exact HB|apply Hin, Ha].
    - apply around; assumption.
    - rewrite (around_flat nx st st' l1 l l' l2 C HN HB). rewrite !flat_app. unfold inserted in *. destruct b.
      + destruct I as (F1 & F2 & -> & -> & H1 & H2). exists (flat st l1 ++ F1), (F2 ++ flat st l2).
        split; [rewrite <- !app_assoc; reflexivity|]. split; [rewrite <- !app_assoc; reflexivity|]. rewrite !keys_app. split; apply Forall_app; split; auto.
        * eapply Forall_impl; [eapply before_upto; [exact S1|exact B]|]. intros x (y & E & L). rewrite E in HA. eapply kle_trans; eassumption.
        * eapply Forall_impl; [eapply after_above; [exact S2| |exact A]|].
          { pose proof (g_hi _ _ _ G) as H. apply Forall_app in H. tauto. }
          intros x (y & E & L). rewrite E in HBl. cbn in HBl. eapply klt_kle_trans; eassumption.
      + destruct I as [-> Hin]. split; [reflexivity|]. rewrite !elem_of_app. auto.
  Qed.

  Lemma before_snoc (P : option val -> option val -> tree -> list nat -> Prop) K c l : forall ks lo cs ls, before P lo ks cs ls -> P (last_key ks lo) (Some K) c l ->
    before P lo (ks ++ [K]) (cs ++ [c]) (ls ++ l).
  Proof.
    induction ks as [|k ks IH]; intros lo [|c0 cs] ls B Pc; try contradiction.
    - cbn in B. subst. cbn. exists l, []. rewrite app_nil_r. auto.
    - destruct B as (la & lb & -> & P0 & B). cbn. exists la, (lb ++ l). rewrite app_assoc. split; [reflexivity|]. split; [exact P0|].
      apply IH; assumption.
  Qed.
  Lemma last_key_snoc ks K : forall lo, last_key (ks ++ [K]) lo = Some K.
  Proof. induction ks as [|k ks IH]; intros lo; cbn; [reflexivity|apply IH]. Qed.
  Lemma last_key_above k ks : forall lo, Forall (fun x => kle x k) ks -> above lo k -> above (last_key ks lo) k.
  Proof. induction ks as [|x ks IH]; intros lo F A; cbn; [exact A|]. apply Forall_cons_1 in F as [Fx F]. apply IH; assumption. Qed.
  Lemma first_key_below k ks hi : Forall (klt k) ks -> below hi k -> below (first_key ks hi) k.
  Proof. destruct ks; cbn; [auto|]. intros F _. apply Forall_cons_1 in F. tauto. Qed.

  Lemma below_first hi ks K : Forall (upto hi) ks -> below (first_key ks hi) K -> below hi K.
  Proof.
    destruct ks as [|k ks]; cbn; [auto|]. intros F H. apply Forall_cons_1 in F as [F _].
    destruct hi as [h|]; cbn in *; [|exact I]. eapply klt_kle_trans; eassumption.
  Qed.
  Lemma below_upto hi K : below hi K -> upto hi K.
  Proof. destruct hi; cbn; [apply klt_le|auto]. Qed.

  Lemma above_first lo x ks : StronglySorted kle ks -> Forall (above lo) ks -> above (last_key ks lo) x -> above lo x.
  Proof.
    revert lo. induction ks as [|k ks IH]; intros lo S F H; cbn in *; [exact H|]. apply Forall_cons_1 in F as [Fk F].
    apply StronglySorted_inv in S as [S SF]. apply (above_trans lo k); [exact Fk|]. apply (IH (Some k)); auto.
  Qed.

  Lemma good_insert lo hi ks1 ks2 K : good lo hi (ks1 ++ ks2) -> length (ks1 ++ ks2) < m - 1 -> of_type T K ->
    above lo K -> Forall (fun x => R x K) ks1 -> Forall (klt K) ks2 -> below hi K -> good lo hi (ks1 ++ K :: ks2).
  Proof using All.
    intros [G1 G2 G3 G4 G5 G6] L TK AK RK K2 BK.
    apply Forall_app in G1 as [? ?]. apply Forall_app in G3 as [? ?]. apply Forall_app in G4 as [? ?]. apply sorted_app in G2 as (S1 & S2 & S12).
    split.
    - apply Forall_app. auto.
    - apply sorted_app. split; [exact S1|]. split.
      + constructor; [exact S2|]. eapply Forall_impl; [exact K2|]. apply klt_R.
      + intros x y Hx Hy. apply elem_of_cons in Hy as [->|Hy]; [|auto]. rewrite Forall_forall in RK. auto.
    - apply Forall_app. auto.
    - apply Forall_app. split; [assumption|]. constructor; [apply below_upto, BK|assumption].
    - destruct hi as [h|]; [|exact I]. cbn in *. rewrite not_below_app in *. cbn. apply kltb_spec in BK. rewrite BK. lia.
    - rewrite app_length in *. cbn [length]. lia.
  Qed.

  Lemma run_has_in k r es : of_type T k -> Forall (of_type T) (keys es) -> run_has k r es = true -> (k, r) ∈ es.
  Proof.
    intros Tk. induction es as [|[k' r'] es IH]; cbn [run_has keys map fst]; intros HT H; [discriminate|].
    apply Forall_cons_1 in HT as [Tk' HT]. destruct (holds Eq k' k) eqn:E; [|discriminate].
    apply (holds_eq T) in E; [|assumption|assumption]. subst k'. apply orb_true_iff in H as [H|H].
    - apply bool_decide_eq_true in H. subst. apply elem_of_cons. auto.
    - apply elem_of_cons. right. apply IH; assumption.
  Qed.

  Lemma dup_near_in pos k r es : of_type T k -> Forall (of_type T) (keys es) -> dup_near pos k r es = true -> (k, r) ∈ es.
  Proof.
    intros Tk HT H. unfold dup_near in H. rewrite <- (take_drop pos es) in HT |- *. rewrite keys_app in HT. apply Forall_app in HT as [H1 H2].
    apply elem_of_app. apply orb_true_iff in H as [H|H].
    - left. apply elem_of_reverse. apply run_has_in; auto. unfold keys. rewrite <- (rev_alt (take pos es)) || idtac.
      apply Forall_forall. intros x Hx. rewrite Forall_forall in H1. apply H1.
      unfold keys in *. apply elem_of_list_In, in_map_iff in Hx as (y & <- & Hy). apply elem_of_list_In, in_map_iff. exists y. split; [reflexivity|].
      apply elem_of_list_In in Hy. apply elem_of_list_In, elem_of_reverse, Hy.
    - right. apply run_has_in; auto.
  Qed.

  Lemma insert_ok n : forall fuel lo hi t ls st k r nx, n < fuel -> ok st n lo hi t ls -> keylen st t < m - 1 ->
    of_type T k -> above lo k -> below hi k -> (forall x, x ∈ keys (flat st ls) -> kle x k -> R x k) ->
    NoDup ls -> Forall (fun a => a < length st) ls ->
    exists b t' st' ls', insert_non_full fuel m t k r st = Some (b, t', st') /\ ok st' n lo hi t' ls' /\
      change nx st ls st' ls' /\ inserted b k r (flat st ls) (flat st' ls').
  Proof using All.
    induction n as [|n IH]; intros fuel lo hi t ls st k r nx Hf O HK Tk Ak Bk HR HN HB;
      (destruct fuel as [|fuel]; [lia|]); destruct t as [a|ks cs]; try contradiction.
    - destruct O as [-> (es & nx0 & E & G)]. apply Forall_cons_1 in HB as [Ha _].
      cbn [keylen] in HK. unfold ents in HK. rewrite E in HK. cbn [lents] in HK.
      assert (Ef : flat st [a] = es) by (unfold flat; cbn; unfold ents; rewrite E; cbn; apply app_nil_r). rewrite Ef in HR |- *.
      cbn [insert_non_full]. rewrite E.
      pose proof (g_type _ _ _ G) as GT. pose proof (sorted_kle _ (g_sorted _ _ _ G)) as GS.
      destruct (split_at_key k _ GS) as (l1 & l2 & Ek & H1 & H2).
      assert (Ep : find_insert_position (map fst es) k = length l1).
      { change (map fst es) with (keys es). rewrite Ek. apply (fip_split T); auto; [rewrite <- Ek; exact GT|].
        destruct l2; [exact I|]. apply Forall_cons_1 in H2. tauto. }
      rewrite Ep. destruct (dup_near (length l1) k r es) eqn:ED.
      + exists false, (TLeaf a), st, [a]. split; [reflexivity|]. split; [split; [reflexivity|]; eauto|]. split; [apply change_refl|].
        rewrite Ef. split; [reflexivity|]. eapply dup_near_in; eassumption.
      + set (e1 := take (length l1) es). set (e2 := drop (length l1) es).
        assert (Ees : es = e1 ++ e2) by (symmetry; apply take_drop).
        assert (K1 : keys e1 = l1). { unfold e1, keys. rewrite <- firstn_map. change (map fst es) with (keys es). rewrite Ek. apply take_app. }
        assert (K2 : keys e2 = l2). { unfold e2, keys. rewrite <- skipn_map. change (map fst es) with (keys es). rewrite Ek. apply drop_app. }
        set (st' := <[a := Leaf (insert_at (length l1) (k, r) es) nx0]> st).
        assert (E1 : st' !! a = Some (Leaf (e1 ++ (k, r) :: e2) nx0)) by (apply list_lookup_insert, Ha).
        exists true, (TLeaf a), st', [a]. split; [reflexivity|].
        split; [split; [reflexivity|]; eexists _, _; split; [exact E1|]|split].
        * rewrite keys_app. change (keys ((k, r) :: e2)) with (k :: keys e2). rewrite K1, K2. apply good_insert; auto.
          -- rewrite <- Ek. exact G.
          -- rewrite <- Ek. unfold keys. rewrite map_length. exact HK.
          -- apply Forall_forall. intros x Hx. rewrite Forall_forall in H1. apply HR; [rewrite Ek; apply elem_of_app; auto|auto].
        * split.
          -- unfold st'. rewrite insert_length. lia.
          -- intros b Hb Hn. unfold st'. apply list_lookup_insert_ne. intros ->. apply Hn, elem_of_list_singleton. reflexivity.
          -- auto.
          -- auto.
          -- intros [[es' C] _] _. assert (nx0 = nx) as -> by congruence. split; [eexists; exact E1|exact I].
          -- reflexivity.
        * exists e1, e2. split; [exact Ees|]. split; [unfold flat; cbn; unfold ents; rewrite E1; cbn; apply app_nil_r|].
          rewrite K1, K2. auto.
    - destruct O as [G A]. pose proof (all_length _ _ _ _ _ _ A) as LC. cbn [keylen] in HK.
      pose proof (g_type _ _ _ G) as GT. pose proof (sorted_kle _ (g_sorted _ _ _ G)) as GS.
      destruct (split_at_key k _ GS) as (ks1 & ks2 & -> & H1 & H2).
      assert (Ep : find_insert_position (ks1 ++ ks2) k = length ks1).
      { apply (fip_split T); auto. destruct ks2; [exact I|]. apply Forall_cons_1 in H2. tauto. }
      rewrite app_length in LC, HK.
      destruct (cs !! length ks1) as [c|] eqn:Ec; [|apply lookup_ge_None in Ec; lia].
      destruct (all_split _ _ _ _ _ _ _ _ A Ec) as (ka & kb & cs1 & cs2 & l1 & l & l2 & Ek & -> & Lk & Lc & -> & Bf & Oc & Af).
      apply app_inj_1 in Ek as [<- <-]; [|congruence].
      cbn [insert_non_full]. rewrite Ep.
      replace (Nat.min (length ks1) (length (cs1 ++ c :: cs2) - 1)) with (length ks1) by lia.
      rewrite Ec.
      assert (Ak' : above (last_key ks1 lo) k) by (apply last_key_above; assumption).
      assert (Bk' : below (first_key ks2 hi) k) by (apply first_key_below; assumption).
      assert (HBl : Forall (fun a => a < length st) l) by (apply Forall_app in HB as [_ HB]; apply Forall_app in HB as [HB _]; exact HB).
      assert (HNl : NoDup l) by (apply NoDup_app in HN as (_ & _ & HN'); apply NoDup_app in HN' as (HN' & _); exact HN').
      pose proof (ok_nonempty _ _ _ _ _ _ Oc) as Hne.
      destruct (Nat.eqb_spec (keylen st c) (m - 1)) as [Ef|Ef].
      + destruct (split_ok st n lo hi ks1 ks2 cs1 cs2 c l (first_or l2 nx) GT GS ltac:(congruence) Oc Ef HBl)
          as (K & cl & cr & st1 & la & lb & ES & Ol & Or & C1 & F1 & TK & RK & BK & KL & KR).
        rewrite Lc in ES. rewrite ES.
        pose proof (around nx st st1 l1 l (la ++ lb) l2 C1 Hne HN HB) as C1'.
        pose proof (around_flat nx st st1 l1 l (la ++ lb) l2 C1 HN HB) as F1'.
        assert (HN1 : NoDup (l1 ++ (la ++ lb) ++ l2)) by (apply (ch_nodup _ _ _ _ _ C1'), HN).
        assert (HB1 : Forall (fun a => a < length st1) (l1 ++ (la ++ lb) ++ l2)).
        { apply Forall_forall. intros a Ha. apply (ch_new _ _ _ _ _ C1') in Ha as [Ha|Ha]; [|lia].
          rewrite Forall_forall in HB. apply HB in Ha. pose proof (ch_len _ _ _ _ _ C1). cbn in Ha. lia. }
        assert (Bf1 : before (ok st1 n) lo ks1 cs1 l1).
        { eapply before_impl; [|exact Bf]. intros lo' hi' d ld Hin. apply ok_frame. intros a Ha. eapply around_pre; [exact C1|exact HN|exact HB|apply Hin, Ha]. }
        assert (Af1 : after (ok st1 n) hi ks2 cs2 l2).
        { eapply after_impl; [|exact Af]. intros lo' hi' d ld Hin. apply ok_frame. intros a Ha. eapply around_post; [exact C1|exact HN|exact HB|apply Hin, Ha]. }
        assert (EF : flat st1 (l1 ++ (la ++ lb) ++ l2) = flat st (l1 ++ l ++ l2)) by (rewrite F1', F1, !flat_app; reflexivity).
        assert (G1 : good lo hi (ks1 ++ K :: ks2)).
        { pose proof GS as GS'. apply sorted_app in GS' as (S1 & S2 & _). pose proof (g_lo _ _ _ G) as GL. apply Forall_app in GL as [GL1 _].
          pose proof (g_hi _ _ _ G) as GH. apply Forall_app in GH as [_ GH2].
          apply good_insert; auto; [rewrite app_length; lia| | | |eapply below_first; eassumption].
          - apply (above_first lo K ks1 S1 GL1). destruct (last_key ks1 lo); [apply R_kle, RK|exact I].
          - apply Forall_forall. intros x Hx. destruct (last_key_bound ks1 lo x S1 Hx) as (y & E & L). rewrite E in RK. eapply R_l; eassumption.
          - destruct ks2 as [|k2 ks2]; [constructor|]. cbn in BK. constructor; [exact BK|]. apply StronglySorted_inv in S2 as [_ S2].
            eapply Forall_impl; [exact S2|]. intros y Hy. eapply klt_kle_trans; eassumption. }
        assert (GT1 : Forall (of_type T) (ks1 ++ K :: ks2)) by apply (g_type _ _ _ G1).
        destruct (klt_dec k K) as [HkK|HkK].
        * (* the left half *)
          assert (Ep1 : find_insert_position (ks1 ++ K :: ks2) k = length ks1) by (apply (fip_split T); auto).
          rewrite Ep1. replace (Nat.min (length ks1) (length (cs1 ++ cl :: cr :: cs2) - 1)) with (length ks1) by (rewrite app_length; cbn [length]; lia).
          rewrite <- Lc. rewrite list_lookup_middle by reflexivity.
          replace (l1 ++ (la ++ lb) ++ l2) with (l1 ++ la ++ (lb ++ l2)) in * by (rewrite <- !app_assoc; reflexivity).
          destruct (IH fuel (last_key ks1 lo) (Some K) cl la st1 k r (first_or (lb ++ l2) nx)) as (b & c' & st' & la' & EI & O' & C' & I'); auto; [lia| | | |].
          { intros x Hx. apply HR. rewrite <- EF, !flat_app, !keys_app. rewrite !elem_of_app. auto. }
          { apply NoDup_app in HN1 as (_ & _ & HN1). apply NoDup_app in HN1 as (HN1 & _). exact HN1. }
          { apply Forall_app in HB1 as [_ HB1]. apply Forall_app in HB1 as [HB1 _]. exact HB1. }
          rewrite EI. exists b, (TNode (ks1 ++ K :: ks2) (cs1 ++ c' :: cr :: cs2)), st', (l1 ++ la' ++ (lb ++ l2)).
          split; [rewrite insert_app_r_alt by lia; rewrite Nat.sub_diag; reflexivity|].
          destruct (descend st1 n lo hi ks1 (K :: ks2) cs1 (cr :: cs2) l1 la (lb ++ l2) b c' st' la' k r nx) as (D1 & D2 & D3); auto.
          { cbn. exists lb, l2. auto. }
          { eapply ok_nonempty, Ol. }
          split; [exact D1|]. split; [eapply change_trans; eassumption|]. rewrite <- EF. exact D3.
        * (* the right half *)
          assert (Ep1 : find_insert_position (ks1 ++ K :: ks2) k = length (ks1 ++ [K])).
          { replace (ks1 ++ K :: ks2) with ((ks1 ++ [K]) ++ ks2) in * by (rewrite <- app_assoc; reflexivity).
            apply (fip_split T); auto; [apply Forall_app; auto|]. destruct ks2; [exact I|]. apply Forall_cons_1 in H2. tauto. }
          rewrite Ep1. rewrite app_length. cbn [length].
          replace (Nat.min (length ks1 + 1) (length (cs1 ++ cl :: cr :: cs2) - 1)) with (length ks1 + 1) by (rewrite app_length; cbn [length]; lia).
          replace (cs1 ++ cl :: cr :: cs2) with ((cs1 ++ [cl]) ++ cr :: cs2) by (rewrite <- app_assoc; reflexivity).
          replace (ks1 ++ K :: ks2) with ((ks1 ++ [K]) ++ ks2) in * by (rewrite <- app_assoc; reflexivity).
          assert (Lc' : length (cs1 ++ [cl]) = length ks1 + 1) by (rewrite app_length; cbn; lia).
          rewrite <- Lc'. rewrite list_lookup_middle by reflexivity.
          replace (l1 ++ (la ++ lb) ++ l2) with ((l1 ++ la) ++ lb ++ l2) in * by (rewrite <- !app_assoc; reflexivity).
          destruct (IH fuel (Some K) (first_key ks2 hi) cr lb st1 k r (first_or l2 nx)) as (b & c' & st' & lb' & EI & O' & C' & I'); auto; [lia| | | |].
          { intros x Hx. apply HR. rewrite <- EF, !flat_app, !keys_app. rewrite !elem_of_app. auto. }
          { apply NoDup_app in HN1 as (_ & _ & HN1). apply NoDup_app in HN1 as (HN1 & _). exact HN1. }
          { apply Forall_app in HB1 as [_ HB1]. apply Forall_app in HB1 as [HB1 _]. exact HB1. }
          rewrite EI. exists b, (TNode ((ks1 ++ [K]) ++ ks2) ((cs1 ++ [cl]) ++ c' :: cs2)), st', ((l1 ++ la) ++ lb' ++ l2).
          split; [rewrite insert_app_r_alt by lia; rewrite Nat.sub_diag; reflexivity|].
          destruct (descend st1 n lo hi (ks1 ++ [K]) ks2 (cs1 ++ [cl]) cs2 (l1 ++ la) lb l2 b c' st' lb' k r nx) as (D1 & D2 & D3); auto.
          { apply before_snoc; assumption. }
          { eapply ok_nonempty, Or. }
          { rewrite last_key_snoc. exact O'. }
          { rewrite last_key_snoc. exact HkK. }
          split; [exact D1|]. split; [eapply change_trans; eassumption|]. rewrite <- EF. exact D3.
      + destruct (IH fuel (last_key ks1 lo) (first_key ks2 hi) c l st k r (first_or l2 nx)) as (b & c' & st' & l' & EI & O' & C' & I'); auto; [lia| | |].
        { assert (keylen st c <= m - 1); [|lia]. destruct n, c; try contradiction.
          - destruct Oc as [_ (es & nx0 & E & Gc)]. cbn [keylen]. unfold ents. rewrite E. pose proof (g_len _ _ _ Gc) as GL. unfold keys in GL. rewrite map_length in GL. exact GL.
          - destruct Oc as [Gc _]. apply (g_len _ _ _ Gc). }
        { intros x Hx. apply HR. rewrite !flat_app, !keys_app. rewrite !elem_of_app. auto. }
        rewrite EI. exists b, (TNode (ks1 ++ ks2) (cs1 ++ c' :: cs2)), st', (l1 ++ l' ++ l2).
        split; [rewrite insert_app_r_alt by lia; rewrite Lc, Nat.sub_diag; reflexivity|].
        apply (descend st n lo hi ks1 ks2 cs1 cs2 l1 l l2 b c' st' l' k r nx); auto.
  Qed.
End shape.
