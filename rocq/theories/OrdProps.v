(** C127: the comparisons of two values agree with each other. *)
From Coq Require Import ZArith NArith List Bool Lia Arith.
From Verif Require Import OrdSpec OrdModel.
Import ListNotations.

(** ** The order of the specification *)

Lemma lex_irrefl s : ~ lex_before s s.
Proof. induction s as [|x s IH]; intros H; inversion H; subst; [lia|tauto]. Qed.
Lemma lex_trans s t u : lex_before s t -> lex_before t u -> lex_before s u.
Proof.
  intros A. revert u. induction A as [x l|x y l m L|x l m A IH]; intros u B; inversion B; subst;
    first [apply lb_prefix | apply lb_first; lia | apply lb_rest; auto].
Qed.
(** It is a strict order, and total among scalar values of one kind. *)
Theorem c127_order : (forall v, ~ before v v) /\ (forall u v w, before u v -> before v w -> before u w) /\
  (forall v w, scalar v -> alike v w -> before v w \/ v = w \/ before w v).
Proof.
  split; [|split].
  - intros v H. inversion H; subst; try lia; eapply lex_irrefl; eassumption.
  - intros u v w A B. inversion A; subst; inversion B; subst;
      first [constructor; first [lia|eapply lex_trans; eassumption] | apply b_enum; lia | apply b_enum_name; eapply lex_trans; eassumption].
  - assert (L : forall s t, lex_before s t \/ s = t \/ lex_before t s).
    { induction s as [|x s IH]; intros [|y t]; [auto|left; constructor|right; right; constructor|].
      destruct (N.lt_trichotomy x y) as [H|[->|H]]; [left; constructor; exact H| |right; right; constructor; exact H].
      destruct (IH t) as [H|[->|H]]; [left|right; left; reflexivity|right; right]; constructor; assumption. }
    intros v w [_ NL] A. destruct v, w; cbn in A; try contradiction; cbn in NL; try (exfalso; tauto).
    + destruct b, b0; auto using before.
    + destruct (Z.lt_trichotomy z z0) as [H|[->|H]]; auto using before.
    + destruct (N.lt_trichotomy n n0) as [H|[->|H]]; auto using before.
    + destruct (Z.lt_trichotomy z z0) as [H|[->|H]]; auto using before.
    + destruct (Z.lt_trichotomy z z0) as [H|[->|H]]; auto using before.
    + destruct (Z.lt_trichotomy z z0) as [H|[->|H]]; auto using before.
    + destruct (L s s0) as [H|[->|H]]; auto using before.
    + destruct (L s s0) as [H|[->|H]]; auto using before.
    + destruct (L s s0) as [H|[->|H]]; auto using before.
    + destruct (L s s0) as [H|[->|H]]; auto using before.
    + destruct (L s s0) as [H|[->|H]]; auto using before.
    + destruct (Z.lt_trichotomy z z0) as [H|[->|H]]; auto using before.
      destruct (L name name0) as [H|[->|H]]; auto using before.
Qed.

(** ** Scalars *)

Lemma lex_ok s t : CompareSpec (s = t) (lex_before s t) (lex_before t s) (lex s t).
Proof.
  revert t. induction s as [|x s IH]; intros [|y t]; cbn [lex].
  - constructor. reflexivity.
  - constructor. constructor.
  - constructor. constructor.
  - destruct (N.compare_spec x y) as [->|H|H]; try (constructor; constructor; exact H).
    destruct (IH t) as [->|H|H]; constructor; [reflexivity|constructor; exact H|constructor; exact H].
Qed.
Lemma val_cmp_ok v w : scalar v -> alike v w ->
  exists c, val_cmp v w = Some c /\ CompareSpec (v = w) (before v w) (before w v) c.
Proof.
  intros [NN NL] A. destruct v, w; cbn in A; try contradiction; cbn in NL; try (exfalso; tauto); eexists; (split; [reflexivity|]).
  - destruct b, b0; repeat constructor.
  - destruct (Z.compare_spec z z0); constructor; subst; auto using before.
  - destruct (N.compare_spec n n0); constructor; subst; auto using before.
  - destruct (Z.compare_spec z z0); constructor; subst; auto using before.
  - destruct (Z.compare_spec z z0); constructor; subst; auto using before.
  - destruct (Z.compare_spec z z0); constructor; subst; auto using before.
  - destruct (lex_ok s s0); constructor; subst; auto using before.
  - destruct (lex_ok s s0); constructor; subst; auto using before.
  - destruct (lex_ok s s0); constructor; subst; auto using before.
  - destruct (lex_ok s s0); constructor; subst; auto using before.
  - destruct (lex_ok s s0); constructor; subst; auto using before.
  - destruct (Z.compare_spec z z0) as [->|H|H]; [|constructor; auto using before|constructor; auto using before].
    destruct (lex_ok name name0); constructor; subst; auto using before.
Qed.
Lemma scalar_eq v w : scalar v -> alike v w ->
  value_eq v w = match val_cmp v w with Some Eq => true | _ => false end.
Proof. intros [NN NL] A. destruct v, w; cbn in A; try contradiction; cbn in NL; try (exfalso; tauto); reflexivity. Qed.
Lemma alike_plain v w : scalar v -> alike v w -> either_null v w = false /\ either_list v w = false /\ same_type v w = true.
Proof.
  intros [NN NL] A. destruct v, w; cbn in A; try contradiction; cbn in NL; try (exfalso; tauto); repeat split.
Qed.

(** Of two scalar values of one kind the six comparisons say which comes first, and never that
    it is unknown. *)
Theorem c127_scalar v w : scalar v -> alike v w ->
  exists eq ne lt le gt ge,
    equals v w = Some eq /\ not_equals v w = Some ne /\ less v w = Some lt /\ less_eq v w = Some le /\
    greater v w = Some gt /\ greater_eq v w = Some ge /\
    (eq = true <-> v = w) /\ (ne = true <-> v <> w) /\ (lt = true <-> before v w) /\
    (le = true <-> before v w \/ v = w) /\ (gt = true <-> before w v) /\ (ge = true <-> before w v \/ v = w).
Proof.
  intros S A. destruct (alike_plain v w S A) as (P1 & P2 & P3). destruct (val_cmp_ok v w S A) as (c & E & C).
  destruct c127_order as (Irr & Tr & _).
  unfold equals, not_equals, less, less_eq, greater, greater_eq, ordered. rewrite P1, P2, P3, (scalar_eq v w S A), E.
  do 6 eexists. do 6 (split; [reflexivity|]).
  assert (As : before v w -> before w v -> False) by (intros X Y; exact (Irr v (Tr _ _ _ X Y))).
  assert (I2 : before v w -> v <> w) by (intros X ->; exact (Irr w X)).
  assert (I3 : before w v -> v <> w) by (intros X ->; exact (Irr w X)).
  destruct C; cbn; repeat split; intros; try discriminate; try (subst; tauto); try tauto;
    repeat match goal with H : _ \/ _ |- _ => destruct H end; subst; try tauto; exfalso; eauto.
Qed.

(** Comparing with NULL is unknown. *)
Theorem c127_null v w : is_null v \/ is_null w ->
  equals v w = None /\ not_equals v w = None /\ less v w = None /\ less_eq v w = None /\
  greater v w = None /\ greater_eq v w = None.
Proof.
  intros H. assert (E : either_null v w = true) by (destruct H, v, w; cbn in *; try contradiction; reflexivity).
  unfold equals, not_equals, less, less_eq, greater, greater_eq, ordered. rewrite E. repeat split.
Qed.

(** Values of different kinds are different, and none is before the other. *)
Theorem c127_kinds v w : ~ is_null v -> ~ is_null w -> ~ alike v w ->
  equals v w = Some false /\ not_equals v w = Some true /\ less v w = Some false /\ less_eq v w = Some false /\
  greater v w = Some false /\ greater_eq v w = Some false.
Proof.
  intros A B C. destruct v, w; cbn in A, B, C; try (exfalso; tauto); repeat split.
Qed.

(** The same text as VARCHAR and as CHAR is therefore not the same. *)
Theorem c127_text_refuted s : equals (Varchar s) (Char s) = Some false /\ equals (Char s) (Varchar s) = Some false.
Proof. split; apply c127_kinds; cbn; tauto. Qed.

(** ** Lists *)

Fixpoint all_eq (l m : list value) : bool :=
  match l, m with [], [] => true | x :: l, y :: m => value_eq x y && all_eq l m | _, _ => false end.
Lemma value_eq_vector l m : value_eq (Vector l) (Vector m) = all_eq l m.
Proof. revert m. induction l as [|x l IH]; intros [|y m]; reflexivity. Qed.
Lemma value_eq_array l m : value_eq (Array l) (Array m) = all_eq l m.
Proof. revert m. induction l as [|x l IH]; intros [|y m]; reflexivity. Qed.

Fixpoint size (v : value) : nat :=
  match v with
  | Vector l | Array l => S (fold_right (fun x n => size x + n) 0 l)
  | _ => 1
  end.
Lemma complete_eq n v w : size v <= n -> complete v -> complete w -> (value_eq v w = true <-> v = w).
Proof.
  revert v w. induction n as [|n IH]; intros v w Sz Cv Cw; [destruct v; cbn in Sz; lia|].
  assert (AL : forall l m, fold_right (fun x n => size x + n) 0 l <= n -> Forall complete l -> Forall complete m ->
    (all_eq l m = true <-> l = m)).
  { induction l as [|x l IHl]; intros [|y m] Sl Fl Fm; try (split; [discriminate|discriminate]); [split; reflexivity|].
    cbn [fold_right] in Sl. inversion_clear Fl as [|? ? Cx Fl']. inversion_clear Fm as [|? ? Cy Fm'].
    cbn [all_eq]. rewrite andb_true_iff, (IH x y) by (assumption || lia). rewrite (IHl m) by (assumption || lia).
    split; [intros [-> ->]; reflexivity|intros E; injection E; auto]. }
  assert (NN : forall u, complete u -> ~ is_null u) by (intros u Cu; inversion Cu; [destruct H; assumption|exact (fun x => x)|exact (fun x => x)]).
  destruct Cv as [v Sv|l Fl|l Fl].
  - assert (D : alike v w \/ ~ alike v w) by (destruct v, w; cbn; tauto). destruct D as [A|A].
    + rewrite (scalar_eq v w Sv A). destruct (val_cmp_ok v w Sv A) as (c & -> & C).
      destruct c127_order as (Irr & _). destruct C; split; intros; try discriminate; auto; subst; exfalso; eapply Irr; eassumption.
    + destruct Sv as [N1 N2]. pose proof (NN w Cw) as N3. clear - A N1 N2 N3.
      destruct v, w; cbn in A, N1, N2, N3; try (exfalso; tauto); split; discriminate.
  - destruct w; try (split; [cbn; discriminate|discriminate]). cbn [size] in Sz. rewrite value_eq_vector.
    inversion Cw as [? [_ X]| |]; subst; [exfalso; apply X; exact Logic.I|]. rewrite AL by (assumption || lia). split; [intros ->; reflexivity|intros E; injection E; auto].
  - destruct w; try (split; [cbn; discriminate|discriminate]). cbn [size] in Sz. rewrite value_eq_array.
    inversion Cw as [? [_ X]| |]; subst; [exfalso; apply X; exact Logic.I|]. rewrite AL by (assumption || lia). split; [intros ->; reflexivity|intros E; injection E; auto].
Qed.
(** Lists without NULLs are equal when their elements are, at every depth. *)
Theorem c127_lists_partial v w : complete v -> complete w -> alike v w ->
  exists eq, equals v w = Some eq /\ not_equals v w = Some (negb eq) /\ (eq = true <-> v = w).
Proof.
  intros Cv Cw A. exists (value_eq v w).
  assert (E : either_null v w = false /\ same_type v w = true)
    by (destruct v, w; cbn in A; try contradiction; split; reflexivity).
  destruct E as [E1 E2]. unfold equals, not_equals. rewrite E1, E2. split; [reflexivity|]. split; [reflexivity|].
  apply (complete_eq (size v)); auto.
Qed.
(** A NULL in a list equals any NULL, though as values they are not comparable. *)
Theorem c127_list_null_refuted j k :
  equals (Vector [Null j]) (Vector [Null k]) = Some true /\ equals (Null j) (Null k) = None.
Proof. split; reflexivity. Qed.
(** Every list equals itself, and is yet neither <= nor >= itself. *)
Theorem c127_list_order_refuted l :
  equals (Vector l) (Vector l) = Some true /\ less_eq (Vector l) (Vector l) = Some false /\
  greater_eq (Vector l) (Vector l) = Some false /\
  equals (Array l) (Array l) = Some true /\ less_eq (Array l) (Array l) = Some false /\ greater_eq (Array l) (Array l) = Some false.
Proof.
  assert (R : forall n v, size v <= n -> value_eq v v = true).
  { induction n as [|n IH]; intros v Sz; [destruct v; cbn in Sz; lia|].
    assert (AL : forall m, fold_right (fun x n => size x + n) 0 m <= n -> all_eq m m = true).
    { induction m as [|x m IHm]; intros Sm; [reflexivity|]. cbn [fold_right] in Sm. cbn [all_eq].
      rewrite IH by lia. rewrite IHm by lia. reflexivity. }
    assert (P : forall u, scalar u -> alike u u -> value_eq u u = true).
    { intros u Su Au. rewrite (scalar_eq u u Su Au). destruct (val_cmp_ok u u Su Au) as (c & -> & C).
      destruct c127_order as (Irr & _). destruct C as [_|H|H]; [reflexivity|exfalso; exact (Irr u H)|exfalso; exact (Irr u H)]. }
    destruct v; try (apply P; [split; cbn; tauto|exact Logic.I]).
    - rewrite value_eq_vector. apply AL. cbn [size] in Sz. lia.
    - rewrite value_eq_array. apply AL. cbn [size] in Sz. lia.
    - reflexivity. }
  unfold equals. repeat split; cbn [either_null same_type type_id Nat.eqb]; f_equal; eapply R; reflexivity.
Qed.

(** ** Least and greatest *)

Theorem c127_min_max v w : scalar v -> alike v w ->
  (min_of v w = v \/ min_of v w = w) /\ ~ before v (min_of v w) /\ ~ before w (min_of v w) /\
  (max_of v w = v \/ max_of v w = w) /\ ~ before (max_of v w) v /\ ~ before (max_of v w) w.
Proof.
  intros S A. destruct (c127_scalar v w S A) as (eq & ne & lt & le & gt & ge & _ & _ & L & _ & G & _ & _ & _ & HL & _ & HG & _).
  destruct c127_order as (Irr & Tr & _). unfold min_of, max_of. rewrite L, G.
  assert (As : before v w -> before w v -> False) by (intros X Y; exact (Irr v (Tr _ _ _ X Y))).
  destruct lt, gt; repeat split; auto; intros X;
    repeat match goal with H : true = true <-> _ |- _ => pose proof (proj1 H eq_refl); clear H end; eauto;
    try (apply HL in X; discriminate); try (apply HG in X; discriminate).
Qed.
(** With a NULL both are NULL. *)
Theorem c127_min_max_null v w : is_null v \/ is_null w -> is_null (min_of v w) /\ is_null (max_of v w).
Proof.
  intros H. destruct (c127_null v w H) as (_ & _ & L & _ & G & _). unfold min_of, max_of. rewrite L, G. split; exact Logic.I.
Qed.
(** Of values of different kinds, or lists, both the least and the greatest is the second. *)
Theorem c127_min_kinds_refuted v w : ~ is_null v -> ~ is_null w -> ~ alike v w \/ is_list v ->
  min_of v w = w /\ max_of v w = w.
Proof.
  intros A B [C|C].
  - destruct (c127_kinds v w A B C) as (_ & _ & L & _ & G & _). unfold min_of, max_of. rewrite L, G. split; reflexivity.
  - destruct v, w; cbn in A, B, C; try contradiction; try (exfalso; tauto); split; reflexivity.
Qed.

(** ** Sorting *)

(** The order used for sorting agrees with < and =, and puts NULLs first. *)
Theorem c127_sort v w : scalar v -> alike v w ->
  (sort_cmp v w = Some Lt <-> less v w = Some true) /\ (sort_cmp v w = Some Eq <-> equals v w = Some true) /\
  (sort_cmp v w = Some Gt <-> greater v w = Some true) /\
  (forall k, sort_cmp (Null k) v = Some Lt /\ sort_cmp v (Null k) = Some Gt).
Proof.
  intros S A. destruct (alike_plain v w S A) as (P1 & P2 & P3). destruct (val_cmp_ok v w S A) as (c & E & _).
  assert (X : sort_cmp v w = Some c).
  { unfold sort_cmp. rewrite (scalar_eq v w S A), E, P3.
    destruct S as [N1 N2]. destruct c; [reflexivity| |];
      destruct v, w; cbn in A; try contradiction; try reflexivity; cbn in N2; exfalso; tauto. }
  unfold less, equals, greater, ordered. rewrite X, P1, P2, P3, (scalar_eq v w S A), E.
  repeat match goal with |- _ /\ _ => split end; try (destruct c; split; intros; try discriminate; reflexivity).
  intros k. destruct S as [N1 N2]. destruct v; cbn in N1, N2; try (exfalso; tauto); split; reflexivity.
Qed.

Lemma is_null_dec v : is_null v \/ ~ is_null v.
Proof. destruct v; cbn; tauto. Qed.
Definition nth_kind (v : value) : nat := match v with Null _ => 0 | _ => S (type_id v) end.
Lemma before_kind v w : before v w -> nth_kind v = nth_kind w.
Proof. intros H. inversion H; reflexivity. Qed.
Lemma sort_lt v w : ~ is_list v -> ~ is_list w ->
  (sort_cmp v w = Some Lt <-> nth_kind v < nth_kind w \/ before v w).
Proof.
  intros A B. assert (D : scalar v /\ alike v w \/ ~ (scalar v /\ alike v w))
    by (unfold scalar; destruct v, w; cbn; tauto). destruct D as [[S L]|D].
  - destruct (c127_sort v w S L) as (H & _). rewrite H.
    destruct (c127_scalar v w S L) as (eq & ne & lt & le & gt & ge & _ & _ & E & _ & _ & _ & _ & _ & HL & _).
    rewrite E. assert (K : nth_kind v = nth_kind w) by (destruct v, w; cbn in L; try contradiction; try reflexivity; exfalso; apply (proj1 S); exact Logic.I).
    split; [intros X; injection X; intros ->; right; apply HL; reflexivity|intros [X|X]; [lia|apply HL in X; subst; reflexivity]].
  - assert (Nb : ~ before v w) by (intros X; apply D; split; [split; [destruct X; exact (fun y => y)|exact A]|destruct X; exact Logic.I]).
    unfold scalar in D. destruct v, w; cbn in A, B, D; try (exfalso; tauto);
      unfold sort_cmp; cbn [value_eq val_cmp same_type type_id nth_kind Nat.eqb Nat.compare];
      (split; [intros X; first [discriminate X | left; lia] | intros [X|X]; [first [reflexivity | exfalso; lia] | exfalso; exact (Nb X)]]).
Qed.
Lemma sort_flip v w : ~ is_list v -> ~ is_list w -> exists c, sort_cmp v w = Some c /\ sort_cmp w v = Some (CompOpp c).
Proof.
  intros A B. assert (D : scalar v /\ alike v w \/ ~ (scalar v /\ alike v w))
    by (unfold scalar; destruct v, w; cbn; tauto). destruct D as [[S L]|D].
  - assert (S2 : scalar w) by (split; [destruct v, w; cbn in L; try contradiction; exact (fun y => y)|exact B]).
    assert (L2 : alike w v) by (destruct v, w; cbn in L; try contradiction; exact Logic.I).
    destruct (c127_sort v w S L) as (H1 & H2 & H3 & _). destruct (c127_sort w v S2 L2) as (G1 & G2 & G3 & _).
    destruct (c127_scalar v w S L) as (eq & ne & lt & le & gt & ge & E1 & _ & E2 & _ & E3 & _ & P1 & _ & P2 & _ & P3 & _).
    destruct (c127_scalar w v S2 L2) as (eq' & ne' & lt' & le' & gt' & ge' & F1 & _ & F2 & _ & F3 & _ & Q1 & _ & Q2 & _ & Q3 & _).
    destruct c127_order as (_ & _ & T). destruct (T v w S L) as [X|[X|X]].
    + exists Lt. cbn [CompOpp]. rewrite H1, G3, E2, F3. apply P2 in X as Y. apply Q3 in X. subst. auto.
    + exists Eq. cbn [CompOpp]. rewrite H2, G2, E1, F1. apply P1 in X as Y. symmetry in X. apply Q1 in X. subst eq eq'. auto.
    + exists Gt. cbn [CompOpp]. rewrite H3, G1, E3, F2. apply P3 in X as Y. apply Q2 in X. subst. auto.
  - unfold scalar in D. destruct v, w; cbn in A, B, D; try (exfalso; tauto); eexists; split; reflexivity.
Qed.
(** It puts all values that are not lists, of whatever kinds, in one line. *)
Theorem c127_sort_total :
  (forall v w, ~ is_list v -> ~ is_list w -> exists c, sort_cmp v w = Some c /\ sort_cmp w v = Some (CompOpp c)) /\
  (forall u v w, ~ is_list u -> ~ is_list v -> ~ is_list w ->
     sort_cmp u v = Some Lt -> sort_cmp v w = Some Lt -> sort_cmp u w = Some Lt) /\
  (forall v w, ~ is_list v -> ~ is_list w -> (sort_cmp v w = Some Eq <-> v = w \/ is_null v /\ is_null w)).
Proof.
  split; [exact sort_flip|]. split.
  - intros u v w A B C. rewrite !sort_lt by assumption. intros X Y. destruct c127_order as (_ & T & _).
    destruct X as [X|X], Y as [Y|Y]; [left; lia|apply before_kind in Y; left; lia|apply before_kind in X; left; lia|right; eauto].
  - intros v w A B. destruct (sort_flip v w A B) as (c & E & F).
    split.
    + intros X. rewrite E in X. injection X; intros ->. cbn [CompOpp] in F.
      assert (P : ~ (nth_kind v < nth_kind w \/ before v w)) by (rewrite <- sort_lt by assumption; congruence).
      assert (Q : ~ (nth_kind w < nth_kind v \/ before w v)) by (rewrite <- sort_lt by assumption; congruence).
      destruct c127_order as (_ & _ & T).
      assert (K : nth_kind v = nth_kind w) by lia.
      destruct (is_null_dec v) as [N1|N1].
      * right. split; [exact N1|]. destruct v, w; cbn in N1, K; try contradiction; try discriminate; exact Logic.I.
      * left. assert (L : alike v w) by (clear - A B N1 K; destruct v, w; cbn in A, B, N1, K; try (exfalso; tauto); try discriminate; exact Logic.I).
        destruct (T v w (conj N1 A) L) as [X1|[X1|X1]]; tauto.
    + intros [->|[X Y]].
      * rewrite E. destruct c; [reflexivity| |]; cbn [CompOpp] in F; congruence.
      * destruct v, w; cbn in X, Y; try contradiction; reflexivity.
Qed.

(** ** Cases *)

Example c127_scalar_ex :
  less (Varchar [97%N; 98%N]) (Varchar [97%N; 98%N; 0%N]) = Some true /\ less (Date (-5)) (Date 3) = Some true /\
  greater_eq (Enum 2 [97%N]) (Enum 2 [96%N; 200%N]) = Some true /\ scalar (Enum 2 [97%N]) /\ alike (Date (-5)) (Date 3).
Proof. repeat split; cbn; tauto. Qed.
Example c127_lists_ex : complete (Vector [Int 1; Vector [Int 2]]) /\
  equals (Vector [Int 1; Vector [Int 2]]) (Vector [Int 1; Vector [Int 3]]) = Some false.
Proof.
  split; [|reflexivity]. repeat constructor; cbn; tauto.
Qed.
Example c127_sort_ex : sort_cmp (Null 11) (Int 4) = Some Lt /\ sort_cmp (Int 4) (Date 2) = Some Lt /\ sort_cmp (Date 3) (Date 2) = Some Gt.
Proof. repeat split. Qed.
Example c127_min_ex : min_of (Int 3) (Varchar [97%N]) = Varchar [97%N] /\ min_of (Varchar [97%N]) (Int 3) = Int 3.
Proof. split; apply c127_min_kinds_refuted; cbn; tauto. Qed.
Example c127_min_max_ex : min_of (Time 30) (Time 20) = Time 20 /\ max_of (Time 30) (Time 20) = Time 30.
Proof. split; reflexivity. Qed.

Print Assumptions c127_order.
Print Assumptions c127_scalar.
Print Assumptions c127_null.
Print Assumptions c127_kinds.
Print Assumptions c127_text_refuted.
Print Assumptions c127_lists_partial.
Print Assumptions c127_list_null_refuted.
Print Assumptions c127_list_order_refuted.
Print Assumptions c127_min_max.
Print Assumptions c127_min_max_null.
Print Assumptions c127_min_kinds_refuted.
Print Assumptions c127_sort.
Print Assumptions c127_sort_total.
