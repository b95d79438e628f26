(** * C108: values can be used as keys: equality, hash and order agree *)
From Coq Require Import ZArith Lia.
From stdpp Require Import base list numbers.
From Verif Require Import VordSpec VordModel VordProofs.
Local Open Scope nat_scope.

Lemma veq_refl a : veq a a = true.
Proof.
  apply veq_vcmp. rewrite vcmp_lex. induction (enc a) as [|x l IH]; [reflexivity|]. cbn.
  replace (tcmp x x) with (Some Eq); [exact IH|]. destruct x as [z|f|f g]; cbn.
  - rewrite Z.compare_refl. reflexivity.
  - rewrite (proj2 (canon_iff f f) eq_refl). reflexivity.
  - rewrite (proj2 (canon_iff f f) eq_refl), (proj2 (canon_iff g g) eq_refl). reflexivity.
Qed.

(** Equality is an equivalence on all values, not-a-number and nested values included. *)
Theorem c108_equality a b c :
  veq a a = true /\ veq a b = veq b a /\ (veq a b = true -> veq b c = true -> veq a c = true).
Proof.
  split; [apply veq_refl|]. split.
  - apply eq_bool_prop_intro. rewrite !Is_true_true, !veq_vcmp, !vcmp_lex, (lex_flip (enc a) (enc b)).
    destruct (lex (enc a) (enc b)) as [[]|]; cbn; intuition congruence.
  - rewrite !veq_vcmp, !vcmp_lex. intros A B. rewrite (lex_eq_l _ _ _ A). exact B.
Qed.

(** Equal values feed the same words to every hasher. *)
Lemma bytes_eqb_eq s t : bytes_eqb s t = true -> s = t.
Proof.
  revert t. induction s as [|a s IH]; intros [|b t]; cbn; try discriminate; [reflexivity|].
  intros H. apply andb_true_iff in H as [->%N.eqb_eq H]. f_equal. apply IH, H.
Qed.
Lemma canon_canonical f g : canon_eqb f g = true -> canonical f = canonical g.
Proof. apply bool_decide_eq_true. Qed.
Lemma vhash_unfold t sd x : vhash (Val t sd x) =
      match x with
      | XNull => [WInt 0]
      | _ =>
          WTag t ::
          match x with
          | XStruct => match sd with Some l => WLen (length l) :: vhashes l | None => [WLen 0] end
          | XInt _ z => [WInt z]
          | XFlt _ f => [WFlt (canonical f)]
          | XStr _ s => [WStr s]
          | XVec _ l => WLen (length l) :: vhashes l
          | XEnum z s => [WInt z; WStr s]
          | XPoint f g => [WFlt (canonical f); WFlt (canonical g)]
          | XNull => []
          end
      end.
Proof. reflexivity. Qed.
Theorem c108_hash a b : veq a b = true -> vhash a = vhash b.
Proof.
  revert a b. apply (value_ind' (fun a => forall b, veq a b = true -> vhash a = vhash b)).
  intros ta sa xa KS KX [tb sb xb] H. rewrite veq_unfold in H. rewrite !vhash_unfold.
  assert (L : forall l, Forall (fun a => forall b, veq a b = true -> vhash a = vhash b) l ->
     forall m, veqs l m = true -> length l = length m /\ vhashes l = vhashes m).
  { clear. induction 1 as [|x l K _ IH]; intros [|y m] H; cbn in *; try discriminate; [auto|].
    apply andb_true_iff in H as [H1 H2]. destruct (IH _ H2) as [-> ->]. rewrite (K _ H1). auto. }
  destruct (is_null xa && is_null xb) eqn:NN.
  { apply andb_true_iff in NN as [A B]. destruct xa; try discriminate. destruct xb; try discriminate. reflexivity. }
  destruct (Nat.eqb_spec ta tb) as [->|]; [|discriminate]. cbn [negb] in H.
  destruct xa as [k z|k f|k s|k l|z s|f f'| |], xb as [k' z'|k' g|k' s'|k' m|z' s'|g g'| |]; try discriminate;
    try (apply andb_true_iff in H as [H0 H]); f_equal.
  - apply Z.eqb_eq in H. congruence.
  - rewrite (canon_canonical _ _ H). reflexivity.
  - rewrite (bytes_eqb_eq _ _ H). reflexivity.
  - destruct (L l KX m H) as [-> ->]. reflexivity.
  - apply Z.eqb_eq in H0. rewrite (bytes_eqb_eq _ _ H), H0. reflexivity.
  - rewrite (canon_canonical _ _ H), (canon_canonical _ _ H0). reflexivity.
  - destruct sa as [l|], sb as [m|]; try discriminate; [|reflexivity]. destruct (L l KS m H) as [-> ->]. reflexivity.
Qed.

(** The order agrees with equality, is reversed by swapping, does not distinguish equal values and is
    transitive. *)
Theorem c108_order a b c :
  (vcmp a b = Some Eq <-> veq a b = true) /\
  vcmp b a = flip_ord (vcmp a b) /\
  (veq a b = true -> vcmp a c = vcmp b c /\ vcmp c a = vcmp c b) /\
  (vcmp a b = Some Lt -> vcmp b c = Some Lt -> vcmp a c = Some Lt).
Proof.
  split; [symmetry; apply veq_vcmp|]. split; [rewrite !vcmp_lex; apply lex_flip|]. split.
  - rewrite veq_vcmp, !vcmp_lex. intros H. split; [apply lex_eq_l, H|].
    rewrite (lex_flip (enc a)), (lex_flip (enc b)), (lex_eq_l _ _ (enc c) H). reflexivity.
  - rewrite !vcmp_lex. apply lex_lt.
Qed.

(** It is the expected order: numbers of one type by their value, texts byte by byte, NULL first. *)
Fixpoint text_lt (s t : list N) : Prop :=
  match s, t with
  | _, [] => False
  | [], _ :: _ => True
  | a :: s, b :: t => (a < b)%N \/ (a = b /\ text_lt s t)
  end.
Theorem c108_meaning ty s s' :
  (forall k z z', vcmp (Val ty s (XInt k z)) (Val ty s' (XInt k z')) = Some (z ?= z')%Z) /\
  (forall k f g x y, fl_num f = Some x -> fl_num g = Some y -> vcmp (Val ty s (XFlt k f)) (Val ty s' (XFlt k g)) = Some (x ?= y)%Z) /\
  (forall k t t', vcmp (Val ty s (XStr k t)) (Val ty s' (XStr k t')) = Some Lt <-> text_lt t t') /\
  (forall ty' x, x <> XNull -> vcmp (Val ty' s XNull) (Val ty s' x) = Some Lt).
Proof.
  split; [|split; [|split]].
  - intros k z z'. rewrite vcmp_lex. cbn. rewrite !Z.compare_refl. destruct (z ?= z')%Z; reflexivity.
  - intros k f g x y F G. rewrite vcmp_lex. cbn. rewrite !Z.compare_refl.
    destruct (canon_eqb f g) eqn:E.
    + apply canon_iff in E. assert (x = y) as -> by congruence. rewrite Z.compare_refl. reflexivity.
    + unfold fcmp. rewrite F, G. destruct (x ?= y)%Z; reflexivity.
  - intros k t t'. rewrite vcmp_lex, !enc_unfold. cbn [lex tcmp]. rewrite !Z.compare_refl.
    rewrite <- (app_nil_r (encs t)), <- (app_nil_r (encs t')), lex_encs. revert t'.
    induction t as [|a t IH]; intros [|b t']; cbn; try (split; [discriminate|tauto]); try tauto.
    destruct (N.compare_spec a b) as [->|L|L].
    + rewrite IH. split; [auto|]. intros [H|[_ H]]; [lia|exact H].
    + split; [auto|reflexivity].
    + split; [discriminate|]. intros [H|[H _]]; lia.
  - intros ty' x N. rewrite vcmp_lex. destruct x; try congruence; reflexivity.
Qed.

(** Without not-a-number any two values are comparable. *)
Definition tok_ok (t : tok) : Prop :=
  match t with TZ _ => True | TF f => fl_num f <> None | TP f g => fl_num f <> None /\ fl_num g <> None end.
Lemma tcmp_ok a b : tok_ok a -> tok_ok b -> tcmp a b <> None.
Proof.
  assert (F : forall f g, fl_num f <> None -> fl_num g <> None -> fcmp f g <> None).
  { intros f g. unfold fcmp. destruct (fl_num f), (fl_num g); congruence. }
  destruct a as [z|f|f f'], b as [z'|g|g g']; cbn; try congruence.
  - intros A B. destruct (canon_eqb f g); [congruence|]. apply F; assumption.
  - intros [A A'] [B B']. destruct (canon_eqb f g && canon_eqb f' g'); [congruence|].
    pose proof (F f g A B). destruct (fcmp f g) as [[]|]; try congruence. apply F; assumption.
Qed.
Lemma lex_ok l : Forall tok_ok l -> forall m, Forall tok_ok m -> lex l m <> None.
Proof.
  induction 1 as [|x l A _ IH]; intros m B; destruct B as [|y m B Bs]; cbn; try congruence.
  pose proof (tcmp_ok x y A B). destruct (tcmp x y) as [[]|]; try congruence. apply IH, Bs.
Qed.
Lemma nan_free_all (l : list value) :
  (fix all l := match l with [] => True | v :: l => nan_free v /\ all l end) l -> Forall nan_free l.
Proof. induction l as [|v l IH]; cbn; [constructor|]. intros [A B]. constructor; auto. Qed.
Lemma encs_ok s : Forall tok_ok (encs s).
Proof. induction s as [|b s IH]; cbn; repeat constructor. exact IH. Qed.
Lemma enc_ok : forall v, nan_free v -> Forall tok_ok (enc v).
Proof.
  apply (value_ind' (fun v => nan_free v -> Forall tok_ok (enc v))). intros t s x KS KX N.
  assert (L : forall l, Forall (fun v => nan_free v -> Forall tok_ok (enc v)) l -> Forall nan_free l -> Forall tok_ok (encl l)).
  { clear. induction 1 as [|v l K _ IH]; intros H; cbn; [repeat constructor|]. inversion H; subst.
    constructor; [exact I|]. apply Forall_app. auto. }
  rewrite enc_unfold. cbn [nan_free] in N. destruct N as [NS NX].
  assert (T3 : forall a b c l, Forall tok_ok l -> Forall tok_ok (TZ a :: TZ b :: TZ c :: l)).
  { intros a b c l H. repeat (constructor; [exact I|]). exact H. }
  destruct x as [k z|k f|k s'|k l|z s'|f f'| |]; try (apply T3).
  - repeat constructor.
  - repeat constructor. exact NX.
  - apply encs_ok.
  - apply (L l KX). apply nan_free_all, NX.
  - constructor; [exact I|apply encs_ok].
  - constructor; [exact NX|constructor].
  - repeat constructor.
  - destruct s as [l|]; [|repeat constructor]. constructor; [exact I|]. apply (L l KS), nan_free_all, NS.
Qed.
Theorem c108_total_partial a b : nan_free a -> nan_free b -> vcmp a b <> None.
Proof. intros A B. rewrite vcmp_lex. apply lex_ok; apply enc_ok; assumption. Qed.

(** A not-a-number is comparable with no number, so ORDER BY over it has no order to follow. *)
Theorem c108_nan_refuted ty s s' k p f :
  fl_num f <> None ->
  vcmp (Val ty s (XFlt k (NaN p))) (Val ty s' (XFlt k f)) = None /\ vcmp (Val ty s' (XFlt k f)) (Val ty s (XFlt k (NaN p))) = None.
Proof.
  intros N. assert (H : vcmp (Val ty s (XFlt k (NaN p))) (Val ty s' (XFlt k f)) = None).
  { rewrite vcmp_lex. cbn. rewrite !Z.compare_refl. destruct (canon_eqb (NaN p) f) eqn:E.
    - apply canon_iff in E. cbn in E. congruence.
    - unfold fcmp. cbn. reflexivity. }
  split; [exact H|]. destruct (c108_order (Val ty s (XFlt k (NaN p))) (Val ty s' (XFlt k f)) (Val ty s XNull)) as (_ & F & _).
  rewrite F, H. reflexivity.
Qed.
(** Numbers of different types are ordered by their types, whatever their values. *)
Theorem c108_types_refuted ty ty' s s' k k' z z' :
  ty < ty' -> vcmp (Val ty s (XInt k z)) (Val ty' s' (XInt k' z')) = Some Lt.
Proof. intros H. rewrite vcmp_lex. cbn. rewrite (proj2 (Z.compare_lt_iff _ _)) by lia. reflexivity. Qed.

Example c108_ex :
  let arr l := Val 16 None (XVec KVector l) in
  let d f := Val 5 None (XFlt KDecimal f) in
  veq (arr [d NegZero; Val 3 None XNull]) (arr [d (Num 0); Val 4 None XNull]) = true /\
  vhash (arr [d NegZero; d (NaN 3)]) = vhash (arr [d (Num 0); d (NaN 7)]) /\
  vcmp (arr [d (Num 1)]) (arr [d (Num 1); d (Num 0)]) = Some Lt /\
  vcmp (d (NaN 1)) (d (Num 5)) = None /\ veq (d (NaN 1)) (d (NaN 2)) = true.
Proof. vm_compute. repeat split. Qed.

Print Assumptions c108_equality.
Print Assumptions c108_hash.
Print Assumptions c108_order.
Print Assumptions c108_meaning.
Print Assumptions c108_total_partial.
Print Assumptions c108_nan_refuted.
Print Assumptions c108_types_refuted.
