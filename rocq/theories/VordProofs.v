(** * Lemmas about the order of values: it is lexicographic on a flat form *)
From Coq Require Import ZArith Lia.
From stdpp Require Import base list numbers.
From Verif Require Import VordSpec VordModel.
Local Open Scope nat_scope.

(** ** Induction over nested values *)
Section ind.
  Context (P : value -> Prop).
  Definition okc (x : content) : Prop := match x with XVec _ l => Forall P l | _ => True end.
  Definition okf (s : option (list value)) : Prop := match s with Some l => Forall P l | None => True end.
  Context (H : forall t s x, okf s -> okc x -> P (Val t s x)).
  Lemma value_ind' : forall v, P v.
  Proof.
    fix IH 1. intros [t s x]. apply H.
    - destruct s as [l|]; [|exact I]. induction l as [|v l IHl]; constructor; [apply IH|exact IHl].
    - destruct x as [| | |k l| | | |]; try exact I. cbn. induction l as [|v l IHl]; constructor; [apply IH|exact IHl].
  Qed.
End ind.

(** ** The inner loops by name *)
Fixpoint veqs (l m : list value) : bool :=
  match l, m with
  | [], [] => true
  | x :: l, y :: m => veq x y && veqs l m
  | _, _ => false
  end.
Fixpoint vcmps (l m : list value) : option comparison :=
  match l, m with
  | [], [] => Some Eq
  | [], _ :: _ => Some Lt
  | _ :: _, [] => Some Gt
  | x :: l, y :: m => match vcmp x y with Some Eq => vcmps l m | o => o end
  end.
Fixpoint vhashes (l : list value) : list word := match l with [] => [] | v :: l => vhash v ++ vhashes l end.

(** ** Flat form *)
Inductive tok := TZ (z : Z) | TF (f : flt) | TP (f g : flt).
Definition tcmp (a b : tok) : option comparison :=
  match a, b with
  | TZ z, TZ z' => Some (z ?= z')%Z
  | TF f, TF g => if canon_eqb f g then Some Eq else fcmp f g
  | TP f f', TP g g' =>
      if canon_eqb f g && canon_eqb f' g' then Some Eq
      else match fcmp f g with Some Eq => fcmp f' g' | o => o end
  | TZ _, _ => Some Lt
  | _, TZ _ => Some Gt
  | TF _, TP _ _ => Some Lt
  | TP _ _, TF _ => Some Gt
  end.
Fixpoint lex (l m : list tok) : option comparison :=
  match l, m with
  | [], [] => Some Eq
  | [], _ :: _ => Some Lt
  | _ :: _, [] => Some Gt
  | x :: l, y :: m => match tcmp x y with Some Eq => lex l m | o => o end
  end.
Fixpoint encs (s : list N) : list tok := match s with [] => [TZ 0] | b :: s => TZ 1 :: TZ (Z.of_N b) :: encs s end.
Fixpoint enc (v : value) : list tok :=
  match v with
  | Val t sd x =>
      let encl := fix encl (l : list value) : list tok :=
        match l with [] => [TZ 0] | v :: l => TZ 1 :: enc v ++ encl l end in
      match x with
      | XNull => [TZ 0]
      | _ =>
          TZ 1 :: TZ (Z.of_nat t) :: TZ (Z.of_nat (idx x)) ::
          match x with
          | XInt _ z => [TZ z]
          | XFlt _ f => [TF f]
          | XStr _ s => encs s
          | XVec _ l => encl l
          | XEnum z s => TZ z :: encs s
          | XPoint f g => [TP f g]
          | XStruct => match sd with None => [TZ 0] | Some l => TZ 1 :: encl l end
          | XNull => []
          end
      end
  end.
Fixpoint encl (l : list value) : list tok := match l with [] => [TZ 0] | v :: l => TZ 1 :: enc v ++ encl l end.

(** ** Floats and texts *)
Lemma canon_iff f g : canon_eqb f g = true <-> fl_num f = fl_num g.
Proof.
  unfold canon_eqb, canonical. rewrite bool_decide_eq_true.
  destruct f as [p| |r], g as [q| |s]; cbn [is_zero is_nan fl_num]; try (split; congruence);
    try (destruct (Z.eqb_spec r 0)); try (destruct (Z.eqb_spec s 0)); subst; split; congruence.
Qed.
Lemma canon_fl f g : canon_eqb f g = true -> fl_num f = fl_num g.
Proof. apply canon_iff. Qed.
Lemma fcmp_eq f g : fcmp f g = Some Eq -> canon_eqb f g = true.
Proof.
  rewrite canon_iff. unfold fcmp. destruct (fl_num f), (fl_num g); try discriminate. intros [= H].
  apply Z.compare_eq_iff in H. congruence.
Qed.
Lemma bytes_eqb_iff s t : bytes_eqb s t = true <-> bytes_cmp s t = Eq.
Proof.
  revert t. induction s as [|a s IH]; intros [|b t]; cbn; try (split; congruence).
  destruct (N.compare_spec a b) as [->|L|L].
  - rewrite N.eqb_refl. cbn. apply IH.
  - destruct (N.eqb_spec a b); [lia|]. cbn. split; discriminate.
  - destruct (N.eqb_spec a b); [lia|]. cbn. split; discriminate.
Qed.
Lemma lex_encs s t r r' : lex (encs s ++ r) (encs t ++ r') = match bytes_cmp s t with Eq => lex r r' | c => Some c end.
Proof.
  revert t. induction s as [|a s IH]; intros [|b t]; cbn; try reflexivity.
  rewrite N2Z.inj_compare. destruct (a ?= b)%N; [apply IH|reflexivity|reflexivity].
Qed.

(** ** The key lemma *)
Definition key (a : value) : Prop := forall b,
  (veq a b = true <-> vcmp a b = Some Eq) /\
  forall r r', lex (enc a ++ r) (enc b ++ r') = match vcmp a b with Some Eq => lex r r' | o => o end.
Lemma key_list l : Forall key l -> forall m,
  (veqs l m = true <-> vcmps l m = Some Eq) /\
  forall r r', lex (encl l ++ r) (encl m ++ r') = match vcmps l m with Some Eq => lex r r' | o => o end.
Proof.
  induction 1 as [|x l K _ IH]; intros [|y m]; cbn; try (split; [split; congruence|reflexivity]).
  destruct (K y) as [A B]. destruct (IH m) as [C D]. split.
  - rewrite andb_true_iff, A, C. destruct (vcmp x y) as [[]|]; intuition congruence.
  - intros r r'. rewrite <- !app_assoc, B. destruct (vcmp x y) as [[]|]; try reflexivity. apply D.
Qed.

Lemma veq_unfold ta sa xa tb sb xb : veq (Val ta sa xa) (Val tb sb xb) =
      if is_null xa && is_null xb then true
      else if negb (Nat.eqb ta tb) then false
      else match xa, xb with
      | XFlt k f, XFlt k' g => Nat.eqb (fidx k) (fidx k') && canon_eqb f g
      | XPoint f f', XPoint g g' => canon_eqb f g && canon_eqb f' g'
      | XStruct, XStruct =>
          match sa, sb with
          | None, None => true
          | Some l, Some m => veqs l m
          | _, _ => false
          end
      | XInt k z, XInt k' z' => Nat.eqb (iidx k) (iidx k') && Z.eqb z z'
      | XStr k s, XStr k' s' => Nat.eqb (sidx k) (sidx k') && bytes_eqb s s'
      | XVec k l, XVec k' m => Nat.eqb (vidx k) (vidx k') && veqs l m
      | XEnum z s, XEnum z' s' => Z.eqb z z' && bytes_eqb s s'
      | _, _ => false
      end.
Proof. reflexivity. Qed.
Lemma vcmp_unfold ta sa xa tb sb xb : vcmp (Val ta sa xa) (Val tb sb xb) =
      if veq (Val ta sa xa) (Val tb sb xb) then Some Eq
      else match is_null xa, is_null xb with
      | true, true => Some Eq
      | true, false => Some Lt
      | false, true => Some Gt
      | false, false =>
          if negb (Nat.eqb ta tb) then Some (Nat.compare ta tb)
          else match Nat.compare (idx xa) (idx xb) with
          | Eq =>
              match xa, xb with
              | XFlt _ f, XFlt _ g => fcmp f g
              | XPoint f f', XPoint g g' => match fcmp f g with Some Eq => fcmp f' g' | o => o end
              | XStruct, XStruct =>
                  match sa, sb with
                  | None, None => Some Eq
                  | None, Some _ => Some Lt
                  | Some _, None => Some Gt
                  | Some l, Some m => vcmps l m
                  end
              | XInt _ z, XInt _ z' => Some (z ?= z')%Z
              | XStr _ s, XStr _ s' => Some (bytes_cmp s s')
              | XVec _ l, XVec _ m => vcmps l m
              | XEnum z s, XEnum z' s' => Some (match (z ?= z')%Z with Eq => bytes_cmp s s' | c => c end)
              | _, _ => Some Eq
              end
          | c => Some c
          end
      end.
Proof. reflexivity. Qed.
Lemma enc_unfold t sd x : enc (Val t sd x) =
      match x with
      | XNull => [TZ 0]
      | _ =>
          TZ 1 :: TZ (Z.of_nat t) :: TZ (Z.of_nat (idx x)) ::
          match x with
          | XInt _ z => [TZ z]
          | XFlt _ f => [TF f]
          | XStr _ s => encs s
          | XVec _ l => encl l
          | XEnum z s => TZ z :: encs s
          | XPoint f g => [TP f g]
          | XStruct => match sd with None => [TZ 0] | Some l => TZ 1 :: encl l end
          | XNull => []
          end
      end.
Proof. reflexivity. Qed.

(** The comparison without the test for equality in front. *)
Definition pcmp (sa : option (list value)) (xa : content) (sb : option (list value)) (xb : content) : option comparison :=
  match Nat.compare (idx xa) (idx xb) with
  | Eq =>
      match xa, xb with
      | XInt _ z, XInt _ z' => Some (z ?= z')%Z
      | XStr _ s, XStr _ s' => Some (bytes_cmp s s')
      | XVec _ l, XVec _ m => vcmps l m
      | XEnum z s, XEnum z' s' => Some (match (z ?= z')%Z with Eq => bytes_cmp s s' | c => c end)
      | XFlt _ f, XFlt _ g => tcmp (TF f) (TF g)
      | XPoint f f', XPoint g g' => tcmp (TP f f') (TP g g')
      | XStruct, XStruct =>
              match sa, sb with
              | None, None => Some Eq
              | None, Some _ => Some Lt
              | Some _, None => Some Gt
              | Some l, Some m => vcmps l m
              end
      | _, _ => Some Eq
      end
  | c => Some c
  end.
Lemma fkind_idx k k' : fidx k = fidx k' -> k = k'. Proof. destruct k, k'; cbn; congruence. Qed.
Lemma iidx_idx k k' : iidx k = iidx k' -> k = k'. Proof. destruct k, k'; cbn; congruence. Qed.
Lemma sidx_idx k k' : sidx k = sidx k' -> k = k'. Proof. destruct k, k'; cbn; congruence. Qed.
Lemma vidx_idx k k' : vidx k = vidx k' -> k = k'. Proof. destruct k, k'; cbn; congruence. Qed.

(** Equality of contents of the same type. *)
Definition peq (sa : option (list value)) (xa : content) (sb : option (list value)) (xb : content) : bool :=
  match xa, xb with
  | XFlt k f, XFlt k' g => Nat.eqb (fidx k) (fidx k') && canon_eqb f g
  | XPoint f f', XPoint g g' => canon_eqb f g && canon_eqb f' g'
  | XStruct, XStruct => match sa, sb with None, None => true | Some l, Some m => veqs l m | _, _ => false end
  | XInt k z, XInt k' z' => Nat.eqb (iidx k) (iidx k') && Z.eqb z z'
  | XStr k s, XStr k' s' => Nat.eqb (sidx k) (sidx k') && bytes_eqb s s'
  | XVec k l, XVec k' m => Nat.eqb (vidx k) (vidx k') && veqs l m
  | XEnum z s, XEnum z' s' => Z.eqb z z' && bytes_eqb s s'
  | _, _ => false
  end.
Lemma veq_peq ta sa xa tb sb xb : veq (Val ta sa xa) (Val tb sb xb) =
  if is_null xa && is_null xb then true else Nat.eqb ta tb && peq sa xa sb xb.
Proof. rewrite veq_unfold. destruct (is_null xa && is_null xb); [reflexivity|]. destruct (Nat.eqb ta tb); reflexivity. Qed.

Lemma tcmp_F f g : tcmp (TF f) (TF g) = Some Eq <-> canon_eqb f g = true.
Proof.
  cbn. destruct (canon_eqb f g) eqn:E; [tauto|]. split; [|discriminate]. intros H. apply fcmp_eq in H. congruence.
Qed.
Lemma tcmp_P f f' g g' : tcmp (TP f f') (TP g g') = Some Eq <-> canon_eqb f g && canon_eqb f' g' = true.
Proof.
  cbn. destruct (canon_eqb f g && canon_eqb f' g') eqn:E; [tauto|]. split; [|discriminate]. intros H.
  destruct (fcmp f g) as [[]|] eqn:F; try discriminate. apply fcmp_eq in F. apply fcmp_eq in H. rewrite F, H in E. discriminate.
Qed.

(** Equality is what the comparison calls equal. *)
Lemma peq_pcmp sa xa sb xb : okf key sa -> okc key xa -> is_null xa && is_null xb = false ->
  (peq sa xa sb xb = true <-> pcmp sa xa sb xb = Some Eq).
Proof.
  intros KS KX NN. unfold pcmp.
  destruct (Nat.compare_spec (idx xa) (idx xb)) as [E|E|E].
  - destruct xa as [k z|k f|k s|k l|z s|f f'| |], xb as [k' z'|k' g|k' s'|k' m|z' s'|g g'| |]; cbn in NN; try discriminate NN; cbn [idx] in E;
      try (exfalso; first [destruct k; cbn in E; destruct k'; cbn in E; lia|destruct k; cbn in E; lia|destruct k'; cbn in E; lia|lia]); cbn [peq].
    + rewrite E, Nat.eqb_refl. cbn [andb]. rewrite Z.eqb_eq, <- Z.compare_eq_iff. split; congruence.
    + rewrite E, Nat.eqb_refl. cbn [andb]. symmetry. apply tcmp_F.
    + rewrite E, Nat.eqb_refl. cbn [andb]. rewrite bytes_eqb_iff. split; congruence.
    + rewrite E, Nat.eqb_refl. cbn [andb]. apply (key_list l KX m).
    + rewrite andb_true_iff, bytes_eqb_iff, Z.eqb_eq, <- Z.compare_eq_iff. destruct (z ?= z')%Z; intuition congruence.
    + symmetry. apply tcmp_P.
    + destruct sa as [l|], sb as [m|]; try (split; congruence). apply (key_list l KS m).
  - split; [|discriminate]. intros H. exfalso.
    destruct xa, xb; cbn in H, E; try discriminate; try lia; apply andb_true_iff in H as [H _]; apply Nat.eqb_eq in H; lia.
  - split; [|discriminate]. intros H. exfalso.
    destruct xa, xb; cbn in H, E; try discriminate; try lia; apply andb_true_iff in H as [H _]; apply Nat.eqb_eq in H; lia.
Qed.
Lemma vcmp_pcmp ta sa xa tb sb xb : okf key sa -> okc key xa ->
  vcmp (Val ta sa xa) (Val tb sb xb) =
  match is_null xa, is_null xb with
  | true, true => Some Eq
  | true, false => Some Lt
  | false, true => Some Gt
  | false, false => match Nat.compare ta tb with Eq => pcmp sa xa sb xb | c => Some c end
  end.
Proof.
  intros KS KX. rewrite vcmp_unfold, veq_peq.
  destruct (is_null xa && is_null xb) eqn:NN.
  { apply andb_true_iff in NN as [-> ->]. reflexivity. }
  pose proof (peq_pcmp sa xa sb xb KS KX NN) as PP.
  destruct (Nat.compare_spec ta tb) as [E|E|E].
  - subst tb. rewrite Nat.eqb_refl. cbn [andb negb]. destruct (peq sa xa sb xb) eqn:Q.
    + rewrite (proj1 PP eq_refl). destruct xa, xb; try discriminate; reflexivity.
    + destruct (is_null xa), (is_null xb); try reflexivity. unfold pcmp.
      destruct (Nat.compare (idx xa) (idx xb)) eqn:IX; try reflexivity. apply Nat.compare_eq_iff in IX.
      destruct xa as [k z|k f|k s|k l|z s|f f'| |]; try reflexivity; destruct xb as [k' z'|k' g|k' s'|k' m|z' s'|g g'| |]; try reflexivity.
      * cbn [idx] in IX. cbn [peq] in Q. rewrite IX, Nat.eqb_refl in Q. cbn [andb] in Q. cbn [tcmp]. rewrite Q. reflexivity.
      * cbn [peq] in Q. cbn [tcmp]. rewrite Q. reflexivity.
  - assert (B : Nat.eqb ta tb = false) by (apply Nat.eqb_neq; lia). rewrite B. cbn [andb negb].
    reflexivity.
  - assert (B : Nat.eqb ta tb = false) by (apply Nat.eqb_neq; lia). rewrite B. cbn [andb negb].
    reflexivity.
Qed.

Lemma key_all : forall a, key a.
Proof.
  apply value_ind'. intros ta sa xa KS KX [tb sb xb]. rewrite (vcmp_pcmp ta sa xa tb sb xb KS KX). split.
  - rewrite veq_peq. destruct (is_null xa && is_null xb) eqn:NN.
    { apply andb_true_iff in NN as [-> ->]. tauto. }
    pose proof (peq_pcmp sa xa sb xb KS KX NN) as PP. rewrite andb_true_iff, PP, Nat.eqb_eq, <- Nat.compare_eq_iff.
    destruct (is_null xa) eqn:NA, (is_null xb) eqn:NB; try discriminate.
    + split; [|discriminate]. intros [_ H]. destruct xa; try discriminate. destruct xb as [[]|[]|[]|[]| | | |]; discriminate.
    + split; [|discriminate]. intros [_ H]. destruct xb; try discriminate. destruct xa as [[]|[]|[]|[]| | | |]; discriminate.
    + destruct (Nat.compare ta tb); intuition congruence.
  - intros r r'. rewrite !enc_unfold.
    destruct (is_null xa) eqn:NA; [destruct xa; try discriminate; destruct xb; reflexivity|].
    destruct (is_null xb) eqn:NB; [destruct xb; try discriminate; destruct xa; try discriminate; reflexivity|].
    assert (G : lex
      (match xa with
          | XInt _ z => [TZ z]
          | XFlt _ f => [TF f]
          | XStr _ s => encs s
          | XVec _ l => encl l
          | XEnum z s => TZ z :: encs s
          | XPoint f g => [TP f g]
          | XStruct => match sa with None => [TZ 0] | Some l => TZ 1 :: encl l end
          | XNull => []
          end ++ r)
      (match xb with
          | XInt _ z => [TZ z]
          | XFlt _ f => [TF f]
          | XStr _ s => encs s
          | XVec _ l => encl l
          | XEnum z s => TZ z :: encs s
          | XPoint f g => [TP f g]
          | XStruct => match sb with None => [TZ 0] | Some l => TZ 1 :: encl l end
          | XNull => []
          end ++ r') = match pcmp sa xa sb xb with Some Eq => lex r r' | o => o end \/ idx xa <> idx xb).
    { destruct (decide (idx xa = idx xb)) as [E|E]; [left|right; exact E].
      unfold pcmp. rewrite (proj2 (Nat.compare_eq_iff _ _) E).
      destruct xa as [k z|k f|k s|k l|z s|f f'| |], xb as [k' z'|k' g|k' s'|k' m|z' s'|g g'| |]; try discriminate NA; try discriminate NB;
        cbn [idx] in E;
        try (exfalso; first [destruct k; cbn in E; destruct k'; cbn in E; lia|destruct k; cbn in E; lia|destruct k'; cbn in E; lia|lia]).
      - cbn. destruct (z ?= z')%Z; reflexivity.
      - cbn [app lex]. destruct (tcmp (TF f) (TF g)) as [[]|]; reflexivity.
      - rewrite lex_encs. destruct (bytes_cmp s s'); reflexivity.
      - apply (key_list l KX m).
      - cbn [app lex tcmp]. destruct (z ?= z')%Z; try reflexivity. rewrite lex_encs. destruct (bytes_cmp s s'); reflexivity.
      - cbn [app lex]. destruct (tcmp (TP f f') (TP g g')) as [[]|]; reflexivity.
      - destruct sa as [l|], sb as [m|]; cbn [app lex tcmp]; try reflexivity. apply (key_list l KS m). }
    assert (Hx : forall c (p : list tok) q, lex (TZ 1 :: TZ (Z.of_nat ta) :: TZ (Z.of_nat (idx xa)) :: p) (TZ 1 :: TZ (Z.of_nat tb) :: TZ (Z.of_nat (idx xb)) :: q) = c <->
       match Nat.compare ta tb with Eq => match Nat.compare (idx xa) (idx xb) with Eq => lex p q | c => Some c end | c => Some c end = c).
    { intros c p q. cbn [lex tcmp]. rewrite Z.compare_refl, !Nat2Z.inj_compare.
      destruct (Nat.compare ta tb); try tauto. }
    destruct xa as [k z|k f|k s|k l|z s|f f'| |]; try discriminate NA; destruct xb as [k' z'|k' g|k' s'|k' m|z' s'|g g'| |]; try discriminate NB;
      cbn [app] in G |- *; apply Hx; destruct (Nat.compare ta tb); try reflexivity;
      (destruct G as [G|G]; [rewrite G|]; unfold pcmp;
       [match goal with |- context [Nat.compare ?a ?b] => destruct (Nat.compare a b) end; reflexivity
       |match goal with |- context [Nat.compare ?a ?b] => destruct (Nat.compare_spec a b) as [E|E|E] end; [congruence|reflexivity|reflexivity]]).
Qed.

Lemma vcmp_lex a b : vcmp a b = lex (enc a) (enc b).
Proof.
  destruct (key_all a b) as [_ H]. specialize (H [] []). rewrite !app_nil_r in H. rewrite H. destruct (vcmp a b) as [[]|]; reflexivity.
Qed.
Lemma veq_vcmp a b : veq a b = true <-> vcmp a b = Some Eq.
Proof. apply key_all. Qed.

(** ** Laws of the flat order *)
Lemma fcmp_flip f g : fcmp g f = flip_ord (fcmp f g).
Proof. unfold fcmp. destruct (fl_num f), (fl_num g); cbn; try reflexivity. rewrite Z.compare_antisym. reflexivity. Qed.
Lemma canon_sym f g : canon_eqb f g = canon_eqb g f.
Proof. unfold canon_eqb. apply bool_decide_ext. split; congruence. Qed.
Lemma tcmp_flip a b : tcmp b a = flip_ord (tcmp a b).
Proof.
  destruct a as [z|f|f f'], b as [z'|g|g g']; cbn; try reflexivity.
  - rewrite Z.compare_antisym. reflexivity.
  - rewrite (canon_sym g f). destruct (canon_eqb f g); [reflexivity|]. apply fcmp_flip.
  - rewrite (canon_sym g f), (canon_sym g' f'). destruct (canon_eqb f g && canon_eqb f' g'); [reflexivity|].
    rewrite (fcmp_flip f g), (fcmp_flip f' g'). destruct (fcmp f g) as [[]|]; reflexivity.
Qed.
Lemma lex_flip l : forall m, lex m l = flip_ord (lex l m).
Proof.
  induction l as [|x l IH]; intros [|y m]; cbn; try reflexivity. rewrite (tcmp_flip x y).
  destruct (tcmp x y) as [[]|]; cbn; try reflexivity. apply IH.
Qed.
Lemma tcmp_eq_l a b c : tcmp a b = Some Eq -> tcmp a c = tcmp b c.
Proof.
  destruct a as [z|f|f f'], b as [z'|g|g g']; try discriminate.
  - cbn. intros [= H]. apply Z.compare_eq_iff in H. subst. reflexivity.
  - rewrite tcmp_F, canon_iff. intros H. destruct c as [?|h|? ?]; cbn; try reflexivity. unfold fcmp. rewrite H.
    replace (canon_eqb f h) with (canon_eqb g h); [reflexivity|]. apply eq_bool_prop_intro. rewrite !Is_true_true, !canon_iff, H. tauto.
  - rewrite tcmp_P, andb_true_iff, !canon_iff. intros [H H']. destruct c as [?|?|h h']; cbn; try reflexivity. unfold fcmp. rewrite H, H'.
    replace (canon_eqb f h) with (canon_eqb g h) by (apply eq_bool_prop_intro; rewrite !Is_true_true, !canon_iff, H; tauto).
    replace (canon_eqb f' h') with (canon_eqb g' h') by (apply eq_bool_prop_intro; rewrite !Is_true_true, !canon_iff, H'; tauto).
    reflexivity.
Qed.
Lemma lex_eq_l l : forall m k, lex l m = Some Eq -> lex l k = lex m k.
Proof.
  induction l as [|x l IH]; intros [|y m] k H; cbn in H; try discriminate; [reflexivity|].
  destruct (tcmp x y) as [[]|] eqn:E; try discriminate. destruct k as [|w k]; [reflexivity|]. cbn.
  rewrite (tcmp_eq_l _ _ w E), (IH m k H). reflexivity.
Qed.
Lemma tcmp_eq_r a b c : tcmp a b = Some Eq -> tcmp c a = tcmp c b.
Proof. intros H. rewrite (tcmp_flip a c), (tcmp_flip b c), (tcmp_eq_l a b c H). reflexivity. Qed.
Lemma fcmp_lt f g h : fcmp f g = Some Lt -> fcmp g h = Some Lt -> fcmp f h = Some Lt.
Proof.
  unfold fcmp. destruct (fl_num f), (fl_num g), (fl_num h); try discriminate. intros [= A] [= B]. f_equal.
  rewrite Z.compare_lt_iff in A, B |- *. lia.
Qed.
Lemma fcmp_lt_canon f g : fcmp f g = Some Lt -> canon_eqb f g = false.
Proof.
  intros H. destruct (canon_eqb f g) eqn:E; [|reflexivity]. exfalso. apply canon_fl in E. unfold fcmp in H. rewrite E in H.
  destruct (fl_num g); [|discriminate]. rewrite Z.compare_refl in H. discriminate.
Qed.
Lemma tcmp_P_lt f f' g g' : tcmp (TP f f') (TP g g') = Some Lt <->
  fcmp f g = Some Lt \/ (fcmp f g = Some Eq /\ fcmp f' g' = Some Lt).
Proof.
  cbn. destruct (canon_eqb f g && canon_eqb f' g') eqn:E.
  - apply andb_true_iff in E as [E1 E2]. split; [discriminate|]. intros [H|[_ H]]; apply fcmp_lt_canon in H; congruence.
  - destruct (fcmp f g) as [[]|]; intuition congruence.
Qed.
Lemma fcmp_eq_num f g : fcmp f g = Some Eq -> fl_num f = fl_num g.
Proof. intros H. apply canon_fl, fcmp_eq, H. Qed.
Lemma tcmp_lt a b c : tcmp a b = Some Lt -> tcmp b c = Some Lt -> tcmp a c = Some Lt.
Proof.
  destruct a as [z|f|f f'], b as [z'|g|g g'], c as [z''|h|h h']; try (cbn; congruence).
  - cbn. intros [= A] [= B]. f_equal. rewrite Z.compare_lt_iff in A, B |- *. lia.
  - cbn. destruct (canon_eqb f g) eqn:E1; [discriminate|]. destruct (canon_eqb g h) eqn:E2; [discriminate|]. intros A B.
    pose proof (fcmp_lt _ _ _ A B) as C. rewrite (fcmp_lt_canon _ _ C). exact C.
  - rewrite !tcmp_P_lt. intros [A|[A A']] [B|[B B']].
    + left. eapply fcmp_lt; eauto.
    + left. apply fcmp_eq_num in B. unfold fcmp in *. rewrite <- B. exact A.
    + left. apply fcmp_eq_num in A. unfold fcmp in *. rewrite A. exact B.
    + right. split; [|eapply fcmp_lt; eauto]. apply fcmp_eq_num in A. unfold fcmp in *. rewrite A. exact B.
Qed.
Lemma lex_lt l : forall m k, lex l m = Some Lt -> lex m k = Some Lt -> lex l k = Some Lt.
Proof.
  induction l as [|x l IH]; intros [|y m] [|w k] A B; cbn in *; try discriminate; try reflexivity.
  destruct (tcmp x y) as [[]|] eqn:E1; try discriminate; destruct (tcmp y w) as [[]|] eqn:E2; try discriminate.
  - rewrite (tcmp_eq_l _ _ w E1), E2. eapply IH; eauto.
  - rewrite (tcmp_eq_l _ _ w E1), E2. reflexivity.
  - rewrite <- (tcmp_eq_r _ _ x E2), E1. reflexivity.
  - rewrite (tcmp_lt _ _ _ E1 E2). reflexivity.
Qed.
