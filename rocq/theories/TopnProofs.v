(** The TopN executor keeps the k rows with the largest keys. *)
From stdpp Require Import list.
From Coq Require Import Lia.
From Verif Require Import ExprModel ExprSpec ExecModel ExecSpec ExecProofs TopnModel HeapProofs.
Local Open Scope nat_scope.

(** Keys of the given types, none NULL. *)
Definition typed_keys (tys : list tid) (ks : list val) : Prop := Forall2 (fun t v => type_of v = Some t) tys ks.

Fixpoint lex (a b : list val) : comparison :=
  match a, b with
  | x :: a, y :: b => match val_cmp x y with Datatypes.Eq => lex a b | c => c end
  | _, _ => Datatypes.Eq
  end.

Lemma compare_op_val op x y t : type_of x = Some t -> type_of y = Some t ->
  compare_op op x y = of_bool (by_order op (val_cmp x y)).
Proof.
  destruct x, y; cbn; intros [= <-]; try discriminate; try reflexivity.
  intros [= ->]. rewrite N.eqb_refl. reflexivity.
Qed.

Lemma cmp_keys_lex tys a b : typed_keys tys a -> typed_keys tys b -> cmp_keys a b = lex a b.
Proof.
  intros Ha. revert b. induction Ha as [|t x tys a Hx Ha IH]; intros b Hb; inversion Hb; subst; [done|].
  cbn [cmp_keys lex]. rewrite !(compare_op_val _ x y t) by assumption. rewrite <- IH by assumption.
  by destruct (val_cmp x y).
Qed.

Lemma lex_anti a : forall b, lex b a = CompOpp (lex a b).
Proof.
  induction a as [|x a IH]; intros [|y b]; cbn; try reflexivity.
  rewrite (val_cmp_antisym x y). destruct (val_cmp x y); cbn; auto.
Qed.

Lemma lex_trans tys a b c : typed_keys tys a -> typed_keys tys b -> typed_keys tys c ->
  lex a b <> Datatypes.Gt -> lex b c <> Datatypes.Gt -> lex a c <> Datatypes.Gt.
Proof.
  intros Ha. revert b c. induction Ha as [|t x tys a Hx Ha IH]; intros b c Hb Hc;
    inversion Hb as [|? y ? b' Hy Hb']; subst; inversion Hc as [|? z ? c' Hz Hc']; subst; [done|].
  cbn. destruct (val_cmp x y) eqn:E1.
  - apply val_cmp_eq in E1. subst y. destruct (val_cmp x z); auto. apply IH; assumption.
  - destruct (val_cmp y z) eqn:E2.
    + apply val_cmp_eq in E2. subst z. rewrite E1. auto.
    + rewrite (val_cmp_lt_trans x y z E1 E2). auto.
    + congruence.
  - congruence.
Qed.

Section topn.
  Context (tys : list tid).

  Definition okk (x : keyed) : Prop := typed_keys tys x.1.

  Lemma rev_le_lex x y : okk x -> okk y -> rev_le x y = match lex y.1 x.1 with Datatypes.Gt => false | _ => true end.
  Proof. intros Hx Hy. unfold rev_le. by rewrite (cmp_keys_lex tys). Qed.

  Lemma rev_le_true x y : okk x -> okk y -> rev_le x y = true <-> lex y.1 x.1 <> Datatypes.Gt.
  Proof. intros Hx Hy. rewrite rev_le_lex by done. destruct (lex _ _); split; congruence. Qed.

  Lemma rl_total x y : okk x -> okk y -> rev_le x y = false -> rev_le y x = true.
  Proof.
    intros Hx Hy. rewrite rev_le_true by done. rewrite rev_le_lex by done.
    rewrite (lex_anti y.1 x.1). destruct (lex y.1 x.1); cbn; congruence.
  Qed.
  Lemma rl_trans x y z : okk x -> okk y -> okk z -> rev_le x y = true -> rev_le y z = true -> rev_le x z = true.
  Proof.
    intros Hx Hy Hz. rewrite !rev_le_true by done. intros A B. apply (lex_trans tys z.1 y.1 x.1); assumption.
  Qed.
  Lemma lex_refl a : lex a a = Datatypes.Eq.
  Proof. induction a as [|x a IH]; cbn; [done|]. by rewrite val_cmp_refl. Qed.
  Lemma rl_refl x : okk x -> rev_le x x = true.
  Proof. intros Hx. rewrite rev_le_true by done. by rewrite lex_refl. Qed.

  (** [h] holds the largest of the rows seen, [om] the others. *)
  Definition topn_inv (k : nat) (seen h om : list keyed) : Prop :=
    seen ≡ₚ h ++ om /\ heap rev_le h /\ length h = min k (length seen) /\
    (forall a o, a ∈ h -> o ∈ om -> lex o.1 a.1 <> Datatypes.Gt).

  Lemma topn_step_inv k seen h om x :
    Forall okk (x :: seen) -> topn_inv k seen h om ->
    exists om', topn_inv k (seen ++ [x]) (topn_step k h x) om'.
  Proof.
    intros F (P & H & L & B). apply Forall_cons in F as [Fx F].
    assert (Fh : Forall okk h /\ Forall okk om).
    { rewrite P in F. by apply Forall_app in F. }
    destruct Fh as [Fh Fo].
    assert (Ls : length seen = length h + length om) by (rewrite P, app_length; done).
    unfold topn_step. destruct (length h <? k) eqn:E.
    - apply Nat.ltb_lt in E. exists om. split; [|split; [|split]].
      + rewrite heap_push_perm. rewrite P. cbn. rewrite (comm (++) _ [x]). done.
      + apply (heap_push_heap rev_le okk rl_total rl_trans); assumption.
      + rewrite (Permutation_length (heap_push_perm rev_le x h)), app_length. cbn. lia.
      + intros a o Ha Ho. assert (om = []) as ->.
        { destruct om; [done|]. cbn in Ls. rewrite Ls in L. lia. }
        by apply elem_of_nil in Ho.
    - apply Nat.ltb_ge in E. destruct h as [|m h].
      + exists (x :: om). assert (k = 0) as -> by (cbn in E; lia).
        split; [|split; [|split]]; [|done|by rewrite app_length|].
        * rewrite P. cbn. rewrite (comm (++) _ [x]). done.
        * intros a o Ha. by apply elem_of_nil in Ha.
      + assert (Fm : okk m) by (by apply Forall_cons in Fh as [? ?]).
        assert (Rt : forall a, a ∈ m :: h -> lex m.1 a.1 <> Datatypes.Gt).
        { intros a Ha. apply rev_le_true; [|done|].
          - rewrite Forall_forall in Fh. auto.
          - exact (heap_root rev_le okk rl_trans rl_refl m h a Fh H Ha). }
        rewrite (cmp_keys_lex tys) by done. destruct (lex m.1 x.1) eqn:C.
        1,3: exists (x :: om); split; [|split; [|split]]; [|done|rewrite app_length; cbn in *; lia|].
        1,3: rewrite P; rewrite (comm (++) _ [x]); exact (Permutation_middle (m :: h) om x).
        1,2: intros a o Ha Ho; apply elem_of_cons in Ho as [->|Ho]; [|by apply B].
        1,2: apply (lex_trans tys x.1 m.1 a.1); [assumption|assumption| | |by apply Rt];
             [rewrite Forall_forall in Fh; by apply Fh|rewrite (lex_anti m.1 x.1), C; discriminate].
        exists (m :: om).
        destruct (heap_pop_spec rev_le okk rl_total rl_trans rl_refl m h Fh H) as [PP PH].
        assert (Fp : Forall okk (heap_pop rev_le (m :: h))).
        { rewrite PP. by apply Forall_cons in Fh as [? ?]. }
        split; [|split; [|split]].
        * rewrite heap_push_perm, PP, P. rewrite (comm (++) _ [x]). cbn.
          constructor. rewrite Permutation_middle. reflexivity.
        * apply (heap_push_heap rev_le okk rl_total rl_trans); assumption.
        * rewrite (Permutation_length (heap_push_perm rev_le x _)). cbn.
          rewrite (Permutation_length PP), app_length. cbn in *. lia.
        * intros a o Ha Ho. rewrite heap_push_perm, PP in Ha.
          assert (Oo : okk o).
          { apply elem_of_cons in Ho as [->|Ho]; [done|]. rewrite Forall_forall in Fo. auto. }
          assert (Lo : lex o.1 m.1 <> Datatypes.Gt).
          { apply elem_of_cons in Ho as [->|Ho]; [by rewrite lex_refl|]. apply B; [by left|done]. }
          apply elem_of_cons in Ha as [->|Ha].
          -- apply (lex_trans tys o.1 m.1 x.1); try assumption. by rewrite C.
          -- apply (lex_trans tys o.1 m.1 a.1); try assumption.
             ++ rewrite Forall_forall in Fh. apply Fh. by right.
             ++ apply Rt. by right.
  Qed.

  Lemma topn_fill_inv k es : forall rows seen h om h2,
    (forall r ks, r ∈ rows -> keys_of es r = Some ks -> typed_keys tys ks) ->
    Forall okk seen -> topn_inv k seen h om ->
    topn_fill k es (map Row rows) h = Some h2 ->
    exists ext om2, topn_inv k (seen ++ ext) h2 om2 /\ ext.*2 = rows /\ Forall (fun x => keys_of es x.2 = Some x.1) ext.
  Proof.
    induction rows as [|r rows IH]; intros seen h om h2 T F I E; cbn in E.
    - injection E as <-. exists [], om. rewrite app_nil_r. auto.
    - destruct (keys_of es r) as [ks|] eqn:K; [|discriminate].
      assert (Ok : okk (ks, r)) by (apply (T r ks); [by left|done]).
      destruct (topn_step_inv k seen h om (ks, r)) as [om' I']; [by constructor|done|].
      destruct (IH (seen ++ [(ks, r)]) (topn_step k h (ks, r)) om' h2) as (ext & om2 & I2 & E2 & F2).
      + intros r' ks' Hr. apply T. by right.
      + apply Forall_app. by repeat constructor.
      + exact I'.
      + exact E.
      + exists ((ks, r) :: ext), om2. rewrite <- app_assoc in I2. cbn in I2. split; [exact I2|].
        split; [cbn; by rewrite E2|]. by constructor.
  Qed.
End topn.

Lemma topn_next_produces l i : produces topn_next (l, i) (map Row (skipn i l)).
Proof.
  remember (length l - i) as k eqn:K. revert i K. induction k as [|k IH]; intros i K.
  - rewrite skipn_all2 by lia. eapply p_done. cbn. by rewrite lookup_ge_None_2 by lia.
  - destruct (l !! i) as [t|] eqn:E; [|apply lookup_ge_None in E; lia].
    rewrite (drop_S _ _ _ E). cbn [map]. eapply p_row; [|replace (S i) with (i + 1) by lia; apply IH; lia].
    cbn. by rewrite E.
Qed.

(** Where the values of two keys first differ. *)
Lemma before_desc_lex es tys o a ko ka :
  keys_of es o = Some ko -> keys_of es a = Some ka -> typed_keys tys ko -> typed_keys tys ka ->
  before (map (fun e => (e, true)) es) o a -> lex ko ka = Datatypes.Gt.
Proof.
  intros Ko Ka To Ta (pre & e & d & post & x & y & E & Heq & Hx & Hy & L).
  revert pre ko ka tys E Heq Ko Ka To Ta. induction es as [|e0 es IH]; intros pre ko ka tys E Heq Ko Ka To Ta.
  { destruct pre; discriminate E. }
  cbn in Ko, Ka.
  destruct (eval e0 o) as [xo|] eqn:Eo; [|discriminate]. destruct (keys_of es o) as [ko'|] eqn:Ko'; [|discriminate].
  destruct (eval e0 a) as [xa|] eqn:Ea; [|discriminate]. destruct (keys_of es a) as [ka'|] eqn:Ka'; [|discriminate].
  injection Ko as <-. injection Ka as <-.
  inversion To as [|t ? tys' ? Tx To']; subst. inversion Ta as [|? ? ? ? Ty Ta']; subst.
  destruct pre as [|[e1 d1] pre].
  - cbn in E. injection E as -> <- _. rewrite Eo in Hx. rewrite Ea in Hy. injection Hx as ->. injection Hy as ->.
    cbn. rewrite (val_cmp_antisym y x). rewrite (vless_cmp y x); [reflexivity| |exact L].
    right; right. congruence.
  - cbn in E. injection E as <- <- E. cbn.
    assert (xo = xa) as -> by (pose proof (Heq e0 true (or_introl eq_refl)); congruence).
    rewrite val_cmp_refl. eapply (IH pre); [exact E|intros ? ? ?; eapply Heq; right; eassumption|reflexivity..|exact To'|exact Ta'].
Qed.

Theorem topn_largest k es tys rows st :
  (forall r, In r rows -> exists ks, keys_of es r = Some ks /\ typed_keys tys ks) ->
  topn_init k es (map Row rows) = Some st ->
  exists s omitted, produces topn_next st (map Row s) /\ Permutation rows (s ++ omitted) /\
    length s = min k (length rows) /\
    forall a o, In a s -> In o omitted -> ~ before (map (fun e => (e, true)) es) o a.
Proof.
  intros T E. unfold topn_init in E. destruct (topn_fill k es (map Row rows) []) as [h|] eqn:Ef; [|discriminate].
  injection E as <-.
  assert (T2 : forall r ks, r ∈ rows -> keys_of es r = Some ks -> typed_keys tys ks).
  { intros r ks Hr Hk. apply elem_of_list_In in Hr. destruct (T r Hr) as (ks' & Hk' & Ty). congruence. }
  destruct (topn_fill_inv tys k es rows [] [] [] h T2) as (ext & om & (P & H & L & B) & Ee & Fe).
  - constructor.
  - split; [done|]. split; [|split; [by rewrite Nat.min_0_r|]].
    + intros i x y _ Hx. by rewrite lookup_nil in Hx.
    + intros a o Ha. by apply elem_of_nil in Ha.
  - exact Ef.
  - cbn in P, L.
    exists (reverse h.*2), om.*2. split; [apply (topn_next_produces _ 0)|]. split; [|split].
    + rewrite reverse_Permutation, <- fmap_app, <- P, Ee. done.
    + rewrite reverse_length. transitivity (length h); [apply fmap_length|]. rewrite L.
      f_equal. rewrite <- Ee. symmetry. apply fmap_length.
    + intros a o Ha Ho Bf.
      apply elem_of_list_In in Ha. rewrite elem_of_reverse in Ha. apply elem_of_list_fmap in Ha as (a' & -> & Ha).
      apply elem_of_list_In in Ho. apply elem_of_list_fmap in Ho as (o' & -> & Ho).
      assert (Ka : keys_of es a'.2 = Some a'.1).
      { rewrite Forall_forall in Fe. apply Fe. rewrite P. apply elem_of_app. by left. }
      assert (Ko : keys_of es o'.2 = Some o'.1).
      { rewrite Forall_forall in Fe. apply Fe. rewrite P. apply elem_of_app. by right. }
      assert (Ra : a'.2 ∈ rows).
      { rewrite <- Ee. apply elem_of_list_fmap. exists a'. split; [done|]. rewrite P. apply elem_of_app. by left. }
      assert (Ro : o'.2 ∈ rows).
      { rewrite <- Ee. apply elem_of_list_fmap. exists o'. split; [done|]. rewrite P. apply elem_of_app. by right. }
      apply (B a' o' Ha Ho).
      apply (before_desc_lex es tys o'.2 a'.2); [exact Ko|exact Ka|exact (T2 _ _ Ro Ko)|exact (T2 _ _ Ra Ka)|exact Bf].
Qed.
