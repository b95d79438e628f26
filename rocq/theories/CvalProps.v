(** * C107: the constraint validator accepts exactly the rows that keep the constraints *)
From Coq Require Import ZArith String Lia.
From stdpp Require Import base list strings.
From Verif Require Import CvalSpec CvalModel.
Local Open Scope nat_scope.

Lemma seen_spec k z u : seen k z u = true <-> (k, z) ∈ u.
Proof.
  unfold seen. rewrite existsb_exists. setoid_rewrite <- elem_of_list_In. split.
  - intros ([k' z'] & I & H). cbn in H. apply andb_true_iff in H as [->%String.eqb_eq ->%Z.eqb_eq]. exact I.
  - intros I. exists (k, z). split; [exact I|]. cbn. rewrite String.eqb_refl, Z.eqb_refl. reflexivity.
Qed.

(** Entries are only added, and they are those of the row. *)
Lemma unique_step_spec t c v u u' b : unique_step t c v u = (u', b) ->
  (forall e, e ∈ u -> e ∈ u') /\
  (forall e, e ∈ u' -> e ∈ u \/ (vun c = true /\ exists z, v = Some z /\ e = (col_key t c, z))) /\
  (b = false -> forall z, vun c = true -> v = Some z -> (col_key t c, z) ∈ u' /\ (col_key t c, z) ∉ u) /\
  (b = true -> exists z, vun c = true /\ v = Some z /\ (col_key t c, z) ∈ u).
Proof.
  unfold unique_step. destruct (vun c); [destruct v as [z|]|].
  2,3: intros [= <- <-]; repeat split; auto; try discriminate; congruence.
  destruct (seen (col_key t c) z u) eqn:S0; intros [= <- <-].
  - apply seen_spec in S0. repeat split; auto; try discriminate. eauto.
  - assert (N : (col_key t c, z) ∉ u) by (rewrite <- seen_spec; congruence). split; [|split; [|split]].
    + intros e I. apply elem_of_list_further, I.
    + intros e [->|I]%elem_of_cons; [right; eauto|auto].
    + intros _ z' _ [= <-]. split; [apply elem_of_list_here|exact N].
    + discriminate.
Qed.
Lemma val_cols_mono t cols : forall r u u' b, val_cols t cols r u = (u', b) -> forall e, e ∈ u -> e ∈ u'.
Proof.
  induction cols as [|c cs IH]; intros r u u' b H e I; cbn in H; [injection H as <- _; exact I|].
  destruct r as [|v vs]; [injection H as <- _; exact I|].
  destruct (unique_step t c v u) as [u1 b1] eqn:U. destruct (val_cols t cs vs u1) as [u2 b2] eqn:V. injection H as <- _.
  eapply IH; [exact V|]. apply unique_step_spec in U. apply U, I.
Qed.
(** An accepted row has no NULL where none may be, and its unique values were new and are remembered. *)
Lemma val_cols_accept t cols : forall r u u', val_cols t cols r u = (u', false) ->
  no_nulls cols r /\
  forall i c (z : Z), cols !! i = Some c -> vun c = true -> r !! i = Some (Some z) -> (col_key t c, z) ∈ u' /\ (col_key t c, z) ∉ u.
Proof.
  induction cols as [|c cs IH]; intros r u u' H; cbn in H.
  { split; [intros i c E|intros i c z E]; exfalso; destruct i; discriminate E. }
  destruct r as [|v vs].
  { split; [intros i c' _ _|intros i c' z _ _]; destruct i; discriminate. }
  destruct (unique_step t c v u) as [u1 b1] eqn:U. destruct (val_cols t cs vs u1) as [u2 b2] eqn:V. injection H as <- H.
  apply orb_false_iff in H as [H ->]. apply orb_false_iff in H as [H _]. apply orb_false_iff in H as [NF ->].
  destruct (IH _ _ _ V) as [A B]. apply unique_step_spec in U as (U1 & U2 & U3 & _). split.
  - intros [|i] c' E N; cbn in E |- *; [|apply (A i c' E N)].
    injection E as <-. unfold null_fails in NF. rewrite N in NF. destruct v; [discriminate|discriminate NF].
  - intros [|i] c' z E N R; cbn in E, R.
    + injection E as <-. injection R as ->. destruct (U3 eq_refl z N eq_refl) as [P Q]. split; [|exact Q].
      eapply val_cols_mono; eauto.
    + destruct (B i c' z E N R) as [P Q]. split; [exact P|]. intros I. apply Q, U1, I.
Qed.
Lemma validate_unique t cols r s s' b : validate t cols r s = (s', b) ->
  (forall e, e ∈ vs_unique s -> e ∈ vs_unique s') /\
  (b = true -> no_nulls cols r /\
     forall i c (z : Z), cols !! i = Some c -> vun c = true -> r !! i = Some (Some z) ->
       (col_key t c, z) ∈ vs_unique s' /\ (col_key t c, z) ∉ vs_unique s).
Proof.
  unfold validate. destruct (val_cols t cols r (vs_unique s)) as [u b1] eqn:V. destruct (pk_step t cols r (vs_pk s)) as [l b2].
  intros [= <- <-]. cbn. split; [eapply val_cols_mono; eauto|]. intros H. apply negb_true_iff, orb_false_iff in H as [-> _].
  eapply val_cols_accept; eauto.
Qed.

(** For every history: two accepted rows never share a UNIQUE value, and no accepted row has a NULL
    where none may be. *)
Lemma validate_all_seen t cols rs : forall s s' bs, validate_all t cols rs s = (s', bs) ->
  forall j r i c (z : Z), rs !! j = Some r -> bs !! j = Some true -> cols !! i = Some c -> vun c = true ->
    r !! i = Some (Some z) -> (col_key t c, z) ∉ vs_unique s.
Proof.
  induction rs as [|r rs IH]; intros s s' bs H j r0 i c z R B; [discriminate|].
  cbn in H. destruct (validate t cols r s) as [s1 b] eqn:V. destruct (validate_all t cols rs s1) as [s2 bs'] eqn:A.
  injection H as <- <-. apply validate_unique in V as [V1 V2]. intros E N Z. destruct j as [|j]; cbn in R, B.
  - injection R as <-. injection B as ->. destruct (V2 eq_refl) as [_ V3]. apply (V3 i c z E N Z).
  - intros I. eapply (IH _ _ _ A j r0); eauto.
Qed.
Theorem c107_unique_sound t cols rs s' bs :
  validate_all t cols rs vs0 = (s', bs) ->
  forall j k r r', j < k -> rs !! j = Some r -> rs !! k = Some r' -> bs !! j = Some true -> bs !! k = Some true ->
    ~ unique_clash cols r' r /\ no_nulls cols r'.
Proof.
  generalize vs0. revert s' bs. induction rs as [|r0 rs IH]; intros s' bs s H j k r r' L R R' B B'; [discriminate|].
  cbn in H. destruct (validate t cols r0 s) as [s1 b] eqn:V. destruct (validate_all t cols rs s1) as [s2 bs'] eqn:A.
  injection H as <- <-. destruct k as [|k]; [lia|]. cbn in R', B'. destruct j as [|j]; cbn in R, B.
  - injection R as ->. injection B as ->. apply validate_unique in V as [_ V]. specialize (V eq_refl) as [_ V].
    split.
    + intros (i & c & z & E & U & Z' & Z). destruct (V i c z E U Z) as [I _].
      apply (validate_all_seen _ _ _ _ _ _ A k r' i c z R' B' E U Z' I).
    + clear -A R' B'. revert s1 s2 bs' A k R' B'. induction rs as [|r0 rs IH]; intros s1 s2 bs' A k R' B'; [discriminate|].
      cbn in A. destruct (validate t cols r0 s1) as [s3 b] eqn:V. destruct (validate_all t cols rs s3) as [s4 bs4] eqn:A'.
      injection A as <- <-. destruct k as [|k]; cbn in R', B'; [|eapply IH; eauto].
      injection R' as ->. injection B' as ->. apply validate_unique in V as [_ V]. apply V. reflexivity.
  - apply (IH _ _ _ A j k r r'); auto. lia.
Qed.

(** ** Exact answers, where they are exact *)
Lemma val_cols_entries t cols : forall r u u' b, val_cols t cols r u = (u', b) ->
  forall k z, (k, z) ∈ u' -> (k, z) ∈ u \/ exists i c, cols !! i = Some c /\ vun c = true /\ r !! i = Some (Some z) /\ k = col_key t c.
Proof.
  induction cols as [|c cs IH]; intros r u u' b H k z I; cbn in H; [injection H as <- _; auto|].
  destruct r as [|v vs]; [injection H as <- _; auto|].
  destruct (unique_step t c v u) as [u1 b1] eqn:U. destruct (val_cols t cs vs u1) as [u2 b2] eqn:V. injection H as <- _.
  destruct (IH _ _ _ _ V k z I) as [J|(i & c' & E & N & Z & K)]; [|right; exists (S i), c'; auto].
  apply unique_step_spec in U as (_ & U & _). apply U in J. destruct J as [J|(N & z' & -> & [= -> ->])]; [auto|].
  right. exists 0, c. auto.
Qed.
Lemma col_key_inj t c c' : col_key t c = col_key t c' -> vn c = vn c'.
Proof. unfold col_key. intros H. apply (inj (String.append t)) in H. injection H as H. exact H. Qed.
(** A refused row has a reason. *)
Lemma val_cols_refuse t cols : NoDup (vn <$> cols) -> (forall c, c ∈ cols -> vck c = None) ->
  forall r u u', val_cols t cols r u = (u', true) ->
  ~ no_nulls cols r \/
  exists i c (z : Z), cols !! i = Some c /\ vun c = true /\ r !! i = Some (Some z) /\ (col_key t c, z) ∈ u.
Proof.
  induction cols as [|c cs IH]; intros ND CK r u u' H; cbn in H; [discriminate|].
  destruct r as [|v vs]; [discriminate|]. rewrite fmap_cons in ND. apply NoDup_cons in ND as [N1 ND].
  destruct (unique_step t c v u) as [u1 b1] eqn:U. destruct (val_cols t cs vs u1) as [u2 b2] eqn:V. injection H as <- H.
  assert (CF : check_fails c v = false) by (unfold check_fails; rewrite (CK c (elem_of_list_here _ _)); reflexivity).
  rewrite CF, orb_false_r in H. apply orb_true_iff in H as [H|H]; [apply orb_true_iff in H as [H|H]|].
  - left. intros NN. unfold null_fails in H. apply andb_true_iff in H as [H1 H2]. apply (NN 0 c eq_refl H1).
    destruct v; [discriminate|reflexivity].
  - subst b1. apply unique_step_spec in U as (_ & _ & _ & U). destruct (U eq_refl) as (z & E & -> & I).
    right. exists 0, c, z. auto.
  - subst b2. destruct (IH ND ltac:(intros c' I; apply CK, elem_of_list_further, I) _ _ _ V) as [NN|(i & c' & z & E & N & Z & I)].
    + left. intros M. apply NN. intros i c' E. apply (M (S i) c' E).
    + right. exists (S i), c', z. split; [exact E|split; [exact N|split; [exact Z|]]].
      apply unique_step_spec in U as (_ & U & _). apply U in I. destruct I as [I|(_ & z' & _ & [= K _])]; [exact I|].
      exfalso. apply N1. apply col_key_inj in K. rewrite <- K. apply elem_of_list_fmap. exists c'.
      split; [reflexivity|]. eapply elem_of_list_lookup_2, E.
Qed.
Lemma pk_values_nil cols : (forall c, c ∈ cols -> vpk c = false) -> forall r, pk_values cols r = [].
Proof.
  induction cols as [|c cs IH]; intros H r; [reflexivity|]. destruct r as [|v vs]; [reflexivity|]. cbn.
  rewrite (H c (elem_of_list_here _ _)). apply IH. intros c' I. apply H, elem_of_list_further, I.
Qed.

Lemma validate_all_entries t cols rs : forall s s' bs, validate_all t cols rs s = (s', bs) ->
  (forall k z, (k, z) ∈ vs_unique s' -> (k, z) ∈ vs_unique s \/
     exists r i c, r ∈ rs /\ cols !! i = Some c /\ vun c = true /\ r !! i = Some (Some z) /\ k = col_key t c) /\
  (forall j r, rs !! j = Some r -> bs !! j = Some true ->
     forall i c (z : Z), cols !! i = Some c -> vun c = true -> r !! i = Some (Some z) -> (col_key t c, z) ∈ vs_unique s') /\
  (forall e, e ∈ vs_unique s -> e ∈ vs_unique s') /\ length bs = length rs.
Proof.
  induction rs as [|r rs IH]; intros s s' bs H; cbn in H.
  - injection H as <- <-. repeat split; auto. discriminate.
  - destruct (validate t cols r s) as [s1 b] eqn:V. destruct (validate_all t cols rs s1) as [s2 bs'] eqn:A.
    injection H as <- <-. destruct (IH _ _ _ A) as (I1 & I2 & I3 & I4).
    pose proof V as V0. apply validate_unique in V as [V1 V2]. split; [|split; [|split]].
    + intros k z I. destruct (I1 k z I) as [J|(r' & i & c & M & Q)]; [|right; exists r', i, c; split; [apply elem_of_list_further, M|exact Q]].
      unfold validate in V0. destruct (val_cols t cols r (vs_unique s)) as [u b1] eqn:VC.
      destruct (pk_step t cols r (vs_pk s)) as [l b2]. injection V0 as <- _. cbn in J.
      destruct (val_cols_entries _ _ _ _ _ _ VC k z J) as [K|(i & c & Q)]; [auto|].
      right. exists r, i, c. split; [apply elem_of_list_here|exact Q].
    + intros [|j] r0 R B i c z E N Z; cbn in R, B; [|eapply I2; eauto].
      injection R as <-. injection B as ->. apply I3. destruct (V2 eq_refl) as [_ V3]. apply (V3 i c z E N Z).
    + auto.
    + cbn. rewrite I4. reflexivity.
Qed.

(** Without a primary key and checks, and as long as every row so far was accepted, the answer for the
    next row is right. *)
Theorem c107_exact_partial check t cols rs s bs r :
  NoDup (vn <$> cols) -> (forall c, c ∈ cols -> vck c = None /\ vpk c = false) ->
  validate_all t cols rs vs0 = (s, bs) -> Forall (fun b => b = true) bs ->
  (snd (validate t cols r s) = true <-> acceptable check cols rs r).
Proof.
  intros ND PL H FB. destruct (validate_all_entries _ _ _ _ _ _ H) as (E1 & E2 & _ & EL).
  unfold validate. destruct (val_cols t cols r (vs_unique s)) as [u b1] eqn:VC.
  assert (PK : pk_step t cols r (vs_pk s) = (vs_pk s, false)).
  { unfold pk_step. rewrite pk_values_nil; [reflexivity|]. intros c I. apply PL, I. }
  rewrite PK. cbn [snd]. rewrite orb_false_r. split.
  - intros B. apply negb_true_iff in B as ->. destruct (val_cols_accept _ _ _ _ _ VC) as [NN UN].
    split; [exact NN|]. split.
    + intros r' I. split.
      * intros (i & c & z & C & N & Z & Z'). destruct (UN i c z C N Z) as [_ F]. apply F.
        apply elem_of_list_lookup_1 in I as [j J].
        assert (Bj : bs !! j = Some true).
        { destruct (lookup_lt_is_Some_2 bs j) as [b Bb]; [rewrite EL; eapply lookup_lt_Some, J|].
          rewrite Bb. f_equal. apply (Forall_lookup_1 _ _ _ _ FB Bb). }
        apply (E2 j r' J Bj i c z C N Z').
      * intros [(i & c & C & P) _]. destruct (PL c) as [_ Q]; [eapply elem_of_list_lookup_2, C|]. congruence.
    + intros i c e z C K. destruct (PL c) as [Q _]; [eapply elem_of_list_lookup_2, C|]. congruence.
  - intros (NN & CL & _). apply negb_true_iff. destruct b1; [|reflexivity]. exfalso.
    destruct (val_cols_refuse t cols ND (fun c I => proj1 (PL c I)) _ _ _ VC) as [N|(i & c & z & C & N & Z & I)]; [auto|].
    destruct (E1 _ _ I) as [J|(r' & i' & c' & M & C' & N' & Z' & K)]; [inversion J|].
    apply (proj1 (CL r' M)). exists i, c, z. split; [exact C|split; [exact N|split; [exact Z|]]].
    apply col_key_inj in K.
    assert (i = i') as ->; [|exact Z'].
    eapply (NoDup_lookup _ _ _ _ ND); rewrite list_lookup_fmap; [rewrite C; reflexivity|rewrite C', K; reflexivity].
Qed.

(** ** What is not right *)

(** Only the last key is remembered: a key is accepted again after any other one. *)
Theorem c107_primary_key_refuted t n (a b : Z) :
  a <> b ->
  let cols := [VC n true false true None] in
  snd (validate_all t cols [[Some a]; [Some b]; [Some a]] vs0) = [true; true; true] /\
  ~ acceptable (fun _ _ => true) cols [[Some a]; [Some b]] [Some a].
Proof.
  intros AB cols. split.
  - assert (G : forall x l, pk_find (pk_key t) l <> Some (Some x) ->
        validate t cols [Some x] (VS [] l) = (VS [] ((pk_key t, Some x) :: l), true)).
    { intros x l F. unfold validate. cbn [val_cols unique_step vun vs_unique vs_pk cols]. unfold pk_step. cbn [pk_values vpk cols].
      destruct (pk_find (pk_key t) l) as [v|]; [rewrite decide_False by congruence|]; reflexivity. }
    cbn [validate_all]. unfold vs0. rewrite G by discriminate.
    rewrite G by (cbn [pk_find]; rewrite String.eqb_refl; congruence).
    rewrite G by (cbn [pk_find]; rewrite String.eqb_refl; congruence). reflexivity.
  - intros (_ & CL & _). apply (CL [Some a]); [apply elem_of_list_here|]. split.
    + exists 0. eexists. split; reflexivity.
    + intros [|i] c C _; [|discriminate]. exists a. split; reflexivity.
Qed.
(** A key of several columns is not looked at: any row is accepted any number of times. *)
Theorem c107_composite_key_refuted t n1 n2 (a b : Z) k s :
  let cols := [VC n1 true false true None; VC n2 true false true None] in
  snd (validate_all t cols (repeat [Some a; Some b] k) s) = repeat true k /\
  key_clash cols [Some a; Some b] [Some a; Some b].
Proof.
  intros cols. split.
  - revert s. induction k as [|k IH]; intros s; [reflexivity|]. cbn [repeat validate_all].
    destruct (validate t cols [Some a; Some b] s) as [s1 b0] eqn:V.
    specialize (IH s1). destruct (validate_all t cols (repeat [Some a; Some b] k) s1) as [s2 bs]. cbn in IH |- *. rewrite IH.
    f_equal. unfold validate in V. cbn in V. injection V as _ <-. reflexivity.
  - split; [exists 0; eexists; split; reflexivity|].
    intros [|[|i]] c C _; try discriminate; [exists a|exists b]; split; reflexivity.
Qed.
(** A check that does not contain one of three texts is not checked, whatever it says. *)
Theorem c107_check_refuted t n e (z : Z) s :
  contains e "price > 0" = false -> contains e "budget > 0" = false -> contains e "salary > 0" = false ->
  snd (validate t [VC n false false false (Some e)] [Some z] s) = true.
Proof.
  intros A B C. unfold validate. cbn. unfold check_fails. cbn [vck]. rewrite A, B, C. reflexivity.
Qed.
(** And one that contains them is not what is checked: NOT (price > 0) refuses every legal value. *)
Theorem c107_check_inverted_refuted t n (z : Z) s :
  (z <= 0)%Z -> snd (validate t [VC n false false false (Some "NOT (price > 0)"%string)] [Some z] s) = false /\
  acceptable (fun _ v => negb (0 <? v)%Z) [VC n false false false (Some "NOT (price > 0)"%string)] [] [Some z].
Proof.
  intros H. split.
  - unfold validate. cbn [val_cols unique_step vun]. unfold null_fails, check_fails. cbn [vnn vck andb].
    replace (contains "NOT (price > 0)" "price > 0") with true by (vm_compute; reflexivity). cbn [orb andb].
    apply Z.leb_le in H. rewrite H. reflexivity.
  - split; [|split].
    + intros [|i] c C N; [|discriminate]. injection C as <-. discriminate.
    + intros r' I. inversion I.
    + intros [|i] c e z' C K R; [|discriminate]. cbn in R. injection R as <-. apply negb_true_iff, Z.ltb_ge. exact H.
Qed.
(** A refused row leaves its unique values behind: a legal row with the same value is refused although
    the table is empty. *)
Theorem c107_refused_row_remembered_refuted t n1 n2 (a b : Z) :
  n1 <> n2 ->
  let cols := [VC n1 false true false None; VC n2 true false false None] in
  snd (validate_all t cols [[Some a; None]; [Some a; Some b]] vs0) = [false; false] /\
  acceptable (fun _ _ => true) cols [] [Some a; Some b].
Proof.
  intros N cols. split.
  - assert (V1 : validate t cols [Some a; None] vs0 = (VS [(col_key t (VC n1 false true false None), a)] [], false)) by reflexivity.
    cbn [validate_all]. rewrite V1. unfold validate. cbn [val_cols cols vs_unique vs_pk].
    unfold unique_step at 1. cbn [vun seen existsb fst snd]. rewrite String.eqb_refl, Z.eqb_refl. reflexivity.
  - split; [|split].
    + intros [|[|i]] c C N'; cbn in C |- *; try discriminate.
    + intros r' I. inversion I.
    + intros [|[|i]] c e z C K; cbn in C; try discriminate; injection C as <-; discriminate.
Qed.

Example c107_ex :
  let cols := [VC "id" true true false None; VC "x" false false false None] in
  snd (validate_all "t" cols [[Some 1%Z; None]; [Some 2%Z; Some 5%Z]] vs0) = [true; true] /\
  snd (validate "t" cols [Some 1%Z; Some 9%Z] (fst (validate_all "t" cols [[Some 1%Z; None]; [Some 2%Z; Some 5%Z]] vs0))) = false /\
  snd (validate "t" cols [Some 3%Z; Some 5%Z] (fst (validate_all "t" cols [[Some 1%Z; None]; [Some 2%Z; Some 5%Z]] vs0))) = true.
Proof. vm_compute. repeat split. Qed.

Print Assumptions c107_unique_sound.
Print Assumptions c107_exact_partial.
Print Assumptions c107_primary_key_refuted.
Print Assumptions c107_composite_key_refuted.
Print Assumptions c107_check_refuted.
Print Assumptions c107_check_inverted_refuted.
Print Assumptions c107_refused_row_remembered_refuted.
