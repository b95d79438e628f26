(** Lemmas for BwProps.v. *)
From Coq Require Import ZArith NArith QArith Lia.
From stdpp Require Import list.
From Verif Require Import CastSpec CastModel CastProofs NumSpec NumModel NumProps BwSpec BwModel.
Local Close Scope Q_scope.
Local Open Scope Z_scope.

Section Proofs.
Context (sd : Z -> nat -> list N) (rd rf : list N -> option (Z * nat)).
Context (f32 : Z -> nat -> Z * nat) (ch : cty -> list N -> option Z).
Notation perform := (perform_comparison sd rd rf f32 ch).
Notation sql := (sql_compare sd rd rf f32 ch).
Notation cast := (cast_to sd rd rf f32 ch).

Lemma op_opposite op op' v w : (op = Clt /\ op' = Cge) \/ (op = Cgt /\ op' = Cle) ->
  Some (compare_op op v w) = opposite (Some (compare_op op' v w)).
Proof.
  intros H. unfold compare_op. destruct v; try reflexivity; destruct w; try reflexivity; cbn [opposite]; do 2 f_equal;
    match goal with |- context [cmp_val ?a ?b] => destruct (cmp_val a b) end;
    destruct H as [[-> ->]|[-> ->]]; reflexivity.
Qed.
Lemma perform_opposite op op' v w : (op = Clt /\ op' = Cge) \/ (op = Cgt /\ op' = Cle) ->
  perform op v w = opposite (perform op' v w).
Proof.
  intros H. unfold perform_comparison.
  assert (K : (if decide (type_of v = type_of w) then Some (compare_op op v w)
      else match cast v (type_of w) with
           | Some v' => Some (compare_op op v' w)
           | None => match cast w (type_of v) with Some w' => Some (compare_op op v w') | None => None end
           end) = opposite (if decide (type_of v = type_of w) then Some (compare_op op' v w)
      else match cast v (type_of w) with
           | Some v' => Some (compare_op op' v' w)
           | None => match cast w (type_of v) with Some w' => Some (compare_op op' v w') | None => None end
           end)).
  { destruct (decide _); [now apply op_opposite|]. destruct (cast v (type_of w)); [now apply op_opposite|].
    destruct (cast w (type_of v)); [now apply op_opposite|reflexivity]. }
  destruct v; try reflexivity; destruct w; try reflexivity; exact K.
Qed.
Lemma between_perform neg x lo hi :
  between sd rd rf f32 ch neg x lo hi = between_means perform neg x lo hi.
Proof.
  unfold between, between_means. destruct neg; cbn [negated].
  - rewrite (perform_opposite Clt Cge) by tauto. rewrite (perform_opposite Cgt Cle) by tauto.
    destruct (perform Cge x lo) as [[[]|]|]; destruct (perform Cle x hi) as [[[]|]|]; reflexivity.
  - destruct (perform Cge x lo) as [[[]|]|]; destruct (perform Cle x hi) as [[[]|]|]; reflexivity.
Qed.
Lemma sql_compatible op v w : compatible (type_of v) (type_of w) = true -> sql op false v true w = perform op v w.
Proof. intros H. unfold sql_compare. now rewrite H. Qed.

(** Texts of dates and numbers. *)
Lemma show_1 z : 10000 <= z < 20000 -> exists s, show z = 49%N :: s.
Proof.
  intros B. unfold show. destruct (Z.ltb_spec z 0) as [L|_]; [lia|].
  assert (Hn : (10000 <= Z.to_N z < 20000)%N) by lia. revert Hn. generalize (Z.to_N z) as n. clear. intros n Hn.
  assert (D : forall a b, (10 * a <= n < 10 * b)%N -> (a <= n / 10 < b)%N).
  { intros a b [H1 H2]. split; [apply N.div_le_lower_bound; lia|apply N.div_lt_upper_bound; lia]. }
  specialize (D 1000 2000 ltac:(lia))%N.
  assert (D2 : (100 <= n / 10 / 10 < 200)%N) by (split; [apply N.div_le_lower_bound; lia|apply N.div_lt_upper_bound; lia]).
  assert (D3 : (10 <= n / 10 / 10 / 10 < 20)%N) by (split; [apply N.div_le_lower_bound; lia|apply N.div_lt_upper_bound; lia]).
  assert (D4 : (n / 10 / 10 / 10 / 10 = 1)%N).
  { enough (1 <= n / 10 / 10 / 10 / 10 < 2)%N by lia. split; [apply N.div_le_lower_bound; lia|apply N.div_lt_upper_bound; lia]. }
  change 20%nat with (S (S (S (S (S 15))))). 
  cbn [digits]. 
  destruct (N.ltb_spec n 10) as [L|_]; [lia|]. destruct (N.ltb_spec (n / 10) 10) as [L|_]; [lia|].
  destruct (N.ltb_spec (n / 10 / 10) 10) as [L|_]; [lia|]. destruct (N.ltb_spec (n / 10 / 10 / 10) 10) as [L|_]; [lia|].
  destruct (N.ltb_spec (n / 10 / 10 / 10 / 10) 10) as [_|L]; [|lia].
  rewrite D4. cbn [app]. eexists. reflexivity.
Qed.

(** ** IN *)
Lemma item_same t w : type_of w = t -> list_item t w = w.
Proof. intros <-. destruct w as [[]| | | | | | | | | | | | |]; reflexivity. Qed.
Lemma equals_same x w : type_of x = type_of w -> (forall t, x <> VNull t) -> (forall t, w <> VNull t) ->
  exists b, equals x w = Some b /\ perform Ceq x w = Some (Some b).
Proof.
  intros E NX NW. unfold perform_comparison.
  destruct x as [t|b|z|z|z|z|n k|n k|s|s|z|z|z|z]; try (exfalso; now apply (NX t));
    destruct w as [u|b'|z'|z'|z'|z'|m j|m j|s'|s'|z'|z'|z'|z']; try discriminate E; try (exfalso; now apply (NW u));
    cbn [type_of] in E |- *; (destruct (decide _) as [_|N]; [|now destruct N]);
    (eexists; split; [|unfold compare_op; cbn [cmp_val]; reflexivity]); cbn [equals int_of type_of];
    try (destruct (decide _) as [_|N]; [|now destruct N]); cbn [cmp_val];
    try reflexivity; f_equal; try (match goal with |- (?a =? ?b) = _ => destruct (Z.compare_spec a b) end; lia || reflexivity).
Qed.
Lemma in_loop_same x l : (forall t, x <> VNull t) -> Forall (fun w => type_of w = type_of x) l -> forall h,
  Some (in_loop x l h) = either (Some (if h then None else Some false))
    (foldr (fun w o => either (perform Ceq x w) o) (Some (Some false)) l).
Proof.
  intros NX F. induction F as [|w l Hw F IH]; intros h; [now destruct h|]. cbn [in_loop foldr].
  assert (D : (exists t, w = VNull t) \/ forall t, w <> VNull t).
  { destruct w; [left; eauto|..]; right; intros; discriminate. }
  destruct D as [[t ->]|NW].
  - rewrite IH. assert (P : perform Ceq x (VNull t) = Some None) by (now destruct x). rewrite P.
    destruct (foldr _ _ l) as [[[]|]|]; destruct h; reflexivity.
  - rewrite item_same by easy. destruct (equals_same x w (eq_sym Hw) NX NW) as (b & Hb & Pb). rewrite Pb.
    assert (M : (match w with VNull _ => in_loop x l true | _ => match equals x w with
       | Some true => Some true | Some false => in_loop x l h | None => in_loop x l true end end)
       = match b with true => Some true | false => in_loop x l h end).
    { rewrite Hb. destruct w; try reflexivity. now destruct (NW t). }
    rewrite M. destruct b.
    + destruct h; destruct (foldr _ _ l) as [[[]|]|] eqn:E; try reflexivity;
        exfalso; clear - E NX F; revert E; induction F as [|w l Hw F IH]; cbn [foldr]; intros E; try discriminate;
        destruct (foldr _ _ l) as [o|]; try (now apply IH);
        destruct (perform Ceq x w) as [[[]|]|] eqn:P; destruct o as [[]|]; try discriminate E;
        revert P; unfold perform_comparison; destruct x, w; try discriminate Hw; cbn [type_of] in *; try congruence;
        try (destruct (decide _) as [_|N]; [discriminate | now destruct N]).
    + rewrite IH. destruct h; destruct (foldr _ _ l) as [[[]|]|]; reflexivity.
Qed.
End Proofs.

Lemma item_idem t w : list_item t (list_item t w) = list_item t w.
Proof.
  destruct t; try reflexivity. destruct w as [u|b|z|z|z|z|n k|n k|u|u|z|z|z|z]; cbn [list_item]; try reflexivity.
  - destruct (in_range TInt z) eqn:E; cbn [list_item]; [reflexivity|]. now rewrite E.
  - destruct (cmp_float n k (clamp TInt (trunc n k)) 0) eqn:E; cbn [list_item]; [reflexivity|now rewrite E|now rewrite E].
Qed.
Lemma eq_frac p r : is_eq (cmp_float p.1 p.2 r.1 r.2) = true <-> (q_of p == q_of r)%Q.
Proof. rewrite <- q_cmp, Qeq_alt. unfold is_eq. destruct (Qcompare _ _); split; congruence. Qed.
Lemma eq_ints a b : (a =? b) = is_eq (cmp_float a 0 b 0).
Proof.
  unfold cmp_float. change (2 ^ Z.of_nat 0) with 1. rewrite !Z.mul_1_r.
  destruct (Z.compare_spec a b); cbn; lia.
Qed.
Lemma equals_exact v w x y : exact v w -> number v = Some x -> number w = Some y ->
  exists b, equals v (list_item (type_of v) (list_item (type_of v) w)) = Some b /\ (b = true <-> (x == y)%Q).
Proof.
  intros E Hx Hy. rewrite item_idem.
  destruct (number_frac v x Hx) as (p & Hp & Ex), (number_frac w y Hy) as (r & Hr & Ey).
  enough (Q : exists r', (q_of r' == q_of r)%Q /\ equals v (list_item (type_of v) w) = Some (is_eq (cmp_float p.1 p.2 r'.1 r'.2))).
  { destruct Q as (r' & Er & ->). eexists. split; [reflexivity|]. rewrite eq_frac, Ex, Ey, Er. reflexivity. }
  assert (S : forall z, short 53 z -> round_bits 53 z = z) by (intros z; apply short_round; lia).
  destruct v as [?|?|a|a|a|a|n k|? ?|?|?|?|?|?|?]; try contradiction;
    cbn in Hp; injection Hp as <-; cbn [type_of];
    destruct w as [?|?|c|c|c|c|m j|? ?|?|?|?|?|?|?]; try contradiction; cbn in Hr; injection Hr as <-; cbn [list_item exact] in *;
    cbn [fst snd];
    try (match goal with |- context [in_range TInt ?z] => destruct (in_range TInt z) end);
    try (eexists (_, _); split; [reflexivity|]; cbn [equals int_of fst snd]; rewrite ?eq_ints, ?S by assumption; reflexivity).
  destruct (cmp_float m j (clamp TInt (trunc m j)) 0) eqn:C.
  - eexists (_, _). split; [|cbn [equals int_of fst snd]; rewrite eq_ints; reflexivity].
    symmetry. apply Qeq_alt. rewrite q_cmp. exact C.
  - eexists (_, _); split; [reflexivity|]. cbn [equals fst snd]. rewrite S by assumption. reflexivity.
  - eexists (_, _); split; [reflexivity|]. cbn [equals fst snd]. rewrite S by assumption. reflexivity.
Qed.
Lemma in_loop_numbers x q l : number x = Some q -> Forall (fun w => exact x w /\ exists y, number w = Some y) l ->
  exists b, in_loop x (map (list_item (type_of x)) l) false = Some b /\
    (b = true <-> exists w y, In w l /\ number w = Some y /\ (q == y)%Q).
Proof.
  intros Hx F. induction F as [|w l [Ew (y & Hy)] F IH].
  { exists false. split; [reflexivity|]. split; [discriminate|]. intros (w & y & [] & _). }
  cbn [map in_loop]. destruct (equals_exact x w q y Ew Hx Hy) as (b & Hb & Ib).
  assert (M : (match list_item (type_of x) w with VNull _ => in_loop x (map (list_item (type_of x)) l) true
      | _ => match equals x (list_item (type_of x) (list_item (type_of x) w)) with
         | Some true => Some true | Some false => in_loop x (map (list_item (type_of x)) l) false
         | None => in_loop x (map (list_item (type_of x)) l) true end end)
       = match b with true => Some true | false => in_loop x (map (list_item (type_of x)) l) false end).
  { rewrite Hb. destruct (list_item (type_of x) w) as [t| | | | | | | | | | | | |] eqn:L; try reflexivity.
    exfalso. destruct w; try discriminate Hy; destruct x; try discriminate Hx; cbn in L; try discriminate L;
      try (destruct (_ && _); discriminate L).
    destruct (cmp_float _ _ _ _); discriminate L. }
  rewrite M. destruct b.
  - exists true. split; [reflexivity|]. split; [|reflexivity]. intros _. exists w, y. split; [now left|]. split; [easy|]. now apply Ib.
  - destruct IH as (b & -> & Hiff). exists b. split; [reflexivity|]. rewrite Hiff. split.
    + intros (u & z & Hu & K). exists u, z. split; [now right|easy].
    + intros (u & z & [<-|Hu] & Hn & Hz); [|now exists u, z].
      assert (z = y) as -> by congruence. apply Ib in Hz. discriminate.
Qed.
