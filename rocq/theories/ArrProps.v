(** * Arrays: theorems *)
From Coq Require Import ZArith NArith Lia.
From stdpp Require Import list.
From Verif Require Import CastSpec ArrSpec ArrModel.
Local Open Scope Z_scope.

Lemma len_nonneg {A} (l : list A) : 0 <= len l.
Proof. unfold len. lia. Qed.
Lemma i32_id z : - 2 ^ 31 <= z < 2 ^ 31 -> i32 z = z.
Proof. intros H. unfold i32. rewrite Z.mod_small; lia. Qed.
Lemma usize_id z : 0 <= z < 2 ^ 64 -> usize z = z.
Proof. intros H. unfold usize. apply Z.mod_small. exact H. Qed.
Lemma index_plain v i : integer v = Some i -> plain i -> index_value v = Some i.
Proof.
  intros E P. unfold plain in P. destruct v as [[]|]; cbn in *; try discriminate; injection E as ->; try reflexivity. rewrite i32_id by lia. reflexivity.
Qed.
Lemma lookup_len {A} (l : list A) k x : 0 <= k -> l !! Z.to_nat k = Some x -> k < len l.
Proof. intros Hk H. apply lookup_lt_Some in H. unfold len. lia. Qed.

Section Props.
Context {R : Type}.
Implicit Types (a i : src R) (r : R).

Lemma run_index a i r :
  run (XIndex a i) r = match plan a, plan i with
    | Some p, Some q => match ptype p with
        | AVec | AArr => match eval p r with Some (Vec l) => match eval q r with Some v => subscript l v | None => None end | _ => None end
        | _ => None end
    | _, _ => None end.
Proof. unfold run. cbn [plan]. destruct (plan a) as [p|]; [|reflexivity]. destruct (plan i) as [q|]; [|reflexivity]. destruct (ptype p); reflexivity. Qed.
(** An expression that is planned as an array. *)
Definition is_array a : Prop := exists p, plan a = Some p /\ (ptype p = AVec \/ ptype p = AArr).

(** C101, elements: [a[i]] is element number [i], counted from 0 or, if [i] is negative, backwards from the end, and an error
    if there is none. Missing: indexes beyond 32 bits (and -2^31), NULL, and arrays in arrays (false below). *)
Theorem c101_index_partial a i r l v z :
  is_array a -> run a r = Some (Vec l) -> run i r = Some v -> integer v = Some z -> plain z -> array_size l ->
  (forall x, run (XIndex a i) r = Some x <-> element l z x) /\
  (run (XIndex a i) r = None <-> z < - len l \/ len l <= z).
Proof.
  intros (p & Ep & Tp) Ha Hi Hv Pz Sz. rewrite run_index. unfold run in Ha, Hi. rewrite Ep in Ha |- *.
  destruct (plan i) as [q|]; [|discriminate]. rewrite Ha, Hi.
  assert (E : (match ptype p with AVec | AArr => subscript l v | _ => None end) = subscript l v) by (destruct Tp as [-> | ->]; reflexivity).
  rewrite E. clear E. unfold subscript. rewrite (index_plain v z Hv Pz). unfold plain in Pz. unfold array_size in Sz. pose proof (len_nonneg l) as L0.
  rewrite (i32_id (len l)) by lia.
  assert (T : forall k x, 0 <= k -> l !! Z.to_nat k = Some x -> k < len l) by (intros; eapply lookup_len; eassumption).
  assert (T2 : forall k, 0 <= k < len l -> exists x, l !! Z.to_nat k = Some x) by (intros k Hk; apply lookup_lt_is_Some_2; unfold len in Hk; lia).
  unfold element. destruct (Z.ltb_spec z 0) as [Hz | Hz].
  - rewrite (i32_id (- z)) by lia. destruct (Z.ltb_spec (len l) (- z)) as [Hl | Hl].
    + split; [intros x; split; [discriminate|lia]|split; [lia|reflexivity]].
    + rewrite (i32_id (len l + z)), usize_id by lia. destruct (Z.leb_spec (len l) (len l + z)); [lia|]. split.
      * intros x. split; [intros H2; right; auto with lia|]. intros [(H2 & _) | (_ & _ & H2)]; [lia|exact H2].
      * destruct (T2 (len l + z)) as (x & ->); [lia|]. split; [discriminate|lia].
  - rewrite usize_id by lia. destruct (Z.leb_spec (len l) z) as [Hl | Hl].
    + split; [intros x; split; [discriminate|]|split; [lia|reflexivity]]. intros [(_ & H2) | (H2 & _)]; [|lia]. apply T in H2; lia.
    + split.
      * intros x. split; [intros H2; left; auto|]. intros [(_ & H2) | (H2 & _)]; [exact H2|lia].
      * destruct (T2 z) as (x & ->); [lia|]. split; [discriminate|lia].
Qed.

Lemma bound_plain l v z : integer v = Some z -> plain z -> array_size l -> bound l v = Some (position (len l) z).
Proof.
  intros Hv Pz Sz. unfold bound. rewrite (index_plain v z Hv Pz). unfold plain in Pz. unfold array_size in Sz. pose proof (len_nonneg l) as L0.
  rewrite (i32_id (len l)) by lia. unfold position. f_equal. destruct (Z.ltb_spec z 0); [|apply usize_id; lia].
  rewrite (i32_id (- z)) by lia. destruct (Z.ltb_spec (len l) (- z)); [lia|]. rewrite i32_id, usize_id by lia. lia.
Qed.
Lemma position_nonneg n z : 0 <= position n z.
Proof. unfold position. destruct (Z.ltb_spec z 0); lia. Qed.
Lemma cut_part (l : list aval) (a b : Z) s e : a = match s with Some i => position (len l) i | None => 0 end ->
  b = match e with Some i => position (len l) i | None => len l end -> part l s e (cut l a b).
Proof.
  intros -> ->. unfold part, cut. set (a := match s with Some i => position (len l) i | None => 0 end).
  set (b := match e with Some i => position (len l) i | None => len l end).
  assert (A0 : 0 <= a) by (destruct s; [apply position_nonneg|cbn; lia]).
  destruct (Z.leb_spec a b); [|reflexivity]. destruct (Z.leb_spec b (len l)); [|reflexivity]. cbn [andb]. split.
  - unfold len in *. rewrite take_length, drop_length. lia.
  - intros n x Hx. rewrite <- lookup_drop. apply lookup_take_Some in Hx. tauto.
Qed.

(** The value of a bound: left out, or an expression with a whole number as value. *)
Definition bound_is (b : option (src R)) r (z : option Z) : Prop :=
  match b, z with
  | None, None => True
  | Some e, Some z => exists v, run e r = Some v /\ integer v = Some z /\ plain z
  | _, _ => False
  end.
(** C101, slices: [a[s:e]] is the part of the array from [s] to before [e]. *)
Theorem c101_slice_partial a s e r l zs ze :
  (exists p, plan a = Some p) -> run a r = Some (Vec l) -> array_size l -> bound_is s r zs -> bound_is e r ze ->
  exists out, run (XSlice a s e None) r = Some (Vec out) /\ part l zs ze out.
Proof.
  intros (p & Ep) Ha Sz Hs He. unfold run in Ha |- *. cbn [plan]. rewrite Ep in Ha |- *. cbn [eval]. rewrite Ha.
  assert (Hs' : match (match s with Some s => Some (match plan s with Some q => q | None => const 0 end) | None => None end) with
    | Some s => match eval s r with Some v => bound l v | None => None end | None => Some 0 end
    = Some (match zs with Some i => position (len l) i | None => 0 end)).
  { destruct s as [s|], zs as [z|]; cbn in Hs; try contradiction; [|reflexivity]. destruct Hs as (v & Hv & Hz & P). unfold run in Hv.
    destruct (plan s) as [q|]; [|discriminate]. rewrite Hv. apply bound_plain; assumption. }
  assert (He' : match (match e with Some s => Some (match plan s with Some q => q | None => const (-1) end) | None => None end) with
    | Some s => match eval s r with Some v => bound l v | None => None end | None => Some (len l) end
    = Some (match ze with Some i => position (len l) i | None => len l end)).
  { destruct e as [e|], ze as [z|]; cbn in He; try contradiction; [|reflexivity]. destruct He as (v & Hv & Hz & P). unfold run in Hv.
    destruct (plan e) as [q|]; [|discriminate]. rewrite Hv. apply bound_plain; assumption. }
  rewrite Hs', He'. eexists. split; [reflexivity|]. apply cut_part; reflexivity.
Qed.

(** C101, literals: an array literal that is accepted has its elements' values, in their order. *)
Theorem c101_array es r :
  (exists p, plan (XArray es) = Some p) ->
  forall v, run (XArray es) r = Some v <-> exists vs, v = Vec vs /\ Forall2 (fun e x => run e r = Some x) es vs.
Proof.
  intros (p & Ep) v. unfold run at 1. rewrite Ep. cbn [plan] in Ep.
  set (all := fix all (es : list (src R)) : option (list (pexpr R)) :=
               match es with
               | [] => Some []
               | e :: es => match plan e with
                            | Some p => match all es with Some ps => Some (p :: ps) | None => None end
                            | None => None
                            end
               end) in Ep.
  destruct (all es) as [ps|] eqn:EA; [|discriminate]. destruct (check AInvalid ps); [|discriminate]. injection Ep as <-.
  cbn [eval].
  set (ev := fix all (es : list (pexpr R)) : option (list aval) :=
               match es with
               | [] => Some []
               | e :: es => match eval e r with
                            | Some v => match all es with Some vs => Some (v :: vs) | None => None end
                            | None => None
                            end
               end).
  assert (G : forall vs, ev ps = Some vs <-> Forall2 (fun e x => run e r = Some x) es vs).
  { clear v. revert ps EA. induction es as [|e es IH]; intros ps EA vs.
    - cbn in EA. injection EA as <-. cbn. split; [intros H; injection H as <-; constructor|]. intros H. apply Forall2_nil_inv_l in H. subst. reflexivity.
    - cbn in EA. destruct (plan e) as [q|] eqn:Eq; [|discriminate]. destruct (all es) as [qs|]; [|discriminate]. injection EA as <-.
      cbn [ev]. specialize (IH qs eq_refl). split.
      + intros H. destruct (eval q r) as [x|] eqn:Ex; [|discriminate]. destruct (ev qs) as [xs|]; [|discriminate]. injection H as <-.
        constructor; [unfold run; rewrite Eq; exact Ex|]. apply IH. reflexivity.
      + intros H. apply Forall2_cons_inv_l in H. destruct H as (x & xs & Hx & Hxs & ->). unfold run in Hx. rewrite Eq in Hx. rewrite Hx.
        apply IH in Hxs. rewrite Hxs. reflexivity. }
  split.
  - destruct (ev ps) as [vs|]; [|discriminate]. intros H. injection H as <-. exists vs. split; [reflexivity|]. apply G. reflexivity.
  - intros (vs & -> & H). apply G in H. rewrite H. reflexivity.
Qed.
End Props.
Print Assumptions c101_index_partial.
Print Assumptions c101_slice_partial.
Print Assumptions c101_array.

Section Accept.
Context {R : Type}.
(** Elements of one type are accepted. *)
Theorem c101_accepted (es : list (src R)) t :
  t <> AInvalid -> Forall (fun e => exists p, plan e = Some p /\ ptype p = t) es -> exists p, plan (XArray es) = Some p.
Proof.
  intros Ht H. cbn [plan].
  set (all := fix all (es : list (src R)) : option (list (pexpr R)) :=
               match es with
               | [] => Some []
               | e :: es => match plan e with
                            | Some p => match all es with Some ps => Some (p :: ps) | None => None end
                            | None => None
                            end
               end).
  assert (G : exists ps, all es = Some ps /\ Forall (fun p => ptype p = t) ps).
  { induction H as [|e es (p & Ep & Tp) _ (ps & E & IH)]; [exists []; split; [reflexivity|constructor]|].
    exists (p :: ps). cbn. rewrite Ep. fold all. rewrite E. split; [reflexivity|]. constructor; assumption. }
  destruct G as (ps & -> & G).
  assert (C : coercible t t = true) by (destruct t as [[]| | | | | | | | |]; try reflexivity; try contradiction; apply bool_decide_true; reflexivity).
  assert (K : check t ps = true).
  { induction G as [|p ps Tp _ IH]; [reflexivity|]. cbn. rewrite Tp, C. destruct (decide (t = AInvalid)); [contradiction|]. exact IH. }
  destruct G as [|p ps Tp G]; [eexists; reflexivity|]. cbn [check] in K |- *. destruct (decide (AInvalid = AInvalid)); [|contradiction].
  destruct (decide (t = AInvalid)); [contradiction|]. apply andb_true_iff in K. rewrite Tp. rewrite (proj2 K). eexists. reflexivity.
Qed.

(** Elements of different types are accepted too if one can be converted to the other; they are not converted: whatever the
    two values, the array has both as they are. *)
Theorem c101_mixed_refuted (n : Z) (s : list N) (r : R) :
  run (XArray [XLeaf (ATy TInt) (fun _ => Some (Sc (VInt n))); XLeaf (ATy TVar) (fun _ => Some (Sc (VVar s)))]) r
  = Some (Vec [Sc (VInt n); Sc (VVar s)]).
Proof. reflexivity. Qed.

Definition big (z : Z) : src R := XLeaf (ATy TBig) (fun _ => Some (Sc (VBig z))).
Definition lit (z : Z) : src R := XLeaf (ATy TInt) (fun _ => Some (Sc (VInt z))).

(** A BIGINT index is cut to 32 bits: one beyond the array gives an element instead of an error, whatever the array. *)
Theorem c101_bigint_refuted (a : src R) r l k x :
  is_array a -> run a r = Some (Vec l) -> array_size l -> l !! k = Some x ->
  forall m, m <> 0 -> run (XIndex a (big (Z.of_nat k + m * 2 ^ 32))) r = Some x /\ ~ exists y, element l (Z.of_nat k + m * 2 ^ 32) y.
Proof.
  intros (p & Ep & Tp) Ha Sz Hk m Hm. unfold array_size in Sz. pose proof (len_nonneg l) as L0.
  assert (Lk : Z.of_nat k < len l) by (apply lookup_lt_Some in Hk; unfold len; lia).
  split.
  - rewrite run_index. unfold run in Ha. rewrite Ep in Ha |- *. cbn [plan big eval]. rewrite Ha.
    assert (S : subscript l (Sc (VBig (Z.of_nat k + m * 2 ^ 32))) = Some x).
    { unfold subscript. cbn [index_value].
      assert (E : i32 (Z.of_nat k + m * 2 ^ 32) = Z.of_nat k).
      { unfold i32. replace (Z.of_nat k + m * 2 ^ 32 + 2 ^ 31) with (Z.of_nat k + 2 ^ 31 + m * 2 ^ 32) by ring. rewrite Z_mod_plus_full, Z.mod_small; lia. }
      rewrite E. destruct (Z.ltb_spec (Z.of_nat k) 0); [lia|]. rewrite usize_id by lia. destruct (Z.leb_spec (len l) (Z.of_nat k)); [lia|].
      rewrite Nat2Z.id. exact Hk. }
    destruct Tp as [-> | ->]; exact S.
  - intros (y & [(H & Hy) | (H & H2 & Hy)]).
    + assert (0 < m) by nia. apply lookup_lt_Some in Hy. unfold len in *. nia.
    + nia.
Qed.

(** The bound -2^31 is not one before the start, as -2^31 + 1 is: no array has a part from there on. *)
Theorem c101_min_refuted (a : src R) r l :
  (exists p, plan a = Some p) -> run a r = Some (Vec l) -> array_size l ->
  run (XSlice a (Some (lit (- 2 ^ 31))) None None) r = Some (Vec []) /\
  run (XSlice a (Some (lit (- 2 ^ 31 + 1))) None None) r = Some (Vec l) /\ part l (Some (- 2 ^ 31)) None l.
Proof.
  intros (p & Ep) Ha Sz. unfold array_size in Sz. pose proof (len_nonneg l) as L0. unfold run in Ha |- *. cbn [plan lit]. rewrite Ep in Ha |- *. cbn [eval]. rewrite Ha.
  unfold bound. cbn [index_value]. rewrite (i32_id (len l)) by lia. change (- 2 ^ 31 <? 0) with true. change (- 2 ^ 31 + 1 <? 0) with true.
  change (i32 (- - 2 ^ 31)) with (- 2 ^ 31). change (i32 (- (- 2 ^ 31 + 1))) with (2 ^ 31 - 1).
  destruct (Z.ltb_spec (len l) (- 2 ^ 31)); [lia|]. split; [|split].
  - rewrite i32_id by lia. assert (U : usize (len l + - 2 ^ 31) = len l + - 2 ^ 31 + 2 ^ 64).
    { unfold usize. rewrite <- (Z_mod_plus_full (len l + - 2 ^ 31) 1), Z.mul_1_l. apply Z.mod_small. lia. }
    rewrite U. unfold cut. destruct (Z.leb_spec (len l + - 2 ^ 31 + 2 ^ 64) (len l)); [lia|]. reflexivity.
  - destruct (Z.ltb_spec (len l) (2 ^ 31 - 1)).
    + unfold cut. destruct (Z.leb_spec 0 (len l)); [|lia]. rewrite Z.leb_refl. cbn [andb]. rewrite drop_0. unfold len. rewrite Z.sub_0_r, Nat2Z.id, firstn_all. reflexivity.
    + assert (E : len l = 2 ^ 31 - 1) by lia. rewrite E. rewrite i32_id by lia. rewrite usize_id by lia. unfold cut. rewrite E.
      change (2 ^ 31 - 1 + (- 2 ^ 31 + 1)) with 0. destruct (Z.leb_spec 0 (2 ^ 31 - 1)); [|lia]. rewrite Z.leb_refl. cbn [andb]. rewrite drop_0, Z.sub_0_r, <- E. unfold len. rewrite Nat2Z.id, firstn_all. reflexivity.
  - unfold part, position. change (- 2 ^ 31 <? 0) with true. rewrite Z.max_l by lia. destruct (Z.leb_spec 0 (len l)); [|lia]. rewrite Z.leb_refl. cbn [andb].
    split; [lia|]. intros n x Hx. exact Hx.
Qed.

(** A NULL array, index or bound is an error, where SQL's answer is NULL. *)
Theorem c101_null_refuted (a i : src R) r t :
  (run a r = Some (Sc (VNull t)) -> run (XIndex a i) r = None /\ forall s e, run (XSlice a s e None) r = None) /\
  (run i r = Some (Sc (VNull t)) -> run (XIndex a i) r = None /\ forall e, run (XSlice a (Some i) e None) r = None).
Proof.
  split; intros H.
  - unfold run in H. split.
    + rewrite run_index. destruct (plan a) as [p|]; [|reflexivity]. destruct (plan i); [|reflexivity]. rewrite H. destruct (ptype p); reflexivity.
    + intros s e. unfold run. cbn [plan]. destruct (plan a) as [p|]; [|reflexivity]. cbn [eval]. rewrite H. reflexivity.
  - unfold run in H. split.
    + rewrite run_index. destruct (plan a) as [p|]; [|reflexivity]. destruct (plan i) as [q|]; [|reflexivity]. rewrite H.
      destruct (ptype p); try reflexivity; destruct (eval p r) as [[|l]|]; reflexivity.
    + intros e. unfold run. cbn [plan]. destruct (plan a) as [p|]; [|reflexivity]. destruct (plan i) as [q|]; [|discriminate]. cbn [eval]. rewrite H.
      destruct (eval p r) as [[|l]|]; reflexivity.
Qed.

(** An element of an array that is itself an array cannot be indexed, whatever the expressions. *)
Theorem c101_nested_refuted (a i j : src R) : plan (XIndex (XIndex a i) j) = None.
Proof.
  cbn [plan]. destruct (plan a) as [p|]; [|reflexivity]. destruct (plan i) as [q|]; [|reflexivity].
  destruct (ptype p); try reflexivity; destruct (plan j); reflexivity.
Qed.

(** A bound that makes no sense (an unknown column, say) is not an error: the lower one is taken as 0, and the upper one as
    -1, which leaves out the last element. *)
Theorem c101_bad_bound_refuted (a : src R) r l :
  (exists p, plan a = Some p) -> run a r = Some (Vec l) -> array_size l ->
  run (XSlice a (Some XBad) None None) r = Some (Vec l) /\
  exists out, run (XSlice a None (Some XBad) None) r = Some (Vec out) /\ len out = Z.max 0 (len l - 1).
Proof.
  intros (p & Ep) Ha Sz. unfold array_size in Sz. pose proof (len_nonneg l) as L0. unfold run in Ha |- *. cbn [plan]. rewrite Ep in Ha |- *. cbn [eval const]. rewrite Ha.
  unfold const. cbn [eval]. split.
  - change (bound l (Sc (VInt 0))) with (Some 0). cbn. unfold cut. destruct (Z.leb_spec 0 (len l)); [|lia]. rewrite Z.leb_refl. cbn [andb].
    rewrite drop_0. unfold len. rewrite Z.sub_0_r, Nat2Z.id, firstn_all. reflexivity.
  - rewrite (bound_plain l _ (-1)); [|reflexivity|unfold plain; lia|exact Sz]. eexists. split; [reflexivity|].
    change (position (len l) (-1)) with (Z.max 0 (len l + -1)). unfold cut. destruct (Z.leb_spec 0 (Z.max 0 (len l + -1))); [|lia].
    destruct (Z.leb_spec (Z.max 0 (len l + -1)) (len l)); [|lia]. cbn [andb]. unfold len in *. rewrite take_length, drop_length. lia.
Qed.

(** A step [a[s:e:step]] is ignored. *)
Theorem c101_stride_refuted (a : src R) s e step r : run (XSlice a s e (Some step)) r = run (XSlice a s e None) r.
Proof. reflexivity. Qed.
End Accept.
Print Assumptions c101_accepted.
Print Assumptions c101_mixed_refuted.
Print Assumptions c101_bigint_refuted.
Print Assumptions c101_min_refuted.
Print Assumptions c101_null_refuted.
Print Assumptions c101_nested_refuted.
Print Assumptions c101_bad_bound_refuted.
Print Assumptions c101_stride_refuted.

(** An array of three, its last element by -1, and the part 1:3 of it. *)
Example c101_ex :
  let a : src unit := XArray [lit 10; lit 20; lit 30] in
  is_array a /\ run a tt = Some (Vec [Sc (VInt 10); Sc (VInt 20); Sc (VInt 30)]) /\ plain (-1) /\
  array_size [Sc (VInt 10); Sc (VInt 20); Sc (VInt 30)] /\
  run (XIndex a (lit (-1))) tt = Some (Sc (VInt 30)) /\ run (XIndex a (lit 3)) tt = None /\
  run (XSlice a (Some (lit 1)) (Some (lit 3)) None) tt = Some (Vec [Sc (VInt 20); Sc (VInt 30)]) /\
  run (XSlice a (Some (lit (-2))) None None) tt = Some (Vec [Sc (VInt 20); Sc (VInt 30)]) /\
  run (XIndex a (big (2 ^ 32 + 1))) tt = Some (Sc (VInt 20)) /\
  run (XSlice a None (Some XBad) None) tt = Some (Vec [Sc (VInt 10); Sc (VInt 20)]).
Proof.
  cbn zeta. split; [eexists; split; [reflexivity|left; reflexivity]|]. split; [reflexivity|]. split; [unfold plain; lia|].
  split; [reflexivity|]. vm_compute. auto 10.
Qed.
