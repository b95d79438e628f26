(** * C120: BETWEEN and IN are the comparisons they stand for *)
From Coq Require Import ZArith NArith QArith Lia.
From stdpp Require Import list.
From Verif Require Import CastSpec CastModel CastProofs NumSpec NumModel NumProps BwSpec BwModel BwProofs.
Local Close Scope Q_scope.
Local Open Scope Z_scope.

(** Full property: for every value [x] of a column and all literals, [between neg x lo hi = between_means cmp neg x lo hi] and
    [in_list neg x l = in_means cmp neg x l], where [cmp] is the comparison of the column with a literal as the engine does it. *)
Section Props.
Context (sd : Z -> nat -> list N) (rd rf : list N -> option (Z * nat)).
Context (f32 : Z -> nat -> Z * nat) (ch : cty -> list N -> option Z).
Notation cmp := (fun op v w => sql_compare sd rd rf f32 ch op false v true w).
Notation between := (between sd rd rf f32 ch).

(** Proved when the bounds are of the column's kind (number, text, date), NULLs included. *)
Theorem c120_between_partial (neg : bool) (x lo hi : val) :
  compatible (type_of x) (type_of lo) = true -> compatible (type_of x) (type_of hi) = true ->
  between neg x lo hi = between_means cmp neg x lo hi.
Proof.
  intros Hl Hh. rewrite between_perform. unfold between_means. now rewrite !sql_compatible by assumption.
Qed.

(** On numbers that can be expressed in each other's types it is the order of the numbers. *)
Theorem c120_between_numbers_partial (x lo hi : val) (q ql qh : Q) :
  number x = Some q -> number lo = Some ql -> number hi = Some qh -> comparable x lo -> comparable x hi ->
  exists b, between false x lo hi = Some (Some b) /\ between true x lo hi = Some (Some (negb b)) /\
    (b = true <-> (ql <= q)%Q /\ (q <= qh)%Q).
Proof.
  intros Hx Hl Hh Cl Ch. rewrite !between_perform. unfold between_means.
  destruct (comparable_eval sd rd rf f32 ch Cge x lo q ql Cl Hx Hl) as (b1 & -> & H1).
  destruct (comparable_eval sd rd rf f32 ch Cle x hi q qh Ch Hx Hh) as (b2 & -> & H2).
  exists (b1 && b2). destruct b1, b2; cbn in *; (split; [reflexivity|]); (split; [reflexivity|]);
    unfold holds in *; intuition discriminate.
Qed.

(** IN is proved for literals of the column's type, NULLs included. *)
Theorem c120_in_partial (neg : bool) (x : val) (l : list val) :
  l <> [] -> Forall (fun w => type_of w = type_of x) l -> in_list neg x l = in_means cmp neg x l.
Proof.
  intros NE F. unfold in_list, in_means.
  assert (Hc : forall w, type_of w = type_of x -> cmp Ceq x w = perform_comparison sd rd rf f32 ch Ceq x w).
  { intros w Hw. apply sql_compatible. unfold compatible. now rewrite bool_decide_true by easy. }
  assert (Hm : map (list_item (type_of x)) l = l).
  { clear NE. induction F as [|w l Hw F IH]; [reflexivity|]. cbn [map]. now rewrite item_same, IH. }
  assert (Hf : foldr (fun w o => either (cmp Ceq x w) o) (Some (Some false)) l
    = foldr (fun w o => either (perform_comparison sd rd rf f32 ch Ceq x w) o) (Some (Some false)) l).
  { clear NE Hm. induction F as [|w l Hw F IH]; [reflexivity|]. cbn [foldr]. now rewrite Hc, IH. }
  rewrite Hf, Hm. 
  assert (D : (exists t, x = VNull t) \/ forall t, x <> VNull t).
  { destruct x; [left; eauto|..]; right; intros; discriminate. }
  destruct D as [[t ->]|NX].
  - assert (K : foldr (fun w o => either (perform_comparison sd rd rf f32 ch Ceq (VNull t) w) o) (Some (Some false)) l = Some None).
    { clear Hc Hm Hf F. destruct l as [|w l]; [contradiction|]. clear NE. revert w. induction l as [|u l IH]; intros w; [reflexivity|].
      cbn [foldr] in *. now rewrite (IH u). }
    rewrite K. now destruct neg.
  - pose proof (in_loop_same sd rd rf f32 ch x l NX F false) as K.
    assert (E : (match x with VNull _ => None | _ => in_loop x l false end) = in_loop x l false).
    { destruct x; try reflexivity. now destruct (NX t). }
    rewrite E. revert K.
    generalize (foldr (fun w o => either (perform_comparison sd rd rf f32 ch Ceq x w) o) (Some (Some false)) l). intros f K.
    destruct f as [[[]|]|]; cbn in K; try discriminate K;
      rewrite (f_equal (fun o => match o with Some a => a | None => None end) K); destruct neg; reflexivity.
Qed.

(** On numbers that are not FLOATs it finds the number, whatever the types. *)
Theorem c120_in_numbers_partial (x : val) (q : Q) (l : list val) :
  number x = Some q -> Forall (fun w => exact x w /\ exists y, number w = Some y) l ->
  exists b, in_list false x l = Some (Some b) /\ in_list true x l = Some (Some (negb b)) /\
    (b = true <-> exists w y, In w l /\ number w = Some y /\ (q == y)%Q).
Proof.
  intros Hx F. destruct (in_loop_numbers x q l Hx F) as (b & Hb & Hiff). exists b.
  unfold in_list. destruct x; try discriminate Hx; rewrite Hb; (split; [reflexivity|]); (split; [reflexivity|easy]).
Qed.

(** Refuted: bounds in quotes on a DATE column are not read as dates. From 1997-05-19 to 2024-10-03 no date is between two dates of
    this millennium, whatever they are. *)
Theorem c120_between_dates_refuted (z a b : Z) (lo hi : list N) :
  10000 <= z < 20000 -> head lo = Some 50%N -> parse TDate lo = None -> parse TDate hi = None ->
  ch TDate lo = Some a -> ch TDate hi = Some b -> a <= z <= b ->
  between false (VDate z) (VVar lo) (VVar hi) = Some (Some false) /\
  between_means cmp false (VDate z) (VVar lo) (VVar hi) = Some (Some true).
Proof.
  intros Hz H2 Pl Ph Cl Ch Hab. destruct (show_1 z Hz) as (s & Hs). destruct lo as [|c lo]; [discriminate H2|].
  injection H2 as ->. split.
  - rewrite between_perform. unfold between_means, perform_comparison. cbn [type_of].
    destruct (decide (TDate = TVar)) as [E|_]; [discriminate E|].
    assert (Hcast : cast_to sd rd rf f32 ch (VDate z) TVar = Some (VVar (49%N :: s))).
    { unfold cast_to. cbn [type_of]. destruct (decide _) as [E|_]; [discriminate E|]. now rewrite Hs. }
    rewrite Hcast. cbn [compare_op cmp_val cmp_text]. change (N.compare 49 50) with Datatypes.Lt.
    cbn [negated both]. now destruct (cmp_text (49%N :: s) hi).
  - unfold between_means. 
    assert (K : forall op t d, parse TDate t = None -> ch TDate t = Some d -> cmp op (VDate z) (VVar t) = Some (compare_op op (VDate z) (VDate d))).
    { intros op t d Pt Ct. cbn beta. unfold sql_compare. cbn [type_of].
      assert (Hn : compatible TDate TVar = false) by reflexivity. rewrite Hn.
      assert (Hcast : cast_to sd rd rf f32 ch (VVar t) TDate = Some (VDate d)).
      { unfold cast_to. cbn [type_of]. destruct (decide _) as [E|_]; [discriminate E|]. cbn [cast_text]. rewrite Pt, Ct. reflexivity. }
      rewrite Hcast. reflexivity. }
    cbn beta in K. rewrite (K Cge _ a Pl Cl), (K Cle _ b Ph Ch). cbn [compare_op cmp_val negated].
    destruct (Z.compare_spec z a); destruct (Z.compare_spec z b); try lia; reflexivity.
Qed.

(** Refuted: and bounds in quotes on a number column are not read as numbers. *)
Theorem c120_between_digits_refuted (t : cty) (z : Z) : integer_type t -> 2 <= z <= 9 ->
  between false (integer t z) (VVar [49%N]) (VVar [49%N; 48%N]) = Some (Some false) /\
  between_means cmp false (integer t z) (VVar [49%N]) (VVar [49%N; 48%N]) = Some (Some true).
Proof.
  intros Ht Hz. assert (E : z = 2 \/ z = 3 \/ z = 4 \/ z = 5 \/ z = 6 \/ z = 7 \/ z = 8 \/ z = 9) by lia.
  destruct E as [-> | [-> | [-> | [-> | [-> | [-> | [-> | ->]]]]]]]; destruct Ht as [-> | [-> | [-> | ->]]];
    (split; reflexivity).
Qed.

(** Refuted: IN never finds a literal of another kind, and NOT IN never finds one missing, whatever the values are. *)
Theorem c120_in_types_refuted (neg : bool) (x : val) (l : list val) :
  (forall t, x <> VNull t) ->
  Forall (fun w => type_of w <> type_of x /\ (numeric_type (type_of x) && numeric_type (type_of w) = false) /\ forall t, w <> VNull t) l ->
  in_list neg x l = Some (Some neg).
Proof.
  intros NX F. assert (K : in_loop x (map (list_item (type_of x)) l) false = Some false).
  { induction F as [|w l (Hw & Hn & NW) F IH]; [reflexivity|]. cbn [map in_loop]. rewrite item_idem.
    assert (Hi : list_item (type_of x) w = w).
    { destruct x; cbn [type_of] in *; try reflexivity; [now destruct (NX t)|]. destruct w; try reflexivity; discriminate Hn. }
    rewrite Hi. destruct w as [u| | | | | | | | | | | | |]; [now destruct (NW u)|..];
      destruct x as [u| | | | | | | | | | | | |]; try (now destruct (NX u)); cbn [type_of] in *; try congruence;
      try discriminate Hn; cbn [equals int_of type_of]; try (destruct (decide _) as [E|_]; [discriminate E|]); exact IH. }
  unfold in_list. destruct x as [u| | | | | | | | | | | | |]; [now destruct (NX u)|..]; rewrite K; now destruct neg.
Qed.
End Props.
Print Assumptions c120_between_partial.
Print Assumptions c120_between_numbers_partial.
Print Assumptions c120_in_partial.
Print Assumptions c120_in_numbers_partial.
Print Assumptions c120_between_dates_refuted.
Print Assumptions c120_between_digits_refuted.
Print Assumptions c120_in_types_refuted.

(** ** Concrete cases *)
Definition ex_sd (_ : Z) (_ : nat) : list N := [].
Definition ex_rd (_ : list N) : option (Z * nat) := None.
Definition ex_f32 (n : Z) (k : nat) := (n, k).
(** 2024-01-01, 2024-01-31 and 2024-12-31. *)
Definition d1 : list N := [50; 48; 50; 52; 45; 48; 49; 45; 48; 49]%N.
Definition d2 : list N := [50; 48; 50; 52; 45; 48; 49; 45; 51; 49]%N.
Definition d3 : list N := [50; 48; 50; 52; 45; 49; 50; 45; 51; 49]%N.
Definition ex_ch (t : cty) (s : list N) : option Z :=
  if decide (s = d1) then Some 19723 else if decide (s = d2) then Some 19753 else if decide (s = d3) then Some 20088 else None.
Example c120_between_ex :
  compatible (type_of (VInt 5)) (type_of (VTiny 2)) = true /\
  between ex_sd ex_rd ex_rd ex_f32 ex_ch false (VInt 5) (VTiny 2) (VTiny 9) = Some (Some true) /\
  between ex_sd ex_rd ex_rd ex_f32 ex_ch true (VInt 5) (VTiny 6) (VNull TTiny) = Some (Some true) /\
  between ex_sd ex_rd ex_rd ex_f32 ex_ch false (VInt 5) (VTiny 2) (VNull TTiny) = Some None.
Proof. repeat split; vm_compute; reflexivity. Qed.
Example c120_numbers_ex :
  comparable (VInt 5) (VDec 9 1) /\ comparable (VInt 5) (VTiny 9) /\
  between ex_sd ex_rd ex_rd ex_f32 ex_ch false (VInt 5) (VDec 9 1) (VTiny 9) = Some (Some true).
Proof.
  split; [|split; [|vm_compute; reflexivity]].
  - apply (cmp_int_dec (VInt 5) 5 9 1); [reflexivity|unfold integer_type; cbn; tauto|]. exists 5, 0. repeat split; vm_compute; congruence.
  - apply (cmp_ints (VInt 5) (VTiny 9) 5 9); try reflexivity; unfold integer_type, fits; cbn; try tauto; lia.
Qed.
Example c120_in_ex :
  in_list false (VInt 5) [VInt 4; VNull TInt] = Some None /\ in_list true (VInt 5) [VInt 4; VInt 5] = Some (Some false) /\
  Forall (fun w => exact (VInt 5) w /\ exists y, number w = Some y) [VTiny 4; VDec 10 1] /\
  in_list false (VInt 5) [VTiny 4; VDec 10 1] = Some (Some true).
Proof.
  split; [reflexivity|]. split; [reflexivity|]. split; [|reflexivity].
  constructor; [split; [exact I|eexists; reflexivity]|]. constructor; [|constructor].
  split; [|eexists; reflexivity]. exists 5, 0. repeat split; vm_compute; congruence.
Qed.
Example c120_dates_ex :
  parse TDate d1 = None /\ parse TDate d3 = None /\ ex_ch TDate d1 = Some 19723 /\ ex_ch TDate d3 = Some 20088 /\
  between ex_sd ex_rd ex_rd ex_f32 ex_ch false (VDate 19753) (VVar d1) (VVar d3) = Some (Some false) /\
  sql_compare ex_sd ex_rd ex_rd ex_f32 ex_ch Ceq false (VDate 19753) true (VVar d2) = Some (Some true) /\
  in_list false (VDate 19753) [VVar d2] = Some (Some false).
Proof. repeat split; vm_compute; reflexivity. Qed.
