(** * C86, C87: string functions *)
From Coq Require Import ZArith NArith List Bool Lia.
From Verif Require Import ExprModel ExprSpec ExprProofs StrModel StrSpec StrProofs.
Import ListNotations.
Open Scope Z_scope.

Lemma as_i32_fits : forall t z, fits Integer z -> as_i32 t z = z.
Proof. intros t z F. destruct t; cbn; try reflexivity. apply wrap_fits. exact F. Qed.

(** ** C86: SUBSTRING, POSITION, OVERLAY *)

(** SUBSTRING on ASCII text returns exactly the characters asked for, for every start and
    length an INTEGER can hold. *)
Theorem c86_substring_partial : forall s t z l,
  ascii s -> fits Integer z ->
  match l with Some (u, n) => fits Integer n | None => True end ->
  substring (SStr s) (SInt t z) (option_map (fun p => SInt (fst p) (snd p)) l) =
  OVal (SStr (sql_substring s z (option_map snd l))).
Proof.
  intros s t z l A F Fl. unfold substring. rewrite as_i32_fits, ascii_blen by assumption.
  pose proof (size_nonneg s) as Hs.
  set (i := start_idx (size s) z).
  assert (Hf : first_char s z = i + 1 /\ 0 <= i).
  { unfold i, start_idx, first_char. destruct (Z.ltb_spec 0 z), (Z.ltb_spec z 0); try lia.
    destruct (Z.ltb_spec (size s) (- z)); lia. }
  destruct Hf as [Hf Hi]. unfold sql_substring. rewrite Hf.
  destruct (Z.leb_spec (size s) i) as [Hge|Hlt].
  { rewrite keep_none; [reflexivity|]. intros q Hq. apply andb_false_intro1, Z.leb_gt. lia. }
  destruct l as [[u n]|]; cbn [option_map fst snd].
  - rewrite as_i32_fits by assumption.
    destruct (Z.leb_spec n 0) as [Hn|Hn].
    { rewrite keep_none; [reflexivity|]. intros q Hq.
      destruct (Z.leb_spec (i + 1) q); [|reflexivity]. apply Z.ltb_ge. lia. }
    unfold slice. rewrite cut_ascii by (assumption || lia).
    rewrite cut_ascii; [|apply ascii_skipn; assumption|rewrite size_skipn; lia]. cbn [of_slice].
    rewrite <- keep_between by lia. do 2 f_equal. apply keep_ext. intros q Hq.
    destruct (i + 1 <=? q); [cbn|reflexivity].
    destruct (Z.ltb_spec q (Z.min (i + n) (size s) + 1)), (Z.ltb_spec q (i + 1 + n)); lia || reflexivity.
  - unfold slice_from. rewrite cut_ascii by (assumption || lia). cbn [option_map snd of_slice].
    rewrite <- keep_from by lia. do 2 f_equal. apply keep_ext. intros q Hq. rewrite andb_true_r. reflexivity.
Qed.
Print Assumptions c86_substring_partial.

(** 'hello': FROM 2 FOR 3, FROM -3, FROM 9. *)
Example c86_substring_ex :
  let s := [104; 101; 108; 108; 111]%N in
  ascii s /\
  substring (SStr s) (SInt Integer 2) (Some (SInt BigInt 3)) = OVal (SStr [101; 108; 108]%N) /\
  sql_substring s 2 (Some 3) = [101; 108; 108]%N /\
  substring (SStr s) (SInt Integer (-3)) None = OVal (SStr [108; 108; 111]%N) /\
  sql_substring s 9 None = [].
Proof. repeat split; repeat constructor. Qed.

(** Positions are byte offsets, so text that is not ASCII makes the call panic: the second
    character of any string that starts with a non-ASCII character cannot be asked for,
    and neither can the first one alone. *)
Theorem c86_substring_bytes_refuted : forall c s,
  (128 <= c)%N ->
  substring (SStr (c :: s)) (SInt Integer 2) None = OPanic /\
  substring (SStr (c :: s)) (SInt Integer 1) (Some (SInt Integer 1)) = OPanic /\
  sql_substring (c :: s) 2 None = s /\ sql_substring (c :: s) 1 (Some 1) = [c].
Proof.
  intros c s H.
  assert (U : 2 <= ulen c).
  { unfold ulen. destruct (N.ltb_spec c 128); [lia|]. repeat (destruct (_ <? _)%N); lia. }
  pose proof (blen_nonneg s) as B.
  split; [|split; [|split]].
  - unfold substring. cbn [as_i32 start_idx Z.ltb Z.compare blen].
    replace (2 - 1) with 1 by lia. destruct (Z.leb_spec (ulen c + blen s) 1); [lia|].
    unfold slice_from. cbn [cut Z.eqb]. destruct (Z.ltb_spec 1 (ulen c)); [|lia]. reflexivity.
  - unfold substring. cbn [as_i32 start_idx Z.ltb Z.compare blen].
    replace (1 - 1) with 0 by lia. destruct (Z.leb_spec (ulen c + blen s) 0); [lia|].
    cbn [Z.leb Z.compare]. replace (Z.min (0 + 1) (ulen c + blen s)) with 1 by lia.
    unfold slice. cbn [cut Z.eqb]. replace (1 - 0) with 1 by lia. cbn [Z.eqb].
    destruct (Z.ltb_spec 1 (ulen c)); [|lia]. reflexivity.
  - unfold sql_substring. cbn [first_char Z.ltb Z.compare keep]. cbn [Z.leb Z.compare andb].
    apply keep_all. intros q Hq. replace (Z.max 1 2) with 2 by lia. rewrite andb_true_r. apply Z.leb_le. lia.
  - unfold sql_substring. cbn [first_char keep Z.ltb Z.leb Z.compare andb Z.max Z.add Pos.add].
    change (Z.max 1 1) with 1. cbn [Z.leb Z.ltb Z.compare Pos.compare Pos.compare_cont Z.add Pos.add andb].
    f_equal. apply keep_none. intros q Hq. apply andb_false_intro2, Z.ltb_ge. lia.
Qed.
Print Assumptions c86_substring_bytes_refuted.

(** A BIGINT start is cut to 32 bits: FROM 4294967298 returns what FROM 2 returns. *)
Theorem c86_substring_bigint_refuted : forall s z l,
  fits Integer z ->
  substring (SStr s) (SInt BigInt (z + 2 ^ 32)) l = substring (SStr s) (SInt BigInt z) l.
Proof.
  intros s z l F. unfold substring. cbn [as_i32].
  assert (wrap Integer (z + 2 ^ 32) = wrap Integer z) as ->; [|reflexivity].
  unfold wrap. cbn [bits]. f_equal.
  replace (z + 2 ^ 32 + 2 ^ (32 - 1)) with (z + 2 ^ (32 - 1) + 1 * 2 ^ 32) by lia.
  apply Z.mod_add. lia.
Qed.
Print Assumptions c86_substring_bigint_refuted.

Example c86_substring_bigint_ex :
  substring (SStr [97; 98]%N) (SInt BigInt 4294967298) None = OVal (SStr [98]%N) /\
  sql_substring [97; 98]%N 4294967298 None = [] /\ fits Integer 2.
Proof. repeat split; lia. Qed.

(** POSITION finds an occurrence exactly when there is one, in every string; on ASCII
    text it is the number of the first character of the first occurrence. *)
Theorem c86_position_partial : forall t s,
  exists p, position (SStr t) (SStr s) = OVal (SInt Integer p) /\ 0 <= p /\
    (p = 0 <-> forall q, ~ occurs t s q) /\ (ascii s -> is_position t s p).
Proof.
  intros t s. unfold position. destruct (find t s 0) as [o|] eqn:E.
  - apply find_some in E as (a & b & Hs & -> & M). pose proof (blen_nonneg a).
    exists (0 + blen a + 1). split; [reflexivity|]. split; [lia|]. split.
    + split; [lia|]. intros H0. exfalso. apply (H0 (size a + 1)). exists a, b. auto.
    + intros A. right. assert (Ha : ascii a).
      { unfold ascii in *. rewrite Hs in A. apply Forall_app in A. apply A. }
      rewrite (ascii_blen _ Ha). split.
      * exists a, b. split; [exact Hs|lia].
      * intros q (a' & b' & Hs' & ->). apply M in Hs'. unfold size. lia.
  - exists 0. split; [reflexivity|]. split; [lia|].
    assert (N : forall q, ~ occurs t s q).
    { intros q (a & b & H & _). exact (find_none _ _ _ E a b H). }
    split; [tauto|]. intros _. left. auto.
Qed.
Print Assumptions c86_position_partial.

(** 'll' in 'hello' is at 3. *)
Example c86_position_ex :
  position (SStr [108; 108]%N) (SStr [104; 101; 108; 108; 111]%N) = OVal (SInt Integer 3) /\
  position (SStr [122]%N) (SStr [104; 101]%N) = OVal (SInt Integer 0) /\
  position (SStr []) (SStr [104]%N) = OVal (SInt Integer 1).
Proof. repeat split. Qed.

(** In other text it counts bytes: the character after [n] two-byte characters is
    number 2n+1. *)
Theorem c86_position_bytes_refuted : forall n,
  let s := repeat 233%N n ++ [97%N] in
  position (SStr [97%N]) (SStr s) = OVal (SInt Integer (2 * Z.of_nat n + 1)) /\
  is_position [97%N] s (Z.of_nat n + 1).
Proof.
  intros n. cbn zeta. split.
  - unfold position. assert (F : forall off, find [97%N] (repeat 233%N n ++ [97%N]) off = Some (off + 2 * Z.of_nat n)).
    { induction n as [|n IH]; intros off.
      - cbn. f_equal. lia.
      - cbn [repeat app find starts]. cbn [N.eqb Pos.eqb andb]. rewrite IH. f_equal.
        replace (ulen 233%N) with 2 by reflexivity. lia. }
    rewrite F. reflexivity.
  - right. split.
    + exists (repeat 233%N n), []. split; [reflexivity|]. unfold size. rewrite repeat_length. reflexivity.
    + intros q (a & b & H & ->). unfold size.
      assert (n <= length a)%nat; [|lia]. revert a H. induction n as [|n IH]; intros a H; [lia|].
      destruct a as [|x a]; [discriminate|]. injection H as <- H. apply IH in H. cbn. lia.
Qed.
Print Assumptions c86_position_bytes_refuted.

(** Whatever the text, SUBSTRING from the answer of POSITION starts with what was looked
    for: the two agree with each other. *)
Theorem c86_position_substring_partial : forall t s p,
  t <> [] -> blen s < 2 ^ 31 - 1 -> position (SStr t) (SStr s) = OVal (SInt Integer p) -> p <> 0 ->
  exists a b, s = a ++ t ++ b /\ substring (SStr s) (SInt Integer p) None = OVal (SStr (t ++ b)).
Proof.
  intros t s p Nt L H N0. unfold position in H. destruct (find t s 0) as [o|] eqn:E; injection H as <-; [|contradiction].
  apply find_some in E as (a & b & Hs & -> & M). exists a, b. split; [exact Hs|].
  unfold substring. cbn [as_i32]. pose proof (blen_nonneg a). unfold start_idx.
  destruct (Z.ltb_spec 0 (0 + blen a + 1)); [|lia]. replace (0 + blen a + 1 - 1) with (blen a) by lia.
  assert (Hb : blen s = blen a + (blen t + blen b)) by (rewrite Hs, !blen_app; reflexivity).
  assert (0 < blen t).
  { destruct t as [|c t]; [contradiction|]. cbn. pose proof (ulen_pos c). pose proof (blen_nonneg t). lia. }
  pose proof (blen_nonneg b). destruct (Z.leb_spec (blen s) (blen a)); [lia|].
  unfold slice_from. rewrite Hs, cut_app. reflexivity.
Qed.
Print Assumptions c86_position_substring_partial.

Example c86_position_substring_ex :
  position (SStr [98]%N) (SStr [233; 98; 99]%N) = OVal (SInt Integer 3) /\
  substring (SStr [233; 98; 99]%N) (SInt Integer 3) None = OVal (SStr [98; 99]%N).
Proof. repeat split. Qed.

(** OVERLAY on ASCII text. *)
Theorem c86_overlay_partial : forall s t z l,
  ascii s -> ascii t -> 1 <= z -> match l with Some n => 0 <= n | None => True end ->
  overlay (SStr s) (SStr t) (SInt Integer z) (option_map (SInt Integer) l) =
  OVal (SStr (sql_overlay s t z (match l with Some n => n | None => size t end))).
Proof.
  intros s t z l As At Hz Hl. unfold overlay. destruct (Z.ltb_spec z 1); [lia|].
  set (n := match l with Some n => n | None => size t end).
  assert (Hn : 0 <= n) by (destruct l; [exact Hl|apply size_nonneg]).
  assert (P : forall m, m = n ->
    (if blen s <=? z - 1 then OVal (SStr (s ++ t)) else
       match cut (z - 1) s, cut (if m =? 0 then z - 1 else Z.min (z - 1 + m) (blen s)) s with
       | Some (a, _), Some (_, b) => OVal (SStr (a ++ t ++ b)) | _, _ => OPanic end) =
    OVal (SStr (sql_overlay s t z n))).
  { intros m ->. rewrite ascii_blen by assumption. unfold sql_overlay.
    destruct (Z.leb_spec (size s) (z - 1)).
    - rewrite keep_all, keep_none; [rewrite app_nil_r; reflexivity| |].
      + intros q Hq. apply Z.leb_gt. lia.
      + intros q Hq. apply Z.ltb_lt. lia.
    - assert (He : (if n =? 0 then z - 1 else Z.min (z - 1 + n) (size s)) = Z.min (z - 1 + n) (size s)).
      { destruct (Z.eqb_spec n 0); lia. }
      rewrite He. rewrite !cut_ascii by (assumption || lia).
      rewrite <- keep_upto, <- keep_from by lia. do 2 f_equal. f_equal; [|f_equal].
      + apply keep_ext. intros q Hq. f_equal. lia.
      + apply keep_ext. intros q Hq.
        destruct (Z.leb_spec (Z.min (z - 1 + n) (size s) + 1) q), (Z.leb_spec (z + n) q); lia || reflexivity. }
  destruct l as [m|]; cbn [option_map].
  - destruct (Z.ltb_spec m 0); [lia|]. apply P. reflexivity.
  - apply P. apply ascii_blen. exact At.
Qed.
Print Assumptions c86_overlay_partial.

Example c86_overlay_ex :
  overlay (SStr [97; 98; 99; 100]%N) (SStr [120]%N) (SInt Integer 2) (Some (SInt Integer 2)) = OVal (SStr [97; 120; 100]%N) /\
  overlay (SStr [97; 98; 99; 100]%N) (SStr [120; 121]%N) (SInt Integer 2) None = OVal (SStr [97; 120; 121; 100]%N).
Proof. repeat split. Qed.

(** A NULL argument of OVERLAY is an error instead of NULL, a BIGINT position is an
    error, and non-ASCII text panics. *)
Theorem c86_overlay_refuted :
  (forall s t f l, s = SNull \/ t = SNull \/ f = SNull \/ l = Some SNull -> overlay s t f l = OErr) /\
  (forall s t z l, overlay s t (SInt BigInt z) l = OErr) /\
  (forall c s t, (128 <= c)%N -> overlay (SStr (c :: s)) (SStr t) (SInt Integer 2) (Some (SInt Integer 0)) = OPanic).
Proof.
  split; [|split].
  - intros s t f l [->|[->|[->| ->]]]; try reflexivity.
    + destruct s; reflexivity.
    + destruct s, t; reflexivity.
    + unfold overlay. destruct s; try reflexivity. destruct t; try reflexivity. destruct f as [| |u z|]; try reflexivity.
      destruct u; try reflexivity. destruct (z <? 1); reflexivity.
  - intros s t z l. destruct s; try reflexivity. destruct t; reflexivity.
  - intros c s t H.
    assert (U : 2 <= ulen c).
    { unfold ulen. destruct (N.ltb_spec c 128); [lia|]. repeat (destruct (_ <? _)%N); lia. }
    pose proof (blen_nonneg s). unfold overlay. cbn [Z.ltb Z.compare]. replace (2 - 1) with 1 by lia. cbn [blen].
    destruct (Z.leb_spec (ulen c + blen s) 1); [lia|]. cbn [cut Z.eqb Pos.eqb].
    destruct (Z.ltb_spec 1 (ulen c)); [|lia]. reflexivity.
Qed.
Print Assumptions c86_overlay_refuted.

(** NULL arguments of SUBSTRING and POSITION give NULL, except for the length when the
    start lies behind the end. *)
Theorem c86_null_partial : forall s f l t,
  substring SNull f l = OVal SNull /\
  (forall x, s = SStr x -> substring s SNull l = OVal SNull) /\
  (forall x u z, s = SStr x -> f = SInt u z -> start_idx (blen x) (as_i32 u z) < blen x ->
     substring s f (Some SNull) = OVal SNull) /\
  position SNull t = OVal SNull /\ position t SNull = OVal SNull.
Proof.
  intros s f l t. split; [reflexivity|]. split; [intros x ->; reflexivity|]. split; [|split].
  - intros x u z -> -> H. cbn [substring]. destruct (Z.leb_spec (blen x) (start_idx (blen x) (as_i32 u z))); [lia|reflexivity].
  - reflexivity.
  - destruct t; reflexivity.
Qed.
Print Assumptions c86_null_partial.

(** ** C87: TRIM, UPPER, LOWER and the other functions the planner accepts *)

(** TRIM(s) and TRIM(s, chars) remove exactly the characters of the set from the sides
    asked for, in every string. *)
Theorem c87_trim_partial : forall w s cs,
  exists t, eval_trim {| tc_side := w; tc_what := None; tc_arg := SStr s;
                         tc_chars := option_map SStr cs |} = OVal (SStr t) /\
    is_trimmed (match w with Trailing => false | _ => true end)
               (match w with Leading => false | _ => true end)
               (match cs with Some c => c | None => blanks end) s t.
Proof.
  intros w s cs. set (c := match cs with Some c => c | None => blanks end).
  exists (trim_str w c s). split; [destruct cs; reflexivity|].
  set (p := fun x => existsb (N.eqb x) c).
  unfold trim_str. fold p. destruct w.
  - destruct (trim_start_ok p s) as (a & Ea & Fa & Na).
    destruct (trim_end_ok p (trim_start p s)) as (b & Eb & Fb & Nb).
    exists a, b. split; [rewrite <- Eb; exact Ea|]. split; [apply memb_F; exact Fa|].
    split; [apply memb_F; exact Fb|]. split.
    + intros x r E. apply not_memb. apply (Na x (r ++ b)). rewrite Eb, E. reflexivity.
    + intros x r E. apply not_memb. exact (Nb x r E).
  - destruct (trim_start_ok p s) as (a & Ea & Fa & Na). exists a, [].
    split; [rewrite app_nil_r; exact Ea|]. split; [apply memb_F; exact Fa|]. split; [constructor|].
    split; [|reflexivity]. intros x r E. apply not_memb. exact (Na x r E).
  - destruct (trim_end_ok p s) as (b & Eb & Fb & Nb). exists [], b.
    split; [exact Eb|]. split; [constructor|]. split; [apply memb_F; exact Fb|].
    split; [reflexivity|]. intros x r E. apply not_memb. exact (Nb x r E).
Qed.
Print Assumptions c87_trim_partial.

Example c87_trim_ex :
  eval_trim {| tc_side := Both; tc_what := None; tc_arg := SStr [32; 97; 32; 98; 9]%N; tc_chars := None |}
    = OVal (SStr [97; 32; 98]%N) /\
  eval_trim {| tc_side := Both; tc_what := None; tc_arg := SStr [233; 97; 233]%N; tc_chars := Some (SStr [233; 97]%N) |}
    = OVal (SStr []).
Proof. repeat split. Qed.

(** The standard form TRIM(LEADING what FROM s) does not look at [what]: it trims blanks,
    so TRIM(LEADING 'x' FROM 'xa') is 'xa' and TRIM(LEADING 'x' FROM ' a') is 'a'. *)
Theorem c87_trim_what_refuted :
  (forall c what, eval_trim c = eval_trim {| tc_side := tc_side c; tc_what := what; tc_arg := tc_arg c;
                                             tc_chars := tc_chars c |}) /\
  (exists s t what, ~ is_trimmed true false what s t /\
     eval_trim {| tc_side := Leading; tc_what := Some (SStr what); tc_arg := SStr s; tc_chars := None |} = OVal (SStr t)).
Proof.
  split; [reflexivity|].
  exists [120; 97]%N, [120; 97]%N, [120]%N. split; [|reflexivity].
  intros (a & b & _ & _ & _ & N & _). apply (N 120%N [97%N] eq_refl). left. reflexivity.
Qed.
Print Assumptions c87_trim_what_refuted.

(** UPPER and LOWER change ASCII letters and nothing else, keep the number of characters,
    and give NULL for NULL.  Partial: other letters are not modelled. *)
Theorem c87_case_partial : forall s,
  ascii s ->
  (exists u, call FUpper [SStr s] = OVal (SStr u) /\ length u = length s /\
     forall i c, nth_error s i = Some c ->
       nth_error u i = Some (if (97 <=? c)%N && (c <=? 122)%N then (c - 32)%N else c)) /\
  (exists u, call FLower [SStr s] = OVal (SStr u) /\ length u = length s /\
     forall i c, nth_error s i = Some c ->
       nth_error u i = Some (if (65 <=? c)%N && (c <=? 90)%N then (c + 32)%N else c)) /\
  call FUpper [SNull] = OVal SNull /\ call FLower [SNull] = OVal SNull /\
  (exists u, call FUpper [SStr s] = OVal (SStr u) /\ call FUpper [SStr u] = OVal (SStr u) /\
     call FLower [SStr u] = call FLower [SStr s]).
Proof.
  intros s _. split; [|split; [|split; [|split]]]; try reflexivity.
  - exists (map up s). split; [reflexivity|]. split; [apply map_length|]. intros i c H.
    rewrite nth_error_map, H. reflexivity.
  - exists (map low s). split; [reflexivity|]. split; [apply map_length|]. intros i c H.
    rewrite nth_error_map, H. reflexivity.
  - exists (map up s). split; [reflexivity|]. cbn. rewrite !map_map. split; do 2 f_equal; apply map_ext; intros c;
      unfold up, low, ch in *;
      repeat match goal with |- context [(?a <=? ?b)%N] => destruct (N.leb_spec a b); cbn [andb] in * end; try reflexivity; try lia.
Qed.
Print Assumptions c87_case_partial.

Example c87_case_ex : call FUpper [SStr [97; 49; 66]%N] = OVal (SStr [65; 49; 66]%N) /\ ascii [97; 49; 66]%N.
Proof. split; [reflexivity|repeat constructor]. Qed.

(** Every other function the planner accepts -- CONCAT, ABS, ROUND, LENGTH, LTRIM, ... --
    fails on every row. *)
Theorem c87_functions_refuted : forall f args,
  f <> FUpper -> f <> FLower -> call f args = OErr.
Proof. intros f args H1 H2. destruct f; try contradiction; reflexivity. Qed.
Print Assumptions c87_functions_refuted.
