(** * Proofs about positioned file I/O *)
From Coq Require Import NArith Lia ZifyNat.
From stdpp Require Import list.
From Verif Require Import FioSpec FioModel.
Local Open Scope nat_scope.

Lemma pwrite_written off d f : d <> [] -> written off d f (pwrite off d f).
Proof.
  intros D i. unfold pwrite.
  assert (0 < length d) as L by (destruct d; [done|cbn; lia]).
  set (n := length f `max` (off + length d)).
  case_decide as A.
  - rewrite list_lookup_inserts; [done|lia|]. rewrite resize_length. subst n; lia.
  - destruct (decide (i < off)) as [B|B].
    + rewrite list_lookup_inserts_lt by done. case_decide as C.
      * apply lookup_resize_new; subst n; lia.
      * apply lookup_resize; subst n; lia.
    + rewrite list_lookup_inserts_ge by lia. rewrite decide_False by lia.
      destruct (decide (i < length f)) as [C|C].
      * apply lookup_resize; subst n; lia.
      * rewrite lookup_resize_old by (subst n; lia). symmetry. apply lookup_ge_None. lia.
Qed.

Lemma written_length off d f f' : d <> [] -> written off d f f' -> length f' = length f `max` (off + length d).
Proof.
  intros D W. assert (0 < length d) as L by (destruct d; [done|cbn; lia]).
  assert (forall i, i < length f' <-> i < length f `max` (off + length d)) as H.
  { intros i. rewrite <- (lookup_lt_is_Some f' i), (W i).
    repeat case_decide; rewrite ?lookup_lt_is_Some; split; try lia; intros; try (by eexists).
    all: apply lookup_lt_is_Some in H1 || idtac; try lia. }
  pose proof (H (length f')) as H1. pose proof (H (length f `max` (off + length d))) as H2. lia.
Qed.

Lemma written_app off d1 d2 f f1 f2 : d1 <> [] ->
  written off d1 f f1 -> written (off + length d1) d2 f1 f2 -> written off (d1 ++ d2) f f2.
Proof.
  intros D W1 W2 i. assert (0 < length d1) as L by (destruct d1; [done|cbn; lia]).
  pose proof (written_length _ _ _ _ D W1) as L1.
  rewrite (W2 i), app_length.
  destruct (decide (off + length d1 <= i < off + length d1 + length d2)) as [A|A].
  - rewrite (decide_True (P := off <= i < _)) by lia. rewrite lookup_app_r by lia. f_equal. lia.
  - rewrite (decide_False (P := length f1 <= i < _)) by lia. rewrite (W1 i).
    destruct (decide (off <= i < off + length d1)) as [B|B].
    + rewrite (decide_True (P := off <= i < off + (length d1 + length d2))) by lia. by rewrite lookup_app_l by lia.
    + by rewrite (decide_False (P := off <= i < off + (length d1 + length d2))) by lia.
Qed.

Lemma written_nil off f f' : off <= length f -> written off [] f f' -> f' = f.
Proof.
  intros L W. apply list_eq. intros i. rewrite (W i). cbn [length].
  rewrite decide_False by lia. by rewrite decide_False by lia.
Qed.

(** The write loop: all of the data or, on an error, a proper prefix. *)
Lemma write_all_spec o off d f r f' : write_all_at o off d f = (r, f') -> d <> [] ->
  (r = Ok () /\ written off d f f') \/ (r = Err /\ torn off d f f').
Proof.
  revert off d f. induction o as [|[n|] o IH]; intros off d f E D.
  - destruct d as [|b d]; [done|]. cbn in E. injection E as <- <-. left. split; [done|]. by apply pwrite_written.
  - assert (0 < length d) as L by (destruct d; [done|cbn; lia]).
    assert (write_all_at (Some n :: o) off d f = if n `min` length d =? 0 then (Err, f) else
      write_all_at o (off + n `min` length d) (drop (n `min` length d) d) (pwrite off (take (n `min` length d) d) f)) as U
      by (destruct d; done).
    rewrite U in E. clear U. set (k := n `min` length d) in *.
    destruct (k =? 0) eqn:K.
    + injection E as <- <-. right. split; [done|]. exists 0. split; [done|done].
    + apply Nat.eqb_neq in K.
      assert (take k d <> []) as T. { intros T. apply (f_equal length) in T. rewrite take_length in T. cbn in T. lia. }
      assert (length (take k d) = k) as TL by (rewrite take_length; lia).
      pose proof (pwrite_written off _ f T) as W1.
      destruct (decide (drop k d = [])) as [X|X].
      * rewrite X in E.
        assert ((r, f') = (Ok (), pwrite off (take k d) f)) as E2 by (rewrite <- E; by destruct o as [|[?|] ?]).
        injection E2 as -> ->. left. split; [done|].
        assert (take k d = d) as ->; [|by apply pwrite_written].
        { rewrite <- (take_drop k d) at 2. by rewrite X, app_nil_r. }
      * destruct (IH _ _ _ E X) as [[-> W]|[-> (m & M1 & M2)]].
        -- left. split; [done|]. rewrite <- (take_drop k d). eapply written_app; [done|exact W1|]. by rewrite TL.
        -- right. split; [done|]. rewrite drop_length in M1. exists (k + m). split; [lia|].
           rewrite (proj2 (Nat.eqb_neq (k + m) 0)) by lia.
           destruct (m =? 0) eqn:M.
           ++ apply Nat.eqb_eq in M as ->. rewrite M2, Nat.add_0_r. done.
           ++ assert (take (k + m) d = take k d ++ take m (drop k d)) as ->.
              { rewrite <- (take_drop k d) at 1. rewrite take_add_app by done. done. }
              eapply written_app; [done|exact W1|]. by rewrite TL.
  - destruct d as [|b d]; [done|]. cbn in E. injection E as <- <-. right. split; [done|]. exists 0. cbn. split; [lia|done].
Qed.

(** The read loop. *)
Lemma read_exact_ok o off len f b : read_exact_at o off len f = Ok b -> b = pread off len f /\ length b = len.
Proof.
  revert off len b. induction o as [|[n|] o IH]; intros off len b E.
  - destruct len as [|len]; cbn [read_exact_at] in E; [by injection E as <-|].
    destruct (length (pread off (S len) f) =? S len) eqn:L; [|done].
    injection E as <-. apply Nat.eqb_eq in L. done.
  - destruct len as [|len]; cbn [read_exact_at] in E; [by injection E as <-|].
    set (b1 := pread off (S len `min` (1 `max` n)) f) in *.
    destruct (length b1 =? 0) eqn:L; [done|]. apply Nat.eqb_neq in L.
    destruct (read_exact_at o (off + length b1) (S len - length b1) f) as [c| |] eqn:R; [|done|done].
    injection E as <-. apply IH in R as [-> R2].
    assert (length b1 <= S len) as L1 by (subst b1; unfold pread; rewrite take_length; lia).
    split; [|rewrite app_length; lia].
    assert (b1 = take (length b1) (drop off f)) as B.
    { subst b1. unfold pread. set (k := S len `min` (1 `max` n)). clearbody k. rewrite take_length.
      destruct (decide (k <= length (drop off f))) as [Y|Y].
      - by rewrite Nat.min_l by done.
      - rewrite Nat.min_r by lia. rewrite firstn_all. by apply take_ge; lia. }
    assert (S len = length b1 + (S len - length b1)) as K by lia. set (m := S len - length b1) in *. clearbody m.
    rewrite K. unfold pread. rewrite <- take_take_drop, <- B, drop_drop. done.
  - destruct len; cbn in E; [by injection E as <-|done].
Qed.
Lemma read_exact_total o off len f : Forall is_Some o -> off + len <= length f -> exists b, read_exact_at o off len f = Ok b.
Proof.
  intros F. revert off len. induction o as [|[n|] o IH]; intros off len L.
  - destruct len as [|len]; [by eexists|]. cbn [read_exact_at].
    assert (length (pread off (S len) f) =? S len = true) as ->; [|by eexists].
    apply Nat.eqb_eq. unfold pread. rewrite take_length, drop_length. lia.
  - apply Forall_cons in F as [_ F]. destruct len as [|len]; [by eexists|]. cbn [read_exact_at].
    set (b1 := pread off (S len `min` (1 `max` n)) f).
    assert (length b1 = S len `min` (1 `max` n)) as B by (subst b1; unfold pread; rewrite take_length, drop_length; lia).
    rewrite (proj2 (Nat.eqb_neq _ 0)) by lia.
    destruct (IH F (off + length b1) (S len - length b1)) as [c ->]; [lia|]. by eexists.
  - apply Forall_cons in F as [[x X] _]. done.
Qed.
Lemma read_exact_short o off len f : 0 < len -> length f < off + len -> forall b, read_exact_at o off len f <> Ok b.
Proof. intros P L b E. apply read_exact_ok in E as [-> E]. unfold pread in E. rewrite take_length, drop_length in E. lia. Qed.
Lemma read_exact_nopanic o off len f : read_exact_at o off len f <> Panic.
Proof.
  revert off len. induction o as [|[n|] o IH]; intros off len; destruct len; cbn [read_exact_at]; try done.
  - by destruct (_ =? _).
  - destruct (_ =? 0); [done|]. destruct (read_exact_at o _ _ f) eqn:R; try done. by apply IH in R.
Qed.

Lemma pread_holds off len f : holds f off (pread off len f).
Proof.
  intros i x. unfold pread. rewrite lookup_take_Some, lookup_drop. by intros [H _].
Qed.
Lemma holds_pread f off b : holds f off b -> pread off (length b) f = b.
Proof.
  intros H. apply list_eq. intros i. unfold pread.
  destruct (decide (i < length b)) as [L|L].
  - rewrite lookup_take, lookup_drop by done.
    destruct (lookup_lt_is_Some_2 b i L) as [x X]. rewrite X. by apply H.
  - rewrite lookup_take_ge by lia. symmetry. apply lookup_ge_None. lia.
Qed.
Lemma holds_length f off b : b <> [] -> holds f off b -> off + length b <= length f.
Proof.
  intros B H. assert (0 < length b) as L by (destruct b; [done|cbn; lia]).
  destruct (lookup_lt_is_Some_2 b (length b - 1) ltac:(lia)) as [x X].
  apply H in X. apply lookup_lt_Some in X. lia.
Qed.
Lemma written_holds off d f f' : written off d f f' -> holds f' off d.
Proof.
  intros W i x X. rewrite (W (off + i)). pose proof (lookup_lt_Some _ _ _ X).
  rewrite decide_True by lia. by replace (off + i - off) with i by lia.
Qed.
Lemma written_elsewhere off d f f' off2 b : written off d f f' -> holds f off2 b ->
  off2 + length b <= off \/ off + length d <= off2 -> holds f' off2 b.
Proof.
  intros W H D i x X. pose proof (lookup_lt_Some _ _ _ X). pose proof (H i x X) as Y.
  pose proof (lookup_lt_Some _ _ _ Y). rewrite (W (off2 + i)). rewrite decide_False by lia. by rewrite decide_False by lia.
Qed.
Lemma torn_elsewhere off d f f' off2 b : torn off d f f' -> holds f off2 b ->
  off2 + length b <= off \/ off + length d <= off2 -> holds f' off2 b.
Proof.
  intros (n & N & T) H D. destruct (n =? 0); [by rewrite T|].
  eapply written_elsewhere; [done|done|]. rewrite take_length. lia.
Qed.

Lemma round_up_le n a : n <= round_up n a.
Proof.
  unfold round_up. destruct (a =? 0) eqn:A; [done|]. apply Nat.eqb_neq in A.
  pose proof (Nat.div_mod (n + (a - 1)) a A). pose proof (Nat.mod_upper_bound (n + (a - 1)) a A). lia.
Qed.
Lemma round_up_exact n a : aligned n a = true -> round_up n a = n.
Proof.
  unfold aligned, round_up. destruct (a =? 0) eqn:A; [done|]. apply Nat.eqb_neq in A. cbn. intros M.
  apply Nat.eqb_eq in M. apply Nat.mod_divides in M as [c ->]; [|done].
  replace (a * c + (a - 1)) with (a - 1 + c * a) by lia. rewrite Nat.div_add, Nat.div_small by lia. lia.
Qed.
Lemma page_offset_small p : (p < 2 ^ 52)%N -> page_offset p = N.to_nat p * PAGE.
Proof.
  intros L. unfold page_offset. rewrite N.mod_small.
  - by rewrite N2Nat.inj_mul.
  - change (2 ^ 64)%N with (2 ^ 52 * 4096)%N. lia.
Qed.
