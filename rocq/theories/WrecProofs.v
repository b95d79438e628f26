(** * The log file's bytes: proofs *)
From Coq Require Import NArith ZArith Lia.
From stdpp Require Import list.
From Verif Require Import Bytes PageModel WrecSpec WrecModel.
Local Open Scope N_scope.

Lemma u64_rt_aux f x rest : x < 2 * 128 ^ N.of_nat f -> varint_dec (S f) (varint_enc (S f) x ++ rest) = Some (x, rest).
Proof.
  revert x. induction f as [|f IH]; intros x Hx.
  - cbn in Hx. cbn. replace (x <? 128) with true by (symmetry; apply N.ltb_lt; lia). cbn.
    replace (x <? 128) with true by (symmetry; apply N.ltb_lt; lia).
    by replace (1 <? x) with false by (symmetry; apply N.ltb_ge; lia).
  - change (varint_enc (S (S f)) x) with (if x <? 128 then [x] else (x mod 128 + 128) :: varint_enc (S f) (x / 128)).
    destruct (N.ltb_spec x 128).
    + cbn. by replace (x <? 128) with true by (symmetry; apply N.ltb_lt; lia).
    + change (varint_dec (S (S f)) (((x mod 128 + 128) :: varint_enc (S f) (x / 128)) ++ rest)) with
        (if x mod 128 + 128 <? 128
         then (if (S f =? 0)%nat && (1 <? x mod 128 + 128) then None else Some (x mod 128 + 128, varint_enc (S f) (x / 128) ++ rest))
         else match varint_dec (S f) (varint_enc (S f) (x / 128) ++ rest) with
              | Some (y, l) => Some (x mod 128 + 128 - 128 + 128 * y, l) | None => None end).
      rewrite (proj2 (N.ltb_ge (x mod 128 + 128) 128)) by apply N.le_add_l.
      rewrite IH.
      * f_equal. f_equal. pose proof (N.div_mod x 128 ltac:(lia)) as E. revert E. generalize (x mod 128) (x / 128). lia.
      * rewrite Nat2N.inj_succ, N.pow_succ_r' in Hx. apply N.div_lt_upper_bound; lia.
Qed.
Lemma u64_rt x rest : u64_ok x -> u64_dec (u64_enc x ++ rest) = Some (x, rest).
Proof. intros H. apply u64_rt_aux. exact H. Qed.

Lemma u32_rt_aux f x rest : x < 16 * 128 ^ N.of_nat f -> u32_dec_aux (S f) (varint_enc (S f) x ++ rest) = Some (x, rest).
Proof.
  revert x. induction f as [|f IH]; intros x Hx.
  - cbn in Hx. cbn. replace (x <? 128) with true by (symmetry; apply N.ltb_lt; lia). cbn.
    replace (x <? 128) with true by (symmetry; apply N.ltb_lt; lia).
    by replace (15 <? x) with false by (symmetry; apply N.ltb_ge; lia).
  - change (varint_enc (S (S f)) x) with (if x <? 128 then [x] else (x mod 128 + 128) :: varint_enc (S f) (x / 128)).
    destruct (N.ltb_spec x 128).
    + cbn. by replace (x <? 128) with true by (symmetry; apply N.ltb_lt; lia).
    + change (u32_dec_aux (S (S f)) (((x mod 128 + 128) :: varint_enc (S f) (x / 128)) ++ rest)) with
        (if x mod 128 + 128 <? 128
         then (if (S f =? 0)%nat && (15 <? x mod 128 + 128) then None else Some (x mod 128 + 128, varint_enc (S f) (x / 128) ++ rest))
         else match u32_dec_aux (S f) (varint_enc (S f) (x / 128) ++ rest) with
              | Some (y, l) => Some (x mod 128 + 128 - 128 + 128 * y, l) | None => None end).
      rewrite (proj2 (N.ltb_ge (x mod 128 + 128) 128)) by apply N.le_add_l.
      rewrite IH.
      * f_equal. f_equal. pose proof (N.div_mod x 128 ltac:(lia)) as E. revert E. generalize (x mod 128) (x / 128). lia.
      * rewrite Nat2N.inj_succ, N.pow_succ_r' in Hx. apply N.div_lt_upper_bound; lia.
Qed.
Lemma u32_rt x rest : x < 2 ^ 32 -> u32_dec (u32_enc x ++ rest) = Some (x, rest).
Proof. intros H. apply u32_rt_aux. exact H. Qed.

Lemma zigzag_lt z : (- 2 ^ 31 <= z < 2 ^ 31)%Z -> zigzag z < 2 ^ 32.
Proof. intros H. unfold zigzag. destruct (Z.ltb_spec z 0); lia. Qed.
Lemma zigzag_rt z : unzigzag (zigzag z) = z.
Proof.
  unfold zigzag, unzigzag. destruct (Z.ltb_spec z 0).
  - replace (Z.to_N (- 2 * z - 1)) with (1 + 2 * Z.to_N (- z - 1)) by lia.
    rewrite N.odd_add_mul_2. cbn [N.odd xorb]. change (N.odd 1) with true. cbv iota.
    replace ((1 + 2 * Z.to_N (- z - 1)) / 2) with (Z.to_N (- z - 1)); [lia|].
    rewrite N.mul_comm, N.div_add by lia. change (1 / 2) with 0. change (0 / 2) with 0. lia.
  - replace (Z.to_N (2 * z)) with (0 + 2 * Z.to_N z) by lia.
    rewrite N.odd_add_mul_2. change (N.odd 0) with false. cbv iota.
    replace ((0 + 2 * Z.to_N z) / 2) with (Z.to_N z); [lia|].
    rewrite N.mul_comm, N.div_add by lia. change (1 / 2) with 0. change (0 / 2) with 0. lia.
Qed.
Lemma i32_rt z rest : (- 2 ^ 31 <= z < 2 ^ 31)%Z -> i32_dec (u32_enc (zigzag z) ++ rest) = Some (z, rest).
Proof. intros H. unfold i32_dec, bind, done_. rewrite u32_rt by (by apply zigzag_lt). by rewrite zigzag_rt. Qed.
Lemma kind_rt k rest : k < 10 -> kind_dec (u32_enc k ++ rest) = Some (k, rest).
Proof. intros H. unfold kind_dec, bind. rewrite u32_rt by lia. by replace (k <? 10) with true by (symmetry; apply N.ltb_lt; lia). Qed.
Lemma rid_rt r rest : rid_ok r -> rid_dec (rid_enc r ++ rest) = Some (r, rest).
Proof.
  intros [H1 H2]. unfold rid_dec, rid_enc, bind, done_. rewrite <- app_assoc, u64_rt by done. rewrite u32_rt by done. by destruct r.
Qed.
Lemma opt_rt {A} (P : A -> Prop) (e : A -> list N) (d : dec A) o rest :
  (forall x rest, P x -> d (e x ++ rest) = Some (x, rest)) -> opt_ok P o -> odec d (oenc e o ++ rest) = Some (o, rest).
Proof. intros H Ho. destruct o as [x|]; cbn; [|done]. unfold bind, done_. by rewrite H. Qed.

Section Codec.
Context {T : Type} (tenc : T -> list N) (tdec : dec T) (Htup : codec tenc tdec).
Notation payload := (payload tenc).
Notation to_bytes := (to_bytes tenc).
Notation rec_dec := (rec_dec tdec).
Notation from_bytes := (from_bytes tdec).

Lemma tup_rt o rest : odec tdec (oenc tenc o ++ rest) = Some (o, rest).
Proof. apply (opt_rt (fun _ => True)); [intros; apply Htup|by destruct o]. Qed.

Lemma rec_rt r rest : rec_ok r -> rec_dec (payload r ++ rest) = Some (r, rest).
Proof.
  intros [H1 H2 H3 H4 H5 H6 H7 H8 H9 H10]. unfold rec_dec, WrecModel.rec_dec, WrecModel.payload. rewrite <- !app_assoc.
  unfold bind at 1. rewrite i32_rt by done.
  unfold bind at 1. rewrite u64_rt by done.
  unfold bind at 1. rewrite u64_rt by done.
  unfold bind at 1. rewrite u64_rt by done.
  unfold bind at 1. rewrite kind_rt by done.
  unfold bind at 1. rewrite (opt_rt rid_ok) by (done || apply rid_rt).
  unfold bind at 1. rewrite tup_rt.
  unfold bind at 1. rewrite (opt_rt rid_ok) by (done || apply rid_rt).
  unfold bind at 1. rewrite tup_rt.
  unfold bind at 1. rewrite (opt_rt rid_ok) by (done || apply rid_rt).
  unfold bind at 1. rewrite tup_rt.
  unfold bind at 1. rewrite tup_rt.
  unfold bind at 1. rewrite (opt_rt u64_ok) by (done || apply u64_rt).
  unfold bind at 1. rewrite (opt_rt u64_ok) by (done || apply u64_rt).
  unfold done_. by destruct r.
Qed.

Lemma to_bytes_length r : length (to_bytes r) = (4 + length (payload r))%nat.
Proof. unfold WrecModel.to_bytes. by rewrite app_length, le_enc_length. Qed.
Lemma from_to r rest : rec_ok r -> from_bytes (to_bytes r ++ rest) = Some r.
Proof.
  intros H. unfold WrecModel.from_bytes. rewrite app_length, to_bytes_length.
  replace (4 + length (payload r) + length rest <? 4)%nat with false by (symmetry; apply Nat.ltb_ge; lia).
  unfold WrecModel.to_bytes. rewrite <- app_assoc, drop_app_alt by (by rewrite le_enc_length). by rewrite rec_rt.
Qed.

Lemma read_at_app (a b c : list N) n : n = N.of_nat (length b) -> read_at (a ++ b ++ c) (N.of_nat (length a)) n = Some b.
Proof.
  intros ->. unfold read_at. destruct (N.eqb_spec (N.of_nat (length b)) 0) as [E|E].
  - destruct b; [done|cbn in E; lia].
  - rewrite !app_length. replace (N.of_nat (length a) + N.of_nat (length b) <=? _) with true by (symmetry; apply N.leb_le; lia).
    by rewrite !Nat2N.id, drop_app, take_app.
Qed.
Lemma read_at_short (f : list N) off n : n <> 0 -> N.of_nat (length f) < off + n -> read_at f off n = None.
Proof.
  intros H1 H2. unfold read_at. replace (n =? 0) with false by (symmetry; by apply N.eqb_neq).
  by replace (off + n <=? N.of_nat (length f)) with false by (symmetry; apply N.leb_gt; lia).
Qed.

Definition fits (r : lrec T) : Prop := (N.of_nat (length (to_bytes r)) <= 1000000)%N.

Lemma header_of r rest a : fits r ->
  read_at (a ++ to_bytes r ++ rest) (N.of_nat (length a)) 4 = Some (le_enc 4 (N.of_nat (length (to_bytes r)))) /\
  le_dec (le_enc 4 (N.of_nat (length (to_bytes r)))) = N.of_nat (length (to_bytes r)).
Proof.
  intros Hf. split.
  - unfold WrecModel.to_bytes at 1. rewrite <- app_assoc. rewrite read_at_app; [|by rewrite le_enc_length].
    rewrite to_bytes_length. do 2 f_equal. lia.
  - apply le_dec_enc. unfold fits in Hf. change (256 ^ N.of_nat 4) with 4294967296. lia.
Qed.

(** A whole record at the iterator's place is returned. *)
Lemma next_here a r rest : rec_ok r -> l_kind r <> 0 -> fits r ->
  next tdec (a ++ to_bytes r ++ rest) (N.of_nat (length a)) = (Some r, N.of_nat (length (a ++ to_bytes r))).
Proof.
  intros Hok Hk Hf. unfold next. change 100%nat with (S 99). generalize 99%nat. intros att. cbn [next_loop].
  destruct (header_of r rest a Hf) as [-> ->].
  pose proof (to_bytes_length r) as Hl. unfold fits in Hf.
  replace (N.of_nat (length (to_bytes r)) =? 0) with false by (symmetry; apply N.eqb_neq; lia).
  replace (1000000 <? N.of_nat (length (to_bytes r))) with false by (symmetry; apply N.ltb_ge; lia).
  cbn [orb]. rewrite read_at_app by done.
  rewrite <- (app_nil_r (to_bytes r)) at 1. rewrite from_to by done.
  replace (l_kind r =? 0) with false by (symmetry; by apply N.eqb_neq).
  f_equal. rewrite app_length. lia.
Qed.
(** A record that is there only in part, and with not enough after it: the end. *)
Lemma next_torn a r k rest : fits r -> (k + length rest < length (to_bytes r))%nat -> (4 <= k)%nat \/ (k < 4)%nat /\ rest = [] ->
  exists off, next tdec (a ++ take k (to_bytes r) ++ rest) (N.of_nat (length a)) = (None, off).
Proof.
  intros Hf Hk Hc. unfold next. change 100%nat with (S 99). generalize 99%nat. intros att. cbn [next_loop].
  assert (length (take k (to_bytes r)) = k) as Hl by (rewrite take_length; lia).
  destruct Hc as [Hc|[Hc ->]].
  - assert (read_at (a ++ take k (to_bytes r) ++ rest) (N.of_nat (length a)) 4 = Some (le_enc 4 (N.of_nat (length (to_bytes r))))) as ->.
    { replace (take k (to_bytes r)) with (le_enc 4 (N.of_nat (length (to_bytes r))) ++ take (k - 4) (payload r)).
      - rewrite <- app_assoc. rewrite read_at_app; [done|by rewrite le_enc_length].
      - unfold WrecModel.to_bytes at 2. rewrite take_app_ge by (rewrite le_enc_length; lia). rewrite le_enc_length, to_bytes_length.
        do 2 f_equal. lia. }
    destruct (header_of r [] [] Hf) as [_ ->]. unfold fits in Hf.
    replace (N.of_nat (length (to_bytes r)) =? 0) with false by (symmetry; apply N.eqb_neq; lia).
    replace (1000000 <? N.of_nat (length (to_bytes r))) with false by (symmetry; apply N.ltb_ge; lia).
    cbn [orb]. rewrite read_at_short; [eauto|lia|]. rewrite !app_length, Hl. lia.
  - rewrite read_at_short; [eauto|lia|]. rewrite !app_length, Hl. cbn. lia.
Qed.
Lemma next_end f : next tdec f (N.of_nat (length f)) = (None, N.of_nat (length f)).
Proof. unfold next. change 100%nat with (S 99). generalize 99%nat. intros att. cbn [next_loop]. rewrite read_at_short by lia. done. Qed.

Definition good (r : lrec T) : Prop := rec_ok r /\ l_kind r <> 0 /\ fits r.
Definition bytes_of (rs : list (lrec T)) : list N := flat_map to_bytes rs.

Lemma bytes_of_le rs : (length rs <= length (bytes_of rs))%nat.
Proof. induction rs as [|r rs IH]; [done|]. change (bytes_of (r :: rs)) with (to_bytes r ++ bytes_of rs). rewrite app_length, to_bytes_length. cbn [length]. lia. Qed.

Lemma collect_good rs tail : Forall good rs ->
  (forall a, exists off, next tdec (a ++ tail) (N.of_nat (length a)) = (None, off)) ->
  forall n a, (length rs < n)%nat -> collect tdec n (a ++ bytes_of rs ++ tail) (N.of_nat (length a)) = rs.
Proof.
  intros Hg Ht. induction Hg as [|r rs (H1 & H2 & H3) Hg IH]; intros n a Hn; (destruct n as [|n]; [lia|]); cbn [collect].
  - cbn [bytes_of flat_map app]. by destruct (Ht a) as [off ->].
  - cbn [bytes_of flat_map]. fold (bytes_of rs). rewrite <- app_assoc, next_here by done.
    f_equal. rewrite (app_assoc a). apply IH. cbn in Hn. lia.
Qed.
End Codec.
