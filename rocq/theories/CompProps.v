(** * C72: what is compressed comes back *)
From Coq Require Import NArith Lia.
From stdpp Require Import list.
From Verif Require Import Bytes CompSpec CompModel CompProofs.
Local Open Scope N_scope.

(** With LZ4 and with Zstd the data comes back, at every level, for all data and whatever the other codec does. *)
Theorem compress_coded_partial le ld ze zd a level data :
  codec le ld -> (forall l, codec (ze l) zd) -> a <> ANone ->
  round_trips (compress_data le ze) (decompress_data ld zd) a level data.
Proof.
  intros L Z A. unfold round_trips, compress_data, compress_lz4, compress_zstd.
  destruct a; [done| |]; (destruct data as [|b data]; [done|]); cbn [decompress_data].
  - change (MAGIC_LZ4 =? MAGIC_LZ4) with true. cbn. apply L.
  - change (MAGIC_ZSTD =? MAGIC_LZ4) with false. change (MAGIC_ZSTD =? MAGIC_ZSTD) with true. cbn. apply Z.
Qed.
Print Assumptions compress_coded_partial.
(** The hypotheses can be met: codecs that prefix a length byte. *)
Example compress_coded_ex :
  let enc := fun d : list N => N.of_nat (length d) :: d in
  let dec := fun d : list N => match d with [] => None | _ :: d => Some d end in
  codec enc dec /\ decompress_data dec dec (compress_data enc (fun _ => enc) ALz4 6 [240; 1; 255; 0]) = Some [240; 1; 255; 0].
Proof. split; [intros d; done|done]. Qed.

(** With no compression the data comes back if it does not start with 0xF0 or 0xF1 and has no byte 0xFF,
    except as its last byte, or as its last but one when the last is neither 0x00 nor 0xFE. *)
Theorem compress_none_partial le ld ze zd level pre suf :
  Forall (fun b => b <> 255) pre -> head (pre ++ suf) <> Some 240 -> head (pre ++ suf) <> Some 241 ->
  suf = [] \/ suf = [255] \/ (exists c, suf = [255; c] /\ c <> 0 /\ c <> 254) ->
  round_trips (compress_data le ze) (decompress_data ld zd) ANone level (pre ++ suf).
Proof.
  intros F H1 H2 S. unfold round_trips, compress_data.
  assert (expand (pre ++ suf) = pre ++ suf) as E.
  { rewrite expand_plain by done. f_equal. destruct S as [-> | [-> | (c & -> & C1 & C2)]]; [done|done|].
    cbn [expand]. apply N.eqb_neq in C1, C2. change (255 =? 255) with true. cbn iota. rewrite C1, C2. by destruct (c =? 255) eqn:X; [apply N.eqb_eq in X as ->|]. }
  destruct pre as [|b rest].
  - destruct S as [-> | [-> | (c & -> & C1 & C2)]]; [done|done|]. cbn [app] in *. unfold decompress_data.
    change (255 =? MAGIC_LZ4) with false. change (255 =? MAGIC_ZSTD) with false. cbn iota. by rewrite E.
  - pose proof F as F0. apply Forall_cons in F0 as [B _].
    rewrite (decompress_expand ld zd _ b (rest ++ suf)); [by rewrite E|done| | |done]; intros ->; [by apply H1|by apply H2].
Qed.
Print Assumptions compress_none_partial.
Example compress_none_ex : Forall (fun b => b <> 255) [1; 2; 240; 0] /\ head [1; 2; 240; 0] <> Some 240.
Proof. split; [repeat constructor; discriminate|discriminate]. Qed.

(** With no compression, data that has 0xFF 0x00 among other bytes loses the zero: it never comes back, whatever the codecs do. *)
Theorem compress_none_ff_refuted le ld ze zd level pre suf b :
  head pre = Some b -> b <> 240 -> b <> 241 ->
  Forall (fun b => b <> 255) pre -> Forall (fun b => b <> 255) suf ->
  decompress_data ld zd (compress_data le ze ANone level (pre ++ [255; 0] ++ suf)) = Some (pre ++ [255] ++ suf) /\
  ~ round_trips (compress_data le ze) (decompress_data ld zd) ANone level (pre ++ [255; 0] ++ suf).
Proof.
  intros H A B F1 F2.
  assert (decompress_data ld zd (compress_data le ze ANone level (pre ++ [255; 0] ++ suf)) = Some (pre ++ [255] ++ suf)) as E.
  { destruct pre as [|x pre]; [done|]. cbn in H. injection H as ->. unfold compress_data.
    apply Forall_cons in F1 as F3. destruct F3 as [X _].
    rewrite (decompress_expand ld zd _ b (pre ++ [255; 0] ++ suf)); [|done..].
    rewrite expand_plain by done. cbn [app expand]. change (255 =? 255) with true. change (0 =? 0) with true. cbn [andb].
    by rewrite expand_id. }
  split; [done|]. unfold round_trips. rewrite E. intros W.
  assert (pre ++ [255] ++ suf = pre ++ [255; 0] ++ suf) as W2 by congruence.
  apply app_inv_head in W2. cbn in W2. apply (f_equal length) in W2. cbn in W2. lia.
Qed.
Print Assumptions compress_none_ff_refuted.
Example compress_none_ff_ex le ld ze zd :
  decompress_data ld zd (compress_data le ze ANone 0 [7; 255; 0; 9]) = Some [7; 255; 9].
Proof. done. Qed.

(** With no compression, 0xFF c d is read as a run of c bytes d, and 0xFF 0xFE is dropped: such data never comes back. *)
Theorem compress_none_run_refuted le ld ze zd level pre suf b c d :
  head pre = Some b -> b <> 240 -> b <> 241 ->
  Forall (fun b => b <> 255) pre -> Forall (fun b => b <> 255) suf -> c <> 0 -> c <> 254 -> d <> 255 ->
  decompress_data ld zd (compress_data le ze ANone level (pre ++ [255; c; d] ++ suf)) = Some (pre ++ replicate (N.to_nat c) d ++ suf) /\
  ~ round_trips (compress_data le ze) (decompress_data ld zd) ANone level (pre ++ [255; c; d] ++ suf).
Proof.
  intros H A B F1 F2 C1 C2 D.
  assert (decompress_data ld zd (compress_data le ze ANone level (pre ++ [255; c; d] ++ suf)) = Some (pre ++ replicate (N.to_nat c) d ++ suf)) as E.
  { destruct pre as [|x pre]; [done|]. cbn in H. injection H as ->. unfold compress_data.
    apply Forall_cons in F1 as F3. destruct F3 as [X _].
    rewrite (decompress_expand ld zd _ b (pre ++ [255; c; d] ++ suf)); [|done..].
    rewrite expand_plain by done. cbn [app expand]. change (255 =? 255) with true. apply N.eqb_neq in C1 as K1, C2 as K2. cbn iota. rewrite K1, K2.
    by rewrite expand_id. }
  split; [done|]. unfold round_trips. rewrite E. intros W.
  assert (pre ++ replicate (N.to_nat c) d ++ suf = pre ++ [255; c; d] ++ suf) as W2 by congruence.
  apply app_inv_head in W2. destruct (N.to_nat c) as [|n] eqn:En; [lia|]. cbn in W2. injection W2 as W2 _. done.
Qed.
Print Assumptions compress_none_run_refuted.

Theorem compress_none_drop_refuted le ld ze zd level pre suf b :
  head pre = Some b -> b <> 240 -> b <> 241 ->
  Forall (fun b => b <> 255) pre -> Forall (fun b => b <> 255) suf ->
  decompress_data ld zd (compress_data le ze ANone level (pre ++ [255; 254] ++ suf)) = Some (pre ++ suf) /\
  ~ round_trips (compress_data le ze) (decompress_data ld zd) ANone level (pre ++ [255; 254] ++ suf).
Proof.
  intros H A B F1 F2.
  assert (decompress_data ld zd (compress_data le ze ANone level (pre ++ [255; 254] ++ suf)) = Some (pre ++ suf)) as E.
  { destruct pre as [|x pre]; [done|]. cbn in H. injection H as ->. unfold compress_data.
    apply Forall_cons in F1 as F3. destruct F3 as [X _].
    rewrite (decompress_expand ld zd _ b (pre ++ [255; 254] ++ suf)); [|done..].
    rewrite expand_plain by done. cbn [app expand]. change (255 =? 255) with true. change (254 =? 0) with false. change (254 =? 254) with true. cbn iota.
    by rewrite expand_id. }
  split; [done|]. unfold round_trips. rewrite E. intros W.
  assert (pre ++ suf = pre ++ [255; 254] ++ suf) as W2 by congruence.
  apply app_inv_head in W2. apply (f_equal length) in W2. cbn in W2. lia.
Qed.
Print Assumptions compress_none_drop_refuted.
Example compress_none_run_ex le ld ze zd :
  decompress_data ld zd (compress_data le ze ANone 0 [7; 255; 3; 9; 1]) = Some [7; 9; 9; 9; 1] /\
  decompress_data ld zd (compress_data le ze ANone 0 [7; 255; 254; 1]) = Some [7; 1] /\
  round_trips (compress_data le ze) (decompress_data ld zd) ANone 0 ([7; 8] ++ [255; 9]).
Proof.
  split; [done|]. split; [done|]. apply compress_none_partial; [repeat constructor; discriminate|discriminate|discriminate|].
  right. right. exists 9. repeat split; discriminate.
Qed.

(** With no compression, data that starts with 0xF0 is given to the LZ4 decoder; if that does not accept it, the call panics. *)
Theorem compress_none_magic_refuted le ld ze zd level rest :
  ld rest = None -> decompress_data ld zd (compress_data le ze ANone level (240 :: rest)) = None.
Proof. intros H. unfold compress_data, decompress_data. change (240 =? MAGIC_LZ4) with true. done. Qed.
Print Assumptions compress_none_magic_refuted.

(** With no compression, six bytes 0xFF 0xFE n come back as n zeros. *)
Theorem compress_none_zeros_refuted le ld ze zd level n : n < 2 ^ 32 ->
  decompress_data ld zd (compress_data le ze ANone level ([255; 254] ++ le_enc 4 n)) = Some (replicate (N.to_nat n) 0) /\
  ~ round_trips (compress_data le ze) (decompress_data ld zd) ANone level ([255; 254] ++ le_enc 4 n).
Proof.
  intros L.
  assert (decompress_data ld zd (compress_data le ze ANone level ([255; 254] ++ le_enc 4 n)) = Some (replicate (N.to_nat n) 0)) as E.
  { unfold compress_data. pose proof (le_dec_enc 4 n L) as D. cbn [le_enc app] in *.
    unfold decompress_data. change (255 =? MAGIC_LZ4) with false. change (255 =? MAGIC_ZSTD) with false. cbn [andb].
    change (255 =? 255) with true. change (254 =? 254) with true. cbn [andb]. by rewrite D. }
  split; [done|]. unfold round_trips. rewrite E. intros W.
  assert (replicate (N.to_nat n) 0 = [255; 254] ++ le_enc 4 n) as W2 by congruence.
  destruct (N.to_nat n); [done|]. cbn in W2. discriminate.
Qed.
Print Assumptions compress_none_zeros_refuted.
