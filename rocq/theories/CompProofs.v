(** * Proofs about the compression engine *)
From Coq Require Import NArith Lia.
From stdpp Require Import list.
From Verif Require Import Bytes CompSpec CompModel.
Local Open Scope N_scope.

Lemma expand_plain l m : Forall (fun b => b <> 255) l -> expand (l ++ m) = l ++ expand m.
Proof.
  induction 1 as [|b l B _ IH]; [done|]. cbn [expand app].
  apply N.eqb_neq in B. by rewrite B, IH.
Qed.
Lemma expand_id l : Forall (fun b => b <> 255) l -> expand l = l.
Proof. intros F. rewrite <- (app_nil_r l) at 1. rewrite expand_plain by done. cbn [expand]. by rewrite app_nil_r. Qed.

Section Engine.
Context (ld zd : list N -> option (list N)).
(** Away from the magic bytes and from the six-byte form, decompression is the expansion. *)
Lemma decompress_expand c b rest : c = b :: rest -> b <> MAGIC_LZ4 -> b <> MAGIC_ZSTD -> b <> 255 ->
  decompress_data ld zd c = Some (expand c).
Proof.
  intros -> A B C. unfold decompress_data. apply N.eqb_neq in A, B. rewrite A, B.
  assert (b =? 255 = false) as D by by apply N.eqb_neq.
  destruct rest as [|x1 [|x2 [|x3 [|x4 [|x5 [|x6 r]]]]]]; cbn [expand]; rewrite ?D; cbn [andb]; done.
Qed.
End Engine.
