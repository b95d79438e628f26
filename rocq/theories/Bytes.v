(** Little-endian integer encoding on byte lists.

    Models the standard library's [to_le_bytes] / [from_le_bytes] used all over
    the storage code.  A byte is an [N] below 256; a machine integer of [k]
    bytes is an [N] below [256 ^ k]. *)
From Coq Require Import List NArith Lia Arith.
Import ListNotations.
Local Open Scope N_scope.

Definition is_byte (b : N) : Prop := b < 256.
Definition bytes_ok (l : list N) : Prop := Forall is_byte l.

(** [x.to_le_bytes()] for a [k]-byte unsigned integer. *)
Fixpoint le_enc (k : nat) (x : N) : list N :=
  match k with
  | O => []
  | S k' => (x mod 256) :: le_enc k' (x / 256)
  end.

(** [uN::from_le_bytes(l)]. *)
Fixpoint le_dec (l : list N) : N :=
  match l with
  | [] => 0
  | b :: t => b + 256 * le_dec t
  end.

Lemma le_enc_length k x : length (le_enc k x) = k.
Proof. revert x; induction k as [|k IH]; intros x; cbn; [reflexivity|]. now rewrite IH. Qed.

Lemma le_enc_bytes k x : bytes_ok (le_enc k x).
Proof.
  revert x; induction k as [|k IH]; intros x; cbn; [constructor|].
  constructor; [|apply IH]. unfold is_byte. apply N.mod_lt. discriminate.
Qed.

Lemma le_dec_enc k x : x < 256 ^ N.of_nat k -> le_dec (le_enc k x) = x.
Proof.
  revert x; induction k as [|k IH]; intros x Hx.
  - cbn in *. lia.
  - cbn [le_enc le_dec]. rewrite IH.
    + pose proof (N.div_mod x 256 ltac:(discriminate)) as E. lia.
    + rewrite Nat2N.inj_succ, N.pow_succ_r' in Hx.
      apply N.div_lt_upper_bound; [discriminate|exact Hx].
Qed.

Lemma le_dec_bound l : bytes_ok l -> le_dec l < 256 ^ N.of_nat (length l).
Proof.
  induction 1 as [|b t Hb Ht IH]; cbn [le_dec length].
  - cbn. lia.
  - rewrite Nat2N.inj_succ, N.pow_succ_r'. unfold is_byte in Hb. lia.
Qed.

Lemma le_enc_dec l : bytes_ok l -> le_enc (length l) (le_dec l) = l.
Proof.
  induction 1 as [|b t Hb Ht IH]; cbn [le_dec length le_enc]; [reflexivity|].
  unfold is_byte in Hb.
  replace (b + 256 * le_dec t) with (b + le_dec t * 256) by lia.
  rewrite N.mod_add, N.div_add by discriminate.
  rewrite N.mod_small, N.div_small, N.add_0_l by exact Hb. now rewrite IH.
Qed.

Lemma le_enc_inj k x y :
  x < 256 ^ N.of_nat k -> y < 256 ^ N.of_nat k -> le_enc k x = le_enc k y -> x = y.
Proof.
  intros Hx Hy E. rewrite <- (le_dec_enc k x Hx), <- (le_dec_enc k y Hy). now rewrite E.
Qed.

Lemma Forall_firstn {A} (P : A -> Prop) n l : Forall P l -> Forall P (firstn n l).
Proof. intros H. revert n. induction H; intros [|n]; cbn; constructor; auto. Qed.

Lemma Forall_skipn {A} (P : A -> Prop) n l : Forall P l -> Forall P (skipn n l).
Proof. intros H. revert n. induction H; intros [|n]; cbn; auto. Qed.
