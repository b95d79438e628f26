(** * Specification: arrays (C101) *)
From Coq Require Import ZArith NArith.
From stdpp Require Import list.
From Verif Require Import CastSpec.
Local Open Scope Z_scope.

(** A value is a scalar or an array. *)
Inductive aval := Sc (v : val) | Vec (l : list aval).

Definition len {A} (l : list A) : Z := Z.of_nat (length l).
(** The whole number an index expression gives. *)
Definition integer (v : aval) : option Z :=
  match v with Sc (VTiny z) | Sc (VSmall z) | Sc (VInt z) | Sc (VBig z) => Some z | _ => None end.
(** [x] is element number [i]: from 0 on, and from -1 on backwards from the end. *)
Definition element {A} (l : list A) (i : Z) (x : A) : Prop :=
  (0 <= i /\ l !! Z.to_nat i = Some x) \/ (i < 0 /\ 0 <= len l + i /\ l !! Z.to_nat (len l + i) = Some x).
(** The position a bound of a slice means; one before the start is the start. *)
Definition position (n i : Z) : Z := if i <? 0 then Z.max 0 (n + i) else i.
(** [out] is the part of [l] from bound [s] to before bound [e] (the start and the end if they are left out); it is empty
    if these are not positions in [l], in this order. *)
Definition part {A} (l : list A) (s e : option Z) (out : list A) : Prop :=
  let a := match s with Some i => position (len l) i | None => 0 end in
  let b := match e with Some i => position (len l) i | None => len l end in
  if (a <=? b) && (b <=? len l)
  then len out = b - a /\ forall n x, out !! n = Some x -> l !! (Z.to_nat a + n)%nat = Some x
  else out = [].
(** Bounds and indexes for which the program is right. *)
Definition plain (i : Z) : Prop := - 2 ^ 31 < i < 2 ^ 31.
Definition array_size {A} (l : list A) : Prop := len l < 2 ^ 31.
