(** * What a user expects of the I/O engine *)
From Coq Require Import NArith Lia.
From stdpp Require Import gmap list.
From Verif Require Import WbufSpec.

Inductive kind := KRead (p : N) | KWrite (p : N) (d : bytes) | KSync.
Inductive ires := IOk (d : bytes) | IErr.
(** What callers see: a call is submitted (numbered in that order, with its priority and the clock reading), a call returns. *)
Inductive ev := ESub (id : nat) (k : kind) (prio at_ : N) | ERet (id : nat) (r : ires).

(** Call [i] wrote [d'] to page [p], and had not returned Ok in [t1]. *)
Definition not_older (tr t1 : list ev) (p : N) (d' : bytes) : Prop :=
  exists i a b, ESub i (KWrite p d') a b ∈ tr /\ forall r, ERet i (IOk r) ∉ t1.
(** No call other than those in [ids] writes page [p]. *)
Definition only_writers (tr : list ev) (p : N) (ids : list nat) : Prop :=
  forall i d a b, ESub i (KWrite p d) a b ∈ tr -> i ∈ ids.
