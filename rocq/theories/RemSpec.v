(** * Specification: remainder and concatenation (C97) *)
From Coq Require Import ZArith.
From stdpp Require Import list.
From Verif Require Import CastSpec NumSpec.
Local Open Scope Z_scope.

(** What an SQL expression gives: a value, an error, or the end of the thread. *)
Inductive outcome := Gives (v : val) | Fails | Panics.

(** [r] is the remainder of [a] by [b]: what is left after taking away a multiple of [b],
    smaller than [b], with the sign of [a]. *)
Definition remainder (a b r : Z) : Prop :=
  (exists q, a = b * q + r) /\ Z.abs r < Z.abs b /\ 0 <= r * a.

(** A value that is a number of some integer type. *)
Definition is_number (o : outcome) : Prop := exists v x, o = Gives v /\ number v = Some x.
