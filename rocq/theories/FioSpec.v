(** * Specification: reading and writing parts of a file (C73, C74) *)
From Coq Require Import NArith Lia.
From stdpp Require Import list.
Local Open Scope nat_scope.

(** A file is its bytes; [f !! i] is byte [i], [None] beyond the end. *)
Notation file := (list N).

(** [f'] is [f] with [d] written at [off]: the bytes of the range are [d]'s, all others are [f]'s, a gap is filled with zeros. *)
Definition written (off : nat) (d : list N) (f f' : file) : Prop :=
  forall i, f' !! i =
    if decide (off <= i < off + length d) then d !! (i - off)
    else if decide (length f <= i < off) then Some 0%N else f !! i.
(** The same for a file whose write was cut short: some prefix of [d] was written. *)
Definition torn (off : nat) (d : list N) (f f' : file) : Prop :=
  exists n, n < length d /\ (if n =? 0 then f' = f else written off (take n d) f f').
(** The [len] bytes at [off], when the file has them all. *)
Definition holds (f : file) (off : nat) (b : list N) : Prop := forall i x, b !! i = Some x -> f !! (off + i) = Some x.

(** The result of a call: a value, an I/O error, or a panic. *)
Inductive res (A : Type) := Ok (a : A) | Err | Panic.
Arguments Ok {A} a. Arguments Err {A}. Arguments Panic {A}.

(** A page of the database file. *)
Definition PAGE : nat := 4096.
Definition page_bytes (f : file) (p : N) (b : list N) : Prop := length b = PAGE /\ holds f (N.to_nat p * PAGE) b.
