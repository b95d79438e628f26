(** * Specification: listing and checking an index (C121) *)
From Coq Require Import ZArith.
From stdpp Require Import list gmap sorting.

(** The keys of a map, each once and in ascending order. *)
Definition keys_of (m : gmap Z Z) (l : list Z) : Prop :=
  StronglySorted Z.lt l /\ forall k, k ∈ l <-> is_Some (m !! k).
