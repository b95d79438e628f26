(** * Specification: compressing and decompressing (C72) *)
From Coq Require Import NArith.
From stdpp Require Import list.
Local Open Scope N_scope.

(** The algorithms a caller can choose. *)
Inductive algorithm := ANone | ALz4 | AZstd.

(** The property: what is compressed comes back. [None] as a result stands for a panic. *)
Definition round_trips (compress : algorithm -> N -> list N -> list N) (decompress : list N -> option (list N))
    (a : algorithm) (level : N) (data : list N) : Prop :=
  decompress (compress a level data) = Some data.

(** What we ask of an external codec: decoding its output gives the input back. *)
Definition codec (enc : list N -> list N) (dec : list N -> option (list N)) : Prop := forall d, dec (enc d) = Some d.
