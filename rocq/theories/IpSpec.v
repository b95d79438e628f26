(** * Specification: index pages as bytes (C112) *)
From Coq Require Import NArith.
From stdpp Require Import list.
Local Open Scope N_scope.

(** What a page of an index holds: the header names the root and counts; a leaf holds pairs, the next leaf and its capacity;
    an inner page holds keys, children and its capacity. *)
Record header_content := HC { c_root : N; c_height : N; c_count : N; c_order : N }.
Record leaf_content (K V : Type) := LC { c_pairs : list (K * V); c_next : option N; c_cap : N }.
Record inner_content (K : Type) := IC { c_keys : list K; c_children : list N; c_icap : N }.
Arguments LC {K V}. Arguments c_pairs {K V}. Arguments c_next {K V}. Arguments c_cap {K V}.
Arguments IC {K}. Arguments c_keys {K}. Arguments c_children {K}. Arguments c_icap {K}.

(** A page on disk is this many bytes; the first one names its kind; no page has the id [no_page]. *)
Definition page_bytes : nat := 4096.
Definition header_kind : N := 6.
Definition inner_kind : N := 7.
Definition leaf_kind : N := 8.
Definition no_page : N := 2 ^ 64 - 1.

(** A decoder that reads back what an encoder wrote, whatever follows. *)
Definition reads_back {A} (ok : A -> Prop) (enc : A -> list N) (dec : list N -> option (A * list N)) : Prop :=
  forall x rest, ok x -> dec (enc x ++ rest) = Some (x, rest).

(** An integer in [k] bytes, the least significant first. *)
Fixpoint in_bytes (k : nat) (x : N) : list N :=
  match k with O => [] | S k => x mod 256 :: in_bytes k (x / 256) end.
(** A field of variable length is preceded by its length. *)
Definition framed (f : list N) : list N := in_bytes 4 (N.of_nat (length f)) ++ f.

(** The bytes of a leaf: the number of pairs, the capacity, the next leaf, the pairs. *)
Definition leaf_bytes {K V} (kenc : K -> list N) (venc : V -> list N) (oenc : option N -> list N) (c : leaf_content K V)
    : list N :=
  in_bytes 8 (N.of_nat (length (c_pairs c))) ++ in_bytes 8 (c_cap c) ++ framed (oenc (c_next c)) ++
  concat (map (fun e : K * V => framed (kenc e.1) ++ framed (venc e.2)) (c_pairs c)).

(** A page whose bytes, but for the first, are zero. *)
Definition blank (image : list N) : Prop := length image = page_bytes /\ tail image = repeat 0 4095.
