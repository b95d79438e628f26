(** * What the directory of an extendible hash table is

    Written without reference to the code. *)
From Coq Require Import NArith List.
Local Open Scope N_scope.

(** A directory of depth [G] has 2^[G] entries; [depth i] is the depth of the bucket entry [i]
    points to and [page i] that bucket's page.  It is consistent if no bucket is deeper than the
    directory and two entries point to the same bucket exactly if their numbers agree in as many
    low bits as the bucket is deep; what entries of one bucket say about its depth is the same. *)
Definition consistent (G : N) (depth page : N -> N) : Prop :=
  (forall i, i < 2 ^ G -> depth i <= G) /\
  (forall i j, i < 2 ^ G -> j < 2 ^ G -> (page i = page j <-> i mod 2 ^ depth i = j mod 2 ^ depth i)) /\
  (forall i j, i < 2 ^ G -> j < 2 ^ G -> page i = page j -> depth i = depth j).

(** The page of a key with hash [h]. *)
Definition goes_to (G : N) (page : N -> N) (h : N) : N := page (h mod 2 ^ G).
