(** * What a join should return

    [on l r] says that the join condition is TRUE on the pair. *)
From Coq Require Import List Bool Permutation.
From Verif Require Import ExprModel.
Import ListNotations.

Section join.
  Context (on : row -> row -> bool) (lw rw : nat).

  (** All pairs that satisfy the condition. *)
  Definition inner_rows (L R : list row) : list row :=
    flat_map (fun l => map (fun r => l ++ r) (filter (on l) R)) L.

  (** The left (right) rows without a partner, padded with NULLs. *)
  Definition lonely_left (L R : list row) : list row := filter (fun l => negb (existsb (on l) R)) L.
  Definition lonely_right (L R : list row) : list row := filter (fun r => negb (existsb (fun l => on l r) L)) R.
  Definition pad_right (l : row) : row := l ++ repeat VNull rw.
  Definition pad_left (r : row) : row := repeat VNull lw ++ r.

  Definition left_rows (L R : list row) : list row := inner_rows L R ++ map pad_right (lonely_left L R).
  Definition right_rows (L R : list row) : list row := inner_rows L R ++ map pad_left (lonely_right L R).
  Definition full_rows (L R : list row) : list row :=
    inner_rows L R ++ map pad_left (lonely_right L R) ++ map pad_right (lonely_left L R).
End join.

(** All pairs. *)
Definition cross_rows (L R : list row) : list row := flat_map (fun l => map (fun r => l ++ r) R) L.

(** The pairs on which a condition is TRUE: not FALSE, not UNKNOWN. *)
Definition is_true_on (pred : row -> row -> res val) (l r : row) : bool :=
  match pred l r with Ok (VBool b) => b | _ => false end.
