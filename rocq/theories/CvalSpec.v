(** * The constraint validator: what its answers should be

    A validator is shown rows one after the other and accepts or refuses each. *)
From Coq Require Import ZArith String.
From stdpp Require Import base list strings.
Local Open Scope nat_scope.

(** A column: name, NOT NULL, UNIQUE, in the primary key, and the text of its check. Values are NULL or
    integers. *)
Record vcol := VC { vn : string; vnn : bool; vun : bool; vpk : bool; vck : option string }.
Notation vrow := (list (option Z)) (only parsing).

(** The row has no NULL where none may be. *)
Definition no_nulls (cols : list vcol) (r : vrow) : Prop :=
  forall i c, cols !! i = Some c -> vnn c = true -> r !! i <> Some None.
(** Two rows agree on a UNIQUE column. *)
Definition unique_clash (cols : list vcol) (r r' : vrow) : Prop :=
  exists i c (z : Z), cols !! i = Some c /\ vun c = true /\ r !! i = Some (Some z) /\ r' !! i = Some (Some z).
(** Two rows agree on the whole primary key. *)
Definition key_clash (cols : list vcol) (r r' : vrow) : Prop :=
  (exists i c, cols !! i = Some c /\ vpk c = true) /\
  forall i c, cols !! i = Some c -> vpk c = true -> exists z : Z, r !! i = Some (Some z) /\ r' !! i = Some (Some z).
(** Given the rows accepted so far, and the meaning of checks, a row is to be accepted. *)
Definition acceptable (check : string -> Z -> bool) (cols : list vcol) (accepted : list vrow) (r : vrow) : Prop :=
  no_nulls cols r /\
  (forall r', r' ∈ accepted -> ~ unique_clash cols r r' /\ ~ key_clash cols r r') /\
  (forall i c e (z : Z), cols !! i = Some c -> vck c = Some e -> r !! i = Some (Some z) -> check e z = true).
