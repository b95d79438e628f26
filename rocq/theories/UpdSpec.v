(** * Specification: UPDATE and DELETE change exactly the matching rows (C75) *)
From stdpp Require Import gmap list.
From Coq Require Import NArith.
From Verif Require Import MvccModel.
Local Open Scope N_scope.

(** A row after UPDATE ... SET f WHERE pick, given what the transaction saw of it before. *)
Definition updated (pick : tuple -> bool) (f : tuple -> option tuple) (before : option tuple) : option tuple :=
  match before with
  | Some y => if pick y then f y else Some y
  | None => None
  end.
(** A row after DELETE WHERE pick. *)
Definition remaining (pick : tuple -> bool) (before : option tuple) : option tuple :=
  match before with
  | Some y => if pick y then None else Some y
  | None => None
  end.
(** The rows of [slots] that match. *)
Definition matching (pick : tuple -> bool) (before : rid -> option tuple) (slots : list rid) : list rid :=
  List.filter (fun rd => match before rd with Some y => pick y | None => false end) slots.
