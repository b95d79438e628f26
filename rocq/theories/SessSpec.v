(** * What committing and sessions must do

    Only the rows and the transactions' states are looked at: what a transaction that begins
    now would read, and whether a transaction has ended. *)
From stdpp Require Import gmap list.
From Coq Require Import NArith.
From Verif Require Import MvccModel.
Local Open Scope N_scope.

(** What a transaction begun now at level [i] reads of a row. *)
Definition next_reads (st : mv) (i : level) (rd : rid) : option tuple :=
  match begin i st with
  | (RBegan n _, st1) => read st1 n rd
  | _ => None
  end.

(** The pages on which a set of rows lies. *)
Definition pages_of (s : gset rid) : gset N := list_to_set (map fst (elements s)).

(** The row's current version was written by [t]. *)
Definition written_by (st : mv) (t : N) (rd : rid) : Prop :=
  exists m y, pg st !! rd = Some (m, y) /\ m_creator m = t.
