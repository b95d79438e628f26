(** * What an ordered index is: C38, C39 *)
From Coq Require Import ZArith Sorting.Permutation Sorting.Sorted.
From stdpp Require Import list.
From Verif Require Import ExprModel BtreeModel.
Open Scope nat_scope.

(** Order on the values of one type. *)
Definition key_le (a b : val) : Prop := val_cmp a b <> Datatypes.Gt.
Definition key_lt (a b : val) : Prop := val_cmp a b = Datatypes.Lt.
Definition entry_le (a b : entry) : Prop := key_le (fst a) (fst b).

Definition of_type (T : tid) (k : val) : Prop := type_of k = Some T.

(** Inserting entries one after the other: the answers and the index. *)
Fixpoint inserts (m : nat) (l : list entry) (ix : index) : option (list bool * index) :=
  match l with
  | [] => Some ([], ix)
  | (k, r) :: l =>
      match insert m ix k r with
      | None => None
      | Some (b, ix) => match inserts m l ix with Some (bs, ix) => Some (b :: bs, ix) | None => None end
      end
  end.

Fixpoint deletes (m : nat) (l : list entry) (ix : index) : option (list bool * index) :=
  match l with
  | [] => Some ([], ix)
  | (k, r) :: l =>
      match delete m ix k r with
      | None => None
      | Some (b, ix) => match deletes m l ix with Some (bs, ix) => Some (b :: bs, ix) | None => None end
      end
  end.

(** The entries whose operation answered [true]. *)
Fixpoint said_yes (l : list entry) (bs : list bool) : list entry :=
  match l, bs with
  | e :: l, b :: bs => if b : bool then e :: said_yes l bs else said_yes l bs
  | _, _ => []
  end.

(** The entries of a range, by the definition of one. *)
Definition in_range_b (lo hi : val) (incl : bool) (e : entry) : bool :=
  match val_cmp lo (fst e) with Datatypes.Gt => false | _ => true end &&
  match val_cmp (fst e) hi with Datatypes.Lt => true | Datatypes.Eq => incl | Datatypes.Gt => false end.

(** The trees on which inserting equal keys keeps the leaves in order: those with an even
    [order], such as the one the database uses (4). *)
Definition even_order (m : nat) : Prop := 4 <= m /\ exists s, m = 2 * s.
