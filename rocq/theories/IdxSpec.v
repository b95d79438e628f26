(** * What iterating over an index should do: C40, C41 *)
From Coq Require Import ZArith.
From stdpp Require Import list.
From Verif Require Import ExprModel BtreeModel BtreeSpec IdxModel.
Open Scope nat_scope.

(** The answers of [n] calls of try_next, in order. *)
Fixpoint calls (ix : index) (n : nat) (it : iter) : option (list answer) :=
  match n with
  | 0 => Some []
  | S n => match try_next ix it with
           | None => None
           | Some (a, it) => option_map (cons a) (calls ix n it)
           end
  end.

(** The RIDs of [l], one after the other, and then the end for good: the first [n] answers. *)
Definition once (l : list entry) (n : nat) : list answer :=
  take n (map (fun e => ARid (snd e)) l ++ replicate n AEnd).

(** A table whose rows are all in the index under their first column. *)
Definition indexed_by (get : rid -> option row) (F : list entry) : Prop :=
  forall rd r, get rd = Some r -> exists k rest, r = k :: rest /\ In (k, rd) F /\ forall k', In (k', rd) F -> k' = k.

(** A row that satisfies all the conditions. *)
Definition satisfies (preds : list expr) (r : row) : Prop := forall e, In e preds -> eval e r = Ok (VBool true).

(** The rows with the key's entries in this order, as far as they satisfy the conditions. *)
Fixpoint rows_of (get : rid -> option row) (ok : row -> bool) (l : list entry) : list (row * rid) :=
  match l with
  | [] => []
  | (_, rd) :: l =>
      match get rd with
      | Some r => if ok r then (r, rd) :: rows_of get ok l else rows_of get ok l
      | None => rows_of get ok l
      end
  end.

(** ** Conditions whose range is found *)

(** Conjunctions of comparisons of the first column with constants of its type, and of conditions
    of other kinds. *)
Inductive key_conj (T : tid) : expr -> Prop :=
| kc_cmp op v : of_type T v -> key_conj T (ECmp op (ECol 0) (EConst v))
| kc_and a b : key_conj T a -> key_conj T b -> key_conj T (EAnd a b)
| kc_other e : match e with EAnd _ _ | EOr _ _ | ECmp _ _ _ => False | _ => True end -> key_conj T e.

(** Does the conjunction bound the column from below, and from above? *)
Fixpoint has_lo (e : expr) : bool :=
  match e with ECmp op _ _ => match op with Eq | Gt | Ge => true | _ => false end | EAnd a b => has_lo a || has_lo b | _ => false end.
Fixpoint has_hi (e : expr) : bool :=
  match e with ECmp op _ _ => match op with Eq | Lt | Le => true | _ => false end | EAnd a b => has_hi a || has_hi b | _ => false end.

(** Alternatives each of which bounds the column on both sides. *)
Inductive key_alt (T : tid) : expr -> Prop :=
| ka_conj e : key_conj T e -> has_lo e = true -> has_hi e = true -> key_alt T e
| ka_or a b : key_alt T a -> key_alt T b -> key_alt T (EOr a b).

Definition key_preds (T : tid) (preds : list expr) : Prop :=
  Forall (key_conj T) preds \/ exists e, preds = [e] /\ key_alt T e.

(** The bounds do not exclude the key. *)
Definition covers (b : option val * option val) (k : val) : Prop :=
  (forall lo, fst b = Some lo -> key_le lo k) /\ (forall hi, snd b = Some hi -> key_le k hi).

(** The rows a table scan with these conditions keeps. *)
Definition all_true (preds : list expr) (r : row) : bool := forallb (fun e => where_pass e r) preds.
