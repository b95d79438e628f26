(** * What a user expects of the hash index *)
From stdpp Require Import list.

(** The entries inserted and not removed, oldest first. Keys may be inserted more than once. *)
Definition add_entry {K V} (k : K) (v : V) (m : list (K * V)) : list (K * V) := m ++ [(k, v)].
Fixpoint take_out {K V} `{EqDecision K} (k : K) (m : list (K * V)) : list (K * V) :=
  match m with [] => [] | e :: m => if decide (e.1 = k) then m else e :: take_out k m end.
Fixpoint first_value {K V} `{EqDecision K} (k : K) (m : list (K * V)) : option V :=
  match m with [] => None | e :: m => if decide (e.1 = k) then Some e.2 else first_value k m end.

(** Calls and answers. An insert that answers [false] has inserted nothing. *)
Inductive call (K V : Type) := CInsert (k : K) (v : V) | CGet (k : K) | CRemove (k : K).
Inductive answer (V : Type) := ADone (b : bool) | AValue (v : option V).
Arguments CInsert {_ _}. Arguments CGet {_ _}. Arguments CRemove {_ _}. Arguments ADone {_}. Arguments AValue {_}.

(** The answers are right, and the entries become [m']. *)
Definition right {K V} `{EqDecision K} (m : list (K * V)) (c : call K V) (a : answer V) (m' : list (K * V)) : Prop :=
  match c, a with
  | CInsert k v, ADone true => m' = add_entry k v m
  | CInsert k v, ADone false => m' = m
  | CGet k, AValue o => o = first_value k m /\ m' = m
  | CRemove k, ADone b => (b = true <-> is_Some (first_value k m)) /\ m' = take_out k m
  | _, _ => False
  end.
(** All the answers are right; the entries are [m] at first and [m'] in the end. *)
Inductive all_right {K V} `{EqDecision K} : list (K * V) -> list (call K V) -> list (answer V) -> list (K * V) -> Prop :=
| ar_nil m : all_right m [] [] m
| ar_cons m c cs a as' m1 m' : right m c a m1 -> all_right m1 cs as' m' -> all_right m (c :: cs) (a :: as') m'.
