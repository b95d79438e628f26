(** * Specification: BETWEEN and IN (C120) *)
From Coq Require Import ZArith NArith QArith.
From stdpp Require Import list.
From Verif Require Import CastSpec NumSpec.
Local Close Scope Q_scope.

(** What a condition gives: an error (None), NULL (Some None), or a truth value. *)
Definition outcome := option (option bool).
Definition both (a b : outcome) : outcome :=
  match a, b with
  | None, _ | _, None => None
  | Some (Some false), _ | _, Some (Some false) => Some (Some false)
  | Some (Some true), Some (Some true) => Some (Some true)
  | _, _ => Some None
  end.
Definition either (a b : outcome) : outcome :=
  match a, b with
  | None, _ | _, None => None
  | Some (Some true), _ | _, Some (Some true) => Some (Some true)
  | Some (Some false), Some (Some false) => Some (Some false)
  | _, _ => Some None
  end.
Definition opposite (a : outcome) : outcome :=
  match a with Some (Some b) => Some (Some (negb b)) | _ => a end.
Definition negated (neg : bool) (a : outcome) : outcome := if neg then opposite a else a.

(** [x BETWEEN lo AND hi] is [x >= lo AND x <= hi]; [x IN (w1, ..., wn)] is [x = w1 OR ... OR x = wn]; NOT BETWEEN and NOT IN are
    the opposites. [cmp] is what the comparison of a column's value with a literal gives. *)
Definition between_means (cmp : cop -> val -> val -> outcome) (neg : bool) (x lo hi : val) : outcome :=
  negated neg (both (cmp Cge x lo) (cmp Cle x hi)).
Definition in_means (cmp : cop -> val -> val -> outcome) (neg : bool) (x : val) (l : list val) : outcome :=
  negated neg (foldr (fun w o => either (cmp Ceq x w) o) (Some (Some false)) l).

(** Two numbers of which neither is a FLOAT, and a whole one is written with at most 53 bits when the other is a DECIMAL. *)
Definition exact (v w : val) : Prop :=
  match v, w with
  | (VTiny _ | VSmall _ | VInt _ | VBig _), (VTiny _ | VSmall _ | VInt _ | VBig _) => True
  | (VTiny z | VSmall z | VInt z | VBig z), VDec _ _ => short 53 z
  | VDec _ _, (VTiny z | VSmall z | VInt z | VBig z) => short 53 z
  | VDec _ _, VDec _ _ => True
  | _, _ => False
  end.
