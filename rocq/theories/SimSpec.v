(** * SIMILAR TO: what a pattern means (SQL:1999, 8.6)

    A character is its code, a text is the list of its characters. *)
From Coq Require Import NArith.
From stdpp Require Import base list.
Local Open Scope N_scope.

(** Regular expressions of SIMILAR TO. A class is a list of ranges; a single character c is the range (c, c). *)
Inductive sre :=
| SEps | SLit (c : N) | SOne | SMany
| SClass (neg : bool) (l : list (N * N))
| SSeq (a b : sre) | SAlt (a b : sre) | SStar (a : sre) | SPlus (a : sre) | SOpt (a : sre).

Definition in_ranges (l : list (N * N)) (c : N) : Prop := exists lo hi, (lo, hi) ∈ l /\ lo <= c /\ c <= hi.

(** The whole text matches the expression. *)
Inductive smatch : sre -> list N -> Prop :=
| MEps : smatch SEps []
| MLit c : smatch (SLit c) [c]
| MOne c : smatch SOne [c]
| MMany t : smatch SMany t
| MClass l c : in_ranges l c -> smatch (SClass false l) [c]
| MNotClass l c : ~ in_ranges l c -> smatch (SClass true l) [c]
| MSeq a b t u : smatch a t -> smatch b u -> smatch (SSeq a b) (t ++ u)
| MAltL a b t : smatch a t -> smatch (SAlt a b) t
| MAltR a b t : smatch b t -> smatch (SAlt a b) t
| MStar0 a : smatch (SStar a) []
| MStarS a t u : smatch a t -> smatch (SStar a) u -> smatch (SStar a) (t ++ u)
| MPlus a t u : smatch a t -> smatch (SStar a) u -> smatch (SPlus a) (t ++ u)
| MOpt0 a : smatch (SOpt a) []
| MOpt1 a t : smatch a t -> smatch (SOpt a) t.

(** The characters that have a meaning in a pattern: % ( ) * + - ? [ ] ^ _ { | } *)
Definition special : list N := [37; 40; 41; 42; 43; 45; 63; 91; 93; 94; 95; 123; 124; 125].

(** A character that stands for itself when the escape character is e. *)
Definition ordinary (e c : N) : Prop := c <> e /\ c ∉ special.

(** The text of the items of a class: c or lo-hi. *)
Inductive items (e : N) : list (N * N) -> list N -> Prop :=
| INil : items e [] []
| IOne c l w : ordinary e c -> items e l w -> items e ((c, c) :: l) (c :: w)
| IRange lo hi l w : ordinary e lo -> ordinary e hi -> lo < hi -> items e l w -> items e ((lo, hi) :: l) (lo :: 45 :: hi :: w).

(** An expression and a text it is written as, with escape character e. *)
Inductive written (e : N) : sre -> list N -> Prop :=
| WEps : written e SEps []
| WLit c : ordinary e c -> written e (SLit c) [c]
| WEsc c : written e (SLit c) [e; c]
| WOne : written e SOne [95]
| WMany : written e SMany [37]
| WClass l w : l <> [] -> items e l w -> written e (SClass false l) (91 :: w ++ [93])
| WNotClass l w : l <> [] -> items e l w -> written e (SClass true l) (91 :: 94 :: w ++ [93])
| WSeq a b v w : written e a v -> written e b w -> written e (SSeq a b) (v ++ w)
| WAlt a b v w : written e a v -> written e b w -> written e (SAlt a b) ([40] ++ v ++ [124] ++ w ++ [41])
| WStar a w : written e a w -> written e (SStar a) ([40] ++ w ++ [41; 42])
| WStar1 c : ordinary e c -> written e (SStar (SLit c)) [c; 42]
| WPlus a w : written e a w -> written e (SPlus a) ([40] ++ w ++ [41; 43])
| WPlus1 c : ordinary e c -> written e (SPlus (SLit c)) [c; 43]
| WOpt a w : written e a w -> written e (SOpt a) ([40] ++ w ++ [41; 63])
| WOpt1 c : ordinary e c -> written e (SOpt (SLit c)) [c; 63].
(** The escape character is not one of the special characters. *)
Definition good_escape (e : N) : Prop := e ∉ special.

(** Expressions without alternatives, repetitions, ranges and negated classes. *)
Fixpoint simple (r : sre) : Prop :=
  match r with
  | SEps | SLit _ | SOne | SMany => True
  | SClass neg l => neg = false /\ Forall (fun p => fst p = snd p) l
  | SSeq a b => simple a /\ simple b
  | _ => False
  end.

(** An operand: a value shown as the given text, or NULL. *)
Inductive operand := ONull | OText (t : list N).
Inductive answer := ABool (b : bool) | AError | APanic.
