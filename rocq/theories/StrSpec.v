(** * What the string functions mean

    In terms of characters, numbered from 1.  Nothing here uses the model's functions. *)
From Coq Require Import ZArith NArith List Bool.
From Verif Require Import StrModel.
Import ListNotations.
Open Scope Z_scope.

(** The characters whose number satisfies [P], the first of [s] having the number [p]. *)
Fixpoint keep (P : Z -> bool) (p : Z) (s : str) : str :=
  match s with
  | [] => []
  | c :: r => if P p then c :: keep P (p + 1) r else keep P (p + 1) r
  end.

Definition size (s : str) : Z := Z.of_nat (length s).

(** Where SUBSTRING starts: a negative number counts from the end, and what lies before
    the first character is the first character. *)
Definition first_char (s : str) (from : Z) : Z :=
  if from <? 0 then Z.max 1 (size s + from + 1) else Z.max 1 from.

(** SUBSTRING(s FROM from FOR len): the characters from [first_char] on, [len] of them. *)
Definition sql_substring (s : str) (from : Z) (len : option Z) : str :=
  keep (fun p => (first_char s from <=? p) &&
                 match len with None => true | Some l => p <? first_char s from + l end) 1 s.

(** [t] occurs in [s], its first character being number [p] of [s]. *)
Definition occurs (t s : str) (p : Z) : Prop := exists a b, s = a ++ t ++ b /\ p = size a + 1.

(** POSITION(t IN s): the first occurrence, or 0. *)
Definition is_position (t s : str) (p : Z) : Prop :=
  (p = 0 /\ forall q, ~ occurs t s q) \/
  (occurs t s p /\ forall q, occurs t s q -> p <= q).

(** [t] is [s] without the characters of [cs] at the sides asked for, and no others. *)
Definition is_trimmed (left right : bool) (cs s t : str) : Prop :=
  exists a b, s = a ++ t ++ b /\ Forall (fun c => In c cs) a /\ Forall (fun c => In c cs) b /\
    (if left then forall c r, t = c :: r -> ~ In c cs else a = []) /\
    (if right then forall c r, t = r ++ [c] -> ~ In c cs else b = []).

(** OVERLAY(s PLACING t FROM from FOR len): [len] characters from number [from] on are
    replaced with [t]. *)
Definition sql_overlay (s t : str) (from len : Z) : str :=
  keep (fun p => p <? from) 1 s ++ t ++ keep (fun p => from + len <=? p) 1 s.

(** A string of ASCII characters. *)
Definition ascii (s : str) : Prop := Forall (fun c => (c < 128)%N) s.
