(** What the methods a value has are to answer (property C131). *)

From Coq Require Import List ZArith String Ascii.
Import ListNotations.
Open Scope Z_scope.

(** A text is the list of its characters, each given by its code point. *)
Definition text := list Z.

Fixpoint of_string (s : string) : text :=
  match s with
  | EmptyString => []
  | String c r => Z.of_nat (nat_of_ascii c) :: of_string r
  end.

(** The kinds of integers a column can hold, and the numbers each can. *)
Inductive int_kind := Tiny | Small | Int | Big.

Definition bits (k : int_kind) : Z :=
  match k with Tiny => 8 | Small => 16 | Int => 32 | Big => 64 end.

Definition in_range (k : int_kind) (i : Z) : Prop :=
  - 2 ^ (bits k - 1) <= i < 2 ^ (bits k - 1).

(** The values: integers, texts of either kind, vectors, and all the others,
    which no method takes. *)
Inductive value :=
| Num (k : int_kind) (i : Z)
| Text (s : text)
| FixedText (s : text)
| Vec (l : list value)
| Other (n : nat).

Inductive answer := Value (v : value) | Failed.

(** The characters that fit in one byte. *)
Definition plain_char (c : Z) : Prop := 0 <= c < 128.
Definition character (c : Z) : Prop := 0 <= c < 1114112.

(** [<tag>body</tag>], where [close] stands for what follows the last [<]. *)
Definition lt : Z := 60.
Definition gt : Z := 62.

Definition element (tag body close : text) : text :=
  lt :: tag ++ gt :: body ++ lt :: close.

(** How a number is written: digits, with a sign in front or without. *)
Definition digit (d : Z) : Prop := 48 <= d <= 57.

Inductive digits : text -> Z -> Prop :=
| one_digit d : digit d -> digits [d] (d - 48)
| more_digits s v d : digits s v -> digit d -> digits (s ++ [d]) (10 * v + (d - 48)).

Inductive numeral : text -> Z -> Prop :=
| unsigned s v : digits s v -> numeral s v
| plus s v : digits s v -> numeral (43 :: s) v
| minus s v : digits s v -> numeral (45 :: s) (- v).

(** The names of the types [value] knows, once in capitals. *)
Definition text_type (upper : text -> text) (ty : text) : Prop :=
  exists n, In n ["NVARCHAR"; "VARCHAR"; "NVARCHAR(MAX)"; "VARCHAR(MAX)"]%string /\
            upper ty = of_string n.

Definition int_type (upper : text -> text) (ty : text) : Prop :=
  exists n, In n ["INT"; "INTEGER"]%string /\ upper ty = of_string n.
