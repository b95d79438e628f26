(** Specification for C93: which column of the rows of a FROM clause a name in
    an expression stands for, following the SQL standard.  Nothing here refers
    to the model. *)
From Coq Require Import Strings.String Strings.Ascii List Arith Bool.
Import ListNotations.
Open Scope string_scope.

(** One item of the FROM clause: the name it is known by in the rest of the
    query (its alias, or the table's own name when it has none) and the names
    of its columns. *)
Record source := Source { visible : string; columns : list string }.

(** The slots of a row of the FROM clause, in order: all columns of the first
    item, then all columns of the second one and so on.  A slot carries the
    name of its item and the name of its column. *)
Definition slots (sc : list source) : list (string * string) :=
  concat (map (fun s => map (pair (visible s)) (columns s)) sc).

(** [q.c] stands for slot [i]; [c] stands for slot [i]. *)
Definition qualified_at (sc : list source) (q c : string) (i : nat) : Prop :=
  nth_error (slots sc) i = Some (q, c).
Definition unqualified_at (sc : list source) (c : string) (i : nat) : Prop :=
  exists q, qualified_at sc q c i.

(** The right answer when the slots a reference may stand for are [at_slot]:
    the one slot if there is exactly one, an error if there is none (an
    unknown column) or more than one (an ambiguous reference). *)
Definition right_answer (at_slot : nat -> Prop) (o : option nat) : Prop :=
  match o with
  | Some i => at_slot i /\ (forall j, at_slot j -> j = i)
  | None => ~ (exists i, at_slot i /\ (forall j, at_slot j -> j = i))
  end.

(** Identifiers without a dot inside, as all unquoted ones are. *)
Definition dotless (s : string) : Prop := ~ In "."%char (list_ascii_of_string s).

(** Unquoted identifiers are the same name whatever the case of their
    letters. *)
Definition lower (a : ascii) : ascii :=
  let n := nat_of_ascii a in
  if Nat.leb 65 n && Nat.leb n 90 then ascii_of_nat (n + 32) else a.
Fixpoint same_name (a b : string) : bool :=
  match a, b with
  | EmptyString, EmptyString => true
  | String x a', String y b' => Ascii.eqb (lower x) (lower y) && same_name a' b'
  | _, _ => false
  end.
