(** * Comparing values

    Models src/types_db/value.rs:1312-1630 (V; the six comparisons, where no decimal or float is
    involved), 1946-1960 (min and max), 2310-2380 (== and the order used for sorting) and the
    comparisons derived for Val (V 10-34).

    Simplifications: decimals, floats, points and structs are left out (see NumModel.v and
    FltModel.v); of the integers there is one size; the type a value carries is that of its
    content, for a NULL that of the column.  The arms of V for numbers of different types do not
    apply. *)
From Coq Require Import ZArith NArith List Bool.
From Verif Require Import OrdSpec.
Import ListNotations.

(** src/types_db/type_id.rs:12-36: the numbers of the types. *)
Definition type_id (v : value) : nat :=
  match v with
  | Bool _ => 0 | Int _ => 3 | Timestamp _ => 7 | Date _ => 8 | Time _ => 9 | Interval _ => 10
  | Varchar _ => 11 | Char _ => 12 | Binary _ => 13 | Json _ => 14 | Uuid _ => 15
  | Vector _ => 16 | Array _ => 17 | Enum _ _ => 18 | Null k => k
  end.

(** The derived order of byte strings. *)
Fixpoint lex (s t : list N) : comparison :=
  match s, t with
  | [], [] => Eq
  | [], _ :: _ => Lt
  | _ :: _, [] => Gt
  | x :: s, y :: t => match (x ?= y)%N with Eq => lex s t | c => c end
  end.
Definition bool_cmp (a b : bool) : comparison :=
  match a, b with false, true => Lt | true, false => Gt | _, _ => Eq end.

(** V 10: the derived partial_cmp on contents of the same variant, lists apart. *)
Definition val_cmp (v w : value) : option comparison :=
  match v, w with
  | Bool a, Bool b => Some (bool_cmp a b)
  | Int a, Int b | Date a, Date b | Time a, Time b | Interval a, Interval b => Some (a ?= b)%Z
  | Timestamp a, Timestamp b => Some (a ?= b)%N
  | Varchar s, Varchar t | Char s, Char t | Binary s, Binary t | Json s, Json t | Uuid s, Uuid t => Some (lex s t)
  | Enum a s, Enum b t => Some (match (a ?= b)%Z with Eq => lex s t | c => c end)
  | _, _ => None
  end.

(** V 2310-2333, Value::eq, with the derived equality of Val and of lists. *)
Fixpoint value_eq (v w : value) {struct v} : bool :=
  let fix all (l m : list value) : bool :=
    match l, m with
    | [], [] => true
    | x :: l, y :: m => value_eq x y && all l m
    | _, _ => false
    end in
  match v, w with
  | Null _, Null _ => true
  | Vector l, Vector m | Array l, Array m => all l m
  | _, _ => match val_cmp v w with Some Eq => true | _ => false end
  end.

(** CmpBool: [None] is CmpNull. *)
Definition cmp_bool := option bool.
Definition either_null (v w : value) : bool :=
  match v, w with Null _, _ | _, Null _ => true | _, _ => false end.
Definition either_list (v w : value) : bool :=
  match v, w with Vector _, _ | _, Vector _ | Array _, _ | _, Array _ => true | _, _ => false end.
Definition same_type (v w : value) : bool := Nat.eqb (type_id v) (type_id w).

(** V 1312-1362 and 1364-1413. *)
Definition equals (v w : value) : cmp_bool :=
  if either_null v w then None else if same_type v w then Some (value_eq v w) else Some false.
Definition not_equals (v w : value) : cmp_bool :=
  if either_null v w then None else if same_type v w then Some (negb (value_eq v w)) else Some true.
(** V 1415-1466, 1468-1521, 1523-1576 and 1578-1630. *)
Definition ordered (holds : comparison -> bool) (v w : value) : cmp_bool :=
  if either_null v w then None
  else if either_list v w then Some false
  else if same_type v w then Some (match val_cmp v w with Some c => holds c | None => false end)
  else Some false.
Definition less : value -> value -> cmp_bool := ordered (fun c => match c with Lt => true | _ => false end).
Definition less_eq : value -> value -> cmp_bool := ordered (fun c => match c with Gt => false | _ => true end).
Definition greater : value -> value -> cmp_bool := ordered (fun c => match c with Gt => true | _ => false end).
Definition greater_eq : value -> value -> cmp_bool := ordered (fun c => match c with Lt => false | _ => true end).

(** V 1946-1952 and 1954-1960; the NULL made is of type Invalid. *)
Definition min_of (v w : value) : value :=
  match less v w with Some true => v | Some false => w | None => Null 20 end.
Definition max_of (v w : value) : value :=
  match greater v w with Some true => v | Some false => w | None => Null 20 end.

(** V 2337-2380, the order used by ORDER BY, for contents that are not lists. *)
Definition sort_cmp (v w : value) : option comparison :=
  if value_eq v w then Some Eq
  else match v, w with
       | Null _, _ => Some Lt
       | _, Null _ => Some Gt
       | _, _ => if same_type v w then val_cmp v w else Some (Nat.compare (type_id v) (type_id w))
       end.
