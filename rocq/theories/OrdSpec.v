(** * What comparing two values means

    Written without reference to the code. *)
From Coq Require Import ZArith NArith List.
Import ListNotations.

(** Values that are not decimal or floating numbers.  Text and bytes are lists of bytes; a NULL
    remembers the kind of the column it stands in. *)
Inductive value :=
| Bool (b : bool) | Int (z : Z) | Timestamp (n : N) | Date (z : Z) | Time (z : Z) | Interval (z : Z)
| Varchar (s : list N) | Char (s : list N) | Binary (s : list N) | Json (s : list N) | Uuid (s : list N)
| Enum (z : Z) (name : list N)
| Vector (l : list value) | Array (l : list value)
| Null (kind : nat).

(** Dictionary order. *)
Inductive lex_before : list N -> list N -> Prop :=
| lb_prefix x l : lex_before [] (x :: l)
| lb_first x y l m : (x < y)%N -> lex_before (x :: l) (y :: m)
| lb_rest x l m : lex_before l m -> lex_before (x :: l) (x :: m).

(** Which value comes before which; values of different kinds, and lists, are not ordered. *)
Inductive before : value -> value -> Prop :=
| b_bool : before (Bool false) (Bool true)
| b_int a b : (a < b)%Z -> before (Int a) (Int b)
| b_timestamp a b : (a < b)%N -> before (Timestamp a) (Timestamp b)
| b_date a b : (a < b)%Z -> before (Date a) (Date b)
| b_time a b : (a < b)%Z -> before (Time a) (Time b)
| b_interval a b : (a < b)%Z -> before (Interval a) (Interval b)
| b_varchar s t : lex_before s t -> before (Varchar s) (Varchar t)
| b_char s t : lex_before s t -> before (Char s) (Char t)
| b_binary s t : lex_before s t -> before (Binary s) (Binary t)
| b_json s t : lex_before s t -> before (Json s) (Json t)
| b_uuid s t : lex_before s t -> before (Uuid s) (Uuid t)
| b_enum a b s t : (a < b)%Z -> before (Enum a s) (Enum b t)
| b_enum_name a s t : lex_before s t -> before (Enum a s) (Enum a t).

Definition is_null (v : value) : Prop := match v with Null _ => True | _ => False end.
Definition is_list (v : value) : Prop := match v with Vector _ | Array _ => True | _ => False end.
Definition scalar (v : value) : Prop := ~ is_null v /\ ~ is_list v.
(** Two values of the same kind. *)
Definition alike (v w : value) : Prop :=
  match v, w with
  | Bool _, Bool _ | Int _, Int _ | Timestamp _, Timestamp _ | Date _, Date _ | Time _, Time _
  | Interval _, Interval _ | Varchar _, Varchar _ | Char _, Char _ | Binary _, Binary _ | Json _, Json _
  | Uuid _, Uuid _ | Enum _ _, Enum _ _ | Vector _, Vector _ | Array _, Array _ => True
  | _, _ => False
  end.
(** No NULL in it, at any depth. *)
Inductive complete : value -> Prop :=
| k_scalar v : scalar v -> complete v
| k_vector l : Forall complete l -> complete (Vector l)
| k_array l : Forall complete l -> complete (Array l).
