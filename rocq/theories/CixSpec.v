(** * What CREATE INDEX means

    Written without reference to the code. *)
From Coq Require Import NArith List.
Import ListNotations.

(** Names are lists of characters. *)
Definition name := list N.
Record table := Table { t_name : name; t_cols : list name }.
(** CREATE [UNIQUE] INDEX [IF NOT EXISTS] [name] ON table (columns). *)
Record stmt := Stmt { s_name : option name; s_table : name; s_cols : list name; s_unique : bool; s_if_not_exists : bool }.

(** An index as a user sees it: its name, its table, the columns it is on, whether it is unique. *)
Record idx := Idx { x_name : name; x_table : name; x_cols : list name; x_unique : bool }.

(** What can be answered. *)
Inductive answer := Refused | Done.

(** The statement makes sense: the table is there and has the columns. *)
Definition sensible (ts : list table) (s : stmt) : Prop :=
  exists t, In t ts /\ t_name t = s_table s /\ forall c, In c (s_cols s) -> In c (t_cols t).
