(** * What START TRANSACTION asks for

    Written without reference to the code. *)
From Coq Require Import List.
Import ListNotations.

Section Modes.
Context {level : Type}.
(** The modes of START TRANSACTION or BEGIN: READ ONLY or READ WRITE; ISOLATION LEVEL. *)
Inductive mode := ReadOnly | ReadWrite | Isolation (l : level).

Definition no_level (ms : list mode) : Prop := forall l, ~ In (Isolation l) ms.
Definition no_access (ms : list mode) : Prop := ~ In ReadOnly ms /\ ~ In ReadWrite ms.
(** The level asked for: the last one named, and the default if there is none. *)
Inductive asked_level (default : level) (ms : list mode) : level -> Prop :=
| al_last before l after : ms = before ++ Isolation l :: after -> no_level after -> asked_level default ms l
| al_none : no_level ms -> asked_level default ms default.
(** Whether it is to be read only. *)
Inductive asked_read_only (ms : list mode) : Prop :=
| ro_last before after : ms = before ++ ReadOnly :: after -> no_access after -> asked_read_only ms.
End Modes.
Arguments mode : clear implicits.
