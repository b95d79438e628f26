(** Specification for C125: HAVING in a SELECT without GROUP BY and aggregates.  The
    SELECT list, the conditions and what they mean are those of QrySpec.v. *)
From Coq Require Import Strings.String List.
From Verif Require Import ExprModel QrySpec.
Import ListNotations.

(** [SELECT items FROM t WHERE w HAVING h]: of the rows that satisfy WHERE those that
    satisfy HAVING, as the SELECT list shows them.  The names in both conditions are those of
    the columns of the table. *)
Definition having_answer (cols : list string) (items : list sitem) (w : option nexpr) (h : nexpr)
    (rows ans : list row) : Prop :=
  exists kept held, keeps cols w rows kept /\ keeps cols (Some h) kept held /\
    Forall2 (shows cols items) held ans.

(** The query without its HAVING. *)
Definition without_having (items : list sitem) (w : option nexpr) : query :=
  Query false items w [] None None None.

(** Every column HAVING mentions is shown, and shown where the table has it. *)
Definition shown_in_place (cols : list string) (items : list sitem) (h : nexpr) : Prop :=
  forall c i, In c (mentions h) -> named cols c i ->
    exists a, nth_error (written_out cols items) i = Some (NCol c, a).
