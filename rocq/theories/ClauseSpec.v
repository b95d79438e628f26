(** * Statements that change data, clause by clause

    What DELETE, UPDATE and INSERT ... SELECT do to a table, given which rows satisfy the condition. *)
From Coq Require Import ZArith String.
From stdpp Require Import base list strings.
Local Open Scope nat_scope.

Section stmts.
  (** Expressions and rows are what they are elsewhere; here only their names matter. *)
  Context (expr row : Type).

  (** A table reference: its name ([None]: a subquery or the like) and how many tables are joined to it. *)
  Record tref := TR { t_name : option string; t_joins : nat }.

  Record delete_stmt := DS {
    ds_from : list tref; ds_where : option expr;
    ds_using : list tref; ds_order : list expr; ds_limit : option nat; ds_returning : list expr;
  }.
  Record update_stmt := US {
    us_table : tref; us_set : list (string * expr); us_where : option expr;
    us_from : list tref; us_limit : option nat; us_returning : list expr; us_or : option string;
  }.
  (** INSERT ... SELECT: [is_order] and [is_limit] are those of the query. *)
  Record insert_stmt := IS {
    is_table : string; is_query : expr; is_order : list expr; is_limit : option nat;
    is_on_conflict : option string; is_returning : list expr;
  }.

  (** Rows a statement's condition selects; no condition selects all. *)
  Definition selects (truth : expr -> row -> option bool) (w : option expr) (r : row) : bool :=
    match w with
    | None => true
    | Some e => match truth e r with Some true => true | _ => false end
    end.
  Definition kept (p : row -> bool) (rows : list row) : list row := List.filter p rows.

  (** DELETE: the rows that go are selected, the others stay in place, and their number is what the
      statement asks for: all of the selected ones, or at most LIMIT of them. *)
  Definition deletes (truth : expr -> row -> option bool) (s : delete_stmt) (before after : list row) : Prop :=
    exists gone, Permutation before (gone ++ after) /\ Forall (fun r => selects truth (ds_where s) r = true) gone /\
      length gone = match ds_limit s with
                    | None => length (kept (selects truth (ds_where s)) before)
                    | Some n => n `min` length (kept (selects truth (ds_where s)) before)
                    end.
  (** UPDATE: as many of the selected rows are rewritten as the statement asks for. *)
  Definition updates (truth : expr -> row -> option bool) (assign : list (string * expr) -> row -> row)
      (s : update_stmt) (before after : list row) : Prop :=
    exists which : list bool,
      length which = length before /\
      after = zip_with (fun (b : bool) r => if b then assign (us_set s) r else r) which before /\
      (forall i r, before !! i = Some r -> which !! i = Some true -> selects truth (us_where s) r = true) /\
      length (List.filter id which) = match us_limit s with
                                      | None => length (kept (selects truth (us_where s)) before)
                                      | Some n => n `min` length (kept (selects truth (us_where s)) before)
                                      end.
  (** INSERT ... SELECT: the answer of the query's body, or its first LIMIT rows in some order. *)
  Definition inserts (answer : expr -> list row) (s : insert_stmt) (before after : list row) : Prop :=
    exists new rest, after = before ++ new /\ Permutation (answer (is_query s)) (new ++ rest) /\
      length new = match is_limit s with
                   | None => length (answer (is_query s))
                   | Some n => n `min` length (answer (is_query s))
                   end.
End stmts.
Arguments DS {expr}. Arguments US {expr}. Arguments IS {expr}.
Arguments ds_from {expr}. Arguments ds_where {expr}. Arguments ds_using {expr}. Arguments ds_order {expr}.
Arguments ds_limit {expr}. Arguments ds_returning {expr}.
Arguments us_table {expr}. Arguments us_set {expr}. Arguments us_where {expr}. Arguments us_from {expr}.
Arguments us_limit {expr}. Arguments us_returning {expr}. Arguments us_or {expr}.
Arguments is_table {expr}. Arguments is_query {expr}. Arguments is_order {expr}. Arguments is_limit {expr}.
Arguments is_on_conflict {expr}. Arguments is_returning {expr}.
Arguments selects {expr row}. Arguments kept {row}. Arguments deletes {expr row}. Arguments updates {expr row}.
Arguments inserts {expr row}.
