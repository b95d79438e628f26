(** Model of column name resolution (C93): how the planner names the columns of
    a FROM clause and how it finds the column an identifier stands for. *)
From Coq Require Import Strings.String Strings.Ascii List Arith Bool.
Import ListNotations.
Open Scope string_scope.

(** A named table in a FROM clause: its name in the catalog, the alias given to
    it, its column names.
    Models sqlparser's TableFactor::Table as used by src/sql/planner/
    plan_builder.rs 1619-1640 together with the catalog schema of the table. *)
Record table_ref := TableRef {
  t_table : string;
  t_alias : option string;
  t_cols : list string
}.

(** str::contains('.') *)
Fixpoint contains_dot (s : string) : bool :=
  match s with
  | EmptyString => false
  | String a s' => Ascii.eqb a "." || contains_dot s'
  end.

(** str::split('.').collect() *)
Fixpoint split_dot (s : string) : list string :=
  match s with
  | EmptyString => [EmptyString]
  | String a s' =>
      if Ascii.eqb a "." then EmptyString :: split_dot s'
      else match split_dot s' with
           | p :: ps => String a p :: ps
           | [] => []
           end
  end.

(** str::starts_with, prefix first *)
Fixpoint starts_with (p s : string) : bool :=
  match p, s with
  | EmptyString, _ => true
  | String _ _, EmptyString => false
  | String a p', String b s' => Ascii.eqb a b && starts_with p' s'
  end.

(** Iterator::position *)
Fixpoint position {A} (f : A -> bool) (l : list A) : option nat :=
  match l with
  | [] => None
  | x :: l' => if f x then Some 0 else option_map S (position f l')
  end.

(** The column names a table scan produces.
    Models src/sql/planner/plan_builder.rs 1622-1639 (and the same code in
    build_table_scan, 1724-1745): with an alias every column without a dot is
    renamed alias.column, without an alias the names stay as they are. *)
Definition scan_columns (t : table_ref) : list string :=
  match t_alias t with
  | Some a =>
      map (fun c => if contains_dot c then c else a ++ "." ++ c) (t_cols t)
  | None => t_cols t
  end.

(** The column names of a FROM clause: the join of its items, left to right.
    Models src/sql/planner/plan_builder.rs 1471-1506 and 1534-1596 with
    src/sql/planner/logical_plan.rs 2198-2245 and src/catalog/schema.rs 475-532
    called without aliases (all of them concatenate the columns). *)
Definition from_columns (from : list table_ref) : list string :=
  concat (map scan_columns from).

(** Models src/catalog/schema.rs 304-311. *)
Definition get_column_index (cols : list string) (name : string) : option nat :=
  position (String.eqb name) cols.

(** Models src/catalog/schema.rs 339-383. *)
Definition get_qualified_column_index (cols : list string) (name : string)
  : option nat :=
  match get_column_index cols name with
  | Some i => Some i
  | None =>
      if contains_dot name then
        match split_dot name with
        | [t; c] =>
            match position (fun col => match split_dot col with
                                       | [a; b] => String.eqb a t && String.eqb b c
                                       | _ => false
                                       end) cols with
            | Some i => Some i
            | None => position (String.eqb c) cols
            end
        | _ => None
        end
      else
        position (fun col => match split_dot col with
                             | [_; b] => String.eqb b name
                             | _ => false
                             end) cols
  end.

(** An identifier in an expression: the index of the column, None for the error.
    Models src/sql/execution/expression_parser.rs 301-319. *)
Definition parse_identifier (cols : list string) (c : string) : option nat :=
  get_qualified_column_index cols c.

(** A reference [t.c] in an expression.
    Models src/sql/execution/expression_parser.rs 321-412. *)
Definition parse_compound (cols : list string) (t c : string) : option nat :=
  match get_qualified_column_index cols (t ++ "." ++ c) with
  | Some i => Some i
  | None =>
      match position (fun col => starts_with (t ++ ".") col &&
                                 match split_dot col with
                                 | [_; b] => String.eqb b c
                                 | _ => false
                                 end) cols with
      | Some i => Some i
      | None => get_column_index cols c
      end
  end.

(** The columns of a star in a SELECT list, as indices into the input row:
    [SELECT *] and [SELECT t.*] are the same case.
    Models src/sql/planner/plan_builder.rs 1113-1123. *)
Definition expand_star (cols : list string) (qualifier : option string) : list nat :=
  seq 0 (length cols).
