(** * CREATE INDEX, from the statement to the catalog

    Models src/sql/planner/plan_builder.rs:1396-1447 (P), src/sql/planner/logical_plan.rs (the plan
    carries the fields over), src/sql/execution/executors/create_index_executor.rs:192-276 (E),
    src/catalog/database.rs:478-550 (D) and src/sql/execution/execution_engine.rs:433-479.

    Simplifications: one database; a table is its name and columns (table names are unique, C81);
    the entries of the new index are left out (C83); columns are plain names, since any other
    item's text is no column's name and is refused alike.  Storing the definition in the system
    catalog is left out (C82). *)
From Coq Require Import NArith List Bool.
From Verif Require Import CixSpec.
Import ListNotations.

Definition name_eqb (a b : name) : bool := if list_eq_dec N.eq_dec a b then true else false.

(** IndexInfo: the columns are positions in the table (key_attrs). *)
Record info := Info { i_name : name; i_table : name; i_attrs : list nat; i_unique : bool }.
Record catalog := Cat { c_tables : list table; c_indexes : list info }.

Definition underscore : N := 95.
Definition suffix : name := [95; 105; 100; 120]%N.
(** P 1409-1413: join("_"). *)
Fixpoint join (cs : list name) : name :=
  match cs with [] => [] | [c] => c | c :: cs => c ++ underscore :: join cs end.
(** P 1400-1417: "{table}_{columns}_idx". *)
Definition index_name (s : stmt) : name :=
  match s_name s with Some n => n | None => s_table s ++ underscore :: join (s_cols s) ++ suffix end.

Definition find_table (n : name) (ts : list table) : option table := find (fun t => name_eqb (t_name t) n) ts.
(** src/catalog/schema.rs:304-311. *)
Fixpoint column_index (c : name) (cs : list name) : option nat :=
  match cs with
  | [] => None
  | x :: cs => if name_eqb x c then Some 0 else match column_index c cs with Some i => Some (S i) | None => None end
  end.
(** P 1432-1438. *)
Fixpoint key_attrs (cols : list name) (cs : list name) : option (list nat) :=
  match cols with
  | [] => Some []
  | c :: cols =>
      match column_index c cs with
      | None => None
      | Some i => match key_attrs cols cs with Some l => Some (i :: l) | None => None end
      end
  end.
(** P 1396-1447: the UNIQUE of the statement is not part of the plan. *)
Record plan := Plan { p_name : name; p_table : name; p_attrs : list nat; p_if_not_exists : bool }.
Definition build (s : stmt) (c : catalog) : option plan :=
  match find_table (s_table s) (c_tables c) with
  | None => None
  | Some t => match key_attrs (s_cols s) (t_cols t) with
              | None => None
              | Some l => Some (Plan (index_name s) (s_table s) l (s_if_not_exists s))
              end
  end.

(** D 478-537. *)
Definition db_create (n t : name) (l : list nat) (unique : bool) (c : catalog) : option catalog :=
  match find_table t (c_tables c) with
  | None => None
  | Some _ => if existsb (fun i => name_eqb (i_name i) n) (c_indexes c) then None
              else Some (Cat (c_tables c) (c_indexes c ++ [Info n t l unique]))
  end.
(** E 192-276: every way ends without an error; the index is made with unique = false. *)
Definition execute (p : plan) (c : catalog) : catalog :=
  match find_table (p_table p) (c_tables c) with
  | None => c
  | Some _ =>
      if existsb (fun i => name_eqb (i_table i) (p_table p) && name_eqb (i_name i) (p_name p)) (c_indexes c) then c
      else match db_create (p_name p) (p_table p) (p_attrs p) false c with Some c' => c' | None => c end
  end.
(** execution_engine.rs:433-479: success whenever there was no error. *)
Definition create_index (s : stmt) (c : catalog) : answer * catalog :=
  match build s c with
  | None => (Refused, c)
  | Some p => (Done, execute p c)
  end.
Definition run (ss : list stmt) (c : catalog) : catalog := fold_left (fun c s => snd (create_index s c)) ss c.

(** The indexes as a user sees them: positions are read as the table's columns (D 540-550). *)
Definition columns_at (l : list nat) (cs : list name) : list name := map (fun i => nth i cs []) l.
Definition seen (c : catalog) : list idx :=
  map (fun i => Idx (i_name i) (i_table i)
                  (match find_table (i_table i) (c_tables c) with Some t => columns_at (i_attrs i) (t_cols t) | None => [] end)
                  (i_unique i)) (c_indexes c).
