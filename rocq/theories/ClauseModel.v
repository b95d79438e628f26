(** * The plans of DELETE, UPDATE and INSERT ... SELECT

    Models build_delete_plan, build_update_plan and build_insert_plan of src/sql/planner/plan_builder.rs
    (P), and what the executors do with the plans.

    Simplifications: [parses e] is whether an expression can be resolved against the table's schema,
    [cols t] the columns of table [t] (None: no such table); RETURNING and ON CONFLICT are texts. The
    executors are those of C75 and C68, taken over a plain list of rows: src/sql/execution/executors/
    delete_executor.rs, update_executor.rs and insert_executor.rs drain their child and treat every row. *)
From Coq Require Import ZArith String.
From stdpp Require Import base list strings.
From Verif Require Import ClauseSpec.
Local Open Scope nat_scope.

Section plans.
  Context {expr row : Type}.
  Context (cols : string -> option (list string)) (parses : string -> expr -> bool).

  Inductive plan :=
    | PScan (t : string)
    | PFilter (e : expr) (child : plan)
    | PSelect (q : expr)
    | PDelete (t : string) (child : plan)
    | PUpdate (t : string) (set : list (nat * expr)) (child : plan)
    | PInsert (t : string) (child : plan).

  (** P 2616-2632 and 3202-3218: the scan and its filter. *)
  Definition scan_filter (t : string) (w : option expr) : option plan :=
    match w with
    | None => Some (PScan t)
    | Some e => if parses t e then Some (PFilter e (PScan t)) else None
    end.

  (** P 2563-2644. *)
  Definition build_delete (s : delete_stmt expr) : option plan :=
    match ds_from s with
    | [TR (Some t) 0] =>
        match cols t with
        | Some _ => match scan_filter t (ds_where s) with Some p => Some (PDelete t p) | None => None end
        | None => None
        end
    | _ => None
    end.

  (** P 3232-3245: the first column of that name. *)
  Fixpoint col_index (n : string) (cs : list string) : option nat :=
    match cs with
    | [] => None
    | c :: cs => if String.eqb c n then Some 0 else S <$> col_index n cs
    end.
  (** P 3221-3264; the joins of the table (3188) and the parameters with an underscore are not looked at. *)
  Fixpoint build_set (t : string) (cs : list string) (set : list (string * expr)) : option (list (nat * expr)) :=
    match set with
    | [] => Some []
    | (n, e) :: rest =>
        match col_index n cs with
        | Some i => if parses t e then match build_set t cs rest with Some r => Some ((i, e) :: r) | None => None end else None
        | None => None
        end
    end.
  (** P 3177-3273. *)
  Definition build_update (s : update_stmt expr) : option plan :=
    match t_name (us_table s) with
    | Some t =>
        match cols t with
        | Some cs =>
            match scan_filter t (us_where s) with
            | Some p => match build_set t cs (us_set s) with Some set => Some (PUpdate t set p) | None => None end
            | None => None
            end
        | None => None
        end
    | None => None
    end.

  (** P 3079-3148, for a source whose body is a SELECT: only query.body is planned. *)
  Definition build_insert (s : insert_stmt expr) : option plan :=
    match cols (is_table s) with
    | Some _ => if parses (is_table s) (is_query s) then Some (PInsert (is_table s) (PSelect (is_query s))) else None
    | None => None
    end.

  Context (truth : expr -> row -> option bool) (answer : expr -> list row) (assign : list (nat * expr) -> row -> row).
  (** filter_executor.rs: a row passes when the condition is true (see C50). *)
  Definition passes_filter (e : expr) (r : row) : bool := match truth e r with Some true => true | _ => false end.
  (** Which rows of the table the child of a DELETE or UPDATE yields. *)
  Fixpoint yields (p : plan) (r : row) : bool :=
    match p with
    | PFilter e c => yields c r && passes_filter e r
    | _ => true
    end.
  (** The table after the statement. *)
  Definition run_plan (p : plan) (table : list row) : list row :=
    match p with
    | PDelete _ c => List.filter (fun r => negb (yields c r)) table
    | PUpdate _ set c => map (fun r => if yields c r then assign set r else r) table
    | PInsert _ (PSelect q) => table ++ answer q
    | _ => table
    end.
End plans.
Arguments plan : clear implicits.
