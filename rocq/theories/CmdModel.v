(** * The statements carried out as commands

    Models src/sql/planner/query_planner.rs:363-514 (Q), src/sql/planner/plan_builder.rs:1879-2420
    and 2666-2998 (P), src/sql/planner/logical_plan.rs:3385-3547 (L),
    src/sql/execution/executors/command_executor.rs:111-311 (X),
    src/sql/execution/executors/rollback_transaction_executor.rs:303-347 (R),
    src/sql/execution/execution_engine.rs:564-640 (E) and
    src/catalog/catalog_impl.rs:365-393 (C).

    Simplifications: the query of a view is given by its columns or by None if it cannot be
    planned; the text of an ALTER VIEW after its name is left out (it is only shown); so are
    ONLY, ON CLUSTER, LOCATION, CASCADE and the words a change repeats; the parser gives every
    name at least one part; the transaction's rows are a list, [Write] adds one
    and aborting it gives back the rows it started with (both are modelled elsewhere); the optimizer
    passes commands on. *)
From Coq Require Import NArith Ascii String.
From stdpp Require Import list gmap.
From Verif Require Import CmdSpec.

(** The characters of a literal of the source. *)
Fixpoint lit (s : string) : list N :=
  match s with
  | EmptyString => []
  | String a s => N_of_ascii a :: lit s
  end.

(** Rust's char::is_whitespace. *)
Definition white (c : N) : bool :=
  (((9 <=? c) && (c <=? 13)) || (c =? 32) || (c =? 133) || (c =? 160) || (c =? 5760) ||
   ((8192 <=? c) && (c <=? 8202)) || (c =? 8232) || (c =? 8233) || (c =? 8239) || (c =? 8287) || (c =? 12288))%N%bool.
(** str::split_whitespace; [w] is the word being read. *)
Fixpoint words (w : list N) (s : list N) : list (list N) :=
  match s with
  | [] => match w with [] => [] | _ => [w] end
  | c :: s =>
      if white c then match w with [] => words [] s | _ => w :: words [] s end
      else words (w ++ [c]) s
  end.
Fixpoint skip_white (s : list N) : list N :=
  match s with
  | c :: r => if white c then skip_white r else s
  | [] => []
  end.
(** str::trim *)
Definition trim (s : list N) : list N := rev (skip_white (rev (skip_white s))).
(** str::starts_with *)
Fixpoint starts (p s : list N) : bool :=
  match p, s with
  | [], _ => true
  | a :: p, b :: s => ((a =? b)%N && starts p s)%bool
  | _, [] => false
  end.

(** C 365-375: create_database; true if it was not there. *)
Definition create_database (n : name) (w : world) : bool * world :=
  match dbs w !! n with
  | Some _ => (false, w)
  | None => (true, World (<[n := ∅]> (dbs w)) (cur w) (start w) (now w))
  end.
(** C 384-393: use_database; true if it is there. *)
Definition use_database (n : name) (w : world) : bool * world :=
  match dbs w !! n with
  | None => (false, w)
  | Some _ => (true, World (dbs w) (Some n) (start w) (now w))
  end.

(** X 174-214: true if there is a row of result, which there is whether or not the database was
    created. *)
Definition execute_create_database (cmd : list N) (w : world) : bool * world :=
  let parts := words [] cmd in
  let part i := default [] (parts !! i) in
  if decide (length parts < 3) then (false, w)
  else if decide (5 <= length parts /\ part 2 = lit "IF" /\ part 3 = lit "NOT" /\ part 4 = lit "EXISTS") then
    if decide (length parts < 6) then (false, w)
    else (true, (create_database (part 5) w).2)
  else (true, (create_database (part 2) w).2).
(** X 238-267 *)
Definition execute_use_database (cmd : list N) (w : world) : bool * world :=
  let parts := words [] cmd in
  if decide (length parts < 2) then (false, w)
  else (true, (use_database (default [] (parts !! 1)) w).2).
(** X 133-149 *)
Definition execute_command (cmd : list N) (w : world) : bool * world :=
  let command := trim cmd in
  if starts (lit "CREATE DATABASE") command then execute_create_database cmd w
  else if starts (lit "USE") command then execute_use_database cmd w
  else (true, w).

(** P 2092-2170: the text of a change. *)
Definition change_text (c : change) : list N :=
  match c with
  | AddColumn x => lit "ADD COLUMN " ++ x
  | DropColumn x => lit "DROP COLUMN " ++ x
  | RenameColumn x y => lit "RENAME COLUMN " ++ x ++ lit " TO " ++ y
  | RenameTable n => lit "RENAME TO " ++ n
  | OtherChange => lit "ALTER TABLE OPERATION"
  end.
Definition opt (b : bool) (s : string) : list N := if b then lit s else [].
(** P 2017, 2068: the first part of a name. *)
Definition first (parts : list name) : name := default [] (head parts).

Inductive plan := Command (text : list N) | RollbackPlan (savepoint : option name) | WritePlan (r : nat).
(** Q 363-514 with the functions of P and L it calls; None is an error. *)
Definition plan_of (c : command) (w : world) : option plan :=
  match c with
  | CreateDatabase parts ine => (* P 2001-2030, L 3444-3454 *)
      Some (Command (lit "CREATE DATABASE " ++ opt ine "IF NOT EXISTS " ++ first parts))
  | Use k parts => (* P 2959-2998, L 3544-3547 *)
      match k with
      | UDatabase | USchema | UObject | UCatalog => Some (Command (lit "USE " ++ first parts))
      | _ => None
      end
  | CreateSchema n ine => Some (Command (lit "CREATE SCHEMA " ++ opt ine "IF NOT EXISTS " ++ n))
  | AlterTable t cs => (* P 2054-2195, L 3456-3465: the first change alone is looked at *)
      match cs with
      | [] => None
      | x :: _ => Some (Command (lit "ALTER TABLE " ++ t ++ lit " " ++ change_text x))
      end
  | CreateView v cols q ine => (* P 2225-2314, L 3467-3478 *)
      let view := Command (lit "CREATE VIEW " ++ opt ine "IF NOT EXISTS " ++ v) in
      match tables w ≫= fun ts => ts !! v with
      | Some _ => if ine then match q with Some _ => Some view | None => None end else None
      | None =>
          match q with
          | Some qcols =>
              if decide (cols <> [] /\ length cols <> length qcols) then None else Some view
          | None => None
          end
      end
  | AlterView v cols q => (* P 2334-2420, L 3480-3489 *)
      match tables w ≫= fun ts => ts !! v with
      | Some _ =>
          match q with
          | Some qcols =>
              if decide (cols <> [] /\ length cols <> length qcols) then None
              else Some (Command (lit "ALTER VIEW " ++ v ++ lit " AS "))
          | None => None
          end
      | None => None
      end
  | ShowTables terse history extended full external within => (* P 2666-2711, L 3491-3513 *)
      Some (Command (lit "SHOW" ++ opt terse " TERSE" ++ opt history " HISTORY" ++ opt extended " EXTENDED" ++
        opt full " FULL" ++ opt external " EXTERNAL" ++ lit "TABLES" ++
        match within with Some n => lit " IN " ++ n | None => [] end))
  | ShowDatabases terse history => (* P 2724-2779, L 3515-3522 *)
      Some (Command (lit "SHOW DATABASES" ++ opt terse " TERSE" ++ opt history " HISTORY"))
  | ShowColumns extended full t => (* P 2798-2936, L 3524-3542 *)
      match t with
      | Some t => Some (Command (lit "SHOW" ++ opt extended " EXTENDED" ++ opt full " FULL" ++ lit "COLUMNS FROM " ++ t))
      | None => None
      end
  | Savepoint n => Some (Command (lit "SAVEPOINT " ++ n)) (* P 1898-1902, L 3403-3406 *)
  | Release n => Some (Command (lit "RELEASE SAVEPOINT " ++ n)) (* P 1913-1917, L 3408-3414 *)
  | Rollback to => Some (RollbackPlan to) (* P 1879-1887, L 3385-3401 *)
  | Drop _ => None (* Q 513: no DROP among the statements *)
  | Write r => Some (WritePlan r)
  end.
(** E 564-640 with R 303-347: of a command no row is written; a rollback aborts the
    transaction, whatever savepoint it names. *)
Definition run (c : command) (w : world) : answer * world :=
  match plan_of c w with
  | None => (Refused, w)
  | Some (Command text) => let (b, w') := execute_command text w in (Done b [], w')
  | Some (RollbackPlan _) => (Done true [], World (dbs w) (cur w) (start w) (start w))
  | Some (WritePlan r) => (Done true [], World (dbs w) (cur w) (start w) (now w ++ [r]))
  end.
Fixpoint run_all (cs : list command) (w : world) : list answer * world :=
  match cs with
  | [] => ([], w)
  | c :: cs => let (a, w1) := run c w in let (l, w2) := run_all cs w1 in (a :: l, w2)
  end.
