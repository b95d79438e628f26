(** * What the commands of SQL are for

    Written without reference to the code.  A name is a list of Unicode characters. *)
From Coq Require Import NArith.
From stdpp Require Import list gmap.

Definition name := list N.

(** One change of an ALTER TABLE. *)
Inductive change :=
| AddColumn (c : name) | DropColumn (c : name)
| RenameColumn (a b : name) | RenameTable (n : name)
| OtherChange.
(** What a USE names. *)
Inductive use_kind := UDatabase | USchema | UObject | UCatalog | UWarehouse | URole | USecondaryRoles | UDefault.
(** A query inside a view: the names of its columns, or none if it is no correct query. *)
Definition query := option (list name).

(** Names written with points, as in a.b, are lists of parts. *)
Inductive command :=
| CreateDatabase (parts : list name) (if_not_exists : bool)
| Use (k : use_kind) (parts : list name)
| CreateSchema (n : name) (if_not_exists : bool)
| AlterTable (t : name) (cs : list change)
| CreateView (v : name) (cols : list name) (q : query) (if_not_exists : bool)
| AlterView (v : name) (cols : list name) (q : query)
| ShowTables (terse history extended full external : bool) (within : option name)
| ShowDatabases (terse history : bool)
| ShowColumns (extended full : bool) (t : option name)
| Savepoint (n : name)
| Release (n : name)
| Rollback (to : option name)
| Drop (n : name)
| Write (row : nat).

(** What a user can find out: the databases, the tables and views of each and their columns;
    the database in use; and, for the transaction that is open, the rows when it started and
    the rows now. *)
Record world := World {
  dbs : gmap name (gmap name (list name));
  cur : option name;
  start : list nat;
  now : list nat
}.
Inductive answer := Refused | Done (any : bool) (rows : list (list name)).

Definition tables (w : world) : option (gmap name (list name)) := cur w ≫= fun n => dbs w !! n.
(** [w] with the tables of the database in use replaced. *)
Definition with_tables (w : world) (ts : gmap name (list name)) : world :=
  match cur w with
  | Some n => World (<[n := ts]> (dbs w)) (cur w) (start w) (now w)
  | None => w
  end.
Definition change_tables (t : name) (cols : list name) (c : change) (ts : gmap name (list name)) :
    option (gmap name (list name)) :=
  match c with
  | AddColumn x => if decide (x ∈ cols) then None else Some (<[t := cols ++ [x]]> ts)
  | DropColumn x => if decide (x ∈ cols) then Some (<[t := filter (fun y => y <> x) cols]> ts) else None
  | RenameColumn x y =>
      if decide (x ∈ cols /\ y ∉ cols) then Some (<[t := (fun z => if decide (z = x) then y else z) <$> cols]> ts)
      else None
  | RenameTable n => match ts !! n with None => Some (<[n := cols]> (delete t ts)) | Some _ => None end
  | OtherChange => None
  end.

(** The command [c] in [w] is obeyed: the answer is [a] and [w'] is what it leaves. *)
Definition refused (w : world) (a : answer) (w' : world) : Prop := a = Refused /\ w' = w.
Definition done (a : answer) (w' goal : world) : Prop := (exists b rows, a = Done b rows) /\ w' = goal.
Definition shown (a : answer) (xs : list name) : Prop := exists b rows, a = Done b rows /\ rows ≡ₚ ((fun x => [x]) <$> xs).
Definition obeyed (c : command) (w : world) (a : answer) (w' : world) : Prop :=
  match c with
  | CreateDatabase [n] ine =>
      match dbs w !! n with
      | None => done a w' (World (<[n := ∅]> (dbs w)) (cur w) (start w) (now w))
      | Some _ => if ine then done a w' w else refused w a w'
      end
  | Use (UDatabase | UObject) [n] =>
      match dbs w !! n with
      | Some _ => done a w' (World (dbs w) (Some n) (start w) (now w))
      | None => refused w a w'
      end
  | AlterTable t [c] =>
      match tables w ≫= fun ts => ts !! t ≫= fun cols => change_tables t cols c ts with
      | Some ts => done a w' (with_tables w ts)
      | None => refused w a w'
      end
  | CreateView v _ (Some qcols) _ =>
      match tables w with
      | Some ts => ts !! v = None -> exists cols, done a w' (with_tables w (<[v := cols]> ts))
      | None => refused w a w'
      end
  | ShowTables _ _ _ _ _ None =>
      match tables w with Some ts => w' = w /\ shown a (map_to_list ts).*1 | None => refused w a w' end
  | ShowDatabases _ _ => w' = w /\ shown a (map_to_list (dbs w)).*1
  | ShowColumns _ _ (Some t) =>
      match tables w ≫= fun ts => ts !! t with
      | Some cols => w' = w /\ shown a cols
      | None => refused w a w'
      end
  | Rollback None => done a w' (World (dbs w) (cur w) (start w) (start w))
  | Write r => done a w' (World (dbs w) (cur w) (start w) (now w ++ [r]))
  | _ => True (* what these mean is said by the theorems *)
  end.

(** A name without a space in it: not empty, and no character of it is white space. *)
Definition space (c : N) : Prop :=
  (9 <= c <= 13)%N \/ c = 32%N \/ c = 133%N \/ c = 160%N \/ c = 5760%N \/ (8192 <= c <= 8202)%N \/
  c = 8232%N \/ c = 8233%N \/ c = 8239%N \/ c = 8287%N \/ c = 12288%N.
Definition one_word (n : name) : Prop := n <> [] /\ Forall (fun c => ~ space c) n.
