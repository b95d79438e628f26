(** * What a catalog is: C81, C82, C83 *)
From stdpp Require Import strings gmap list.
From Coq Require Import NArith.
From Verif Require Import CatModel.

(** A database: its tables and its indexes (with the table, the key columns, and whether it is
    unique), by name. *)
Record sdb := SDb { s_tables : gmap string schema; s_indexes : gmap string (string * list nat * bool) }.
Record spec := Spec { s_dbs : gmap string sdb; s_cur : string }.

Definition spec0 : spec := Spec {[ "default"%string := SDb ∅ ∅ ]} "default"%string.

(** A table may be created if its name is free and its foreign keys refer to columns of tables of
    the database. *)
Definition may_create (d : sdb) (n : string) (sc : schema) : Prop :=
  s_tables d !! n = None /\
  forall c t x, In c sc -> c_fk c = Some (t, x) ->
    exists (sc2 : schema) c2, s_tables d !! t = Some sc2 /\ In c2 sc2 /\ c_name c2 = x.

(** A statement either does what it says and answers [true], or changes nothing. *)
Definition either (P : Prop) (b : bool) (s s2 after : spec) : Prop :=
  (P /\ b = true /\ s2 = after) \/ (~ P /\ b = false /\ s2 = s).

Definition sstep (o : op) (s : spec) (b : bool) (s2 : spec) : Prop :=
  match o with
  | ODatabase n => either (s_dbs s !! n = None) b s s2 (Spec (<[n := SDb ∅ ∅]> (s_dbs s)) (s_cur s))
  | OUse n => either (is_Some (s_dbs s !! n)) b s s2 (Spec (s_dbs s) n)
  | OTable n sc _ _ =>
      exists d, s_dbs s !! s_cur s = Some d /\
        either (may_create d n sc) b s s2
          (Spec (<[s_cur s := SDb (<[n := sc]> (s_tables d)) (s_indexes d)]> (s_dbs s)) (s_cur s))
  | OIndex n t attrs u _ =>
      exists d, s_dbs s !! s_cur s = Some d /\
        either (s_indexes d !! n = None /\ is_Some (s_tables d !! t)) b s s2
          (Spec (<[s_cur s := SDb (s_tables d) (<[n := (t, attrs, u)]> (s_indexes d))]> (s_dbs s)) (s_cur s))
  end.

Inductive srun : list op -> spec -> list bool -> spec -> Prop :=
| srun_nil s : srun [] s [] s
| srun_cons o ops s b s1 bs s2 : sstep o s b s1 -> srun ops s1 bs s2 -> srun (o :: ops) s (b :: bs) s2.

(** The definition of a table, by database and name. *)
Definition sp_table (s : spec) (d n : string) : option schema :=
  match s_dbs s !! d with Some x => s_tables x !! n | None => None end.

(** [i] is an index of table [t] of database [d]. *)
Definition sp_index (s : spec) (d n t : string) (attrs : list nat) (u : bool) : Prop :=
  exists x, s_dbs s !! d = Some x /\ s_indexes x !! n = Some (t, attrs, u).

(** Histories in which no database is created, and in which all rows of the system tables could
    be stored. *)
Definition one_database (o : op) : bool := match o with ODatabase _ => false | _ => true end.
Definition all_stored (o : op) : bool :=
  match o with OTable _ _ _ s => s | OIndex _ _ _ _ s => s | _ => true end.
