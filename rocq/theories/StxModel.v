(** * START TRANSACTION, from the statement to the transaction

    Models src/sql/planner/plan_builder.rs:1775-1845 (P), src/sql/planner/logical_plan.rs:3361-3377
    and src/sql/execution/executors/start_transaction_executor.rs:277-347, on top of SessModel.v.

    Simplifications: those of SessModel.v; the transaction manager is not shut down. *)
From stdpp Require Import gmap list.
From Coq Require Import NArith.
From Verif Require Import WatermarkModel MvccModel SessModel StxSpec.

(** P 1785-1795: the two variables after the loop. *)
Record opts := Opts { o_read_only : bool; o_level : level }.
Definition opts_init : opts := Opts false LRC.
Definition set_mode (o : opts) (m : mode level) : opts :=
  match m with
  | ReadOnly => Opts true (o_level o)
  | ReadWrite => Opts false (o_level o)
  | Isolation l => Opts (o_read_only o) l
  end.
Definition read_modes (ms : list (mode level)) : opts := foldl set_mode opts_init ms.

(** A statement: the modes, and the statements between BEGIN and END. *)
Record start := Start { st_modes : list (mode level); st_body : list stmt }.
(** logical_plan.rs:3361-3377: the level and the access mode, not the body. *)
Record splan := SPlan { sp_level : option level; sp_read_only : bool }.
Definition build (s : start) : splan :=
  let o := read_modes (st_modes s) in SPlan (Some (o_level o)) (o_read_only o).
(** start_transaction_executor.rs:277-347: the access mode is only logged. *)
Definition execute (p : splan) (d : db) : db :=
  t_begin (match sp_level p with Some l => l | None => LRC end) d.
(** The number of the new transaction, and the database. *)
Definition start_transaction (s : start) (d : db) : N * db := (nid (mvs d), execute (build s) d).
