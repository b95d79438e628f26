(** * What a user expects of the write-ahead log *)
From Coq Require Import NArith Lia.
From stdpp Require Import list.

(** A log record: its number, whether it is a commit record, and the rest of it. *)
Record lrec := mkLrec { r_lsn : N; r_commit : bool; r_body : N }.
Global Instance lrec_eq_dec : EqDecision lrec.
Proof. solve_decision. Defined.
(** What a log file holds: records, and what is left of a record that was not written completely. *)
Inductive item := IRec (r : lrec) | ITorn.

(** What callers and operators see: a record is appended (and given its number), the append returns, the log is shut down,
    a log write or sync fails, the process dies and the database is opened again, with recovery or without. *)
Inductive wev := EApp (r : lrec) | ERet (r : lrec) | EShut | EFail | ERestart (recovery : bool).

(** The events of the current process: those after the last restart. *)
Definition since (tr : list wev) : list wev :=
  fold_left (fun l e => match e with ERestart _ => [] | _ => l ++ [e] end) tr [].
(** Did the current process run recovery when it started? *)
Definition recovered (tr : list wev) : bool :=
  fold_left (fun b e => match e with ERestart r => r | _ => b end) tr false.
Definition app_of (e : wev) : list lrec := match e with EApp r => [r] | _ => [] end.
(** The records the current process appended, in order. *)
Definition appended (tr : list wev) : list lrec := flat_map app_of (since tr).
(** No write or sync of the log failed in the current process and it was not shut down. *)
Definition calm (tr : list wev) : Prop := EFail ∉ since tr /\ EShut ∉ since tr.

Definition rec_of (i : item) : list lrec := match i with IRec r => [r] | ITorn => [] end.
(** The records in a file. *)
Definition recs (f : list item) : list lrec := flat_map rec_of f.
