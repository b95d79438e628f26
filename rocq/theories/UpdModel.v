(** * UPDATE and DELETE statements *)
(** src/sql/execution/executors/update_executor.rs (U), delete_executor.rs (D), filter over seq_scan_executor.rs:393-424 and
    src/storage/table/table_iterator.rs:443-471, on the rows of MvccModel.v. [slots] are the slots of the table in the order of
    the iterator; each is read when the scan comes to it. [pick] is the WHERE clause as the filter applies it, [f] gives the row
    with the assignments made ([None]: an evaluation error). That an updated row can be too large for its page (a refusal) is
    left out. *)
From stdpp Require Import gmap list.
From Coq Require Import NArith.
From Verif Require Import MvccModel.
Local Open Scope N_scope.

(** U 119-182 (the metadata passed names transaction 0, U 160). The result is the number of rows, [None] an error. *)
Fixpoint update_scan (t : N) (pick : tuple -> bool) (f : tuple -> option tuple) (slots : list rid) (n : nat) (st : mv)
    : option nat * mv :=
  match slots with
  | [] => (Some n, st)
  | rd :: slots =>
      match read st t rd with
      | Some y =>
          if pick y then
            match f y with
            | Some y' =>
                match update t 0 rd y' st with
                | (ROk, st1) => update_scan t pick f slots (S n) st1
                | (_, st1) => (None, st1)
                end
            | None => (None, st)
            end
          else update_scan t pick f slots n st
      | None => update_scan t pick f slots n st
      end
  end.
(** D 298-343. *)
Fixpoint delete_scan (t : N) (pick : tuple -> bool) (slots : list rid) (n : nat) (st : mv) : option nat * mv :=
  match slots with
  | [] => (Some n, st)
  | rd :: slots =>
      match read st t rd with
      | Some y =>
          if pick y then
            match delete_row t rd st with
            | (ROk, st1) => delete_scan t pick slots (S n) st1
            | (_, st1) => (None, st1)
            end
          else delete_scan t pick slots n st
      | None => delete_scan t pick slots n st
      end
  end.
