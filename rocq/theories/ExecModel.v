(** * Pull-based executors: LIMIT, OFFSET, WHERE, DISTINCT, ORDER BY

    Models src/sql/execution/executors/{limit,offset,filter,distinct,sort}_executor.rs.

    Simplifications, for the whole file:
    - An executor is its [next] function on an explicit state; [Ok(Some(..))],
      [Ok(None)] and [Err(..)] are [ORow], [ODone] and [OFail].
    - A caller drains an executor until it answers [Ok(None)] or [Err(..)]
      (src/sql/execution/execution_engine.rs:660-681): [produces] is that drained output.
    - [init] is folded into the initial state; all five executors initialise their child
      exactly once.
    - Schemas are left out; a tuple is its row of values (with the RID where a type
      variable [T] stands for the pair). *)
From Coq Require Import String Ascii ZArith NArith List Bool.
From Verif Require Import Bytes ExprModel.
Import ListNotations.
Local Open Scope nat_scope.

(** One answer of [next]. *)
Inductive outcome (T : Type) := ORow (t : T) | ODone | OFail.
Arguments ORow {T} t. Arguments ODone {T}. Arguments OFail {T}.

(** One element of a drained output: a row, or the error that ended it. *)
Inductive item (T : Type) := Row (t : T) | Fail.
Arguments Row {T} t. Arguments Fail {T}.

(** src/sql/execution/execution_engine.rs:660-681: calling [next] until it has no more. *)
Inductive produces {S T} (next : S -> outcome T * S) : S -> list (item T) -> Prop :=
| p_done st st2 : next st = (ODone, st2) -> produces next st []
| p_fail st st2 : next st = (OFail, st2) -> produces next st [Fail]
| p_row st st2 t out : next st = (ORow t, st2) -> produces next st2 out ->
    produces next st (Row t :: out).

(** A child whose remaining answers are the given list. *)
Definition pull {T} (l : list (item T)) : outcome T * list (item T) :=
  match l with
  | [] => (ODone, [])
  | Row t :: r => (ORow t, r)
  | Fail :: r => (OFail, r)
  end.

(** src/sql/execution/executors/limit_executor.rs:233-252; the state is current_index
    and the child. *)
Definition limit_next {S T} (n : nat) (child : S -> outcome T * S) (st : nat * S)
  : outcome T * (nat * S) :=
  let '(i, s) := st in
  if n <=? i then (ODone, st)
  else match child s with
       | (ORow t, s2) => (ORow t, (i + 1, s2))
       | (ODone, s2) => (ODone, (i, s2))
       | (OFail, s2) => (OFail, (i, s2))
       end.

(** src/sql/execution/executors/offset_executor.rs:219-230, the skipping loop; [k] is
    [offset - current_index], the number of rows still to skip. *)
Fixpoint offset_skip {S T} (child : S -> outcome T * S) (k : nat) (i : nat) (s : S)
  : option (outcome T) * (nat * S) :=
  match k with
  | O => (None, (i, s))
  | Datatypes.S k2 =>
      match child s with
      | (ORow _, s2) => offset_skip child k2 (i + 1) s2
      | (ODone, s2) => (Some ODone, (i, s2))
      | (OFail, s2) => (Some OFail, (i, s2))
      end
  end.

(** src/sql/execution/executors/offset_executor.rs:217-238. *)
Definition offset_next {S T} (m : nat) (child : S -> outcome T * S) (st : nat * S)
  : outcome T * (nat * S) :=
  let '(i, s) := st in
  match offset_skip child (m - i) i s with
  | (Some o, st2) => (o, st2)
  | (None, (i2, s2)) => let '(o, s3) := child s2 in (o, (i2, s3))
  end.

(** src/sql/planner/plan_builder.rs:375-415: OFFSET is applied first, LIMIT on top. *)
Definition limit_offset_next {S T} (n m : nat) (child : S -> outcome T * S) :=
  limit_next n (offset_next m child).

(** src/sql/execution/executors/filter_executor.rs:513-528, the WHERE branch of next, over
    a child given by its remaining answers. *)
Fixpoint filter_next (e : expr) (l : list (item row)) : outcome row * list (item row) :=
  match l with
  | [] => (ODone, [])
  | Fail :: r => (OFail, r)
  | Row t :: r => if where_pass e t then (ORow t, r) else filter_next e r
  end.

(** The bytes of a string. *)
Fixpoint str_bytes (s : string) : list N :=
  match s with
  | EmptyString => []
  | String c r => N_of_ascii c :: str_bytes r
  end.

(** [x.to_le_bytes()] of a signed integer of [k] bytes. *)
Definition le_signed (k : nat) (z : Z) : list N :=
  le_enc k (Z.to_N (z mod 2 ^ (8 * Z.of_nat k))%Z).

(** src/sql/execution/executors/distinct_executor.rs:157-182, one value.  [dbg] is the
    Debug text of a value (src/types_db/value.rs:2278-2286), used for TINYINT, SMALLINT
    and CHAR; it is left unspecified. *)
Definition ser_val (dbg : val -> string) (v : val) : list N :=
  match v with
  | VInt Integer z => le_signed 4 z
  | VInt BigInt z => le_signed 8 z
  | VVar s => le_enc 4 (N.of_nat (String.length s)) ++ str_bytes s
  | VBool b => [if b then 1%N else 0%N]
  | VNull => [255%N]
  | _ => let s := dbg v in le_enc 4 (N.of_nat (String.length s)) ++ str_bytes s
  end.

(** src/sql/execution/executors/distinct_executor.rs:157-182. *)
Definition ser_row (dbg : val -> string) (r : row) : list N := flat_map (ser_val dbg) r.

Definition bytes_eqb (a b : list N) : bool :=
  if list_eq_dec N.eq_dec a b then true else false.

(** src/sql/execution/executors/distinct_executor.rs:237-264; [seen] is seen_tuples. *)
Fixpoint distinct_loop (dbg : val -> string) (l : list (item row)) (seen : list (list N))
  : outcome row * (list (item row) * list (list N)) :=
  match l with
  | [] => (ODone, ([], seen))
  | Fail :: r => (OFail, (r, seen))
  | Row t :: r =>
      let b := ser_row dbg t in
      if existsb (bytes_eqb b) seen then distinct_loop dbg r seen
      else (ORow t, (r, b :: seen))
  end.

(** src/sql/execution/executors/distinct_executor.rs:231-265. *)
Definition distinct_next (dbg : val -> string) (st : list (item row) * list (list N)) :=
  distinct_loop dbg (fst st) (snd st).

(** src/binder/bound_order_by.rs and src/sql/execution/plans/sort_plan.rs: an expression
    and whether the direction is DESC. *)
Definition order_by := (expr * bool)%type.

(** src/sql/execution/executors/sort_executor.rs:342-391, the comparator. *)
Fixpoint cmp_rows (specs : list order_by) (a b : row) : comparison :=
  match specs with
  | [] => Datatypes.Eq
  | (e, desc) :: rest =>
      match eval e a, eval e b with
      | Ok x, Ok y =>
          match val_cmp x y with
          | Datatypes.Eq => cmp_rows rest a b
          | c => if desc then CompOpp c else c
          end
      | _, _ => cmp_rows rest a b
      end
  end.

(** src/sql/execution/executors/sort_executor.rs:310-328: the rows before the first error
    or the end. *)
Fixpoint collect {T} (l : list (item T)) : list T :=
  match l with
  | Row t :: r => t :: collect r
  | _ => []
  end.

(** [slice::sort_by], a stable sort: insertion sort stands for the library's merge sort.
    On a comparator that is a total preorder all stable sorts return the same list. *)
Fixpoint insert_by {T} (cmp : T -> T -> comparison) (x : T) (l : list T) : list T :=
  match l with
  | [] => [x]
  | y :: r => match cmp x y with
              | Datatypes.Gt => y :: insert_by cmp x r
              | _ => x :: l
              end
  end.
Fixpoint sort_by {T} (cmp : T -> T -> comparison) (l : list T) : list T :=
  match l with
  | [] => []
  | x :: r => insert_by cmp x (sort_by cmp r)
  end.

(** src/sql/execution/executors/sort_executor.rs:294-399; the state is sorted_tuples and
    current_index. *)
Definition sort_init (specs : list order_by) (child : list (item row)) : list row * nat :=
  (sort_by (cmp_rows specs) (collect child), 0).

(** src/sql/execution/executors/sort_executor.rs:432-451. *)
Definition sort_next (st : list row * nat) : outcome row * (list row * nat) :=
  let '(l, i) := st in
  match nth_error l i with
  | Some t => (ORow t, (l, i + 1))
  | None => (ODone, st)
  end.
