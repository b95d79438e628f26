(** * The hash join executor

    Models src/sql/execution/executors/hash_join_executor.rs.

    Simplifications:
    - The hash table is a list of entries searched from the oldest on, which is what
      DiskExtendableHashTable::get_value answers while it loses nothing
      (src/container/disk_extendable_hash_table.rs:456-498 and the bucket's lookup, the first
      entry with the key); insertions do not fail.
    - The key expressions are functions; a left or right tuple is its row of values, a right
      tuple with its RID. *)
From Coq Require Import ZArith NArith List Bool.
From Verif Require Import ExprModel ExecModel ExecSpec.
Import ListNotations.

(** A right tuple with its RID. *)
Definition rtuple : Type := (N * row)%type.

(** src/sql/execution/executors/hash_join_executor.rs:180-230, build_hash_table: the table
    and the right tuples, or [None] when it answers false. *)
Fixpoint hj_build (rkey : row -> res val) (right : list (item rtuple))
  (ht : list (val * N)) (ts : list rtuple) : option (list (val * N) * list rtuple) :=
  match right with
  | [] => Some (ht, ts)
  | Fail :: _ => None
  | Row (rid, r) :: rest =>
      match rkey r with
      | Ok v => hj_build rkey rest (ht ++ [(v, rid)]) (ts ++ [(rid, r)])
      | Err => None
      end
  end.

(** The state: hash_table and right_tuples ([None]: not initialized), and the left child. *)
Definition hjstate : Type := (option (list (val * N) * list rtuple) * list (item row))%type.

(** src/sql/execution/executors/hash_join_executor.rs:249-262, init. *)
Definition hj_init (rkey : row -> res val) (left : list (item row)) (right : list (item rtuple)) : hjstate :=
  (hj_build rkey right [] [], left).

(** src/container/disk_extendable_hash_table.rs:456-498, get_value. *)
Definition ht_get (ht : list (val * N)) (k : val) : option N :=
  match find (fun e => val_eqb (fst e) k) ht with Some (_, rid) => Some rid | None => None end.

(** src/sql/execution/executors/hash_join_executor.rs:291-335, next. *)
Fixpoint hj_scan (lkey : row -> res val) (ht : list (val * N)) (ts : list rtuple) (left : list (item row))
  : outcome row * list (item row) :=
  match left with
  | [] => (ODone, [])
  | Fail :: rest => (OFail, rest)
  | Row l :: rest =>
      match lkey l with
      | Err => hj_scan lkey ht ts rest
      | Ok v =>
          match ht_get ht v with
          | None => hj_scan lkey ht ts rest
          | Some rid =>
              match find (fun t => N.eqb (fst t) rid) ts with
              | None => hj_scan lkey ht ts rest
              | Some (_, r) => (ORow (l ++ r), rest)
              end
          end
      end
  end.
Definition hj_next (lkey : row -> res val) (st : hjstate) : outcome row * hjstate :=
  match fst st with
  | None => (ODone, st)
  | Some (ht, ts) => let '(o, rest) := hj_scan lkey ht ts (snd st) in (o, (fst st, rest))
  end.
