(** * Locking, independently of the lock manager

    What the lock modes mean, what a deadlock is, and the words used to state the properties
    of the lock manager. *)
From stdpp Require Import gmap list sets.
From Coq Require Import NArith.
From Verif Require Import LockModel.

(** ** What the modes allow

    A table lock gives rights on every row of the table at once ([on_all_rows]) or announces
    that the transaction will take locks on single rows ([on_some_rows]), which are checked
    against each other row by row. *)
Inductive right := Reading | Writing.

Definition on_all_rows (m : mode) (r : right) : Prop :=
  match m, r with
  | MS, Reading => True
  | MSIX, Reading => True
  | MX, _ => True
  | _, _ => False
  end.

Definition on_some_rows (m : mode) (r : right) : Prop :=
  match m, r with
  | MIS, Reading => True
  | MIX, _ => True
  | MSIX, Writing => True
  | _, _ => False
  end.

(** Two accesses to the same row clash if one of them writes. *)
Definition clash (r1 r2 : right) : Prop := r1 = Writing \/ r2 = Writing.

(** Two modes conflict if a right on all rows under the one clashes with some right under the
    other. *)
Definition conflict (m1 m2 : mode) : Prop :=
  exists r1 r2, clash r1 r2 /\
    ((on_all_rows m1 r1 /\ (on_all_rows m2 r2 \/ on_some_rows m2 r2)) \/
     (on_all_rows m2 r2 /\ (on_all_rows m1 r1 \/ on_some_rows m1 r1))).

(** ** What is held *)

(** What a lock is taken on. *)
Inductive resource := Table (oid : N) | Row (r : rid).

Definition queue_of (st : lm) (x : resource) : list request :=
  match x with
  | Table oid => q_reqs (default empty_queue (tables st !! oid))
  | Row r => q_reqs (default empty_queue (rows st !! r))
  end.

(** [t] holds [x] in mode [m]. *)
Definition holds (st : lm) (t : N) (x : resource) (m : mode) : Prop :=
  Req t m true ∈ queue_of st x.

(** [t] waits for [x] in mode [m]. *)
Definition waits_on (st : lm) (t : N) (x : resource) (m : mode) : Prop :=
  Req t m false ∈ queue_of st x.

(** [t] neither holds [x] nor waits for it. *)
Definition absent (st : lm) (t : N) (x : resource) : Prop :=
  forall m, ~ holds st t x m /\ ~ waits_on st t x m.

(** The lock request an operation makes. *)
Definition lock_request (o : lop) : option (N * mode * resource) :=
  match o with
  | OLockTable t m oid => Some (t, m, Table oid)
  | OLockRow t m oid r => Some (t, m, Row r)
  | _ => None
  end.

(** What an operation unlocks, and in which mode it says so. *)
Definition unlock_target (o : lop) : option (N * mode * resource) :=
  match o with
  | OUnlockTable t m oid => Some (t, m, Table oid)
  | OUnlockRow t m oid r => Some (t, m, Row r)
  | _ => None
  end.

Definition unlock_request (o : lop) : option (N * mode) :=
  match unlock_target o with
  | Some (t, m, _) => Some (t, m)
  | None => None
  end.

(** The transaction that an operation ends. *)
Definition finish_request (o : lop) : option N :=
  match o with OCommit t | OAbort t => Some t | _ => None end.

(** The transaction on whose behalf an operation acts. *)
Definition op_txn (o : lop) : option N :=
  match lock_request o, unlock_target o, finish_request o with
  | Some (t, _, _), _, _ => Some t
  | _, Some (t, _, _), _ => Some t
  | _, _, Some t => Some t
  | _, _, _ => None
  end.

(** A request is polite if its transaction has nothing to do with the resource yet, or holds
    it in exactly one mode, does not wait for it and does not ask for one of the two
    conversions that the manager grants without looking at the others. *)
Definition polite_request (st : lm) (t : N) (m : mode) (x : resource) : Prop :=
  match filter (fun r => rq_txn r = t) (queue_of st x) with
  | [] => True
  | [Req _ m0 true] => ~ (m0 = MIS /\ m = MS) /\ ~ (m0 = MIX /\ m = MX)
  | _ => False
  end.

(** [who] says whose requests are required to be polite. *)
Fixpoint polite (who : N -> Prop) (st : lm) (ops : list lop) : Prop :=
  match ops with
  | [] => True
  | o :: ops =>
      (forall t m x, lock_request o = Some (t, m, x) -> who t -> polite_request st t m x) /\
      (forall r st2, lstep st o = Some (r, st2) -> polite who st2 ops)
  end.

(** No lock request of [t] in the history was told to wait. *)
Fixpoint never_waits (t : N) (st : lm) (ops : list lop) : Prop :=
  match ops with
  | [] => True
  | o :: ops =>
      (forall m x st2, lock_request o = Some (t, m, x) -> lstep st o <> Some (LOk false, st2)) /\
      (forall r st2, lstep st o = Some (r, st2) -> never_waits t st2 ops)
  end.

(** ** Deadlock *)

(** [a] waits for [b]. *)
Definition edge (g : gmap N (list N)) (a b : N) : Prop := exists l, g !! a = Some l /\ b ∈ l.

(** A sequence of transactions each waiting for the next one. *)
Fixpoint chain (g : gmap N (list N)) (a : N) (l : list N) : Prop :=
  match l with
  | [] => True
  | b :: l => edge g a b /\ chain g b l
  end.

(** A cycle: each waits for the next, and the last for the first. *)
Definition cycle (g : gmap N (list N)) (c : list N) : Prop :=
  match c with
  | [] => False
  | a :: l => chain g a l /\ edge g (List.last c a) a
  end.

(** The youngest member. *)
Definition youngest (v : N) (c : list N) : Prop := v ∈ c /\ forall x, x ∈ c -> (x <= v)%N.

(** ** Really being deadlocked *)

(** [t] waits for a lock that conflicts with one [u] holds. *)
Definition blocked_by (st : lm) (t u : N) : Prop :=
  t <> u /\ exists x m m', waits_on st t x m /\ holds st u x m' /\ conflict m m'.

(** [t] waits, through others, for itself. *)
Definition deadlocked (st : lm) (t : N) : Prop := tc (blocked_by st) t t.

(** Histories in which every request is for S or X and concerns a resource with which its
    transaction has nothing to do yet. *)
Fixpoint plain (st : lm) (ops : list lop) : Prop :=
  match ops with
  | [] => True
  | o :: ops =>
      (forall t m x, lock_request o = Some (t, m, x) -> (m = MS \/ m = MX) /\ absent st t x) /\
      (forall r st2, lstep st o = Some (r, st2) -> plain st2 ops)
  end.
