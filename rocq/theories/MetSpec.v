(** * What the figures about disk operations are figures of

    Written without reference to the code.  Times are in nanoseconds. *)
From Coq Require Import NArith List Bool.
Import ListNotations.
Local Open Scope N_scope.

(** What is recorded: a read or a write of one page with its time, its bytes and, for a read,
    whether it succeeded; a batch of n reads or writes with the time of the whole batch; a flush
    of n pages; a lookup in the cache. *)
Inductive event :=
| Read (time bytes : N) (ok : bool)
| Write (time bytes : N)
| BatchRead (n time bytes : N)
| BatchWrite (n time bytes : N)
| Flush (time pages : N)
| Lookup (hit : bool).
Definition history := list event.

Fixpoint total (f : event -> N) (h : history) : N :=
  match h with [] => 0 | e :: h => f e + total f h end.

Definition reads_of e := match e with Read _ _ _ => 1 | BatchRead n _ _ => n | _ => 0 end.
Definition writes_of e := match e with Write _ _ => 1 | BatchWrite n _ _ => n | _ => 0 end.
Definition read_time_of e := match e with Read t _ _ => t | BatchRead _ t _ => t | _ => 0 end.
Definition write_time_of e := match e with Write t _ => t | BatchWrite _ t _ => t | _ => 0 end.
Definition bytes_of e := match e with
  | Read _ b _ => b | Write _ b => b | BatchRead _ _ b => b | BatchWrite _ _ b => b | _ => 0 end.
Definition written_of e := match e with Write _ b => b | BatchWrite _ _ b => b | _ => 0 end.
Definition failures_of e := match e with Read _ _ false => 1 | _ => 0 end.
Definition flushes_of e := match e with Flush _ _ => 1 | _ => 0 end.
Definition hits_of e := match e with Lookup true => 1 | _ => 0 end.
Definition misses_of e := match e with Lookup false => 1 | _ => 0 end.

(** The times of the operations on single pages. *)
Definition times (h : history) : list N :=
  flat_map (fun e => match e with Read t _ _ => [t] | Write t _ => [t] | _ => [] end) h.
Definition single (e : event) : Prop := match e with Read _ _ _ | Write _ _ => True | _ => False end.

Definition largest (l : list N) (m : N) : Prop := In m l /\ forall x, In x l -> x <= m.
Definition smallest (l : list N) (m : N) : Prop := In m l /\ forall x, In x l -> m <= x.

(** How many of [l] took no longer than [b]. *)
Definition within (b : N) (l : list N) : N := N.of_nat (length (filter (fun x => x <=? b) l)).
(** The scale of the latency figures: 10 us, 100 us, 500 us, 1 ms, 5 ms, 10 ms, 50 ms, 100 ms,
    500 ms, 1 s, and anything. *)
Definition scale : list N :=
  [10000; 100000; 500000; 1000000; 5000000; 10000000; 50000000; 100000000; 500000000; 1000000000; 2 ^ 64 - 1].
(** [b] is the point of the scale that the k-th fastest of [l] lies below. *)
Definition on_scale (k : N) (l : list N) (b : N) : Prop :=
  In b scale /\ k <= within b l /\ forall c, In c scale -> c < b -> within c l < k.

(** Operations that are started and end in one of four ways. *)
Inductive io_event := Start | Complete (micros bytes : N) (is_read : bool) | Failed | Cancelled | TimedOut.
Definition ends (e : io_event) : bool := match e with Start => false | _ => true end.
Definition io_count (f : io_event -> bool) (h : list io_event) : N := N.of_nat (length (filter f h)).
(** Nothing ends that has not started. *)
Definition sensible (h : list io_event) : Prop :=
  forall i, io_count ends (firstn i h) <= io_count (fun e => negb (ends e)) (firstn i h).
Definition durations (h : list io_event) : list N :=
  flat_map (fun e => match e with Complete d _ _ => [d] | _ => [] end) h.
