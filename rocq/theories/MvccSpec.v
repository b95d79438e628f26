(** * What multi-version rows must do

    A logical database kept beside the code: it looks only at the calls made and their answers
    (which transaction began with which snapshot timestamp, which writes were accepted, which
    commit timestamp was given), never at pages, undo logs or links. *)
From stdpp Require Import gmap list.
From Coq Require Import NArith.
From Verif Require Import MvccModel.
Local Open Scope N_scope.

(** A running transaction: its isolation level, its snapshot, and its accepted writes to each
    row, newest first ([None]: deleted). *)
Record active := Act { a_level : level; a_snap : N; a_writes : gmap rid (list (option tuple)) }.

(** The committed versions of each row, newest first, with their commit timestamps, and the
    running transactions. *)
Record world := World { past : gmap rid (list (N * option tuple)); now : gmap N active }.
Definition world0 : world := World ∅ ∅.

Definition versions (w : world) (rd : rid) : list (N * option tuple) := default [] (past w !! rd).
Definition writes (a : active) (rd : rid) : list (option tuple) := default [] (a_writes a !! rd).

Definition add_write (t : N) (rd : rid) (v : option tuple) (w : world) : world :=
  World (past w) (alter (fun a => Act (a_level a) (a_snap a) (<[rd := v :: writes a rd]> (a_writes a))) t (now w)).

(** The last write to each row becomes its newest version. *)
Definition publish (cts : N) (a : active) (p : gmap rid (list (N * option tuple))) : gmap rid (list (N * option tuple)) :=
  merge (fun ws vs => match ws with
                      | Some (v :: _) => Some ((cts, v) :: default [] vs)
                      | _ => vs
                      end) (a_writes a) p.

Definition finish_commit (t cts : N) (w : world) : world :=
  match now w !! t with
  | Some a => World (publish cts a (past w)) (delete t (now w))
  | None => w
  end.

Definition wstep (w : world) (e : mop * mres) : world :=
  match e with
  | (OBegin i, RBegan t ts) => World (past w) (<[t := Act i ts ∅]> (now w))
  | (OInsert t rd y, ROk) => add_write t rd (Some y) w
  | (OUpdate t _ rd y, ROk) => add_write t rd (Some y) w
  | (ODelete t rd, ROk) => add_write t rd None w
  | (OCommit t, RCommitted cts) => finish_commit t cts w
  | (OCommitStart t, RCommitted cts) => finish_commit t cts w
  | (OAbort t, ROk) => World (past w) (delete t (now w))
  | _ => w
  end.

(** The logical database after a history and its answers. *)
Definition world_after (ops : list mop) (rs : list mres) : world := fold_left wstep (zip ops rs) world0.

(** The newest version at or before a timestamp. *)
Fixpoint as_of (s : N) (vs : list (N * option tuple)) : option tuple :=
  match vs with
  | [] => None
  | (c, v) :: vs => if N.leb c s then v else as_of s vs
  end.

(** What a transaction with snapshot reads must see of a row. *)
Definition seen (w : world) (a : active) (rd : rid) : option tuple :=
  match writes a rd with
  | v :: _ => v
  | [] => as_of (a_snap a) (versions w rd)
  end.

Definition snapshot_level (i : level) : Prop := i = LRR \/ i = LSer \/ i = LSnap.

(** ** Histories in which nothing known to go wrong happens *)

(** [a] may abort safely: it wrote every row at most once, and only rows whose newest committed
    version was in its snapshot. *)
Definition clean_abort (w : world) (a : active) : Prop :=
  forall rd, writes a rd <> [] ->
    length (writes a rd) = 1%nat /\ (forall c v vs, versions w rd = (c, v) :: vs -> c <= a_snap a).

Definition calm (w : world) (o : mop) : Prop :=
  match o with
  | OUpdate t c _ _ => c = t
  | OAbort t => forall a, now w !! t = Some a -> clean_abort w a
  | OGc | OCommitStart _ | OStamp _ _ => False
  | _ => True
  end.

Fixpoint calm_history (w : world) (tr : list (mop * mres)) : Prop :=
  match tr with
  | [] => True
  | e :: tr => calm w e.1 /\ calm_history (wstep w e) tr
  end.

(** Callers name themselves in the metadata they pass to update. *)
Definition honest (o : mop) : Prop := match o with OUpdate t c _ _ => c = t | _ => True end.
