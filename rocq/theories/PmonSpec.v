(** What the performance monitor is told and what its figures are to say
    (property C133). *)

From Coq Require Import List ZArith QArith Bool.
Import ListNotations.
Open Scope Z_scope.

(** What is reported to it; times are in nanoseconds. *)
Inductive event :=
| Fetch (hit : bool)
| Disk (is_write : bool) (latency : N) (sequential : bool)
| Lock (immediate : bool) (wait : N) (conflict : bool)
| Traversal (chain : N)
| Visibility
| Reset.

(** The part of a history that follows the last reset. *)
Fixpoint since_reset (h : list event) : list event :=
  match h with
  | [] => []
  | e :: r =>
    if existsb (fun x => match x with Reset => true | _ => false end) r
    then since_reset r
    else match e with Reset => r | _ => e :: r end
  end.

(** How many events of a kind there are. *)
Definition how_many (p : event -> bool) (h : list event) : Z :=
  Z.of_nat (List.length (List.filter p h)).

Definition is_hit (e : event) : bool := match e with Fetch b => b | _ => false end.
Definition is_miss (e : event) : bool := match e with Fetch b => negb b | _ => false end.
Definition is_read (e : event) : bool := match e with Disk w _ _ => negb w | _ => false end.
Definition is_write_ (e : event) : bool := match e with Disk w _ _ => w | _ => false end.
Definition is_request (e : event) : bool := match e with Lock _ _ _ => true | _ => false end.
Definition is_conflict (e : event) : bool := match e with Lock _ _ c => c | _ => false end.
Definition is_traversal (e : event) : bool := match e with Traversal _ => true | _ => false end.
Definition is_immediate (e : event) : bool := match e with Lock i _ _ => i | _ => false end.

(** A score is between nought, the worst, and one, the best. *)
Definition a_score (q : Q) : Prop := (0 <= q /\ q <= 1)%Q.
