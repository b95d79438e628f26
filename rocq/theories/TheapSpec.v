(** * What a table heap should do: a list of rows with their RIDs (C33) *)
From stdpp Require Import list.
From Coq Require Import NArith.
From Verif Require Import PageModel PageSpec TheapModel.
Local Open Scope N_scope.

(** The rows in the order of insertion. *)
Notation table := (list (rid * row)).

Fixpoint tget (t : table) (r : rid) : option row :=
  match t with
  | [] => None
  | (r', x) :: t => if decide (r' = r) then Some x else tget t r
  end.

Definition tset (t : table) (r : rid) (f : row -> row) : table :=
  map (fun e => if decide (e.1 = r) then (e.1, f e.2) else e) t.

(** What an accepted call that answered [r] does to the rows. *)
Definition tstep (o : hop) (r : rid) (t : table) : table :=
  match o with
  | HValues m bs _ | HGiven m bs _ _ => t ++ [(r, (m, bs))]
  | HUpdate _ m bs => tset t r (fun _ => (m, bs))
  | HMeta _ m => tset t r (fun x => (m, x.2))
  end.

Definition tnext (o : hop) (res : option rid) (t : table) : table :=
  match res with Some r => tstep o r t | None => t end.

Fixpoint table_after (ops : list hop) (rs : list (option rid)) (t : table) : table :=
  match ops, rs with
  | o :: ops, r :: rs => table_after ops rs (tnext o r t)
  | _, _ => t
  end.

Definition live (t : table) : table := filter (fun e => tm_del e.2.1 = false) t.

(** An accepted update that makes a row longer which is not the newest on its page. *)
Definition houtgrows (o : hop) (res : option rid) (t : table) (pg : N) : Prop :=
  match o, res with
  | HUpdate _ _ bs, Some r => r.1 = pg /\ exists x, tget t r = Some x /\ (length x.2 < length bs)%nat /\ is_Some (tget t (r.1, S r.2))
  | _, _ => False
  end.

Definition inserts (o : hop) : Prop :=
  match o with HValues _ _ _ | HGiven _ _ _ _ => True | _ => False end.

(** No row is put on a page after a row of that page, other than its newest, was made longer. *)
Fixpoint horderly (grown : N -> Prop) (ops : list hop) (rs : list (option rid)) (t : table) : Prop :=
  match ops, rs with
  | o :: ops, r :: rs =>
      (forall pg k, r = Some (pg, k) -> inserts o -> ~ grown pg) /\
      horderly (fun pg => grown pg \/ houtgrows o r t pg) ops rs (tnext o r t)
  | _, _ => True
  end.

(** Values are those of the program's types. *)
Definition hsmall (o : hop) : Prop :=
  match o with HUpdate r m bs => blen bs < 65536 | _ => True end.

Definition allocs (o : hop) : option N :=
  match o with HValues _ _ a | HGiven _ _ _ a => a | _ => None end.

(** The buffer pool never gives the same page twice, nor the invalid page number. *)
Definition fresh_allocs (a : option N) (ops : list hop) : Prop :=
  NoDup (omap id (a :: map allocs ops)) /\ no_page ∉ omap id (a :: map allocs ops).
