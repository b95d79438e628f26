(** * What a table page should do: a list of rows (C31, C32, C62) *)
From stdpp Require Import list.
From Coq Require Import NArith.
From Verif Require Import PageModel.
Local Open Scope N_scope.

(** A row: its metadata and its bytes. *)
Notation row := (tmeta * list N)%type.

Global Instance tmeta_eq_dec : EqDecision tmeta.
Proof. solve_decision. Defined.

(** What an accepted call does to the rows. *)
Definition rstep (o : pop) (rows : list row) : list row :=
  match o with
  | PInsert m bs => rows ++ [(m, bs)]
  | PUpdate k m bs => <[k := (m, bs)]> rows
  | PMeta k m => alter (fun r => (m, r.2)) k rows
  | PNext _ | PPrev _ => rows
  end.

Fixpoint rows_after (ops : list pop) (rs : list bool) (rows : list row) : list row :=
  match ops, rs with
  | o :: ops, ok :: rs => rows_after ops rs (if ok : bool then rstep o rows else rows)
  | _, _ => rows
  end.

(** What reading row [k] should answer. *)
Definition row_get (rows : list row) (k : nat) (allow_deleted : bool) : option row :=
  match rows !! k with
  | Some (m, bs) => if tm_del m && negb allow_deleted then None else Some (m, bs)
  | None => None
  end.

(** An update that makes a row other than the newest one longer. *)
Definition outgrows (o : pop) (rows : list row) : Prop :=
  match o with
  | PUpdate k _ bs => exists r, rows !! k = Some r /\ (length r.2 < length bs)%nat /\ (S k < length rows)%nat
  | _ => False
  end.

(** No row is inserted once a row other than the newest has grown ([grown]: one has). *)
Fixpoint orderly (grown : Prop) (ops : list pop) (rs : list bool) (rows : list row) : Prop :=
  match ops, rs with
  | o :: ops, ok :: rs =>
      (ok = true -> (exists m bs, o = PInsert m bs) -> ~ grown) /\
      orderly (grown \/ (ok = true /\ outgrows o rows)) ops rs (if ok : bool then rstep o rows else rows)
  | _, _ => True
  end.

(** Sizes and values are those of the program's types: tuple sizes fit in 16 bits, metadata
    and page numbers in 64. *)
Definition small_meta (m : tmeta) : Prop :=
  tm_creator m < 2 ^ 64 /\ (forall x, tm_ts m = Some x -> x < 2 ^ 64) /\ (forall x, tm_undo m = Some x -> x < 2 ^ 64).
Definition small (o : pop) : Prop :=
  match o with
  | PInsert m bs => small_meta m
  | PUpdate k m bs => small_meta m /\ blen bs < 65536
  | PMeta k m => small_meta m
  | PNext n | PPrev n => n < 2 ^ 64
  end.

(** No metadata is replaced by one with a longer encoding. *)
Fixpoint metas_do_not_grow (ops : list pop) (rs : list bool) (rows : list row) : Prop :=
  match ops, rs with
  | o :: ops, ok :: rs =>
      match o with
      | PUpdate k m _ | PMeta k m =>
          ok = true -> forall r, rows !! k = Some r -> (length (meta_enc m) <= length (meta_enc r.1))%nat
      | _ => True
      end /\ metas_do_not_grow ops rs (if ok : bool then rstep o rows else rows)
  | _, _ => True
  end.
