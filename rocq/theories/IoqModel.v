(** * The I/O engine: priority queue, workers, completion tracker and executor *)
(** src/storage/disk/async_disk/io/operations.rs (O), queue.rs (Q), worker.rs (W), completion.rs (C), executor.rs (X)
    and io_impl.rs (I). Log operations have a file of their own and are left out (the log is C34-C37). The file is a map of pages
    in two layers: what the operating system holds and what is on the device; a page is tagged with the call that
    wrote it, which the code does not have. A failed page write leaves the page as it was or with the new content
    (no torn pages). A page that was never written reads as an error. Shutting down is left out. *)
From Coq Require Import NArith Lia.
From stdpp Require Import gmap list.
From Verif Require Import WbufSpec IoqSpec.

(** O 232-245. *)
Record iop := mkIop { o_id : nat; o_prio : N; o_at : N; o_kind : kind }.
(** O 271-292. *)
Definition prio_sync : N := 10.
Definition prio_write : N := 7.
Definition prio_read : N := 5.
(** O 247-254: higher priority first, then the earlier one. *)
Definition before (x y : iop) : bool := (o_prio y <? o_prio x)%N || (o_prio x =? o_prio y)%N && (o_at x <? o_at y)%N.

Record eng := mkEng {
  e_next : nat;                          (* C 319 *)
  e_q : list iop;                        (* Q 213 *)
  e_run : gmap nat (iop * option ires);  (* what each worker is working on, and its result once executed *)
  e_stat : gmap nat bool;                (* C 313: true is pending, false completed or cancelled *)
  e_vol : gmap N (nat * bytes);          (* the file as the operating system has it *)
  e_dur : gmap N (nat * bytes);          (* the pages on the device *)
  e_page : nat }.
Definition eng_new (page : nat) : eng := mkEng 1 [] ∅ ∅ ∅ ∅ page.

(** What can happen next: a call is submitted (I 631-641); a worker takes an operation (W 399-448); a worker executes it,
    successfully or not, and if not, whether a page write reached the file; a worker reports (W 467-493); a pending
    call times out or is cancelled (C 490-528, 653-684, 700-748); the operating system writes a page to the device. *)
Inductive lab :=
| LSubmit (k : kind) (prio at_ : N)
| LTake (w : nat) (id : nat)
| LExec (w : nat) (fault : option bool)
| LDone (w : nat)
| LCancel (id : nat)
| LWriteback (p : N).

Definition set_q (s : eng) (q : list iop) : eng := mkEng (e_next s) q (e_run s) (e_stat s) (e_vol s) (e_dur s) (e_page s).
Definition set_run (s : eng) (r : gmap nat (iop * option ires)) : eng := mkEng (e_next s) (e_q s) r (e_stat s) (e_vol s) (e_dur s) (e_page s).
Definition set_stat (s : eng) (m : gmap nat bool) : eng := mkEng (e_next s) (e_q s) (e_run s) m (e_vol s) (e_dur s) (e_page s).
Definition set_files (s : eng) (v d : gmap N (nat * bytes)) : eng := mkEng (e_next s) (e_q s) (e_run s) (e_stat s) v d (e_page s).

(** Q 230-242 with C 385-411. *)
Definition submit (s : eng) (k : kind) (prio at_ : N) : eng * list ev :=
  (mkEng (S (e_next s)) (mkIop (e_next s) prio at_ k :: e_q s) (e_run s) (<[e_next s := true]> (e_stat s)) (e_vol s) (e_dur s) (e_page s),
   [ESub (e_next s) k prio at_]).
(** C 537-543. *)
Definition pending (s : eng) (id : nat) : bool := default false (e_stat s !! id).
(** Q 248-251: the heap gives an operation that no other is before. W 439-448: one that is not pending is dropped. *)
Definition take (s : eng) (w id : nat) : option eng :=
  match e_run s !! w, list_find (fun x => o_id x = id) (e_q s) with
  | None, Some (i, x) =>
      if forallb (fun y => negb (before y x)) (e_q s) then
        let s1 := set_q s (base.delete i (e_q s)) in
        Some (if pending s id then set_run s1 (<[w := (x, None)]> (e_run s)) else s1)
      else None
  | _, _ => None
  end.
(** X 377-405: a read (417-435), a page write (448-508), a sync (581-595). The file's lock makes it one step. *)
Definition execute (s : eng) (x : iop) (fault : option bool) : eng * ires :=
  match o_kind x with
  | KRead p => (s, match fault, e_vol s !! p with None, Some (_, d) => IOk d | _, _ => IErr end)
  | KWrite p d =>
      if negb (length d =? e_page s) then (s, IErr)
      else
        let s1 := set_files s (<[p := (o_id x, d)]> (e_vol s)) (e_dur s) in
        match fault with None => (s1, IOk d) | Some true => (s1, IErr) | Some false => (s, IErr) end
  | KSync => match fault with None => (set_files s (e_vol s) (e_vol s), IOk []) | Some _ => (s, IErr) end
  end.
(** C 424-481 and C 490-528. *)
Definition finish (s : eng) (id : nat) (r : ires) : eng * list ev :=
  if pending s id then (set_stat s (<[id := false]> (e_stat s)), [ERet id r]) else (s, []).

Definition istep (s : eng) (l : lab) : option (eng * list ev) :=
  match l with
  | LSubmit k prio at_ => Some (submit s k prio at_)
  | LTake w id => match take s w id with Some s1 => Some (s1, []) | None => None end
  | LExec w f =>
      match e_run s !! w with
      | Some (x, None) => let '(s1, r) := execute s x f in Some (set_run s1 (<[w := (x, Some r)]> (e_run s1)), [])
      | _ => None
      end
  | LDone w =>
      match e_run s !! w with
      | Some (x, Some r) => Some (finish (set_run s (delete w (e_run s))) (o_id x) r)
      | _ => None
      end
  | LCancel id => Some (finish s id IErr)
  | LWriteback p => match e_vol s !! p with Some c => Some (set_files s (e_vol s) (<[p := c]> (e_dur s)), []) | None => None end
  end.
Fixpoint irun (s : eng) (ls : list lab) : option (eng * list ev) :=
  match ls with
  | [] => Some (s, [])
  | l :: t =>
      match istep s l with
      | None => None
      | Some (s1, e) => match irun s1 t with None => None | Some (s2, tr) => Some (s2, e ++ tr) end
      end
  end.
(** Calls made only by one worker. *)
Definition one_worker (l : lab) : Prop := match l with LTake w _ | LExec w _ | LDone w => w = 0 | _ => True end.
