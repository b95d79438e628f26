(** * What a user expects of the disk manager *)
From Coq Require Import NArith Lia.
From stdpp Require Import gmap list.
From Verif Require Import WbufSpec.

(** ** What the environment decides *)
(** During a flush: does the sync before the pages are written fail; does writing the pages fail, and then which
    pages had been written; do the two syncs after it fail. *)
Record fault := mkFault { f_pre : bool; f_wr : option (list N); f_post : bool; f_sync : bool }.
Definition nofault : fault := mkFault false None false false.
(** When a page is offered to the cache: is it admitted, are the locks of the duplicate table, of the access
    table (for reading), of the tier and of the access table (for writing) free, and which pages leave the tier. *)
Record cstore := mkCstore { c_admit : bool; c_dedup : bool; c_temp : bool; c_lock : bool; c_rec : bool; c_out : list N }.
Definition free_store : cstore := mkCstore true true true true true [].
(** When a page is looked up: are the locks of the access table and of the tiers free, is the tier above the one
    that has the page free, which pages leave that tier, and does the file read fail. *)
Record clook := mkClook { k_rec : bool; k_hot : bool; k_warm : bool; k_cold : bool; k_up : bool; k_out : list N; k_err : bool; k_store : cstore }.
Definition free_look : clook := mkClook true true true true true [] false free_store.

(** ** Calls and answers *)
(** The booleans say whether the flush interval has passed at each of the checks. [DDrain] and [DLand] are the two
    halves of a flush run by another task: it takes the buffered pages and later writes them. *)
Inductive dop :=
| DWrite (p : N) (d : bytes) (due1 : bool) (f1 : fault) (c : cstore) (due2 : bool) (f2 : fault)
| DBatch (l : list (N * bytes * (bool * fault * cstore))) (due2 : bool) (f2 : fault)
| DRead (p : N) (k : clook)
| DFlush (f : fault)
| DDrain (t : nat) (f : fault)
| DLand (t : nat) (f : fault).
(** [Waits]: the call never returns. *)
Inductive dout := Done | Failed | Data (d : bytes) | Waits.
Notation dcall := (dop * dout)%type.

(** The latest content of each page whose write returned Ok. *)
Definition note (m : gmap N bytes) (e : dcall) : gmap N bytes :=
  match e with
  | (DWrite p d _ _ _ _ _, Done) => <[p := d]> m
  | (DBatch l _ _, Done) => fold_left (fun m x => <[x.1.1 := x.1.2]> m) l m
  | _ => m
  end.
Definition written (tr : list dcall) : gmap N bytes := fold_left note tr ∅.
(** Calls of one task after another. *)
Definition sequential (o : dop) : Prop := match o with DDrain _ _ | DLand _ _ => False | _ => True end.
Definition ok_call (e : dcall) : Prop := match e with (DRead _ _, _) => True | (_, Done) => True | _ => False end.
(** The pages and contents a call submits; whether it reads a page. *)
Definition puts (o : dop) : list (N * bytes) :=
  match o with DWrite p d _ _ _ _ _ => [(p, d)] | DBatch l _ _ => l.*1 | _ => [] end.
Definition reads_page (p : N) (o : dop) : Prop := match o with DRead q _ => q = p | _ => False end.
