(** Buffer pool: the calls, their answers, and what a user expects of the answers.
    Nothing here mentions frames, replacers or dirty bits. *)
From Coq Require Import NArith.
From stdpp Require Import gmap list.

(** A page: its bytes. Byte 0 is the page's type tag. *)
Definition page_size : nat := N.to_nat 4096.
Notation bytes := (list N).

(** Calls. [now] is the clock reading of the call, [rd]/[wr] whether the disk reads and
    writes the call makes succeed. Guards are named by numbers handed out by the pool. *)
Inductive bop :=
| BNew (t now : N) (wr : bool)                  (* new_page of type t *)
| BFetch (t pid now : N) (rd wr : bool)         (* fetch_page as type t *)
| BRead (g : N)                                 (* guard.read().get_data() *)
| BWrite (g : N) (off : nat) (bs : bytes)       (* guard.write().set_data(off, bs) *)
| BDrop (g now : N)                             (* drop(guard) *)
| BFlush (pid : N) (wr : bool)                  (* flush_page_async *)
| BFlushAll (wr : bool)                         (* flush_all_pages_async *)
| BFlushBatch (max : nat) (wr : bool)           (* flush_dirty_pages_batch_async *)
| BDelete (pid : N)                             (* delete_page *)
| BPoke (pid : N) (bs : bytes)                  (* write_page on the pool *)
| BAlloc                                        (* allocate_page *)
| BBatch (t : N) (pids : list N) (now : N) (rd wr : bool).  (* load_pages_batch *)

Inductive bout :=
| BGuard (r : option (N * N))          (* guard, page id *)
| BData (r : option bytes)
| BOk (b : bool)
| BNum (n : N)
| BGuards (r : list (option N)).       (* guards only, in the order of the answer *)

(** The bytes a new page of type [t] has. *)
Definition fresh_page (t : N) : bytes := t :: repeat 0%N (page_size - 1).
(** Overwriting [length bs] bytes from offset [off]; the type tag is never changed. *)
Definition patch (d : bytes) (off : nat) (bs : bytes) : bytes :=
  imap (fun i x => if decide (i = 0 \/ i < off) then x else default x (bs !! (i - off))) d.

(** What a user can keep track of: for each live page the bytes last written and whether
    the page was ever written or flushed; for each guard the page it is on. *)
Record view := mkView { v_page : gmap N (bytes * bool); v_on : gmap N N }.
Definition view0 : view := mkView ∅ ∅.
Definition see (v : view) (e : bop * bout) : view :=
  match e with
  | (BNew t _ _, BGuard (Some (g, p))) => mkView (<[p := (fresh_page t, false)]> (v_page v)) (<[g := p]> (v_on v))
  | (BFetch _ _ _ _ _, BGuard (Some (g, p))) => mkView (v_page v) (<[g := p]> (v_on v))
  | (BWrite g off bs, BOk true) =>
      match v_on v !! g with
      | Some p => mkView (alter (fun c => (patch c.1 off bs, true)) p (v_page v)) (v_on v)
      | None => v
      end
  | (BPoke p bs, _) => mkView (alter (fun c => (patch c.1 0 bs, true)) p (v_page v)) (v_on v)
  | (BDrop g _, _) => mkView (v_page v) (delete g (v_on v))
  | (BFlush p _, BOk true) => mkView (alter (fun c => (c.1, true)) p (v_page v)) (v_on v)
  | (BDelete p, BOk true) => mkView (delete p (v_page v)) (v_on v)
  | _ => v
  end.
Definition views (tr : list (bop * bout)) : view := fold_left see tr view0.

(** Pages with an open guard. *)
Definition open_page (v : view) (p : N) : Prop := exists g, v_on v !! g = Some p.
Definition open_pages (v : view) : gset N := list_to_set (snd <$> map_to_list (v_on v)).

(** All disk accesses of the call succeed. *)
Definition io_ok (o : bop) : Prop :=
  match o with
  | BNew _ _ w | BFlush _ w | BFlushAll w | BFlushBatch _ w => w = true
  | BFetch _ _ _ r w | BBatch _ _ _ r w => r = true /\ w = true
  | _ => True
  end.
(** [write_page] is used only on pages the caller holds open; no batch loads. *)
Definition polite (v : view) (o : bop) : Prop :=
  match o with
  | BPoke p bs => open_page v p /\ length bs = page_size
  | BBatch _ _ _ _ _ => False
  | _ => True
  end.
Definition nobatch (o : bop) : Prop := match o with BBatch _ _ _ _ _ => False | _ => True end.
(** Fetches ask for a live page that was written or flushed, by its right type. *)
Definition stored (v : view) (t p : N) : Prop :=
  p <> (2 ^ 64 - 1)%N /\ exists c, v_page v !! p = Some (c, true) /\ head c = Some t.
Definition good_fetch (v : view) (o : bop) : Prop :=
  match o with BFetch t p _ _ _ => stored v t p | _ => True end.
(** A condition at every point of a history. *)
Fixpoint always (P : view -> bop -> Prop) (v : view) (tr : list (bop * bout)) : Prop :=
  match tr with
  | [] => True
  | (o, x) :: tr' => P v o /\ always P (see v (o, x)) tr'
  end.
(** Page ids handed out by [new_page] (and [allocate_page]). *)
Definition handed_out (e : bop * bout) : option N :=
  match e with
  | (BNew _ _ _, BGuard (Some (_, p))) => Some p
  | (BAlloc, BNum p) => Some p
  | _ => None
  end.
(** The call does not write page [p]. *)
Definition leaves (v : view) (p : N) (o : bop) : Prop :=
  match o with BWrite g _ _ => v_on v !! g <> Some p | BPoke q _ => q <> p | _ => True end.
(** A call that is no fetch, or a fetch that gave a guard. *)
Definition got (e : bop * bout) : Prop := match e with (BFetch _ _ _ _ _, BGuard None) => False | _ => True end.
(** The call does not give up guard [g]. *)
Definition keeps (g : N) (o : bop) : Prop := match o with BDrop g' _ => g' <> g | _ => True end.
