(** Buffer pool manager, src/buffer/buffer_pool_manager_async.rs, with the page guards
    of src/storage/page/page_guard.rs and the basic page of src/storage/page/page_impl.rs.

    Simplifications: every page type behaves as [BasicPage] (the type only decides the tag
    and the type check); pin counts are natural numbers; page ids do not wrap at 2^64; the
    disk manager is a map that returns the bytes last written (its own behaviour is C15-C18).
    Each method is one atomic step here; [fetch_find]/[fetch_pin] and [load_begin]/[load_end]
    are the parts a concurrent caller can come between. *)
From Coq Require Import NArith.
From stdpp Require Import gmap list.
From Verif Require Import LrukSpec LrukModel BpmSpec.

(** A page object behind an [Arc]: page_impl.rs 219-224; [o_type] is the Rust type. *)
Record pobj := mkObj { o_pid : N; o_type : N; o_data : bytes; o_pin : nat; o_dirty : bool }.
(** page_guard.rs 172-179. *)
Record pguard := mkGuard { g_loc : N; g_pid : N; g_dirty : bool }.
(** The manager's fields (buffer_pool_manager_async.rs 330-340), the disk, the page objects
    and the open guards. [b_free] is the [Vec] with its end first. [b_fresh] names objects
    and guards. *)
Record pool := mkPool {
  b_size : nat; b_next : N; b_frames : gmap N N; b_table : gmap N N; b_rep : replacer;
  b_free : list N; b_disk : gmap N bytes; b_heap : gmap N pobj; b_guards : gmap N pguard; b_fresh : N }.

Definition set_rep (b : pool) (r : replacer) : pool :=
  mkPool (b_size b) (b_next b) (b_frames b) (b_table b) r (b_free b) (b_disk b) (b_heap b) (b_guards b) (b_fresh b).
Definition set_free (b : pool) (l : list N) : pool :=
  mkPool (b_size b) (b_next b) (b_frames b) (b_table b) (b_rep b) l (b_disk b) (b_heap b) (b_guards b) (b_fresh b).
Definition set_heap (b : pool) (h : gmap N pobj) : pool :=
  mkPool (b_size b) (b_next b) (b_frames b) (b_table b) (b_rep b) (b_free b) (b_disk b) h (b_guards b) (b_fresh b).
Definition set_disk (b : pool) (d : gmap N bytes) : pool :=
  mkPool (b_size b) (b_next b) (b_frames b) (b_table b) (b_rep b) (b_free b) d (b_heap b) (b_guards b) (b_fresh b).
Definition set_maps (b : pool) (fr tb : gmap N N) : pool :=
  mkPool (b_size b) (b_next b) fr tb (b_rep b) (b_free b) (b_disk b) (b_heap b) (b_guards b) (b_fresh b).
Definition set_guards (b : pool) (gs : gmap N pguard) : pool :=
  mkPool (b_size b) (b_next b) (b_frames b) (b_table b) (b_rep b) (b_free b) (b_disk b) (b_heap b) gs (b_fresh b).
Definition set_next (b : pool) (n : N) : pool :=
  mkPool (b_size b) n (b_frames b) (b_table b) (b_rep b) (b_free b) (b_disk b) (b_heap b) (b_guards b) (b_fresh b).
Definition set_fresh (b : pool) (n : N) : pool :=
  mkPool (b_size b) (b_next b) (b_frames b) (b_table b) (b_rep b) (b_free b) (b_disk b) (b_heap b) (b_guards b) n.

(** 314-341, over a database file with contents [d]. The replacer has K = 2 (386). *)
Definition pool_open (n : nat) (d : gmap N bytes) : pool :=
  mkPool n 0 ∅ ∅ (rep_new 2) (rev (N.of_nat <$> seq 0 n)) d ∅ ∅ 0.
Definition pool_new (n : nat) : pool := pool_open n ∅.

(** page_impl.rs 265-267, 311-313. *)
Definition with_dirty (o : pobj) (x : bool) : pobj := mkObj (o_pid o) (o_type o) (o_data o) (o_pin o) x.
Definition with_pin (o : pobj) (n : nat) : pobj := mkObj (o_pid o) (o_type o) (o_data o) n (o_dirty o).
(** page_impl.rs 291-309. *)
Definition set_data (o : pobj) (off : nat) (bs : bytes) : pobj * bool :=
  if decide (length (o_data o) < off + length bs) then (o, false)
  else
    let d := take off (o_data o) ++ bs ++ drop (off + length bs) (o_data o) in
    let d := if decide (off = 0 /\ bs <> []) then <[0 := o_type o]> d else d in
    (mkObj (o_pid o) (o_type o) d (o_pin o) true, true).

(** 939-942 and 945-953: forget the page and empty the frame. *)
Definition drop_page (b : pool) (f p : N) : pool := set_maps b (delete f (b_frames b)) (delete p (b_table b)).
(** 1233-1264 = 1195-1227: write the object's bytes under [p]; clean on success. *)
Definition write_out (b : pool) (p l : N) (wr : bool) : pool * bool :=
  match b_heap b !! l with
  | Some o => if wr then (set_heap (set_disk b (<[p := o_data o]> (b_disk b))) (<[l := with_dirty o false]> (b_heap b)), true) else (b, false)
  | None => (b, false)
  end.
(** 978-1015. *)
Definition evict_old (b : pool) (f p : N) (wr : bool) : pool :=
  let b1 :=
    match b_frames b !! f with
    | Some l =>
        match b_heap b !! l with
        | Some o => if o_dirty o then (write_out b p l wr).1 else b
        | None => b
        end
    | None => b
    end in
  drop_page b1 f p.
(** 956-975. *)
Definition evict_if_necessary (b : pool) (f : N) (wr : bool) : pool :=
  match b_frames b !! f with
  | Some l =>
      match b_heap b !! l with
      | Some o => if decide (o_pin o = 0) then evict_old b f (o_pid o) wr else b
      | None => b
      end
  | None => b
  end.
(** 1045-1050: the page table is searched for the frame. The map's iteration order only
    matters when two pages share a frame. *)
Definition page_in (t : gmap N N) (f : N) : option N :=
  head (omap (fun e : N * N => if decide (e.2 = f) then Some e.1 else None) (map_to_list t)).
(** 1065-1077. *)
Definition mark_unpinned (b : pool) : replacer :=
  fold_left (fun r f =>
    match b_frames b !! f with
    | Some l => match b_heap b !! l with Some o => if decide (o_pin o = 0) then (rep_set r f true).1 else r | None => r end
    | None => r
    end) (N.of_nat <$> seq 0 (b_size b)) (b_rep b).
(** 1036-1081. *)
Fixpoint avail_loop (n : nat) (b : pool) (wr : bool) : pool * option N :=
  match n with
  | 0 => (b, None)
  | S n' =>
      match rep_evict (b_rep b) with
      | (r, Some f) =>
          let b1 := set_rep b r in
          (match page_in (b_table b1) f with Some p => evict_old b1 f p wr | None => b1 end, Some f)
      | (r, None) => let b1 := set_rep b r in avail_loop n' (set_rep b1 (mark_unpinned b1)) wr
      end
  end.
(** 1021-1082. *)
Definition get_available_frame (b : pool) (wr : bool) : pool * option N :=
  match b_free b with
  | f :: rest => (set_free b rest, Some f)
  | [] => avail_loop (b_size b) b wr
  end.

(** 1092-1111. *)
Definition typed_page (pid t : N) : pobj := mkObj pid t (fresh_page t) 1 false.
(** 1148-1179. *)
Definition update_metadata (b : pool) (f p l now : N) : pool :=
  let b1 := set_maps b (<[f := l]> (b_frames b)) (<[p := f]> (b_table b)) in
  set_rep b1 (rep_set (rep_access (b_rep b1) f now) f false).1.
(** A new object. *)
Definition alloc_obj (b : pool) (o : pobj) : pool * N :=
  (set_fresh (set_heap b (<[b_fresh b := o]> (b_heap b))) (b_fresh b + 1), b_fresh b).
(** A new guard value: page_guard.rs 208-225. *)
Definition add_guard (b : pool) (l p : N) : pool * N :=
  (set_fresh (set_guards b (<[b_fresh b := mkGuard l p false]> (b_guards b))) (b_fresh b + 1), b_fresh b).

(** 423-445. *)
Definition new_page (b : pool) (t now : N) (wr : bool) : pool * option (N * N) :=
  match get_available_frame b wr with
  | (b1, None) => (b1, None)
  | (b1, Some f) =>
      let b2 := evict_if_necessary b1 f wr in
      let p := b_next b2 in
      let b3 := set_next b2 (p + 1) in
      let '(b4, l) := alloc_obj b3 (typed_page p t) in
      let b5 := update_metadata b4 f p l now in
      let '(b6, g) := add_guard b5 l p in
      (b6, Some (g, p))
  end.

(** 551-575 = 1269-1275 and 1362-1376: the resident object, if there is one, and whether
    its tag is the asked type. *)
Definition resident (b : pool) (pid : N) : option N := f ← b_table b !! pid; b_frames b !! f.
Definition tag_ok (b : pool) (l t : N) : bool :=
  match b_heap b !! l with Some o => bool_decide (head (o_data o) = Some t) | None => false end.
(** 577-591 and page_guard.rs 183-205. *)
Definition fetch_pin (b : pool) (l pid now : N) : pool * N :=
  let b1 :=
    match b_table b !! pid with
    | Some f => set_rep b (rep_set (rep_access (b_rep b) f now) f false).1
    | None => b
    end in
  let b2 := set_heap b1 (alter (fun o => with_pin o (S (o_pin o))) l (b_heap b1)) in
  add_guard b2 l pid.

(** 606-625: take a frame and read the page. A failed read keeps the frame. *)
Definition load_begin (b : pool) (pid : N) (rd wr : bool) : pool * option (N * bytes) :=
  match get_available_frame b wr with
  | (b1, None) => (b1, None)
  | (b1, Some f) =>
      let b2 := evict_if_necessary b1 f wr in
      (b2, if rd then (fun d => (f, d)) <$> b_disk b2 !! pid else None)
  end.
(** 665-721: [None] on a short page or another tag. *)
Definition page_from_data (pid t : N) (d : bytes) : option pobj :=
  if decide (length d < page_size) then None
  else if decide (head d = Some t) then Some (set_data (typed_page pid t) 0 (take page_size d)).1
  else None.
(** 628-637. *)
Definition load_end (b : pool) (t pid f : N) (d : bytes) (now : N) : pool * option (N * N) :=
  match page_from_data pid t d with
  | None => (b, None)
  | Some o =>
      let '(b1, l) := alloc_obj b o in
      let b2 := update_metadata b1 f pid l now in
      let '(b3, g) := add_guard b2 l pid in
      (b3, Some (g, pid))
  end.
(** 539-596. *)
Definition fetch_page (b : pool) (t pid now : N) (rd wr : bool) : pool * option (N * N) :=
  if decide (pid = (2 ^ 64 - 1)%N \/ (b_next b <= pid)%N) then (b, None)
  else
    match resident b pid with
    | Some l =>
        if tag_ok b l t then let '(b1, g) := fetch_pin b l pid now in (b1, Some (g, pid)) else (b, None)
    | None =>
        match load_begin b pid rd wr with
        | (b1, None) => (b1, None)
        | (b1, Some (f, d)) => load_end b1 t pid f d now
        end
    end.

(** page_guard.rs 227-229. *)
Definition guard_read (b : pool) (g : N) : option bytes :=
  G ← b_guards b !! g; o_data <$> b_heap b !! g_loc G.
(** page_guard.rs 231-238, then [set_data]. *)
Definition guard_write (b : pool) (g : N) (off : nat) (bs : bytes) : pool * bool :=
  match b_guards b !! g with
  | None => (b, false)
  | Some G =>
      match b_heap b !! g_loc G with
      | None => (b, false)
      | Some o =>
          let b1 := set_guards b (<[g := mkGuard (g_loc G) (g_pid G) true]> (b_guards b)) in
          let '(o1, ok) := set_data (with_dirty o true) off bs in
          (set_heap b1 (<[g_loc G := o1]> (b_heap b1)), ok)
      end
  end.

(** 732-781. *)
Definition unpin_page (b : pool) (pid : N) (dirty : bool) (now : N) : pool * bool :=
  match b_table b !! pid with
  | None => (b, false)
  | Some f =>
      match b_frames b !! f with
      | None => (b, false)
      | Some l =>
          match b_heap b !! l with
          | None => (b, false)
          | Some o =>
              let o1 := if dirty then with_dirty o true else o in
              match o_pin o with
              | 0 => (set_heap b (<[l := o1]> (b_heap b)), false)
              | S n =>
                  let b1 := set_heap b (<[l := with_pin o1 n]> (b_heap b)) in
                  (match n with
                   | 0 => set_rep b1 (rep_set (rep_access (b_rep b1) f now) f true).1
                   | _ => b1
                   end, true)
              end
          end
      end
  end.
(** page_guard.rs 264-277. *)
Definition guard_drop (b : pool) (g now : N) : pool * bool :=
  match b_guards b !! g with
  | None => (b, false)
  | Some G => unpin_page (set_guards b (delete g (b_guards b))) (g_pid G) (g_dirty G) now
  end.

(** 784-804. *)
Definition flush_page (b : pool) (pid : N) (wr : bool) : pool * bool :=
  match resident b pid with
  | Some l => write_out b pid l wr
  | None => (b, false)
  end.
(** 807-821. The pages are flushed in the page table's iteration order. *)
Definition flush_all (b : pool) (wr : bool) : pool :=
  fold_left (fun b e => (flush_page b e.1 wr).1) (map_to_list (b_table b)) b.
(** 1413-1433: the first [max] dirty frames, in frame order. *)
Definition dirty_pages (b : pool) (max : nat) : list (N * bytes) :=
  take max (omap (fun f =>
    l ← b_frames b !! f; o ← b_heap b !! l;
    if o_dirty o then Some (o_pid o, o_data o) else None) (N.of_nat <$> seq 0 (b_size b))).
(** 1440-1460: written as a batch, then marked clean through the page table. *)
Definition flush_batch (b : pool) (max : nat) (wr : bool) : pool * option nat :=
  let l := dirty_pages b max in
  match l with
  | [] => (b, Some 0)
  | _ =>
      if wr then
        let b1 := set_disk b (fold_left (fun d e => <[e.1 := e.2]> d) l (b_disk b)) in
        (fold_left (fun b e =>
           match resident b e.1 with
           | Some l => set_heap b (alter (fun o => with_dirty o false) l (b_heap b))
           | None => b
           end) l b1, Some (length l))
      else (b, None)
  end.

(** 869-904. *)
Definition delete_page (b : pool) (pid : N) : pool * bool :=
  match b_table b !! pid with
  | None => (b, false)
  | Some f =>
      let pinned := match resident b pid with
        | Some l => match b_heap b !! l with Some o => negb (Nat.eqb (o_pin o) 0) | None => false end
        | None => false end in
      if pinned then (b, false)
      else
        let b1 := drop_page b f pid in
        let b2 := set_free b1 (f :: b_free b1) in
        (set_rep b2 (rep_remove (b_rep b2) f), true)
  end.

(** 495-530: the first frame, in frame order, whose page has this id. *)
Definition poke (b : pool) (pid : N) (bs : bytes) : pool :=
  match head (omap (fun f => l ← b_frames b !! f; o ← b_heap b !! l;
                if decide (o_pid o = pid) then Some (l, o) else None) (N.of_nat <$> seq 0 (b_size b))) with
  | Some (l, o) => set_heap b (<[l := with_dirty (set_data o 0 bs).1 true]> (b_heap b))
  | None => b
  end.

(** 1324-1336, one page of a batch: the guard is made before a frame is found, and is
    handed out even when there is none. *)
Definition batch_load1 (b : pool) (t pid : N) (d : option bytes) (now : N) (wr : bool) : pool * option N :=
  match d ≫= page_from_data pid t with
  | None => (b, None)
  | Some o =>
      let '(b1, l) := alloc_obj b o in
      let '(b2, g) := add_guard b1 l pid in
      match get_available_frame b2 wr with
      | (b3, Some f) => (update_metadata (evict_if_necessary b3 f wr) f pid l now, Some g)
      | (b3, None) => (b3, Some g)
      end
  end.
(** Stable sort by page id (1348). *)
Fixpoint sort_insert (x : N * option N) (l : list (N * option N)) : list (N * option N) :=
  match l with
  | [] => [x]
  | y :: t => if N.leb x.1 y.1 then x :: y :: t else y :: sort_insert x t
  end.
(** 1289-1353. The batch read takes place before any frame is taken; a page missing on
    disk is a [None] entry (the code fails the whole batch). *)
Definition load_batch (b : pool) (t : N) (pids : list N) (now : N) (rd wr : bool) : pool * list (option N) :=
  let '(b1, hits) := fold_left (fun acc pid =>
     let '(b, hits) := acc in
     match resident b pid with
     | Some l => if tag_ok b l t then let '(b1, g) := fetch_pin b l pid now in (b1, hits ++ [(pid, Some g)])
                 else (b, hits ++ [(pid, None)])
     | None => (b, hits)
     end) pids (b, []) in
  let todo := filter (fun pid => resident b pid = None) pids in
  let data := (fun pid => (pid, if rd then b_disk b1 !! pid else None)) <$> todo in
  let '(b2, all) := fold_left (fun acc e =>
     let '(b, out) := acc in
     let '(b1, g) := batch_load1 b t e.1 e.2 now wr in (b1, out ++ [(e.1, g)])) data (b1, hits) in
  (b2, snd <$> fold_right sort_insert [] all).

Definition bstep (b : pool) (o : bop) : pool * bout :=
  match o with
  | BNew t now wr => let '(b1, r) := new_page b t now wr in (b1, BGuard r)
  | BFetch t pid now rd wr => let '(b1, r) := fetch_page b t pid now rd wr in (b1, BGuard r)
  | BRead g => (b, BData (guard_read b g))
  | BWrite g off bs => let '(b1, r) := guard_write b g off bs in (b1, BOk r)
  | BDrop g now => let '(b1, r) := guard_drop b g now in (b1, BOk r)
  | BFlush pid wr => let '(b1, r) := flush_page b pid wr in (b1, BOk r)
  | BFlushAll wr => (flush_all b wr, BOk true)
  | BFlushBatch max wr => let '(b1, r) := flush_batch b max wr in (b1, BOk (bool_decide (is_Some r)))
  | BDelete pid => let '(b1, r) := delete_page b pid in (b1, BOk r)
  | BPoke pid bs => (poke b pid bs, BOk true)
  | BAlloc => (set_next b (b_next b + 1), BNum (b_next b))   (* 844-846, 1085-1087 *)
  | BBatch t pids now rd wr => let '(b1, r) := load_batch b t pids now rd wr in (b1, BGuards r)
  end.
Fixpoint brun (b : pool) (ops : list bop) : pool * list (bop * bout) :=
  match ops with
  | [] => (b, [])
  | o :: ops' => let '(b1, x) := bstep b o in let '(b2, tr) := brun b1 ops' in (b2, (o, x) :: tr)
  end.

(** Two callers at once. A fetch that finds its page resident looks it up (551-575) and pins
    it (577-591); a fetch that does not takes a frame and reads (606-625), then installs
    the page (628-637). Other calls may come in between. *)
Inductive cop :=
| CCall (o : bop)
| CFind (t pid : N)                    (* first half of a hit; the object is remembered *)
| CPin (now : N)
| CLoad (pid : N) (rd wr : bool)       (* first half of a miss *)
| CInstall (t now : N).
Record cstate := mkC { c_pool : pool; c_found : list (N * N); c_loads : list (N * N * bytes) }.
Definition cstep (c : cstate) (o : cop) : cstate * bout :=
  let b := c_pool c in
  match o with
  | CCall o => let '(b1, x) := bstep b o in (mkC b1 (c_found c) (c_loads c), x)
  | CFind t pid =>
      match resident b pid with
      | Some l => if tag_ok b l t then (mkC b (c_found c ++ [(l, pid)]) (c_loads c), BOk true) else (c, BOk false)
      | None => (c, BOk false)
      end
  | CPin now =>
      match c_found c with
      | (l, pid) :: rest => let '(b1, g) := fetch_pin b l pid now in (mkC b1 rest (c_loads c), BGuard (Some (g, pid)))
      | [] => (c, BGuard None)
      end
  | CLoad pid rd wr =>
      match load_begin b pid rd wr with
      | (b1, Some (f, d)) => (mkC b1 (c_found c) (c_loads c ++ [(pid, f, d)]), BOk true)
      | (b1, None) => (mkC b1 (c_found c) (c_loads c), BOk false)
      end
  | CInstall t now =>
      match c_loads c with
      | (pid, f, d) :: rest =>
          let '(b1, r) := load_end b t pid f d now in (mkC b1 (c_found c) rest, BGuard r)
      | [] => (c, BGuard None)
      end
  end.
Fixpoint crun (c : cstate) (ops : list cop) : cstate * list bout :=
  match ops with
  | [] => (c, [])
  | o :: ops' => let '(c1, x) := cstep c o in let '(c2, xs) := crun c1 ops' in (c2, x :: xs)
  end.
(** The ids handed out in an interleaved run. *)
Definition c_handed (e : cop * bout) : option N := match e.1 with CCall o => handed_out (o, e.2) | _ => None end.

(** 1810-1824: a clone shares everything but the page id counter. *)
Definition clone_counter (b : pool) : N := b_next b.
(** A call made through the clone whose counter stands at [n]; the new counter is returned. *)
Definition on_clone (b : pool) (n : N) (o : bop) : pool * N * bout :=
  let '(b1, x) := bstep (set_next b n) o in (set_next b1 (b_next b), b_next b1, x).
