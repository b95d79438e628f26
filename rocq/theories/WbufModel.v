(** * The write staging buffer, the coalescing engine and the size analyzer *)
(** src/storage/disk/async_disk/memory/write_staging_buffer.rs (S), coalescing/engine.rs (E) and
    coalescing/size_analyzer.rs (A). Counters are unbounded numbers; they stay below the buffer's maximum or
    count writes. Compression is the identity in the code (S 391-418). *)
From Coq Require Import NArith Lia.
From stdpp Require Import gmap list sorting.
From Verif Require Import WbufSpec.

(** ** S *)
(** S 256-271. *)
Record wbuf := mkWbuf { w_buf : gmap N bytes; w_dirty : nat; w_size : nat; w_max : nat }.
(** S 275-287. *)
Definition wbuf_new (max : nat) : wbuf := mkWbuf ∅ 0 0 max.
(** S 290-326. [Nat.sub] saturates. *)
Definition wbuf_write (b : wbuf) (p : N) (d : bytes) : wbuf * bool :=
  let old := match w_buf b !! p with Some x => length x | None => 0 end in
  let delta := length d - old in
  if w_max b <? w_size b + delta then (b, false)
  else
    let new := match w_buf b !! p with Some _ => false | None => true end in
    (mkWbuf (<[p := d]> (w_buf b)) (if new then S (w_dirty b) else w_dirty b) (w_size b + delta) (w_max b), true).
(** S 329-338. The order of the drained pages is the map's. *)
Definition wbuf_drain (b : wbuf) : wbuf * list (N * bytes) := (mkWbuf ∅ 0 0 (w_max b), map_to_list (w_buf b)).
Definition wstep (b : wbuf) (o : wop) : wbuf * wout :=
  match o with
  | WWrite p d => let '(b1, ok) := wbuf_write b p d in (b1, WTaken ok)
  | WDrain => let '(b1, l) := wbuf_drain b in (b1, WPages l)
  end.
Fixpoint wrun (b : wbuf) (ops : list wop) : wbuf * list (wop * wout) :=
  match ops with
  | [] => (b, [])
  | o :: ops' => let '(b1, x) := wstep b o in let '(b2, tr) := wrun b1 ops' in (b2, (o, x) :: tr)
  end.

(** ** E *)
(** E 323-337. Times are numbers of milliseconds; the metrics of the last cleanup are left out. *)
Record eng := mkEng { e_pend : gmap N bytes; e_time : gmap N N; e_freq : gmap N N; e_window : N; e_max : nat; e_last : N }.
(** E 351-362. *)
Definition eng_new (window : N) (max : nat) (now : N) : eng := mkEng ∅ ∅ ∅ window max now.
(** Three removals (E 420-422, 493-496). *)
Definition eng_remove (e : eng) (p : N) : eng :=
  mkEng (delete p (e_pend e)) (delete p (e_time e)) (delete p (e_freq e)) (e_window e) (e_max e) (e_last e).
(** Stable sort by time (E 415). *)
Fixpoint by_time_insert (x : N * N) (l : list (N * N)) : list (N * N) :=
  match l with
  | [] => [x]
  | y :: t => if N.leb x.2 y.2 then x :: y :: t else y :: by_time_insert x t
  end.
Definition by_time (l : list (N * N)) : list (N * N) := fold_right by_time_insert [] l.
(** E 401-426. [order] stands for the map's iteration order; it is used only when it is an enumeration of
    the table. *)
Definition simple_cleanup (e : eng) (now : N) (order : list (N * N)) : eng :=
  if size (e_pend e) <=? e_max e then e
  else
    let n := size (e_pend e) - e_max e / 2 in
    let e1 := fold_left (fun e x => eng_remove e x.1) (take n (by_time order)) e in
    mkEng (e_pend e1) (e_time e1) (e_freq e1) (e_window e1) (e_max e1) now.
(** E 365-398. [None] is the error on empty data; otherwise the data handed back. The frequency is a u32. *)
Definition coalesce (e : eng) (p : N) (d : bytes) (now : N) (order : list (N * N)) : eng * option bytes :=
  match d with
  | [] => (e, None)
  | _ =>
      match e_pend e !! p with
      | Some _ =>
          let f := ((default 0 (e_freq e !! p) + 1) mod 2 ^ 32)%N in
          (mkEng (<[p := d]> (e_pend e)) (<[p := now]> (e_time e)) (<[p := f]> (e_freq e)) (e_window e) (e_max e) (e_last e), Some d)
      | None =>
          let e1 := mkEng (<[p := d]> (e_pend e)) (<[p := now]> (e_time e)) (<[p := 1%N]> (e_freq e)) (e_window e) (e_max e) (e_last e) in
          (if e_max e1 <? size (e_pend e1) then simple_cleanup e1 now order else e1, Some d)
      end
  end.
(** E 638-675. *)
Definition validate (e : eng) : bool :=
  forallb (fun x : N * bytes => bool_decide (is_Some (e_time e !! x.1)) && bool_decide (is_Some (e_freq e !! x.1))) (map_to_list (e_pend e)) &&
  forallb (fun x : N * N => bool_decide (is_Some (e_pend e !! x.1))) (map_to_list (e_time e)) &&
  forallb (fun x : N * N => bool_decide (is_Some (e_pend e !! x.1))) (map_to_list (e_freq e)).
(** E 429-529. The pages removed for memory pressure or low use (E 450-486, scores in floating point) are
    given as [extra]. A removal touches the other tables only when the page was pending (E 493). *)
Definition expire_one (e : eng) (p : N) : eng := match e_pend e !! p with Some _ => eng_remove e p | None => e end.
Definition cleanup_expired (e : eng) (now : N) (extra : list N) : eng * bool :=
  if ((now - e_last e) <? 100)%N then (e, true)
  else
    let expired := omap (fun x : N * N => if (e_window e <? now - x.2)%N then Some x.1 else None) (map_to_list (e_time e)) in
    let e1 := fold_left expire_one (expired ++ extra) e in
    let e2 := mkEng (e_pend e1) (e_time e1) (e_freq e1) (e_window e1) (e_max e1) now in
    (e2, validate e2).
(** E 719-731 and the calls together. The answer is the data handed back, or whether the call succeeded. *)
Definition estep (e : eng) (o : eop) : eng * option bytes * bool :=
  match o with
  | EWrite p d now order => let '(e1, r) := coalesce e p d now order in (e1, r, bool_decide (is_Some r))
  | EExpire now extra => let '(e1, ok) := cleanup_expired e now extra in (e1, None, ok)
  | EConfig w m => (mkEng (e_pend e) (e_time e) (e_freq e) w m (e_last e), None, true)
  | EClear now => (mkEng ∅ ∅ ∅ (e_window e) (e_max e) now, None, true)
  end.
(** A run in which every walk of the table of times enumerates it. *)
Inductive erun : eng -> list (eop * option bytes * bool) -> eng -> Prop :=
| erun_nil e : erun e [] e
| erun_step e o e1 r ok tr e2 :
    (forall p d now order, o = EWrite p d now order -> order ≡ₚ map_to_list (<[p := now]> (e_time e))) ->
    estep e o = (e1, r, ok) -> erun e1 tr e2 -> erun e ((o, r, ok) :: tr) e2.
(** E 532-556. Page ids are below 2^64. The final sort. *)
Definition find_adjacent (e : eng) (p : N) : list N :=
  merge_sort N.le (concat ((fun k => 
     (if decide (k <= p /\ is_Some (e_pend e !! (p - k)))%N then [p - k] else []) ++
     (if decide (p + k < 2 ^ 64 /\ is_Some (e_pend e !! (p + k)))%N then [p + k] else []))%N <$> [1; 2; 3; 4]%N)).

(** ** A *)
(** A 369-372, 376-379: a page that is not pending counts 4096 bytes. *)
Definition page_bytes (pend : gmap N bytes) (p : N) : N := match pend !! p with Some d => N.of_nat (length d) | None => 4096%N end.
(** A 375-405: the loop over the sorted pages. The additions of page ids are on u64 and cannot overflow when no
    page is listed twice: only the last page can be 2^64-1. *)
Fixpoint ranges_from (pend : gmap N bytes) (start stop sz : N) (l : list N) : list prange :=
  match l with
  | [] => if (start <=? stop)%N then [mkRange start stop sz] else []
  | p :: t =>
      if (p =? stop + 1)%N then ranges_from pend start p (sz + page_bytes pend p) t
      else mkRange start stop sz :: ranges_from pend p p (page_bytes pend p) t
  end.
(** A 352-408. *)
Definition build_ranges (pages : list N) (pend : gmap N bytes) : list prange :=
  match merge_sort N.le pages with
  | [] => []
  | p :: t => ranges_from pend p p (page_bytes pend p) t
  end.
(** A 411-427. The size is computed on u64. *)
Fixpoint gaps_from (r : prange) (l : list prange) : list (N * N * N) :=
  match l with
  | [] => []
  | s :: t =>
      (if (r_end r + 1 <? r_start s)%N then
         let a := (r_end r + 1)%N in let b := (r_start s - 1)%N in [(a, b, ((b - a + 1) * 4096 mod 2 ^ 64)%N)]
       else []) ++ gaps_from s t
  end.
Definition gaps (l : list prange) : list (N * N * N) := match l with [] => [] | r :: t => gaps_from r t end.
(** A 565-581. *)
Fixpoint valid_from (r : prange) (l : list prange) : bool :=
  match l with [] => true | s :: t => if (r_start s <=? r_end r)%N then false else valid_from s t end.
Definition valid_ranges (l : list prange) : bool := match l with [] => true | r :: t => valid_from r t end.
(** A 553-562, with a power of two as alignment. *)
Definition aligned_size (n : N) (k : N) : N := N.ldiff (n + 2 ^ k - 1) (2 ^ k - 1).
Definition padding (n k : N) : N := aligned_size n k - n.
