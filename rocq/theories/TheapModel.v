(** * Table heaps: chains of table pages, and scans over them

    Models src/storage/table/table_heap.rs and src/storage/table/table_iterator.rs.  The heap's
    pages are taken to stay in the buffer pool (what happens to pages that leave it is C62), so
    fetching one of them succeeds; whether the buffer pool has a page to give when a new one is
    asked for, and which, is an argument of each insert. *)
From stdpp Require Import gmap list.
From Coq Require Import NArith.
From Verif Require Import Bytes PageModel.
Local Open Scope N_scope.

Notation rid := (N * nat)%type.

(** table_heap.rs:150-170.  [no_page] is INVALID_PAGE_ID. *)
Record heap := Heap { h_pages : gmap N page; h_first : N; h_last : N }.

(** 315-342, new. *)
Definition new_heap (alloc : option N) : heap :=
  match alloc with
  | Some n => Heap {[ n := new_page n ]} n n
  | None => Heap ∅ no_page no_page
  end.

(** table_page.rs:922-929, has_space_for. *)
Definition has_space (m : tmeta) (bs : list N) (p : page) : bool :=
  if too_large p bs then false else match next_offset p m bs with Some _ => true | None => false end.

(** 933-1018 and 1315-1408, create_new_page_and_insert(_from_values). *)
Definition create_and_insert (m : tmeta) (bs : list N) (alloc : option N) (h : heap) : option rid * heap :=
  if too_large (new_page 0) bs then (None, h)
  else match alloc with
       | None => (None, h)
       | Some n =>
           let np := set_prev (h_last h) (new_page n) in
           match h_pages h !! h_last h with
           | None => (None, Heap (<[n := np]> (h_pages h)) (h_first h) (h_last h))
           | Some lp =>
               let h1 := Heap (<[h_last h := set_next n lp]> (<[n := np]> (h_pages h))) (h_first h) n in
               if has_space m bs np
               then match insert_with_rid m bs np with
                    | Some np2 => (Some (n, 0%nat), Heap (<[n := np2]> (h_pages h1)) (h_first h1) (h_last h1))
                    | None => (None, h1)
                    end
               else (None, h1)
           end
       end.

(** 1021-1073, create_first_page_and_insert; [r] is the RID the tuple carries. *)
Definition create_first (m : tmeta) (bs : list N) (r : rid) (alloc : option N) (h : heap) : option rid * heap :=
  if too_large (new_page 0) bs then (None, h)
  else match alloc with
       | None => (None, h)
       | Some n =>
           let np := new_page n in
           let h1 := Heap (<[n := np]> (h_pages h)) n n in
           if has_space m bs np
           then match insert_tuple m bs (r.1, N.of_nat r.2) np with
                | Some np2 => (Some (n, N.to_nat (p_num np)), Heap (<[n := np2]> (h_pages h1)) n n)
                | None => (None, h1)
                end
           else (None, h1)
       end.

(** 1174-1226, insert_tuple_from_values (what INSERT uses), once the values are expanded.  The
    RID is not part of a tuple's bytes (src/storage/table/tuple.rs:410-413). *)
Definition insert_values (m : tmeta) (bs : list N) (alloc : option N) (h : heap) : option rid * heap :=
  if h_last h =? no_page then create_first m bs (no_page, 0%nat) alloc h
  else match h_pages h !! h_last h with
       | None => (None, h)
       | Some p =>
           if has_space m bs p
           then match insert_with_rid m bs p with
                | Some p2 => (Some (p_id p, N.to_nat (p_num p)), Heap (<[h_last h := p2]> (h_pages h)) (h_first h) (h_last h))
                | None => create_and_insert m bs alloc h
                end
           else create_and_insert m bs alloc h
       end.

(** 385-417, insert_tuple, and 1102-1134, insert_tuple_internal: the tuple must carry the RID
    it is going to get, unless a page has to be added. *)
Definition insert_given (m : tmeta) (bs : list N) (r : rid) (alloc : option N) (h : heap) : option rid * heap :=
  if h_last h =? no_page then create_first m bs r alloc h
  else match h_pages h !! h_last h with
       | None => (None, h)
       | Some p =>
           if has_space m bs p
           then match insert_tuple m bs (r.1, N.of_nat r.2) p with
                | Some p2 => (Some (p_id p, N.to_nat (p_num p)), Heap (<[h_last h := p2]> (h_pages h)) (h_first h) (h_last h))
                | None => (None, h)
                end
           else create_and_insert m bs alloc h
       end.

(** 553-567, get_tuple. *)
Definition heap_get (r : rid) (h : heap) : option (tmeta * list N) :=
  match h_pages h !! r.1 with Some p => get_tuple r.1 r.2 false p | None => None end.

Definition with_page (r : rid) (f : page -> pres) (h : heap) : bool * heap :=
  match h_pages h !! r.1 with
  | None => (false, h)
  | Some p =>
      match f p with
      | POk p2 => (true, Heap (<[r.1 := p2]> (h_pages h)) (h_first h) (h_last h))
      | PErr p2 => (false, Heap (<[r.1 := p2]> (h_pages h)) (h_first h) (h_last h))
      | PPanic => (false, h)
      end
  end.

(** 1136-1150, update_tuple_internal.  (A panic is shown as a refusal: it needs a tuple of 64 KiB,
    see C31.) *)
Definition heap_update (r : rid) (m : tmeta) (bs : list N) (h : heap) : bool * heap :=
  with_page r (update_tuple r.2 m bs) h.

(** 512-537, update_tuple_meta. *)
Definition heap_meta (r : rid) (m : tmeta) (h : heap) : bool * heap :=
  match heap_get r h with
  | None => (false, h)
  | Some (old, _) =>
      if negb (tm_creator old =? tm_creator m) && match tm_ts old with Some _ => false | None => true end then (false, h)
      else with_page r (update_meta r.2 m) h
  end.

(** 889-903, get_num_pages (the loop is bounded by [fuel]). *)
Fixpoint count_pages (fuel : nat) (id : N) (h : heap) : nat :=
  match fuel with
  | O => O
  | S f => if id =? no_page then O
           else match h_pages h !! id with Some p => S (count_pages f (p_next p) h) | None => 1%nat end
  end.

(** 778-801, get_first_page_id: the first page with a tuple. *)
Fixpoint first_used (fuel : nat) (id : N) (h : heap) : N :=
  match fuel with
  | O => no_page
  | S f => if id =? no_page then no_page
           else match h_pages h !! id with
                | Some p => if 0 <? p_num p then id else first_used f (p_next p) h
                | None => no_page
                end
  end.

(** 906-926, get_num_tuples. *)
Fixpoint count_tuples (fuel : nat) (id : N) (h : heap) : N :=
  match fuel with
  | O => 0
  | S f => if id =? no_page then 0
           else match h_pages h !! id with Some p => p_num p + count_tuples f (p_next p) h | None => 0 end
  end.

(** table_iterator.rs:190-216: the RID to look at next.  The end of a scan is never bounded
    here ([stop_at_rid] is INVALID, as TableScanIterator sets it). *)
Definition it_end (cur : rid) : bool := cur.1 =? no_page.

(** 267-310, initialize. *)
Definition it_init (fuel : nat) (start : rid) (h : heap) : rid :=
  let first := first_used fuel (h_first h) h in
  if first =? no_page then (no_page, 0%nat)
  else if start.1 =? no_page then (first, 0%nat)
  else match h_pages h !! start.1 with
       | None => (first, 0%nat)
       | Some p => if p_num p <=? N.of_nat start.2 then (start.1, 0%nat) else start
       end.

(** 313-340, advance. *)
Definition it_advance (cur : rid) (h : heap) : rid :=
  if it_end cur then cur
  else match h_pages h !! cur.1 with
       | Some p => if p_num p <=? N.of_nat (S cur.2) then (p_next p, 0%nat) else (cur.1, S cur.2)
       | None => (no_page, 0%nat)
       end.

(** 443-471, TableIterator::next: the tuple (with the RID stored in it), and the RID to look at
    next. *)
Fixpoint it_next (fuel : nat) (cur : rid) (h : heap) : option (rid * (tmeta * list N)) * rid :=
  match fuel with
  | O => (None, cur)
  | S f =>
      if it_end cur then (None, cur)
      else match heap_get cur h with
           | Some x => (Some (cur, x), it_advance cur h)
           | None => it_next f (it_advance cur h) h
           end
  end.

(** 420-437, TableScanIterator::next until it returns None: for each tuple, the RID the iterator
    reports for it (get_rid, 384-388), and the tuple. *)
Fixpoint it_all (fuel bound : nat) (cur : rid) (h : heap) : list (rid * (rid * (tmeta * list N))) :=
  match bound with
  | O => []
  | S b =>
      match it_next fuel cur h with
      | (Some x, cur2) => (cur, x) :: it_all fuel b cur2 h
      | (None, _) => []
      end
  end.

(** 349-376, TableScanIterator::new, and a whole scan. *)
Definition scan (fuel : nat) (h : heap) : list (rid * (rid * (tmeta * list N))) :=
  it_all fuel fuel (it_init fuel (first_used fuel (h_first h) h, 0%nat) h) h.

(** Calls.  The allocation argument is the page the buffer pool gives if it is asked. *)
Inductive hop :=
| HValues (m : tmeta) (bs : list N) (alloc : option N)
| HGiven (m : tmeta) (bs : list N) (r : rid) (alloc : option N)
| HUpdate (r : rid) (m : tmeta) (bs : list N)
| HMeta (r : rid) (m : tmeta).

(** The RID (of the new row, or of the changed one) of an accepted call. *)
Definition hstep (o : hop) (h : heap) : option rid * heap :=
  match o with
  | HValues m bs alloc => insert_values m bs alloc h
  | HGiven m bs r alloc => insert_given m bs r alloc h
  | HUpdate r m bs => let '(ok, h2) := heap_update r m bs h in (if ok then Some r else None, h2)
  | HMeta r m => let '(ok, h2) := heap_meta r m h in (if ok then Some r else None, h2)
  end.

Fixpoint hrun (ops : list hop) (h : heap) : list (option rid) * heap :=
  match ops with
  | [] => ([], h)
  | o :: ops => let '(r, h1) := hstep o h in let '(rs, h2) := hrun ops h1 in (r :: rs, h2)
  end.
