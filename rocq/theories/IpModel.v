(** * Model: index pages as bytes (C112)

    Models /repo/src/storage/page/page_types/b_plus_tree_leaf_page.rs (L), b_plus_tree_internal_page.rs (I) and
    b_plus_tree_header_page.rs (H), and the way the buffer pool (/repo/src/buffer/buffer_pool_manager_async.rs, P) writes
    pages and reads them.  [None] is a panic.  Left out: pin counts, dirty flags, page ids, logging and
    printing.  usize is 64 bits wide and the machine little-endian. *)
From Coq Require Import NArith Lia.
From stdpp Require Import list.
From Verif Require Import Bytes PageModel WrecModel IpSpec.
Local Open Scope N_scope.

(** buffer[c..c + n].copy_from_slice(bytes), with the cursor moved; it panics beyond the buffer. *)
Definition put (bs : list N) (s : list N * nat) : option (list N * nat) :=
  let '(b, c) := s in
  if (c + length bs <=? length b)%nat then Some (take c b ++ bs ++ drop (c + length bs) b, (c + length bs)%nat) else None.
(** &buffer[c..c + n], with the cursor moved. *)
Definition get (n : nat) (b : list N) (c : nat) : option (list N * nat) :=
  if (c + n <=? length b)%nat then Some (take n (drop c b), (c + n)%nat) else None.

(** page.set_data (H 244-254, I 963-973) and a write of the type byte (P 1101, P 1132; PAGE_TYPE_OFFSET is 0,
    page_impl.rs:154). *)
Definition with_type (t : N) (d : list N) : list N := t :: tail d.
Definition zeros : list N := repeat 0 4096.

(* ------------------------------------------------------------------ the header page *)

(** H 51-69. *)
Record header := Hd { h_root : N; h_height : N; h_keys : N; h_order : N; h_data : list N }.
(** H 81-94 and P 1092-1111. INVALID_PAGE_ID is u64::MAX (config.rs:13). *)
Definition new_header : header := Hd (2 ^ 64 - 1) 0 0 0 (with_type 6 zeros).
Inductive hop := HRoot (n : N) | HHeight (n : N) | HUp | HDown | HCount (n : N) | HMore | HLess | HOrder (n : N) | HReset.
(** H 97-158 and 260-267 (the order survives a reset). The counters do not wrap: adding past the top panics. *)
Definition hstep (o : hop) (h : header) : option header :=
  let '(Hd r t k d b) := h in
  match o with
  | HRoot n => Some (Hd n t k d b)
  | HHeight n => Some (Hd r n k d b)
  | HUp => if t + 1 <? 2 ^ 32 then Some (Hd r (t + 1) k d b) else None
  | HDown => Some (Hd r (t - 1) k d b)
  | HCount n => Some (Hd r t n d b)
  | HMore => if k + 1 <? 2 ^ 64 then Some (Hd r t (k + 1) d b) else None
  | HLess => Some (Hd r t (k - 1) d b)
  | HOrder n => Some (Hd r t k n b)
  | HReset => Some (Hd (2 ^ 64 - 1) 0 0 d (with_type 6 zeros))
  end.
(** H 166-176: postcard of HeaderData (H 71-77). *)
Definition h_serialize (h : header) : list N :=
  u64_enc (h_root h) ++ u32_enc (h_height h) ++ u64_enc (h_keys h) ++ u32_enc (h_order h).
(** H 179-192: a decoding error is a panic. *)
Definition h_deserialize (d : list N) : option header :=
  match bind u64_dec (fun r => bind u32_dec (fun t => bind u64_dec (fun k => bind u32_dec (fun o => done_ (r, t, k, o))))) d with
  | Some (r, t, k, o, _) => Some (Hd r t k o (h_data new_header))
  | None => None
  end.

(* ------------------------------------------------------------------ leaf pages *)

Section Pages.
Context {K V : Type} (cmp : K -> K -> comparison) (kenc : K -> list N) (kdec : dec K) (venc : V -> list N) (vdec : dec V).

(** L 70-98. *)
Record leaf := Lf { l_keys : list K; l_vals : list V; l_next : option N; l_size : N; l_max : N; l_root : bool; l_data : list N }.
(** L 119-140, and P 1116-1145, which writes the type byte. *)
Definition new_leaf (max : N) (root : bool) : leaf := Lf [] [] None 0 max root (with_type 8 zeros).

(** L 198-217; [None] when a key below the size is missing. *)
Fixpoint l_search (fuel : nat) (ks : list K) (k : K) (low high : nat) : option nat :=
  match fuel with
  | O => Some low
  | S fuel =>
      if (low <? high)%nat then
        let mid := (low + (high - low) / 2)%nat in
        match ks !! mid with
        | None => None
        | Some x => match cmp k x with
                    | Eq => Some mid
                    | Lt => l_search fuel ks k low mid
                    | Gt => l_search fuel ks k (mid + 1)%nat high
                    end
        end
      else Some low
  end.
Definition l_find (p : leaf) (k : K) : option nat :=
  l_search (S (N.to_nat (l_size p))) (l_keys p) k 0 (N.to_nat (l_size p)).
(** Vec::insert, which panics past the end, and an assignment by index. *)
Definition vinsert {A} (i : nat) (x : A) (l : list A) : option (list A) :=
  if (i <=? length l)%nat then Some (take i l ++ x :: drop i l) else None.
Definition vset {A} (i : nat) (x : A) (l : list A) : option (list A) :=
  if (i <? length l)%nat then Some (<[i := x]> l) else None.
Definition vremove {A} (i : nat) (l : list A) : option (list A) :=
  if (i <? length l)%nat then Some (delete i l) else None.

Inductive lop :=
| LInsert (k : K) (v : V) | LOver (k : K) (v : V) | LRemove (i : nat) | LKey (i : nat) (k : K) | LVal (i : nat) (v : V)
| LNext (n : option N) | LRoot (b : bool) | LReset.

(** L 242-258; L 219-239 first checks the room. *)
Definition l_insert (k : K) (v : V) (p : leaf) : option leaf :=
  match l_find p k with
  | None => None
  | Some i =>
      let there := match l_keys p !! i with
                   | Some x => (i <? N.to_nat (l_size p))%nat && match cmp k x with Eq => true | _ => false end
                   | None => false
                   end in
      if there then
        match vset i v (l_vals p) with
        | Some vs => Some (Lf (l_keys p) vs (l_next p) (l_size p) (l_max p) (l_root p) (l_data p))
        | None => None
        end
      else match vinsert i k (l_keys p), vinsert i v (l_vals p) with
           | Some ks, Some vs => Some (Lf ks vs (l_next p) (l_size p + 1) (l_max p) (l_root p) (l_data p))
           | _, _ => None
           end
  end.
(** The calls that change a leaf: L 219-239, 242-258, 260-271, 169-177, 179-187, 193-196, 143-146, 538-546. *)
Definition lstep (o : lop) (p : leaf) : option leaf :=
  let '(Lf ks vs nx n mx rt d) := p in
  match o with
  | LInsert k v => if mx <=? n then Some p else l_insert k v p
  | LOver k v => l_insert k v p
  | LRemove i =>
      if n <=? N.of_nat i then Some p
      else match vremove i ks, vremove i vs with
           | Some ks, Some vs => Some (Lf ks vs nx (n - 1) mx rt d)
           | _, _ => None
           end
  | LKey i k =>
      if N.of_nat i <? n then match vset i k ks with Some ks => Some (Lf ks vs nx n mx rt d) | None => None end else Some p
  | LVal i v =>
      if N.of_nat i <? n then match vset i v vs with Some vs => Some (Lf ks vs nx n mx rt d) | None => None end else Some p
  | LNext x => Some (Lf ks vs x n mx rt d)
  | LRoot b => Some (Lf ks vs nx n mx b d)
  | LReset => Some (Lf [] [] None 0 mx rt zeros)
  end.

(** L 303-309, 315-320, 322-328: the length as a u32, then the bytes. *)
Definition put_framed (bs : list N) (s : list N * nat) : option (list N * nat) :=
  s ← put (le_enc 4 (N.of_nat (length bs))) s; put bs s.
(** L 312-329: keys[i] and values[i] panic when they are missing. *)
Fixpoint put_pairs (n i : nat) (p : leaf) (s : list N * nat) : option (list N * nat) :=
  match n with
  | O => Some s
  | S n =>
      k ← l_keys p !! i; s ← put_framed (kenc k) s;
      v ← l_vals p !! i; s ← put_framed (venc v) s;
      put_pairs n (S i) p s
  end.
(** L 286-330. *)
Definition l_serialize (p : leaf) (buf : list N) : option (list N) :=
  s ← put (le_enc 8 (l_size p)) (buf, O);
  s ← put (le_enc 8 (l_max p)) s;
  s ← put_framed (oenc u64_enc (l_next p)) s;
  s ← put_pairs (N.to_nat (l_size p)) 0 p s;
  Some s.1.

(** L 348-356, 368-374, 376-382: postcard::from_bytes takes the value from the front of the slice; an error panics. *)
Definition get_framed {A} (d : dec A) (buf : list N) (c : nat) : option (A * nat) :=
  '(lb, c) ← get 4 buf c;
  '(bs, c) ← get (N.to_nat (le_dec lb)) buf c;
  '(x, _) ← d bs;
  Some (x, c).
(** L 367-386. *)
Fixpoint get_pairs (n : nat) (buf : list N) (c : nat) : option (list K * list V) :=
  match n with
  | O => Some ([], [])
  | S n =>
      '(k, c) ← get_framed kdec buf c;
      '(v, c) ← get_framed vdec buf c;
      '(ks, vs) ← get_pairs n buf c;
      Some (k :: ks, v :: vs)
  end.
(** L 332-387. *)
Definition l_deserialize (p : leaf) (buf : list N) : option leaf :=
  '(sb, c) ← get 8 buf 0;
  '(mb, c) ← get 8 buf c;
  '(nx, c) ← get_framed (odec u64_dec) buf c;
  '(ks, vs) ← get_pairs (N.to_nat (le_dec sb)) buf c;
  Some (Lf ks vs nx (le_dec sb) (le_dec mb) (l_root p) (l_data p)).
(** L 519-532 at offset 0, with a whole page. *)
Definition l_set_data (p : leaf) (new : list N) : option leaf :=
  l_deserialize (Lf (l_keys p) (l_vals p) (l_next p) (l_size p) (l_max p) (l_root p) new) new.

(* ------------------------------------------------------------------ inner pages *)

(** I 69-90. *)
Record inner := Inn { i_keys : list K; i_vals : list N; i_size : N; i_max : N; i_root : bool; i_data : list N }.
(** I 97-119. *)
Definition new_inner (max : N) (root : bool) : inner := Inn [] [] 0 max root (with_type 7 zeros).

(** I 275-323, the loop with both ends included. *)
Fixpoint i_search (fuel : nat) (ks : list K) (k : K) (left right : nat) : option nat :=
  match fuel with
  | O => Some left
  | S fuel =>
      if (left <=? right)%nat then
        let mid := (left + (right - left) / 2)%nat in
        match ks !! mid with
        | None => None
        | Some x => match cmp k x with
                    | Lt => if (mid =? 0)%nat then Some O else i_search fuel ks k left (mid - 1)%nat
                    | Gt => i_search fuel ks k (mid + 1)%nat right
                    | Eq => Some mid
                    end
        end
      else Some left
  end.
Definition i_find (p : inner) (k : K) : option nat :=
  match i_keys p with
  | [] => Some O
  | ks => i_search (S (length ks)) ks k 0 (length ks - 1)
  end.

Inductive iop := IInsert (k : K) (v : N) | IRemove (i : nat) | IPopulate (a : N) (k : K) (b : N) | IRoot (b : bool)
| IBorrowL (k : K) (v : N) | IBorrowR (k : K) (v : N) | IMerge (k : K) (rk : list K) (rv : list N) | IReset.
(** I 153-230, 385-444, 671-702, 122-125, 723-745, 754-776, 786-862, 979-986. *)
Definition istep (o : iop) (p : inner) : option inner :=
  let '(Inn ks vs n mx rt d) := p in
  match o with
  | IInsert k v =>
      if mx <=? n then Some p
      else if n =? 0 then Some (Inn (ks ++ [k]) (vs ++ [v; v]) 1 mx rt d)
      else match i_find p k with
           | None => None
           | Some j =>
               let there := match ks !! j with Some x => match cmp x k with Eq => true | _ => false end | None => false end in
               if there then
                 if (j + 1 <? length vs)%nat then Some (Inn ks (<[(j + 1)%nat := v]> vs) n mx rt d) else Some p
               else match vinsert j k ks with
                    | None => None
                    | Some ks' =>
                        let vs' := if (j + 1 <=? length vs)%nat then take (j + 1) vs ++ v :: drop (j + 1) vs else vs ++ [v] in
                        Some (Inn ks' vs' (n + 1) mx rt d)
                    end
           end
  | IRemove j =>
      if (length ks <=? j)%nat then Some p
      else if (length ks =? 1)%nat then
        Some (Inn [] (if rt then (if (1 <? length vs)%nat then take 1 vs else vs) else []) 0 mx rt d)
      else Some (Inn (delete j ks) (if (j + 1 <? length vs)%nat then delete (j + 1)%nat vs else vs) (n - 1) mx rt d)
  | IPopulate a k b =>
      match ks, vs with
      | [], [] => Some (Inn [k] [a; b] 1 mx true d)
      | _, _ => Some p
      end
  | IRoot b => Some (Inn ks vs n mx b d)
  | IBorrowL k v => if mx <=? n then Some p else Some (Inn (k :: ks) (match vs with [] => [] | _ => v :: vs end) (n + 1) mx rt d)
  | IBorrowR k v => if mx <=? n then Some p else Some (Inn (ks ++ [k]) (match vs with [] => [] | _ => vs ++ [v] end) (n + 1) mx rt d)
  | IMerge k rk rv =>
      if mx <? N.of_nat (length ks + 1 + length rk) then Some p
      else
        let ks' := ks ++ k :: rk in
        let vs' := match vs with [] => [] | _ => vs ++ tail rv end in
        let vs'' := match last rv with Some x => if (length vs' =? length ks')%nat then vs' ++ [x] else vs' | None => vs' end in
        Some (Inn ks' vs'' (N.of_nat (length ks')) mx rt d)
  | IReset => Some (Inn [] [] 0 mx rt (with_type 7 zeros))
  end.

(** I 464-479: the kind, the size and the capacity as u32; the keys and the children are not written. *)
Definition i_serialize (p : inner) (buf : list N) : option (list N) :=
  s ← put (le_enc 4 7) (buf, O);
  s ← put (le_enc 4 (i_size p mod 2 ^ 32)) s;
  s ← put (le_enc 4 (i_max p mod 2 ^ 32)) s;
  Some s.1.
(** I 482-493. *)
Definition i_deserialize (p : inner) (buf : list N) : option inner :=
  '(sb, _) ← get 4 buf 4;
  '(mb, _) ← get 4 buf 8;
  Some (Inn (i_keys p) (i_vals p) (le_dec sb) (le_dec mb) (i_root p) (i_data p)).
(** I 326-379. *)
Fixpoint i_scan (ks : list K) (vs : list N) (k : K) (i : nat) : option N :=
  match ks with
  | x :: ((y :: _) as t) =>
      match cmp k x, cmp k y with
      | (Eq | Gt), Lt => if (i + 1 <? length vs)%nat then vs !! (i + 1)%nat else last vs
      | _, _ => i_scan t vs k (S i)
      end
  | _ => last vs
  end.
Definition i_child (p : inner) (k : K) : option N :=
  if (i_size p =? 0) || (length (i_vals p) =? 0)%nat then None
  else match i_keys p with
       | [x] => match cmp k x with
                | Lt => head (i_vals p)
                | _ => if (1 <? length (i_vals p))%nat then i_vals p !! 1%nat else head (i_vals p)
                end
       | x :: _ => match cmp k x with Lt => head (i_vals p) | _ => i_scan (i_keys p) (i_vals p) k 0 end
       | [] => None
       end.
End Pages.
Arguments leaf : clear implicits.
Arguments inner : clear implicits.
Arguments lop : clear implicits.
Arguments iop : clear implicits.

(** A list of calls. *)
Definition run {S O} (step : O -> S -> option S) : list O -> S -> option S :=
  fix go os s := match os with [] => Some s | o :: os => match step o s with Some s => go os s | None => None end end.

(* ------------------------------------------------------------------ the buffer pool *)

(** P 1203-1214 (and 1242, 1422): what is written is get_data (H 236-238, L 511-513, I 955-957), the byte array of the page. *)
Definition h_image (h : header) : list N := h_data h.
Definition l_image {K V} (p : leaf K V) : list N := l_data p.
Definition i_image {K} (p : inner K) : list N := i_data p.

(** P 665-720, create_page_from_data: a page too short or of another kind is not found; [T::new] and then set_data. *)
Inductive loaded (A : Type) := NotFound | Panic | Page (x : A).
Arguments NotFound {A}. Arguments Panic {A}. Arguments Page {A}.
Definition load {A} (kind : N) (make : list N -> loaded A) (d : list N) : loaded A :=
  if (length d <? 4096)%nat then NotFound
  else match d with
       | t :: _ => if t =? kind then make (take 4096 d) else NotFound
       | [] => NotFound
       end.
(** H 200-202 and 244-254: set_data fills the bytes and leaves the fields of the new page. *)
Definition load_header : list N -> loaded header :=
  load 6 (fun d => Page (Hd (h_root new_header) (h_height new_header) (h_keys new_header) (h_order new_header) d)).
(** L 563-566 and I 910-915: [T::new] is unimplemented. *)
Definition load_leaf {K V} : list N -> loaded (leaf K V) := load 8 (fun _ => Panic).
Definition load_inner {K} : list N -> loaded (inner K) := load 7 (fun _ => Panic).
