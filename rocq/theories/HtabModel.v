(** * The extendible hash table *)
(** src/container/disk_extendable_hash_table.rs (H); src/storage/page/page_types/extendable_hash_table_{header,directory,bucket}_page.rs
    (HP, DP, BP). Fetching a page that is in the buffer pool succeeds; whether a new page can be allocated is an argument; page numbers
    are not used twice (C14). The keys' type, equality and hash function are parameters. Arrays of the directory are functions of the
    index: with a maximal depth of at most 9 no index reaches the end. One thread. *)
From Coq Require Import NArith Lia.
From stdpp Require Import gmap list.
From Verif Require Import HtabSpec.
Local Open Scope N_scope.

Definition no_page : N := 2 ^ 64 - 1.

Section Htab.
Context {K V : Type} `{EqDecision K} (hash : K -> N).

(** BP 60-70: the entries and the maximal size. [size] is the number of entries. *)
Record bucket := mkB { b_max : N; b_ents : list (K * V) }.
(** BP 107-113. *)
Definition is_full (b : bucket) : bool := b_max b <=? N.of_nat (length (b_ents b)).
(** BP 78-87. *)
Definition b_insert (e : K * V) (b : bucket) : bool * bucket :=
  if is_full b then (false, b) else (true, mkB (b_max b) (b_ents b ++ [e])).
(** BP 89-98. *)
Fixpoint remove_first (k : K) (l : list (K * V)) : option (list (K * V)) :=
  match l with
  | [] => None
  | e :: l => if decide (e.1 = k) then Some l else match remove_first k l with Some l' => Some (e :: l') | None => None end
  end.
Definition b_remove (k : K) (b : bucket) : bool * bucket :=
  match remove_first k (b_ents b) with Some l => (true, mkB (b_max b) l) | None => (false, b) end.
(** BP 100-105. *)
Definition b_lookup (k : K) (b : bucket) : option V := (fun e => e.2) <$> find (fun e => bool_decide (e.1 = k)) (b_ents b).

(** DP 79-88: max depth, global depth, local depths, bucket pages. *)
Record dir := mkD { d_max : N; d_glob : N; d_loc : N -> N; d_page : N -> N }.
(** DP 95-113. *)
Definition dir_init (mx : N) : dir := mkD mx 0 (fun _ => 0) (fun _ => no_page).
(** DP 122-124, 212-214. *)
Definition hash_to_bucket (h : N) (d : dir) : N := N.land h (2 ^ d_glob d - 1).
(** DP 658-689: entry [i] is copied to [i] + the old size. *)
Definition grow (d : dir) : option dir :=
  if d_max d <=? d_glob d then None
  else let old := 2 ^ d_glob d in
       let new i := (old <=? i) && (i <? 2 * old) in
       Some (mkD (d_max d) (d_glob d + 1) (fun i => if new i then d_loc d (i - old) else d_loc d i)
               (fun i => if new i then d_page d (i - old) else d_page d i)).
(** DP 263-268: the loop runs as long as the new local depth is above the global depth. *)
Fixpoint grow_to (n : nat) (d : dir) : option dir := match n with O => Some d | S n => match grow d with Some d => grow_to n d | None => None end end.
(** DP 249-316. *)
Definition update_for_split (b : N) (page : N) (d : dir) : option dir :=
  let l := d_loc d b in
  match grow_to (N.to_nat (l + 1 - d_glob d)) d with
  | None => None
  | Some d =>
      let mask := 2 ^ l - 1 in
      let old_page := d_page d b in
      let hit i := (i <? 2 ^ d_glob d) && (N.land i mask =? N.land b mask) in
      Some (mkD (d_max d) (d_glob d) (fun i => if hit i then l + 1 else d_loc d i)
              (fun i => if hit i then (if N.testbit i l then page else old_page) else d_page d i))
  end.
(** DP 617-645: the page to be deleted and the new directory. *)
Definition dir_merge (b : N) (d : dir) : option (N * dir) :=
  let l := d_loc d b in
  if l =? 0 then None
  else let buddy := N.lxor b (2 ^ (l - 1)) in
       if negb (d_loc d buddy =? l) then None
       else let bp := d_page d buddy in
            let mask := 2 ^ l - 1 in
            let hit i := (i <? 2 ^ d_glob d) && (N.land i mask =? b) in
            let d' := mkD (d_max d) (d_glob d) (fun i => if hit i then l - 1 else d_loc d i) (fun i => if hit i then bp else d_page d i) in
            Some (d_page d' b, d').

(** HP 69-76: depth and directory pages. *)
Record header := mkH { h_depth : N; h_dirs : N -> N }.
(** HP 113-144. *)
Definition hash_to_dir (h : N) (x : header) : N :=
  let c := N.min (h_depth x) 31 in
  if c =? 0 then 0 else N.land (N.shiftr h (32 - c)) (2 ^ c - 1).

(** The pages in the buffer pool. *)
Record htab := mkT { t_head : header; t_dirs : gmap N dir; t_bucks : gmap N bucket; t_next : N; t_dmax : N; t_bmax : N }.
Definition set_bucks (s : htab) (m : gmap N bucket) : htab := mkT (t_head s) (t_dirs s) m (t_next s) (t_dmax s) (t_bmax s).
Definition set_dir (s : htab) (p : N) (d : dir) : htab := mkT (t_head s) (<[p := d]> (t_dirs s)) (t_bucks s) (t_next s) (t_dmax s) (t_bmax s).

(** H 258-338: page [p] is the header, [p]+1 the directory, [p]+2 the bucket. *)
Definition htab_new (p hdepth dmax bmax : N) : htab :=
  let d := mkD dmax 0 (fun _ => 0) (fun i => if i =? 0 then p + 2 else no_page) in
  mkT (mkH hdepth (fun i => if i <? 2 ^ hdepth then p + 1 else no_page)) {[p + 1 := d]} {[p + 2 := mkB bmax []]} (p + 3) dmax bmax.

(** H 562-577. *)
Definition dir_page (s : htab) (h : N) : option (N * dir) :=
  let p := h_dirs (t_head s) (hash_to_dir h (t_head s)) in
  if p =? no_page then None else match t_dirs s !! p with Some d => Some (p, d) | None => None end.
(** H 591-605. *)
Definition bucket_page (s : htab) (d : dir) (i : N) : option (N * bucket) :=
  let p := d_page d i in
  if p =? no_page then None else match t_bucks s !! p with Some b => Some (p, b) | None => None end.

(** H 456-481. *)
Definition get_value (s : htab) (k : K) : option V :=
  match dir_page s (hash k) with
  | None => None
  | Some (_, d) => match bucket_page s d (hash_to_bucket (hash k) d) with None => None | Some (_, b) => b_lookup k b end
  end.

(** H 685-694: the entries are shared out. *)
Fixpoint share (mask i : N) (es : list (K * V)) (o n : bucket) : bucket * bucket :=
  match es with
  | [] => (o, n)
  | e :: es => if N.land (hash e.1) mask =? i then share mask i es (b_insert e o).2 n else share mask i es o (b_insert e n).2
  end.
(** H 624-701. [ok]: could a page be allocated? The answer says whether the bucket was split. *)
Definition split (s : htab) (dp : N) (d : dir) (i : N) (ok : bool) : bool * htab :=
  if t_dmax s <=? d_loc d i then (false, s)
  else if negb ok then (false, s)
  else let np := t_next s in
       let s1 := mkT (t_head s) (t_dirs s) (<[np := mkB (t_bmax s) []]> (t_bucks s)) (np + 1) (t_dmax s) (t_bmax s) in
       match bucket_page s1 d i with
       | None => (false, s1)
       | Some (op, o) =>
           match update_for_split i np d with
           | None => (false, s1)
           | Some d' =>
               let mask := 2 ^ d_loc d' i - 1 in
               let (o', n') := share mask i (b_ents o) (mkB (b_max o) []) (mkB (t_bmax s) []) in
               (true, set_dir (set_bucks s1 (<[np := n']> (<[op := o']> (t_bucks s1)))) dp d')
           end
       end.
(** H 345, 367-436. [oks]: the allocations. The second part of the answer: was a bucket split at an index beyond its local depth? *)
Fixpoint insert_loop (fuel : nat) (s : htab) (k : K) (v : V) (oks : list bool) (odd_split : bool) : bool * htab * bool :=
  match fuel with
  | O => (false, s, odd_split)
  | S f =>
      match dir_page s (hash k) with
      | None => (false, s, odd_split)
      | Some (dp, d) =>
          let i := hash_to_bucket (hash k) d in
          match bucket_page s d i with
          | None => (false, s, odd_split)
          | Some (bp, b) =>
              if negb (is_full b)
              then let (r, b') := b_insert (k, v) b in (r, set_bucks s (<[bp := b']> (t_bucks s)), odd_split)
              else
                let (r, s') := split s dp d i (default true (head oks)) in
                let odd_split' := odd_split || (r && (2 ^ d_loc d i <=? i)) in
                if r then insert_loop f s' k v (tail oks) odd_split' else (false, s', odd_split')
          end
      end
  end.
Definition insert (s : htab) (k : K) (v : V) (oks : list bool) : bool * htab * bool := insert_loop 10 s k v oks false.

(** H 718-737. The bucket just emptied is pinned by [remove], so the buffer pool refuses to delete it; any other page is deleted
    (buffer_pool_manager_async.rs:869-904) and, never having been written, can no longer be fetched. *)
Definition merge (s : htab) (dp : N) (d : dir) (i pinned : N) : htab :=
  match dir_merge i d with
  | None => s
  | Some (p, d') => let s1 := set_dir s dp d' in if p =? pinned then s1 else set_bucks s1 (delete p (t_bucks s1))
  end.
(** H 500-549. The second part of the answer: were two buckets merged? *)
Definition remove (s : htab) (k : K) : bool * htab * bool :=
  match dir_page s (hash k) with
  | None => (false, s, false)
  | Some (dp, d) =>
      let i := hash_to_bucket (hash k) d in
      match bucket_page s d i with
      | None => (false, s, false)
      | Some (bp, b) =>
          let (r, b') := b_remove k b in
          let s1 := set_bucks s (<[bp := b']> (t_bucks s)) in
          if r && bool_decide (b_ents b' = [])
          then (r, merge s1 dp d i bp, match dir_merge i d with Some (p, _) => negb (p =? bp) | None => false end)
          else (r, s1, false)
      end
  end.

(** A sequence of calls; each insert comes with its allocations. The last answer: did an insert split at an odd index, or a remove
    merge buckets? *)
Definition step (s : htab) (c : call K V) (oks : list bool) : answer V * htab * bool :=
  match c with
  | CInsert k v => let '(r, s', odd_split) := insert s k v oks in (ADone r, s', odd_split)
  | CGet k => (AValue (get_value s k), s, false)
  | CRemove k => let '(r, s', odd_split) := remove s k in (ADone r, s', odd_split)
  end.
Fixpoint calls (s : htab) (cs : list (call K V * list bool)) : list (answer V) * htab * bool :=
  match cs with
  | [] => ([], s, false)
  | (c, oks) :: cs =>
      let '(a, s1, o1) := step s c oks in
      let '(as', s2, o2) := calls s1 cs in (a :: as', s2, o1 || o2)
  end.

(** What the buffer pool holds for a page that was evicted and fetched again. The bytes of these pages stay as they were made: writing
    the entries into them is dead code (BP 139-175), the directory and the header have none (DP 402-412, 735-745; HP). So a bucket comes
    back with no entries and a maximal size of 0 (BP 178-215), the directory and the header as in their constructors. *)
Definition evict_bucket (p : N) (s : htab) : htab :=
  match t_bucks s !! p with Some _ => set_bucks s (<[p := mkB 0 []]> (t_bucks s)) | None => s end.
Definition evict_dir (p : N) (s : htab) : htab := match t_dirs s !! p with Some _ => set_dir s p (dir_init 0) | None => s end.
Definition evict_header (s : htab) : htab :=
  mkT (mkH 0 (fun _ => no_page)) (t_dirs s) (t_bucks s) (t_next s) (t_dmax s) (t_bmax s).
End Htab.
Arguments htab : clear implicits.
Arguments bucket : clear implicits.
