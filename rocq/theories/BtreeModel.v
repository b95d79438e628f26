(** * The in-memory B+-tree index

    Models src/storage/index/b_plus_tree.rs.

    Simplifications, for the whole file:
    - Keys and RIDs of a leaf are two parallel vectors in the code, always changed at the same
      positions; here a leaf has one list of pairs.
    - Internal nodes are never shared (each is the child of one node), so they are tree
      constructors; leaves are shared (a leaf is also the [next_leaf] of another), so they live in
      a store and the tree holds their addresses.  When the root is replaced by a copy of its first
      child (rebalance_after_delete, 888-908) the copy keeps the address.
    - A panic, or a loop that never ends, is [None].
    - The locks are left out: every operation runs alone. *)
From Coq Require Import ZArith.
From stdpp Require Import list.
From Verif Require Import ExprModel.
Open Scope nat_scope.

(** src/common/rid.rs: page and slot. *)
Definition rid : Type := N * N.
Definition entry : Type := val * rid.

(** 140-146. *)
Record leaf := Leaf { lents : list entry; lnext : option nat }.
Inductive tree := TLeaf (a : nat) | TNode (ks : list val) (cs : list tree).

(** 149-153; [store] holds every leaf ever made. *)
Record index := Index { root : tree; store : list leaf }.

(** 168-174. *)
Definition new_index : index := Index (TLeaf 0) [Leaf [] None].

Definition holds (op : cmpop) (a b : val) : bool :=
  match compare_op op a b with CmpTrue => true | _ => false end.

(** Vec::insert; the code never passes a position beyond the end. *)
Definition insert_at {A} (i : nat) (x : A) (l : list A) : list A := take i l ++ x :: drop i l.
(** Vec::remove; [None] is the panic. *)
Definition remove_at {A} (i : nat) (l : list A) : option (A * list A) :=
  match l !! i with Some x => Some (x, take i l ++ drop (S i) l) | None => None end.

(** 606-624. *)
Fixpoint find_insert_position (ks : list val) (k : val) : nat :=
  match ks with
  | [] => 0
  | x :: r => if negb (holds Eq x k) && holds Gt x k then 0 else S (find_insert_position r k)
  end.

(** keys.len() of a node. *)
Definition ents (st : list leaf) (a : nat) : list entry := match st !! a with Some l => lents l | None => [] end.
Definition keylen (st : list leaf) (t : tree) : nat :=
  match t with TLeaf a => length (ents st a) | TNode ks _ => length ks end.

(** 640-665: is the pair among the neighbours with the same key? *)
Fixpoint run_has (k : val) (r : rid) (l : list entry) : bool :=
  match l with
  | [] => false
  | (k', r') :: l => if holds Eq k' k then bool_decide (r' = r) || run_has k r l else false
  end.
Definition dup_near (pos : nat) (k : val) (r : rid) (es : list entry) : bool :=
  run_has k r (reverse (take pos es)) || run_has k r (drop pos es).

(** 742-818, split_child; the parent's keys and children. *)
Definition split_child (ks : list val) (cs : list tree) (i : nat) (st : list leaf) :
  option (list val * list tree * list leaf) :=
  match cs !! i with
  | None => None
  | Some (TLeaf a) =>
      match st !! a with
      | None => None
      | Some (Leaf es nx) =>
          let sp := length es / 2 in
          match drop sp es with
          | [] => None
          | (k, _) :: _ =>
              let n := length st in
              let st := <[a := Leaf (take sp es) (Some n)]> st ++ [Leaf (drop sp es) nx] in
              let pos := find_insert_position ks k in
              Some (insert_at pos k ks, insert_at (S pos) (TLeaf n) cs, st)
          end
      end
  | Some (TNode ks2 cs2) =>
      let sp := length ks2 / 2 in
      match ks2 !! sp with
      | None => None
      | Some k =>
          let pos := find_insert_position ks k in
          Some (insert_at pos k ks,
                insert_at (S pos) (TNode (drop (S sp) ks2) (drop (S sp) cs2))
                  (<[i := TNode (take sp ks2) (take (S sp) cs2)]> cs), st)
      end
  end.

(** 627-739, insert_non_full, with fuel for the depth. *)
Fixpoint insert_non_full (fuel m : nat) (t : tree) (k : val) (r : rid) (st : list leaf) :
  option (bool * tree * list leaf) :=
  match fuel with
  | 0 => None
  | S fuel =>
      match t with
      | TLeaf a =>
          match st !! a with
          | None => None
          | Some (Leaf es nx) =>
              let pos := find_insert_position (map fst es) k in
              if dup_near pos k r es then Some (false, t, st)
              else Some (true, t, <[a := Leaf (insert_at pos (k, r) es) nx]> st)
          end
      | TNode ks cs =>
          let child ks := Nat.min (find_insert_position ks k) (length cs - 1) in
          let ci := child ks in
          match cs !! ci with
          | None => None
          | Some c =>
              if keylen st c =? m - 1
              then match split_child ks cs ci st with
                   | None => None
                   | Some (ks, cs, st) =>
                       let ci := Nat.min (find_insert_position ks k) (length cs - 1) in
                       match cs !! ci with
                       | None => None
                       | Some c =>
                           match insert_non_full fuel m c k r st with
                           | None => None
                           | Some (b, c, st) => Some (b, TNode ks (<[ci := c]> cs), st)
                           end
                       end
                   end
              else match insert_non_full fuel m c k r st with
                   | None => None
                   | Some (b, c, st) => Some (b, TNode ks (<[ci := c]> cs), st)
                   end
          end
      end
  end.

Fixpoint depth (t : tree) : nat :=
  match t with
  | TLeaf _ => 0
  | TNode _ cs => S ((fix go cs := match cs with [] => 0 | c :: cs => Nat.max (depth c) (go cs) end) cs)
  end.

(** 180-221, insert. *)
Definition insert (m : nat) (ix : index) (k : val) (r : rid) : option (bool * index) :=
  let go t st :=
    match insert_non_full (S (depth t)) m t k r st with
    | None => None
    | Some (b, t, st) => Some (b, Index t st)
    end in
  if keylen (store ix) (root ix) =? m - 1
  then match split_child [] [root ix] 0 (store ix) with
       | None => None
       | Some (ks, cs, st) => go (TNode ks cs) st
       end
  else go (root ix) (store ix).

(** 346-383 and 412-439: walking the leaves from one; [None] if the chain never ends. *)
Fixpoint walk (fuel : nat) (st : list leaf) (a : nat) : option (list entry) :=
  match fuel with
  | 0 => None
  | S fuel =>
      match st !! a with
      | None => None
      | Some (Leaf es nx) =>
          match nx with
          | None => Some es
          | Some b => match walk fuel st b with Some l => Some (es ++ l) | None => None end
          end
      end
  end.

(** 394-409. *)
Fixpoint leftmost (fuel : nat) (t : tree) : option nat :=
  match fuel with
  | 0 => None
  | S fuel =>
      match t with
      | TLeaf a => Some a
      | TNode _ cs => match cs with [] => None | c :: _ => leftmost fuel c end
      end
  end.

(** 386-440, scan_full. *)
Definition scan_full (ix : index) : option (list entry) :=
  match leftmost (S (depth (root ix))) (root ix) with
  | None => None
  | Some a => walk (S (length (store ix))) (store ix) a
  end.

(** 324-344: down to the leaf where a range scan starts. *)
Fixpoint position (p : val -> bool) (ks : list val) : option nat :=
  match ks with
  | [] => None
  | k :: ks => if p k then Some 0 else option_map S (position p ks)
  end.
Fixpoint start_leaf (fuel : nat) (lo : val) (t : tree) : option nat :=
  match fuel with
  | 0 => None
  | S fuel =>
      match t with
      | TLeaf a => Some a
      | TNode ks cs =>
          let i := match position (fun k => holds Ge k lo) ks with Some i => i | None => 0 end in
          match cs !! i with None => None | Some c => start_leaf fuel lo c end
      end
  end.

(** 353-365: the entries of one leaf, and whether the scan ends there. *)
Fixpoint range_leaf (lo hi : val) (incl : bool) (es : list entry) : list entry * bool :=
  match es with
  | [] => ([], false)
  | (k, r) :: es =>
      if holds Lt k lo then range_leaf lo hi incl es
      else if holds Gt k hi || (negb incl && holds Eq k hi) then ([], true)
      else let (l, stop) := range_leaf lo hi incl es in ((k, r) :: l, stop)
  end.

Fixpoint range_walk (fuel : nat) (lo hi : val) (incl : bool) (st : list leaf) (a : nat) : option (list entry) :=
  match fuel with
  | 0 => None
  | S fuel =>
      match st !! a with
      | None => None
      | Some (Leaf es nx) =>
          match range_leaf lo hi incl es with
          | (l, true) => Some l
          | (l, false) =>
              match nx with
              | None => Some l
              | Some b => match range_walk fuel lo hi incl st b with Some l2 => Some (l ++ l2) | None => None end
              end
          end
      end
  end.

(** 309-384, scan_range. *)
Definition scan_range (ix : index) (lo hi : val) (incl : bool) : option (list entry) :=
  match start_leaf (S (depth (root ix))) lo (root ix) with
  | None => None
  | Some a => range_walk (S (length (store ix))) lo hi incl (store ix) a
  end.

(** ** Deleting *)

(** 236-253: the children looked at, in the order in which they are pushed. *)
Fixpoint child_indices (i : nat) (ks : list val) (k : val) : list nat :=
  match ks with
  | [] => []
  | x :: ks =>
      if holds Gt x k then i :: child_indices (S i) ks k
      else if holds Eq x k then i :: S i :: child_indices (S i) ks k
      else child_indices (S i) ks k
  end.
Definition to_visit (ks : list val) (n : nat) (k : val) : list nat :=
  let l := child_indices 0 ks k in
  if bool_decide (n - 1 ∈ l) then l else l ++ [n - 1].

(** 268-272: the position of the pair in a leaf. *)
Fixpoint find_pair (k : val) (r : rid) (es : list entry) : option nat :=
  match es with
  | [] => None
  | (k', r') :: es => if holds Eq k' k && bool_decide (r' = r) then Some 0 else option_map S (find_pair k r es)
  end.

Inductive found := Panicked | NotFound | Found (path : list nat) (a i : nat).

(** 225-301: the last child pushed is looked at first.  The path is listed from the root. *)
Fixpoint search (fuel : nat) (t : tree) (k : val) (r : rid) (st : list leaf) : found :=
  match fuel with
  | 0 => Panicked
  | S fuel =>
      match t with
      | TLeaf a => match find_pair k r (ents st a) with Some i => Found [] a i | None => NotFound end
      | TNode ks cs =>
          (fix go (l : list nat) : found :=
             match l with
             | [] => NotFound
             | ci :: l =>
                 match cs !! ci with
                 | None => Panicked
                 | Some c =>
                     match search fuel c k r st with
                     | Found p a i => Found (ci :: p) a i
                     | NotFound => go l
                     | Panicked => Panicked
                     end
                 end
             end) (reverse (to_visit ks (length cs) k))
      end
  end.

Definition node : Type := list val * list tree.

(** vec[i] = x; [None] is the panic. *)
Definition set_at {A} (i : nat) (x : A) (l : list A) : option (list A) :=
  if i <? length l then Some (<[i := x]> l) else None.

(** 921-954, borrow_from_left_sibling. *)
Definition borrow_left (p : node) (ci : nat) (st : list leaf) : option (node * list leaf) :=
  let (ks, cs) := p in
  match cs !! (ci - 1), cs !! ci with
  | Some (TLeaf a), Some (TLeaf b) =>
      match st !! a, st !! b with
      | Some (Leaf ea na), Some (Leaf eb nb) =>
          match last ea with
          | Some x =>
              match set_at (ci - 1) (fst x) ks with
              | Some ks => Some ((ks, cs), <[b := Leaf (x :: eb) nb]> (<[a := Leaf (removelast ea) na]> st))
              | None => None
              end
          | None => None
          end
      | _, _ => None
      end
  | Some (TNode ka ca), Some (TNode kb cb) =>
      match ks !! (ci - 1), last ka with
      | Some s, Some k =>
          let (ca, cb) := match last ca with Some c => (removelast ca, c :: cb) | None => (ca, cb) end in
          Some ((<[ci - 1 := k]> ks, <[ci := TNode (s :: kb) cb]> (<[ci - 1 := TNode (removelast ka) ca]> cs)), st)
      | _, _ => None
      end
  | _, _ => None
  end.

(** 956-989, borrow_from_right_sibling. *)
Definition borrow_right (p : node) (ci : nat) (st : list leaf) : option (node * list leaf) :=
  let (ks, cs) := p in
  match cs !! ci, cs !! S ci with
  | Some (TLeaf a), Some (TLeaf b) =>
      match st !! a, st !! b with
      | Some (Leaf ea na), Some (Leaf eb nb) =>
          match eb with
          | x :: y :: eb' =>
              match set_at ci (fst y) ks with
              | Some ks => Some ((ks, cs), <[b := Leaf (y :: eb') nb]> (<[a := Leaf (ea ++ [x]) na]> st))
              | None => None
              end
          | _ => None
          end
      | _, _ => None
      end
  | Some (TNode ka ca), Some (TNode kb cb) =>
      match ks !! ci, kb with
      | Some s, k :: kb =>
          let (ca, cb) := match cb with c :: cb => (ca ++ [c], cb) | [] => (ca, cb) end in
          Some ((<[ci := k]> ks, <[S ci := TNode kb cb]> (<[ci := TNode (ka ++ [s]) ca]> cs)), st)
      | _, _ => None
      end
  | _, _ => None
  end.

(** 991-1027, merge_with_left_sibling, and 1029-1065, merge_with_right_sibling: child [i + 1] is
    merged into child [i].  The former is called with [ci = i + 1], the latter with [ci = i]. *)
Definition merge (p : node) (i : nat) (st : list leaf) : option (node * list leaf) :=
  let (ks, cs) := p in
  let drop_key ks := if i <? length ks then take i ks ++ drop (S i) ks else ks in
  match cs !! i, cs !! S i with
  | Some (TLeaf a), Some (TLeaf b) =>
      match st !! a, st !! b with
      | Some (Leaf ea na), Some (Leaf eb nb) =>
          Some ((drop_key ks, take (S i) cs ++ drop (S (S i)) cs),
                <[b := Leaf [] None]> (<[a := Leaf (ea ++ eb) nb]> st))
      | _, _ => None
      end
  | Some (TNode ka ca), Some (TNode kb cb) =>
      match remove_at i ks with
      | Some (s, ks) =>
          Some ((drop_key ks,
                 take i cs ++ TNode (ka ++ s :: kb) (ca ++ cb) :: drop (S (S i)) cs), st)
      | None => None
      end
  | _, _ => None
  end.

(** 823-914, one turn of the loop of rebalance_after_delete at the parent [p] of child [ci], and
    whether it goes on with [p]'s parent. *)
Definition rebalance_step (m : nat) (is_root : bool) (p : node) (ci : nat) (st : list leaf) :
  option (tree * list leaf * bool) :=
  let (ks, cs) := p in
  let min_keys := (m - 1) / 2 in
  let rich i := match cs !! i with Some c => min_keys <? keylen st c | None => false end in
  match cs !! ci with
  | None => None
  | Some c =>
      if min_keys <=? keylen st c then Some (TNode ks cs, st, false)
      else if (0 <? ci) && rich (ci - 1)
      then match borrow_left p ci st with Some ((ks, cs), st) => Some (TNode ks cs, st, false) | None => None end
      else if (ci <? length cs - 1) && rich (S ci)
      then match borrow_right p ci st with Some ((ks, cs), st) => Some (TNode ks cs, st, false) | None => None end
      else
        match (if 0 <? ci then merge p (ci - 1) st
               else if ci <? length cs - 1 then merge p ci st
               else Some (p, st)) with
        | None => None
        | Some ((ks, cs), st) =>
            if is_root && (length ks =? 0)
            then Some (match cs with c :: _ => c | [] => TNode ks cs end, st, false)
            else Some (TNode ks cs, st, negb is_root && (length ks <? min_keys))
        end
  end.

(** 820-919, rebalance_after_delete: from the end of the path upwards. *)
Fixpoint rebalance (m : nat) (is_root : bool) (t : tree) (path : list nat) (st : list leaf) :
  option (tree * list leaf * bool) :=
  match path, t with
  | [ci], TNode ks cs => rebalance_step m is_root (ks, cs) ci st
  | ci :: path, TNode ks cs =>
      match cs !! ci with
      | None => None
      | Some c =>
          match rebalance m false c path st with
          | None => None
          | Some (c, st, true) => rebalance_step m is_root (ks, <[ci := c]> cs) ci st
          | Some (c, st, false) => Some (TNode ks (<[ci := c]> cs), st, false)
          end
      end
  | _, _ => Some (t, st, false)
  end.

(** 223-307, delete. *)
Definition delete (m : nat) (ix : index) (k : val) (r : rid) : option (bool * index) :=
  match search (S (depth (root ix))) (root ix) k r (store ix) with
  | Panicked => None
  | NotFound => Some (false, ix)
  | Found path a i =>
      match store ix !! a with
      | None => None
      | Some (Leaf es nx) =>
          let es := take i es ++ drop (S i) es in
          let st := <[a := Leaf es nx]> (store ix) in
          if (length es <? (m - 1) / 2) && negb (bool_decide (path = []))
          then match rebalance m true (root ix) path st with
               | Some (t, st, _) => Some (true, Index t st)
               | None => None
               end
          else Some (true, Index (root ix) st)
      end
  end.
