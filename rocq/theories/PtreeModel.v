(** * The paged B+-tree index *)
(** src/storage/index/b_plus_tree_index.rs (B), src/storage/page/page_types/b_plus_tree_leaf_page.rs (L),
    b_plus_tree_internal_page.rs (I), b_plus_tree_header_page.rs (H) and latch_crabbing.rs (C).
    Simplifications, for the whole file:
    - Keys and values are integers, compared as such (the comparator is a total order).
    - A leaf's keys and values are two parallel vectors, always changed at the same positions; here one list of pairs. The
      [size] fields always equal the number of keys and are left out; so are pin counts and dirty flags.
    - Page latches are left out, except that taking the write latch of a page twice in one call never returns.
    - A page the buffer pool has evicted is [Gone]: fetching a leaf or an internal page that is not in memory calls
      Page::new, which is unimplemented!() (L 563-566, I 910-915). A deleted page is absent, and fetching it is an error.
    - delete_page succeeds. How many pages can still be allocated during a call is an argument, [al]. *)
From Coq Require Import ZArith Lia.
From stdpp Require Import list gmap.
From Verif Require Import PtreeSpec.
Local Open Scope nat_scope.

Inductive node :=
| Leaf (es : list (Z * Z)) (next : option nat) (root : bool) (mx : nat)
| Inner (ks : list Z) (vs : list nat) (root : bool) (mx : nat)
| Gone.
(** The pages, the next page id, and the header page (H 51-69). *)
Record state := St { pages : gmap nat node; fresh : nat; hroot : option nat; height : nat; count : nat; order : nat }.
Definition set_page (st : state) (id : nat) (n : node) : state :=
  St (<[id := n]> (pages st)) (fresh st) (hroot st) (height st) (count st) (order st).
Definition del_page (st : state) (id : nat) : state :=
  St (delete id (pages st)) (fresh st) (hroot st) (height st) (count st) (order st).
Definition set_header (st : state) (r : option nat) (h c : nat) : state :=
  St (pages st) (fresh st) r h c (order st).
(** new_page_with_options: a page with an id never used before. *)
Definition new_page (st : state) (n : node) : state :=
  St (<[fresh st := n]> (pages st)) (S (fresh st)) (hroot st) (height st) (count st) (order st).

(** B 334-361: init_with_order. *)
Definition init (ord : nat) : state := St ∅ 1 None 0 0 ord.

Inductive res (A : Type) := Ok (a : A) | Er | Pan.
Arguments Ok {A} a. Arguments Er {A}. Arguments Pan {A}.

(** ** Pages *)
(** L 198-217: find_key_index, a binary search. *)
Fixpoint leaf_search (fuel : nat) (es : list (Z * Z)) (k : Z) (low high : nat) : nat :=
  match fuel with
  | O => low
  | S fuel =>
      if low <? high then
        let mid := low + (high - low) / 2 in
        match es !! mid with
        | None => low
        | Some e =>
            match (k ?= e.1)%Z with
            | Eq => mid
            | Lt => leaf_search fuel es k low mid
            | Gt => leaf_search fuel es k (mid + 1) high
            end
        end
      else low
  end.
Definition leaf_find (es : list (Z * Z)) (k : Z) : nat := leaf_search (S (length es)) es k 0 (length es).
(** The test that the key at the index found is the key. *)
Definition leaf_has (es : list (Z * Z)) (k : Z) : bool :=
  match es !! leaf_find es k with Some e => (k =? e.1)%Z | None => false end.
(** L 242-258: insert_key_value_with_overflow. *)
Definition leaf_put (es : list (Z * Z)) (k v : Z) : list (Z * Z) :=
  let i := leaf_find es k in
  if leaf_has es k then <[i := (k, v)]> es else take i es ++ (k, v) :: drop i es.
(** L 219-239: insert_key_value, which does nothing when the page is full. *)
Definition leaf_insert (mx : nat) (es : list (Z * Z)) (k v : Z) : list (Z * Z) :=
  if mx <=? length es then es else leaf_put es k v.
Definition leaf_insert_all (mx : nat) (es l : list (Z * Z)) : list (Z * Z) :=
  fold_left (fun acc (e : Z * Z) => leaf_insert mx acc e.1 e.2) l es.

(** I 275-323: find_key_index. *)
Fixpoint inner_search (fuel : nat) (ks : list Z) (k : Z) (left right : nat) : nat :=
  match fuel with
  | O => left
  | S fuel =>
      if left <=? right then
        let mid := left + (right - left) / 2 in
        match ks !! mid with
        | None => left
        | Some k' =>
            match (k ?= k')%Z with
            | Lt => if mid =? 0 then 0 else inner_search fuel ks k left (mid - 1)
            | Gt => inner_search fuel ks k (mid + 1) right
            | Eq => mid
            end
        end
      else left
  end.
Definition inner_find (ks : list Z) (k : Z) : nat :=
  match ks with [] => 0 | _ => inner_search (S (length ks)) ks k 0 (length ks - 1) end.
(** I 153-230: insert_key_value; the callers ignore whether it succeeded. *)
Definition inner_insert (mx : nat) (ks : list Z) (vs : list nat) (k : Z) (p : nat) : list Z * list nat :=
  if mx <=? length ks then (ks, vs)
  else match ks with
  | [] => ([k], vs ++ [p; p])
  | _ =>
      let i := inner_find ks k in
      if match ks !! i with Some k' => (k' =? k)%Z | None => false end then
        (ks, if i + 1 <? length vs then <[i + 1 := p]> vs else vs)
      else (take i ks ++ k :: drop i ks,
            if i + 1 <=? length vs then take (i + 1) vs ++ p :: drop (i + 1) vs else vs ++ [p])
  end.
Definition inner_insert_all (mx : nat) (n : list Z * list nat) (l : list (Z * nat)) : list Z * list nat :=
  fold_left (fun (acc : list Z * list nat) (e : Z * nat) => inner_insert mx acc.1 acc.2 e.1 e.2) l n.
(** I 326-379: find_child_for_key. *)
Fixpoint child_scan (ks : list Z) (k : Z) (i : nat) : option nat :=
  match ks with
  | a :: ((b :: _) as r) => if (a <=? k)%Z && (k <? b)%Z then Some i else child_scan r k (S i)
  | _ => None
  end.
Definition find_child (ks : list Z) (vs : list nat) (k : Z) : option nat :=
  match ks, vs with
  | [], _ | _, [] => None
  | [k0], v0 :: _ => if (k <? k0)%Z then Some v0 else match vs !! 1 with Some p => Some p | None => Some v0 end
  | k0 :: _, v0 :: _ =>
      if (k <? k0)%Z then Some v0
      else match child_scan ks k 0 with
           | Some i => match vs !! (i + 1) with Some p => Some p | None => last vs end
           | None => last vs
           end
  end.
(** I 385-444: remove_key_value_at. *)
Definition inner_remove (root : bool) (n : list Z * list nat) (i : nat) : list Z * list nat :=
  let ks := n.1 in let vs := n.2 in
  if length ks <=? i then (ks, vs)
  else if length ks =? 1 then ([], if root then take 1 vs else [])
  else (delete i ks, delete (i + 1) vs).

(** ** Finding a leaf *)
(** B 743-817: find_leaf_page_with_path, [d] levels above the leaves; the path has the parent first. *)
Fixpoint descend (ps : gmap nat node) (k : Z) (d : nat) (id : nat) (path : list nat) : res (nat * list nat) :=
  match d with
  | O => match ps !! id with Some (Leaf _ _ _ _) => Ok (id, path) | Some Gone => Pan | _ => Er end
  | S d =>
      match ps !! id with
      | Some (Inner ks vs _ _) =>
          match find_child ks vs k with Some c => descend ps k d c (id :: path) | None => Er end
      | Some Gone => Pan
      | _ => Er
      end
  end.
Definition find_leaf (st : state) (r : nat) (k : Z) : res (nat * list nat) := descend (pages st) k (height st - 1) r [].

(** ** Insertion *)
(** B 2200-2252: create_new_root. *)
Definition create_new_root (st : state) (al : nat) (l : nat) (k : Z) (r : nat) : state * res unit :=
  match al with
  | O => (st, Er)
  | S _ =>
      let n := fresh st in
      let st1 := new_page st (Inner [k] [l; r] true (order st)) in
      (set_header st1 (Some n) (S (height st)) (count st), Ok tt)
  end.
(** B 1478-1598: split_internal_page. *)
Fixpoint split_inner (path : list nat) (st : state) (al : nat) (id : nat) : state * res unit :=
  match pages st !! id with
  | Some (Inner ks vs rt mx) =>
      if order st =? 0 then (st, Er)
      else match al with
      | O => (st, Er)
      | S al =>
          let n := fresh st in
          let sp := order st / 2 in
          match ks !! sp, vs !! (sp + 1) with
          | Some mk, Some c =>
              let nn := inner_insert_all (order st) (inner_insert (order st) [] [] mk c)
                          (zip (drop (sp + 1) ks) (drop (sp + 2) vs)) in
              let old := Nat.iter (length ks - sp) (fun x : list Z * list nat => inner_remove rt x sp) (ks, vs) in
              let st1 := new_page st (Inner nn.1 nn.2 false (order st)) in
              if rt then create_new_root (set_page st1 id (Inner old.1 old.2 false mx)) al id mk n
              else
                let st2 := set_page st1 id (Inner old.1 old.2 rt mx) in
                match path with
                | [] => (st2, Er)
                | p :: path =>
                    match pages st2 !! p with
                    | Some (Inner pks pvs prt pmx) =>
                        let pn := inner_insert pmx pks pvs mk n in
                        let st3 := set_page st2 p (Inner pn.1 pn.2 prt pmx) in
                        if order st <=? length pn.1 then split_inner path st3 al p else (st3, Ok tt)
                    | Some Gone => (st2, Pan)
                    | _ => (st2, Er)
                    end
                end
          | _, _ => (new_page st (Inner [] [] false (order st)), Er)
          end
      end
  | Some Gone => (st, Pan)
  | _ => (st, Er)
  end.
(** B 1363-1471: split_leaf_page. *)
Definition split_leaf (st : state) (al : nat) (id : nat) (path : list nat) : state * res unit :=
  match pages st !! id with
  | Some (Leaf es nx rt mx) =>
      if order st =? 0 then (st, Er)
      else match al with
      | O => (st, Er)
      | S al =>
          let n := fresh st in
          let sp := (order st + 1) / 2 in
          let right := leaf_insert_all (order st) [] (drop sp es) in
          let st1 := new_page st (Leaf right nx false (order st)) in
          match right with
          | [] => (set_page st1 id (Leaf es (Some n) rt mx), Er)
          | (sep, _) :: _ =>
              let st2 := set_page st1 id (Leaf (take sp es) (Some n) rt mx) in
              if rt then
                let r := create_new_root st2 al id sep n in
                match r.2 with
                | Ok _ => (set_page r.1 id (Leaf (take sp es) (Some n) false mx), Ok tt)
                | _ => r
                end
              else match path with
              | [] => (st2, Er)
              | p :: path =>
                  match pages st2 !! p with
                  | Some (Inner pks pvs prt pmx) =>
                      let pn := inner_insert pmx pks pvs sep n in
                      let st3 := set_page st2 p (Inner pn.1 pn.2 prt pmx) in
                      if order st <=? length pn.1 then split_inner path st3 al p else (st3, Ok tt)
                  | Some Gone => (st2, Pan)
                  | _ => (st2, Er)
                  end
              end
          end
      end
  | Some Gone => (st, Pan)
  | _ => (st, Er)
  end.
Definition bump (st : state) : state := set_header st (hroot st) (height st) (S (count st)).
(** B 494-530: insert_into_empty_tree. *)
Definition insert_empty (st : state) (al : nat) (k v : Z) : state * res unit :=
  match al with
  | O => (st, Er)
  | S _ =>
      let n := fresh st in
      (set_header (new_page st (Leaf (leaf_insert (order st) [] k v) None true (order st))) (Some n) 1 1, Ok tt)
  end.
(** B 430-490: the part of insert after the leaf was found. *)
Definition insert_at (st : state) (al : nat) (k v : Z) (id : nat) (path : list nat) : state * res unit :=
  match pages st !! id with
  | Some (Leaf es nx rt mx) =>
      if leaf_has es k then (set_page st id (Leaf (<[leaf_find es k := (k, v)]> es) nx rt mx), Ok tt)
      else if length es <? order st then (bump (set_page st id (Leaf (leaf_insert mx es k v) nx rt mx)), Ok tt)
      else
        let r := split_leaf (set_page st id (Leaf (leaf_put es k v) nx rt mx)) al id path in
        match r.2 with Ok _ => (bump r.1, Ok tt) | _ => r end
  | Some Gone => (st, Pan)
  | _ => (st, Er)
  end.
(** B 403-491: insert. *)
Definition insert (st : state) (al : nat) (k v : Z) : state * res unit :=
  match hroot st with
  | None => insert_empty st al k v
  | Some r =>
      match find_leaf st r k with
      | Ok (id, path) => insert_at st al k v id path
      | Er => (st, Er)
      | Pan => (st, Pan)
      end
  end.
(** B 1170-1254 with C 632-641: insert_with_latch_crabbing, the optimistic step after the leaf was found. *)
Definition insert_crab_at (st : state) (al : nat) (k v : Z) (id : nat) : state * res unit :=
  match pages st !! id with
  | Some (Leaf es nx rt mx) =>
      if length es <? mx - 1 then
        if leaf_has es k then (set_page st id (Leaf (<[leaf_find es k := (k, v)]> es) nx rt mx), Ok tt)
        else (bump (set_page st id (Leaf (leaf_insert mx es k v) nx rt mx)), Ok tt)
      else insert st al k v
  | Some Gone => (st, Pan)
  | _ => (st, Er)
  end.
Definition insert_crab (st : state) (al : nat) (k v : Z) : state * res unit :=
  match hroot st with
  | None => insert_empty st al k v
  | Some r =>
      match find_leaf st r k with
      | Ok (id, _) => insert_crab_at st al k v id
      | Er => (st, Er)
      | Pan => (st, Pan)
      end
  end.

(** ** Reading *)
(** B 548-578: search. *)
Definition search (st : state) (k : Z) : res (option Z) :=
  match hroot st with
  | None => Ok None
  | Some r =>
      match find_leaf st r k with
      | Ok (id, _) =>
          match pages st !! id with
          | Some (Leaf es _ _ _) => Ok (if leaf_has es k then snd <$> es !! leaf_find es k else None)
          | _ => Er
          end
      | Er => Er
      | Pan => Pan
      end
  end.
(** B 662-726: range_scan. A chain of leaves longer than the number of pages is a cycle, and the call never returns. *)
Fixpoint scan_leaf (es : list (Z * Z)) (b : Z) : list (Z * Z) * bool :=
  match es with
  | [] => ([], true)
  | e :: es => if (b <? e.1)%Z then ([], false) else let r := scan_leaf es b in (e :: r.1, r.2)
  end.
Fixpoint scan (fuel : nat) (ps : gmap nat node) (a b : Z) (id : nat) (acc : list (Z * Z)) : res (list (Z * Z)) :=
  match fuel with
  | O => Pan
  | S fuel =>
      match ps !! id with
      | Some (Leaf es nx _ _) =>
          let r := scan_leaf (drop (leaf_find es a) es) b in
          if r.2 then match nx with Some n => scan fuel ps a b n (acc ++ r.1) | None => Ok (acc ++ r.1) end
          else Ok (acc ++ r.1)
      | Some Gone => Pan
      | _ => Er
      end
  end.
Definition range_scan (st : state) (a b : Z) : res (list (Z * Z)) :=
  if (b <? a)%Z then Ok []
  else match hroot st with
  | None => Ok []
  | Some r =>
      match find_leaf st r a with
      | Ok (id, _) => scan (S (size (pages st))) (pages st) a b id []
      | Er => Er
      | Pan => Pan
      end
  end.

(** ** Removal *)
(** B 1604-1739: merge_leaf_pages. The flag says that the parent must be rebalanced next. *)
Definition merge_leaf (st : state) (l r p i : nat) : state * res bool :=
  if l =? r then (st, Pan)
  else match pages st !! l, pages st !! r, pages st !! p with
  | Some (Leaf les lnx lrt lmx), Some (Leaf res_ rnx rrt rmx), Some (Inner ks vs prt pmx) =>
      if negb (bool_decide (vs !! i = Some l) && bool_decide (vs !! (i + 1) = Some r)) then (st, Er)
      else if lmx <? length les + length res_ then (st, Er)
      else if length ks <=? i then (st, Er)
      else
        let es := leaf_insert_all lmx les res_ in
        let pn := inner_remove prt (ks, vs) i in
        let st1 := set_page (set_page st l (Leaf es rnx lrt lmx)) p (Inner pn.1 pn.2 prt pmx) in
        if prt && (length pn.1 =? 0) then
          let st2 := set_page st1 l (Leaf es rnx true lmx) in
          (del_page (del_page (set_header st2 (Some l) (height st2 - 1) (count st2)) p) r, Ok false)
        else (del_page st1 r, Ok (negb prt && (length pn.1 <? pmx / 2)))
  | _, _, _ => (st, Er)
  end.
(** B 1742-1878: redistribute_leaf_pages. *)
Definition redistribute_leaf (st : state) (l r p i : nat) : state * res bool :=
  if l =? r then (st, Pan)
  else match pages st !! l, pages st !! r, pages st !! p with
  | Some (Leaf les lnx lrt lmx), Some (Leaf res_ rnx rrt rmx), Some (Inner ks vs prt pmx) =>
      if negb (bool_decide (vs !! i = Some l) && bool_decide (vs !! (i + 1) = Some r)) then (st, Er)
      else
        let total := length les + length res_ in
        if total <? lmx / 2 * 2 then (st, Er)
        else
          let target := total / 2 in
          let moved :=
            if length les <? length res_ then
              let m := length res_ - target in
              (leaf_insert_all lmx les (take m res_), drop m res_)
            else
              let m := length les - target in
              let s := length les - m in
              (take s les, leaf_insert_all rmx (leaf_insert_all rmx [] (drop s les)) res_) in
          let st1 := set_page (set_page st l (Leaf moved.1 lnx lrt lmx)) r (Leaf moved.2 rnx rrt rmx) in
          match moved.2 with
          | [] => (st1, Er)
          | (sep, _) :: _ =>
              if i <? length ks then
                let pn := inner_remove prt (ks, vs) i in
                let pn := inner_insert pmx pn.1 pn.2 sep r in
                (set_page st1 p (Inner pn.1 pn.2 prt pmx), Ok false)
              else (st1, Ok false)
          end
  | _, _, _ => (st, Er)
  end.
(** B 1884-2018: merge_internal_pages. *)
Definition merge_inner (st : state) (l r p i : nat) : state * res bool :=
  if l =? r then (st, Pan)
  else match pages st !! l, pages st !! r, pages st !! p with
  | Some (Inner lks lvs lrt lmx), Some (Inner rks rvs rrt rmx), Some (Inner ks vs prt pmx) =>
      if negb (bool_decide (vs !! i = Some l) && bool_decide (vs !! (i + 1) = Some r)) then (st, Er)
      else match ks !! i with
      | None => (st, Er)
      | Some sep =>
          if lmx <? length lks + length rks + 1 then (st, Er)
          else match rvs with
          | [] => (st, Er)
          | c :: _ =>
              let ln := inner_insert_all lmx (inner_insert lmx lks lvs sep c) (zip rks (drop 1 rvs)) in
              let pn := inner_remove prt (ks, vs) i in
              let st1 := set_page (set_page st l (Inner ln.1 ln.2 lrt lmx)) p (Inner pn.1 pn.2 prt pmx) in
              if prt && (length pn.1 =? 0) then
                let st2 := set_page st1 l (Inner ln.1 ln.2 true lmx) in
                (del_page (del_page (set_header st2 (Some l) (height st2 - 1) (count st2)) p) r, Ok false)
              else (del_page st1 r, Ok (negb prt && (length pn.1 <? pmx / 2)))
          end
      end
  | _, _, _ => (st, Er)
  end.
(** B 2021-2197: redistribute_internal_pages. *)
Definition redistribute_inner (st : state) (l r p i : nat) : state * res bool :=
  if l =? r then (st, Pan)
  else match pages st !! l, pages st !! r, pages st !! p with
  | Some (Inner lks lvs lrt lmx), Some (Inner rks rvs rrt rmx), Some (Inner ks vs prt pmx) =>
      if negb (bool_decide (vs !! i = Some l) && bool_decide (vs !! (i + 1) = Some r)) then (st, Er)
      else match ks !! i, rvs with
      | Some sep, c0 :: _ =>
          let total := length lks + length rks + 1 in
          if total <? lmx / 2 * 2 then (st, Er)
          else
            let target := total / 2 in
            if length lks <? length rks then
              let m := target - length lks - 1 in
              let ln := inner_insert_all lmx (inner_insert lmx lks lvs sep c0) (zip (take m rks) (take m (drop 1 rvs))) in
              match rks !! m, rvs !! (m + 1) with
              | Some sep', Some _ =>
                  let pn := inner_remove prt (ks, vs) i in
                  let pn := inner_insert pmx pn.1 pn.2 sep' r in
                  let rn := Nat.iter (m + 1) (fun x : list Z * list nat => inner_remove rrt x 0) (rks, rvs) in
                  (set_page (set_page (set_page st l (Inner ln.1 ln.2 lrt lmx)) p (Inner pn.1 pn.2 prt pmx))
                     r (Inner rn.1 rn.2 rrt rmx), Ok false)
              | _, _ => (set_page st l (Inner ln.1 ln.2 lrt lmx), Er)
              end
            else
              match last lks, lvs !! length lks with
              | Some sep', Some c =>
                  let m := length lks - target in
                  let s := length lks - m in
                  let cleared := Nat.iter (length rks) (fun x : list Z * list nat => inner_remove rrt x 0) (rks, rvs) in
                  let mid := take (length lks - 1 - s) (drop s lks) in
                  let rn := inner_insert rmx cleared.1 cleared.2 sep c in
                  let rn := inner_insert_all rmx rn (zip mid (drop (s + 1) lvs)) in
                  let rn := inner_insert_all rmx rn (zip rks (drop 1 rvs)) in
                  let pn := inner_remove prt (ks, vs) i in
                  let pn := inner_insert pmx pn.1 pn.2 sep' r in
                  let ln := Nat.iter m (fun x : list Z * list nat => inner_remove lrt x (length x.1 - 1)) (lks, lvs) in
                  (set_page (set_page (set_page st l (Inner ln.1 ln.2 lrt lmx)) p (Inner pn.1 pn.2 prt pmx))
                     r (Inner rn.1 rn.2 rrt rmx), Ok false)
              | _, _ => (st, Er)
              end
      | _, _ => (st, Er)
      end
  | _, _, _ => (st, Er)
  end.
(** B 2585-2591: the position of a child in its parent. *)
Fixpoint index_of (vs : list nat) (id : nat) : option nat :=
  match vs with
  | [] => None
  | v :: vs => if v =? id then Some 0 else S <$> index_of vs id
  end.
(** B 2357-2398: find_sibling, the left one preferred. *)
Definition find_sibling (ks : list Z) (vs : list nat) (ci : nat) : option (nat * nat) :=
  match (if 0 <? ci then vs !! (ci - 1) else None) with
  | Some s => Some (ci - 1, s)
  | None => if ci <? length ks then (fun s => (ci, s)) <$> vs !! (ci + 1) else None
  end.
(** B 2406-2738: check_and_handle_underflow. *)
Fixpoint underflow (path : list nat) (st : state) (id : nat) (is_leaf : bool) : state * res unit :=
  match path with
  | [] => if is_leaf then (st, Ok tt)
          else match pages st !! id with
          | Some (Inner (_ :: _) _ _ _) => (st, Ok tt)
          | Some (Inner [] (c :: _) _ _) =>
              match pages st !! c with
              | Some (Inner cks cvs _ cmx) =>
                  (del_page (set_header (set_page st c (Inner cks cvs true cmx)) (Some c) (height st - 1) (count st)) id, Ok tt)
              | Some Gone => (st, Pan)
              | _ => (st, Er)
              end
          | Some Gone => (st, Pan)
          | _ => (st, Er)
          end
  | p :: path =>
      let sz := match pages st !! id with Some (Leaf es _ _ _) => length es | Some (Inner ks _ _ _) => length ks | _ => 0 end in
      if order st / 2 <=? sz then (st, Ok tt)
      else match pages st !! p with
      | Some (Inner ks vs _ _) =>
          match index_of (take (S (length ks)) vs) id with
          | None => (st, Er)
          | Some ci =>
              match find_sibling ks vs ci with
              | None => (st, Er)
              | Some (si, sib) =>
                  let l := if si <? ci then sib else id in
                  let r := if si <? ci then id else sib in
                  let step :=
                    match pages st !! id, pages st !! sib with
                    | Some (Leaf es _ _ mx), Some (Leaf ses _ _ _) =>
                        if length es + length ses <=? mx then merge_leaf st l r p si else redistribute_leaf st l r p si
                    | Some (Inner cks _ _ mx), Some (Inner sks _ _ _) =>
                        if length cks + length sks + 1 <=? mx then merge_inner st l r p si
                        else redistribute_inner st l r p si
                    | Some Gone, _ | _, Some Gone => (st, Pan)
                    | _, _ => (st, Er)
                    end in
                  match step.2 with
                  | Ok true => underflow path step.1 p false
                  | Ok false => (step.1, Ok tt)
                  | Er => (step.1, Er)
                  | Pan => (step.1, Pan)
                  end
              end
          end
      | Some Gone => (st, Pan)
      | _ => (st, Er)
      end
  end.
(** B 581-659: remove. *)
Definition remove (st : state) (k : Z) : state * res bool :=
  match hroot st with
  | None => (st, Ok false)
  | Some r =>
      match find_leaf st r k with
      | Ok (id, path) =>
          match pages st !! id with
          | Some (Leaf es nx rt mx) =>
              if leaf_has es k then
                let es' := delete (leaf_find es k) es in
                let st1 := set_header (set_page st id (Leaf es' nx rt mx)) (Some r) (height st) (count st - 1) in
                if rt && (length es' =? 0) then (set_header st1 None 0 0, Ok true)
                else if negb rt && (length es' <? order st / 2) then
                  let u := underflow path st1 id true in
                  (u.1, match u.2 with Ok _ => Ok true | Er => Er | Pan => Pan end)
                else (st1, Ok true)
              else (st, Ok false)
          | _ => (st, Er)
          end
      | Er => (st, Er)
      | Pan => (st, Pan)
      end
  end.
(** B 1264-1337 with C 642-646: remove_with_latch_crabbing. *)
Definition remove_crab (st : state) (k : Z) : state * res bool :=
  match hroot st with
  | None => (st, Ok false)
  | Some r =>
      match find_leaf st r k with
      | Ok (id, _) =>
          match pages st !! id with
          | Some (Leaf es nx rt mx) =>
              if rt || ((mx + 1) / 2 <? length es) then
                if leaf_has es k then
                  (set_header (set_page st id (Leaf (delete (leaf_find es k) es) nx rt mx)) (hroot st) (height st) (count st - 1),
                   Ok true)
                else (st, Ok false)
              else remove st k
          | _ => (st, Er)
          end
      | Er => (st, Er)
      | Pan => (st, Pan)
      end
  end.

(** ** Eviction *)
(** The buffer pool replaces the frame of a page. A header page read again has the values of a new one: reading it back
    only copies the bytes, and nothing writes the fields into them (H 79-94, 244-254; buffer_pool_manager_async.rs 599-721). *)
Definition evict_header (st : state) : state := St (pages st) (fresh st) None 0 0 0.
Definition evict_page (st : state) (id : nat) : state := set_page st id Gone.

(** ** Runs *)
Definition of_res {A} (f : A -> answer) (r : res A) : answer := match r with Ok a => f a | Er => Error | Pan => NoReturn end.
(** One call; [crab] chooses the latch crabbing variant of insert and remove. *)
Definition call (st : state) (al : nat) (crab : bool) (o : op) : state * answer :=
  match o with
  | Insert k v => let r := (if crab then insert_crab else insert) st al k v in (r.1, of_res (fun _ => Done) r.2)
  | Search k => (st, of_res Found (search st k))
  | Range a b => (st, of_res Pairs (range_scan st a b))
  | Remove k => let r := (if crab then remove_crab else remove) st k in (r.1, of_res Removed r.2)
  | Size => (st, Count (count st))                                      (* B 2339-2354 *)
  end.
Fixpoint run (st : state) (al : nat) (l : list (bool * op)) : state * list answer :=
  match l with
  | [] => (st, [])
  | (crab, o) :: l => let r := call st al crab o in let r' := run r.1 al l in (r'.1, r.2 :: r'.2)
  end.
