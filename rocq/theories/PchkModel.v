(** * The paged index's own checks and traversals *)
(** src/storage/index/b_plus_tree_index.rs (B), over the pages of PtreeModel.v. A call that follows a cycle of pages never
    returns (a loop without end, or the stack overflows): a path longer than the number of pages is a cycle. *)
From Coq Require Import ZArith Lia.
From stdpp Require Import list gmap.
From Verif Require Import PtreeSpec PtreeModel.
Local Open Scope nat_scope.

(** B 3365-3372 and the struct: ValidationStats. *)
Record stats := Stats { max_depth : nat; total : nat; level : option nat }.

(** B 3228-3243, 3287-3297: the keys of a page are strictly ascending. *)
Fixpoint ascending (ks : list Z) : bool :=
  match ks with
  | a :: ((b :: _) as r) => (a <? b)%Z && ascending r
  | _ => true
  end.
(** B 3193-3257: validate_leaf_page. Every key has a value, as the pairs are one list. *)
Definition validate_leaf (es : list (Z * Z)) (mx depth : nat) (s : stats) : res stats :=
  if match level s with Some l => l =? depth | None => true end then
    if mx <? length es then Er
    else if ascending es.*1 then Ok (Stats (max_depth s) (total s + length es) (Some depth)) else Er
  else Er.
(** B 3166-3190: validate_node, and B 3260-3308: validate_internal_page. *)
Fixpoint validate_node (fuel : nat) (ps : gmap nat node) (id depth : nat) (s : stats) : res stats :=
  match fuel with
  | O => Pan
  | S fuel =>
      let s := Stats (max_depth s `max` depth) (total s) (level s) in
      match ps !! id with
      | Some (Leaf es _ _ mx) => validate_leaf es mx depth s
      | Some (Inner ks vs _ mx) =>
          if mx <? length ks then Er
          else if length vs <=? length ks then Er
          else if ascending ks then
            (fix go l s := match l with
               | [] => Ok s
               | c :: l => match validate_node fuel ps c (S depth) s with Ok s => go l s | e => e end
               end) (take (S (length ks)) vs) s
          else Er
      | Some Gone => Pan
      | None => Er
      end
  end.
(** B 3096-3163: validate_tree. *)
Definition validate_tree (st : state) : res stats :=
  match hroot st with
  | None => if (count st =? 0) && (height st =? 0) then Ok (Stats 0 0 None) else Er
  | Some r =>
      match validate_node (S (size (pages st))) (pages st) r 0 (Stats 0 0 None) with
      | Ok s =>
          if negb (total s =? count st) then Er
          else if negb (max_depth s + 1 =? height st) then Er
          else match level s with Some l => if l =? max_depth s then Ok s else Er | None => Ok s end
      | e => e
      end
  end.
(** B 2923-2975: find_leftmost_leaf, below the root. *)
Fixpoint leftmost (fuel : nat) (ps : gmap nat node) (id : nat) : res nat :=
  match fuel with
  | O => Pan
  | S fuel =>
      match ps !! id with
      | Some (Leaf _ _ _ _) => Ok id
      | Some (Inner _ vs _ _) => match vs !! 0 with Some c => leftmost fuel ps c | None => Er end
      | Some Gone => Pan
      | None => Er
      end
  end.
(** B 2880-2920: in_order_traversal. *)
Fixpoint in_order_from (fuel : nat) (ps : gmap nat node) (id : nat) (acc : list Z) : res (list Z) :=
  match fuel with
  | O => Pan
  | S fuel =>
      match ps !! id with
      | Some (Leaf es nx _ _) =>
          match nx with Some n => in_order_from fuel ps n (acc ++ es.*1) | None => Ok (acc ++ es.*1) end
      | Some Gone => Pan
      | _ => Er
      end
  end.
Definition in_order (st : state) : res (list Z) :=
  match hroot st with
  | None => Ok []
  | Some r =>
      match leftmost (S (size (pages st))) (pages st) r with
      | Ok id => in_order_from (S (size (pages st))) (pages st) id []
      | Er => Er
      | Pan => Pan
      end
  end.
(** B 3311-3352: validate_leaf_links. [fuel] is the number of pages, and each page is visited once. *)
Fixpoint links_from (fuel : nat) (ps : gmap nat node) (id : nat) (seen : list nat) : res unit :=
  match fuel with
  | O => Er
  | S fuel =>
      match ps !! id with
      | Some (Leaf _ nx _ _) =>
          if bool_decide (id ∈ seen) then Er
          else match nx with Some n => links_from fuel ps n (id :: seen) | None => Ok tt end
      | Some Gone => Pan
      | _ => Er
      end
  end.
Definition validate_links (st : state) : res unit :=
  match hroot st with
  | None => Ok tt
  | Some r =>
      match leftmost (S (size (pages st))) (pages st) r with
      | Ok id => links_from (S (size (pages st))) (pages st) id []
      | Er => Er
      | Pan => Pan
      end
  end.
(** B 3360-3381: health_check. *)
Definition health_check (st : state) : res stats :=
  match validate_tree st with
  | Ok s => match validate_links st with Ok _ => Ok s | Er => Er | Pan => Pan end
  | e => e
  end.
(** B 2978-3026: pre_order_traversal; the stack makes it the recursion written here. *)
Fixpoint pre_order_at (fuel : nat) (ps : gmap nat node) (id : nat) : res (list nat) :=
  match fuel with
  | O => Pan
  | S fuel =>
      match ps !! id with
      | Some (Inner ks vs _ _) =>
          (fix go l acc := match l with
             | [] => Ok acc
             | c :: l => match pre_order_at fuel ps c with Ok x => go l (acc ++ x) | e => e end
             end) (take (S (length ks)) vs) [id]
      | Some Gone => Pan
      | _ => Ok [id]
      end
  end.
Definition pre_order (st : state) : res (list nat) :=
  match hroot st with None => Ok [] | Some r => pre_order_at (S (size (pages st))) (pages st) r end.
(** B 3029-3093: post_order_traversal and post_order_helper. *)
Fixpoint post_order_at (fuel : nat) (ps : gmap nat node) (id : nat) (acc : list nat) : res (list nat) :=
  match fuel with
  | O => Pan
  | S fuel =>
      match ps !! id with
      | Some (Inner ks vs _ _) =>
          match (fix go l acc := match l with
                   | [] => Ok acc
                   | c :: l => match post_order_at fuel ps c acc with Ok acc => go l acc | e => e end
                   end) (take (S (length ks)) vs) acc with
          | Ok acc => Ok (acc ++ [id])
          | e => e
          end
      | Some Gone => Pan
      | _ => Ok (acc ++ [id])
      end
  end.
Definition post_order (st : state) : res (list nat) :=
  match hroot st with None => Ok [] | Some r => post_order_at (S (size (pages st))) (pages st) r [] end.
