(** * The optimizer's rewriting of plans

    Models src/sql/optimizer/optimizer_impl.rs:249-300 and the phases it runs, on the plan nodes
    they look at; every other node is [PUnary] or [PBinary] with the relation between what its
    children produce and what it produces.

    Simplifications:
    - Schemas, names and costs are left out.  A node has the number of children its executor
      needs.
    - A failing plan is one whose answer ends in [Fail]; validation (1183-1234), which can only
      refuse a plan, is left out.
    - CREATE INDEX and the constraint indexes made on the first scan (325-361) put the rows the
      table has at that moment into the index (src/catalog/database.rs:478-537, 634-690); INSERT
      does not touch indexes (no caller of BPlusTree::insert outside that function).  Updates and
      deletes are not modelled here. *)
From Coq Require Import List Bool Arith.
From Verif Require Import ExprModel ExecModel TopnModel.
Import ListNotations.

Inductive plan :=
| PScan (t : nat)
| PIndexScan (t : nat)
| PFilter (e : expr) (c : plan)
| PProject (es : list expr) (c : plan)
| PSort (specs : list order_by) (c : plan)
| PLimit (n : nat) (c : plan)
| PTopN (k : nat) (specs : list order_by) (c : plan)
| PUnary (f : list (item row) -> list (item row) -> Prop) (c : plan)
| PBinary (f : list (item row) -> list (item row) -> list (item row) -> Prop) (l r : plan).

(** ** The database as far as scans see it *)

(** The rows of each table, and the rows in the index on its first column, if it has one. *)
Record db := Db { d_rows : nat -> list row; d_index : nat -> option (list row) }.

(** The order of the index's keys (src/storage/index/b_plus_tree.rs orders keys by Value's Ord). *)
Definition by_first (a b : row) : comparison :=
  match nth_error a 0, nth_error b 0 with
  | Some x, Some y => val_cmp x y
  | _, _ => Datatypes.Eq
  end.

Definition upd {A} (f : nat -> A) (t : nat) (x : A) : nat -> A := fun u => if u =? t then x else f u.

(** database.rs:478-537 with 634-690. *)
Definition create_index (t : nat) (d : db) : db :=
  match d_index d t with
  | Some _ => d
  | None => Db (d_rows d) (upd (d_index d) t (Some (sort_by by_first (d_rows d t))))
  end.

(** src/sql/execution/executors/insert_executor.rs. *)
Definition insert_row (t : nat) (r : row) (d : db) : db :=
  Db (upd (d_rows d) t (d_rows d t ++ [r])) (d_index d).

(** ** Running a plan *)

(** Columns an expression mentions are all there. *)
Fixpoint cols_ok (e : expr) (n : nat) : bool :=
  match e with
  | ECol i => i <? n
  | EConst _ => true
  | EArith _ a b | ECmp _ a b | EAnd a b | EOr a b | EDistinct _ a b | ECoalesce a b => cols_ok a n && cols_ok b n
  | ENot a | ENeg a | EIs _ _ a | EIn _ a _ | ECast a _ => cols_ok a n
  | ECase a b c => cols_ok a n && cols_ok b n && cols_ok c n
  end.

(** src/sql/execution/executors/projection_executor.rs:269-299: the projected row, a row to skip
    (a column that does not exist, 279-285), or an error.  (If an expression fails and a later one
    names a column that does not exist, the code fails and this skips.) *)
Inductive projected := PrRow (r : row) | PrSkip | PrErr.

Fixpoint project (es : list expr) (r : row) : projected :=
  match es with
  | [] => PrRow []
  | e :: es =>
      match project es r with
      | PrSkip => PrSkip
      | PrErr => if cols_ok e (length r) then PrErr else PrSkip
      | PrRow vs => match eval e r with
                    | Ok v => PrRow (v :: vs)
                    | Err => if cols_ok e (length r) then PrErr else PrSkip
                    end
      end
  end.

(** 256-309, next. *)
Fixpoint project_next (es : list expr) (l : list (item row)) : outcome row * list (item row) :=
  match l with
  | [] => (ODone, [])
  | Fail :: r => (OFail, r)
  | Row t :: r =>
      match project es t with
      | PrRow v => (ORow v, r)
      | PrErr => (OFail, r)
      | PrSkip => project_next es r
      end
  end.

(** Nothing is asked of an executor after a failure (src/sql/execution/execution_engine.rs:660-681). *)
Fixpoint stops (l : list (item row)) : Prop :=
  match l with
  | [] => True
  | Fail :: l => l = []
  | Row _ :: l => stops l
  end.

(** What executing a plan answers.  A scan reads the table; an index scan with no predicate keys
    reads the rows the index has, in key order
    (src/sql/execution/executors/index_scan_executor.rs:526-610). *)
Inductive answers (d : db) : plan -> list (item row) -> Prop :=
| a_scan t : answers d (PScan t) (map Row (d_rows d t))
| a_index t rows : d_index d t = Some rows -> answers d (PIndexScan t) (map Row rows)
| a_filter e c l out : answers d c l -> produces (filter_next e) l out -> answers d (PFilter e c) out
| a_project es c l out : answers d c l -> produces (project_next es) l out -> answers d (PProject es c) out
| a_sort specs c l out : answers d c l -> produces sort_next (sort_init specs l) out -> answers d (PSort specs c) out
| a_limit n c l out : answers d c l -> produces (limit_next n pull) (0, l) out -> answers d (PLimit n c) out
| a_topn k specs c l st out : answers d c l -> topn_init k (map fst specs) l = Some st -> produces topn_next st out ->
    answers d (PTopN k specs c) out
| a_unary (f : list (item row) -> list (item row) -> Prop) c l out : answers d c l -> f l out -> stops out ->
    answers d (PUnary f c) out
| a_binary (f : list (item row) -> list (item row) -> list (item row) -> Prop) a b la lb out :
    answers d a la -> answers d b lb -> f la lb out -> stops out -> answers d (PBinary f a b) out.

(** ** The phases *)

(** 654-739, apply_index_scan_optimization. *)
Fixpoint index_opt (indexed : nat -> bool) (p : plan) : plan :=
  match p with
  | PScan t => if indexed t then PIndexScan t else p
  | PIndexScan _ => p
  | PFilter e c => PFilter e (index_opt indexed c)
  | PProject es c => PProject es (index_opt indexed c)
  | PSort s c => PSort s (index_opt indexed c)
  | PLimit n c => PLimit n (index_opt indexed c)
  | PTopN k s c => PTopN k s (index_opt indexed c)
  | PUnary f c => PUnary f (index_opt indexed c)
  | PBinary f a b => PBinary f (index_opt indexed a) (index_opt indexed b)
  end.

Definition is_true (e : expr) : bool := match e with EConst (VBool true) => true | _ => false end.

(** 754-788, apply_early_pruning.  A removed node's child is not pruned in turn. *)
Fixpoint prune (p : plan) : plan :=
  match p with
  | PScan _ | PIndexScan _ => p
  | PFilter e c => if is_true e then c else PFilter e (prune c)
  | PProject es c => match es with [] => c | _ => PProject es (prune c) end
  | PSort s c => PSort s (prune c)
  | PLimit n c => PLimit n (prune c)
  | PTopN k s c => PTopN k s (prune c)
  | PUnary f c => PUnary f (prune c)
  | PBinary f a b => PBinary f (prune a) (prune b)
  end.

(** 1011-1070, push_down_predicate. *)
Fixpoint push_down (e : expr) (child : plan) : plan :=
  match child with
  | PFilter e2 c => push_down (EAnd e e2) c
  | _ => PFilter e child
  end.

(** 803-837, apply_rewrite_rules, with 1091-1100, merge_projections. *)
Fixpoint rewrite_plan (p : plan) : plan :=
  match p with
  | PScan _ | PIndexScan _ => p
  | PFilter e c => push_down e c
  | PProject es c =>
      match c with
      | PProject _ _ => c
      | _ => PProject es (rewrite_plan c)
      end
  | PSort s c => PSort s (rewrite_plan c)
  | PLimit n c => PLimit n (rewrite_plan c)
  | PTopN k s c => PTopN k s (rewrite_plan c)
  | PUnary f c => PUnary f (rewrite_plan c)
  | PBinary f a b => PBinary f (rewrite_plan a) (rewrite_plan b)
  end.

(** 916-943, optimize_sort_and_limit. *)
Fixpoint sort_limit (p : plan) : plan :=
  match p with
  | PScan _ | PIndexScan _ => p
  | PFilter e c => PFilter e (sort_limit c)
  | PProject es c => PProject es (sort_limit c)
  | PSort s c =>
      match c with
      | PLimit n _ => PTopN n s (sort_limit c)
      | _ => PSort s (sort_limit c)
      end
  | PLimit n c => PLimit n (sort_limit c)
  | PTopN k s c => PTopN k s (sort_limit c)
  | PUnary f c => PUnary f (sort_limit c)
  | PBinary f a b => PBinary f (sort_limit a) (sort_limit b)
  end.

(** 249-300, optimize.  optimize_joins (856-891) leaves every plan as it is, since
    should_use_hash_join (1155-1162) is always false.  The engine passes only EnableNljCheck
    (src/sql/execution/execution_engine.rs:763-779), so [topn] is false there. *)
Definition optimize (topn : bool) (indexed : nat -> bool) (p : plan) : plan :=
  let p := rewrite_plan (prune (index_opt indexed p)) in
  if topn then sort_limit p else p.
