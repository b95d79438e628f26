(** * Iterating over an index, and index scans

    Models src/storage/index/index_iterator_mem.rs and
    src/sql/execution/executors/index_scan_executor.rs.

    Simplifications:
    - A bound is its key; bound tuples without the key attribute (an error, 228-250) are left out.
      Index scans build bounds with a single column, so the index is on the first column.
    - The index does not change while it is iterated over.
    - A panic of the index is [None]. *)
From Coq Require Import ZArith.
From stdpp Require Import list.
From Verif Require Import ExprModel BtreeModel.
Open Scope nat_scope.

(** index_iterator_mem.rs:133-142; last_error is left out. *)
Record iter := It {
  i_batch : list entry; i_pos : nat;
  i_lo : option val; i_hi : option val;
  i_done : bool; i_last : option val }.

Inductive fetched := FTrue | FFalse | FErr.

(** 188-299, fetch_next_batch. *)
Definition fetch (ix : index) (it : iter) : option (fetched * iter) :=
  if i_done it then Some (FFalse, it)
  else
    let stop (f : fetched) := Some (f, It [] 0 (i_lo it) (i_hi it) true (i_last it)) in
    let go (res : option (list entry)) :=
      match res with
      | None => None
      | Some l =>
          match last l with
          | None => stop FFalse
          | Some (k, _) => Some (FTrue, It l 0 (i_lo it) (i_hi it) false (Some k))
          end
      end in
    match i_lo it, i_hi it with
    | None, None =>
        match i_last it with
        | Some _ => stop FFalse
        | None => go (scan_full ix)
        end
    | Some lo, Some hi =>
        go (scan_range ix (match i_last it with Some k => k | None => lo end) hi
              (match i_last it with Some _ => false | None => true end))
    | _, _ => stop FErr
    end.

(** 146-165, new: the outcome of the first fetch is dropped. *)
Definition new_iter (ix : index) (lo hi : option val) : option iter :=
  option_map snd (fetch ix (It [] 0 lo hi false None)).

Inductive answer := ARid (r : rid) | AEnd | AErr.

(** 312-338, try_next. *)
Definition try_next (ix : index) (it : iter) : option (answer * iter) :=
  let give (it : iter) :=
    match i_batch it !! i_pos it with
    | Some (_, r) => (ARid r, It (i_batch it) (S (i_pos it)) (i_lo it) (i_hi it) (i_done it) (i_last it))
    | None => (AEnd, it)
    end in
  let spent := length (i_batch it) <=? i_pos it in
  if i_done it && spent then Some (AEnd, it)
  else if spent
  then match fetch ix it with
       | None => None
       | Some (FErr, it) => Some (AErr, it)
       | Some (FFalse, it) => Some (AEnd, it)
       | Some (FTrue, it) => Some (give it)
       end
  else Some (give it).

(** 302-309, reset: last_key is kept. *)
Definition reset (ix : index) (it : iter) : option iter :=
  option_map snd (fetch ix (It [] 0 (i_lo it) (i_hi it) false (i_last it))).

(** 378-396, try_seek. *)
Definition seek (ix : index) (it : iter) (k : val) : option (answer * iter) :=
  let to l := It l 0 (i_lo it) (i_hi it) false (i_last it) in
  match i_hi it with
  | Some hi => match scan_range ix k hi true with Some l => try_next ix (to l) | None => None end
  | None => try_next ix (to [])
  end.

(** ** Index scans *)

(** A range: lower bound, is it included, upper bound, is it included. *)
Definition range : Type := (option val * bool) * (option val * bool).

(** index_scan_executor.rs:237-273, the loop over the ranges of the children of an AND. *)
Fixpoint narrow (acc : range) (l : list range) : range :=
  match l with
  | [] => acc
  | ((s, si), (e, ei)) :: l =>
      let '((s0, si0), (e0, ei0)) := acc in
      let lo := match s, s0 with
                | None, _ => (s0, si0)
                | Some v, None => (Some v, si)
                | Some v, Some c => match val_cmp v c with Datatypes.Gt => (Some v, si) | _ => (s0, si0) end
                end in
      let hi := match e, e0 with
                | None, _ => (e0, ei0)
                | Some v, None => (Some v, ei)
                | Some v, Some c => match val_cmp v c with Datatypes.Lt => (Some v, ei) | _ => (e0, ei0) end
                end in
      narrow (lo, hi) l
  end.

(** 221-377, analyze_predicate_ranges.  The ranges computed for NOT are dropped (the semicolon of
    line 330), and the left side of a comparison is not looked at. *)
Fixpoint ranges (e : expr) : list range :=
  match e with
  | EAnd a b => [narrow ((None, false), (None, false)) (ranges a ++ ranges b)]
  | EOr a b => ranges a ++ ranges b
  | ECmp op _ b =>
      match eval b [] with
      | Ok v =>
          match op with
          | Eq => [((Some v, true), (Some v, true))]
          | Gt => [((Some v, false), (None, false))]
          | Ge => [((Some v, true), (None, false))]
          | Lt => [((None, false), (Some v, false))]
          | Le => [((None, false), (Some v, true))]
          | Ne => []
          end
      | Err => []
      end
  | _ => []
  end.

(** 420-446: the bounds over all ranges; the inclusion flags are computed and not used. *)
Fixpoint widen (acc : option val * option val) (l : list range) : option val * option val :=
  match l with
  | [] => acc
  | ((s, _), (e, _)) :: l =>
      let '(s0, e0) := acc in
      let lo := match s0, s with
                | None, Some v => Some v
                | Some c, Some v => match val_cmp v c with Datatypes.Lt => Some v | _ => s0 end
                | _, None => s0
                end in
      let hi := match e0, e with
                | None, Some v => Some v
                | Some c, Some v => match val_cmp v c with Datatypes.Gt => Some v | _ => e0 end
                | _, None => e0
                end in
      widen (lo, hi) l
  end.

(** 401-465, analyze_bounds. *)
Definition bounds (preds : list expr) : option val * option val :=
  widen (None, None) (concat (map ranges preds)).

(** 575-591: a predicate that cannot be evaluated counts as satisfied. *)
Definition passes (preds : list expr) (r : row) : bool :=
  forallb (fun e => match eval e r with Ok (VBool b) => b | Ok _ => false | Err => true end) preds.

(** 526-610, next: the row and its RID, [None] at the end.  [get] is the table: [None] stands for
    a row that is deleted or cannot be fetched (566-604).  An endless search has no derivation. *)
Inductive scan_next (ix : index) (get : rid -> option row) (preds : list expr) : iter -> option (row * rid) -> iter -> Prop :=
| sn_end it it' : try_next ix it = Some (AEnd, it') -> scan_next ix get preds it None it'
| sn_row it it' rd r : try_next ix it = Some (ARid rd, it') -> get rd = Some r -> passes preds r = true ->
    scan_next ix get preds it (Some (r, rd)) it'
| sn_gone it it' it2 rd o : try_next ix it = Some (ARid rd, it') -> get rd = None ->
    scan_next ix get preds it' o it2 -> scan_next ix get preds it o it2
| sn_skip it it' it2 rd r o : try_next ix it = Some (ARid rd, it') -> get rd = Some r -> passes preds r = false ->
    scan_next ix get preds it' o it2 -> scan_next ix get preds it o it2.

(** Calling next until it answers [None]. *)
Inductive scan_all (ix : index) (get : rid -> option row) (preds : list expr) : iter -> list (row * rid) -> Prop :=
| sa_end it it' : scan_next ix get preds it None it' -> scan_all ix get preds it []
| sa_row it it' x l : scan_next ix get preds it (Some x) it' -> scan_all ix get preds it' l -> scan_all ix get preds it (x :: l).

(** 478-497 and 526-610: a whole index scan. *)
Definition index_scan (ix : index) (get : rid -> option row) (preds : list expr) (out : list (row * rid)) : Prop :=
  exists it, new_iter ix (fst (bounds preds)) (snd (bounds preds)) = Some it /\ scan_all ix get preds it out.
