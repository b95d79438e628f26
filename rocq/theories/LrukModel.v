(** LRU-K cache and frame replacer.

    Models src/storage/disk/async_disk/cache/lru_k.rs and src/buffer/lru_k_replacer.rs.
    Clock readings are arguments. Hash-map iteration orders are arguments ([it]). *)
From stdpp Require Import gmap list.
From Verif Require Import CacheSpec LrukSpec.

(** Victim scan, lru_k.rs 341-371 = 442-472 = 487-514 and lru_k_replacer.rs 193-231:
    state (victim, min_k_accesses, oldest_k_access). [usize::MAX]/no victim is [None]. *)
Definition scan_step (k : nat) (st : option (N * nat * N)) (e : N * list N) : option (N * nat * N) :=
  let '(key, h) := e in
  let num := length h in
  if Nat.ltb num k then
    match st with
    | None => Some (key, num, nth 0 h never)
    | Some (x, m, o) =>
        if Nat.ltb num m then Some (key, num, nth 0 h never)
        else if Nat.eqb num m then
          if N.ltb (nth 0 h never) o then Some (key, m, nth 0 h never) else st
        else st
    end
  else
    match st with
    | None => Some (key, k, nth (num - k) h never)
    | Some (x, m, o) =>
        if Nat.leb k m then
          if N.ltb (nth (num - k) h never) o then Some (key, k, nth (num - k) h never) else st
        else st
    end.
Definition scan (k : nat) (l : list (N * list N)) : option N :=
  (fun st => st.1.1) <$> fold_left (scan_step k) l None.

(** Appending an access: lru_k.rs 327-330, 391-394, 547-550; lru_k_replacer.rs 271-274. *)
Definition push_access (k : nat) (h : list N) (now : N) : list N :=
  let h1 := h ++ [now] in if Nat.ltb k (length h1) then tl h1 else h1.

Section lruk.
  Context {V : Type}.
  (** lru_k.rs, [struct LRUKCache]. *)
  Record lruk := mkLruk { k_cap : nat; k_k : nat; k_map : gmap N (V * list N) }.
  Implicit Types c : lruk.
  Implicit Types it : list (N * (V * list N)).
  (** lru_k.rs 291-297. *)
  Definition lruk_new (cap k : nat) : lruk := mkLruk cap k ∅.

  Definition hists it : list (N * list N) := (fun e => (e.1, e.2.2)) <$> it.

  (** lru_k.rs 314-384. *)
  Definition lruk_insert c it (key : N) (v : V) (now : N) : lruk * option V :=
    if Nat.eqb (k_cap c) 0 then (c, None)
    else
      match k_map c !! key with
      | Some (old, h) =>
          (mkLruk (k_cap c) (k_k c) (<[key := (v, push_access (k_k c) h now)]> (k_map c)), Some old)
      | None =>
          let m1 :=
            if Nat.leb (k_cap c) (size (k_map c)) && negb (Nat.eqb (size (k_map c)) 0) then
              match scan (k_k c) (hists it) with Some x => delete x (k_map c) | None => k_map c end
            else k_map c in
          (mkLruk (k_cap c) (k_k c) (<[key := (v, [now])]> m1), fst <$> m1 !! key)
      end.

  (** lru_k.rs 386-398. *)
  Definition lruk_get c (key now : N) : lruk * option V :=
    match k_map c !! key with
    | Some (v, h) => (mkLruk (k_cap c) (k_k c) (<[key := (v, push_access (k_k c) h now)]> (k_map c)), Some v)
    | None => (c, None)
    end.

  (** lru_k.rs 432-476. *)
  Definition lruk_pop c it : lruk * option (N * V) :=
    if Nat.eqb (size (k_map c)) 0 then (c, None)
    else
      match scan (k_k c) (hists it) with
      | None => (c, None)
      | Some x =>
          match k_map c !! x with
          | Some (v, _) => (mkLruk (k_cap c) (k_k c) (delete x (k_map c)), Some (x, v))
          | None => (c, None)
          end
      end.

  (** lru_k.rs 478-517. *)
  Definition lruk_peek c it : option (N * V) :=
    if Nat.eqb (size (k_map c)) 0 then None
    else x ← scan (k_k c) (hists it); e ← k_map c !! x; Some (x, e.1).

  (** lru_k.rs 533-542. *)
  Definition lruk_distance c (key : N) : option N :=
    match k_map c !! key with
    | Some (_, h) => if Nat.leb (k_k c) (length h) then nth_error h (length h - k_k c) else None
    | None => None
    end.

  (** lru_k.rs 544-555. *)
  Definition lruk_touch c (key now : N) : lruk * bool :=
    match k_map c !! key with
    | Some (v, h) => (mkLruk (k_cap c) (k_k c) (<[key := (v, push_access (k_k c) h now)]> (k_map c)), true)
    | None => (c, false)
    end.

  (** lru_k.rs 565-578 and 595-605: what the rank is computed from. *)
  Definition rank_item (k : nat) (h : list N) : bool * N :=
    if Nat.ltb (length h) k then (false, nth 0 h never) else (true, nth (length h - k) h never).
  (** lru_k.rs 583-590, the comparator. *)
  Definition item_leb (a b : bool * N) : bool :=
    match a.1, b.1 with
    | false, false | true, true => N.leb a.2 b.2
    | false, true => true
    | true, false => false
    end.
  (** [sort_by]: a stable sort; only the resulting order is observable. *)
  Fixpoint item_insert (x : bool * N) (l : list (bool * N)) : list (bool * N) :=
    match l with
    | [] => [x]
    | y :: t => if item_leb x y then x :: y :: t else y :: item_insert x t
    end.
  Definition item_sort (l : list (bool * N)) : list (bool * N) := fold_right item_insert [] l.
  Definition item_eqb (a b : bool * N) : bool := Bool.eqb a.1 b.1 && N.eqb a.2 b.2.
  Fixpoint item_position (x : bool * N) (l : list (bool * N)) : option nat :=
    match l with
    | [] => None
    | y :: t => if item_eqb y x then Some 0 else S <$> item_position x t
    end.
  (** lru_k.rs 557-610. *)
  Definition lruk_rank c it (key : N) : option nat :=
    match k_map c !! key with
    | None => None
    | Some (_, h) =>
        item_position (rank_item (k_k c) h) (item_sort ((fun e => rank_item (k_k c) e.2.2) <$> it))
    end.

  Definition lruk_step c (o : lruk_op V) it : lruk * lruk_out V :=
    match o with
    | KInsert k v now => let '(c1, r) := lruk_insert c it k v now in (c1, KO (OVal r))
    | KGet k now => let '(c1, r) := lruk_get c k now in (c1, KO (OVal r))
    | KContains k => (c, KO (OBool (bool_decide (is_Some (k_map c !! k)))))
    | KLen => (c, KO (ONat (size (k_map c))))
    | KClear => (mkLruk (k_cap c) (k_k c) ∅, KO OUnit)
    (* lru_k.rs 422-424 *)
    | KRemove k => (mkLruk (k_cap c) (k_k c) (delete k (k_map c)), KO (OVal (fst <$> k_map c !! k)))
    | KPop => let '(c1, r) := lruk_pop c it in (c1, KO (OPair r))
    | KPeek => (c, KO (OPair (lruk_peek c it)))
    (* lru_k.rs 523-531 *)
    | KHistory k => (c, KTimes ((fun e => rev e.2) <$> k_map c !! k))
    | KCount k => (c, KO (ORank ((fun e => length e.2) <$> k_map c !! k)))
    | KDistance k => (c, KTime (lruk_distance c k))
    | KTouch k now => let '(c1, r) := lruk_touch c k now in (c1, KO (OBool r))
    end.

  Inductive lruk_run : lruk -> list (lruk_op V * lruk_out V) -> lruk -> Prop :=
  | krun_nil c : lruk_run c [] c
  | krun_cons c o it c1 r tr c2 :
      it ≡ₚ map_to_list (k_map c) -> lruk_step c o it = (c1, r) -> lruk_run c1 tr c2 ->
      lruk_run c ((o, r) :: tr) c2.
End lruk.
Arguments lruk : clear implicits.

(** ** Replacer *)

(** lru_k_replacer.rs 110-139. [access_count] is never read and is left out. Every
    method runs under one lock in the buffer pool, so calls are atomic. *)
Record replacer := mkRep {
  r_k : nat; r_store : gmap N (list N * bool); r_queue : list N; r_curr : Z }.
(** lru_k_replacer.rs 152-161. *)
Definition rep_new (k : nat) : replacer := mkRep k ∅ [] 0%Z.

(** Queue entries the scan looks at, lru_k_replacer.rs 193-199. *)
Definition rep_candidates (r : replacer) : list (N * list N) :=
  omap (fun f => match r_store r !! f with Some (h, true) => Some (f, h) | _ => None end) (r_queue r).

(** [iter().position(..)] followed by [remove(pos)]. *)
Fixpoint remove_first (f : N) (q : list N) : option (list N) :=
  match q with
  | [] => None
  | x :: t => if N.eqb x f then Some t else cons x <$> remove_first f t
  end.

(** lru_k_replacer.rs 180-252. [curr_size] is kept in [Z] so that an underflow, a
    panic in the code, would show up as a negative number. *)
Definition rep_evict (r : replacer) : replacer * option N :=
  match r_queue r with
  | [] => (r, None)
  | _ =>
      match scan (r_k r) (rep_candidates r) with
      | None => (r, None)
      | Some f =>
          let q1 := default (r_queue r) (remove_first f (r_queue r)) in
          match r_store r !! f with
          | Some (h, _) => (mkRep (r_k r) (<[f := (h, false)]> (r_store r)) q1 (r_curr r - 1)%Z, Some f)
          | None => (mkRep (r_k r) (r_store r) q1 (r_curr r), None)
          end
      end
  end.

(** lru_k_replacer.rs 260-281. *)
Definition rep_access (r : replacer) (f now : N) : replacer :=
  let '(h, b) := default ([], false) (r_store r !! f) in
  mkRep (r_k r) (<[f := (push_access (r_k r) h now, b)]> (r_store r)) (r_queue r) (r_curr r).

(** lru_k_replacer.rs 293-314. *)
Definition rep_set (r : replacer) (f : N) (b : bool) : replacer * bool :=
  match r_store r !! f with
  | None => (r, false)
  | Some (h, b0) =>
      if Bool.eqb b0 b then (r, false)
      else
        let st := <[f := (h, b)]> (r_store r) in
        if b then (mkRep (r_k r) st (r_queue r ++ [f]) (r_curr r + 1)%Z, true)
        else
          match remove_first f (r_queue r) with
          | Some q1 => (mkRep (r_k r) st q1 (r_curr r - 1)%Z, true)
          | None => (mkRep (r_k r) st (r_queue r) (r_curr r), true)
          end
  end.

(** lru_k_replacer.rs 321-333: the queue and the counter are left alone. *)
Definition rep_remove (r : replacer) (f : N) : replacer :=
  match r_store r !! f with
  | Some (_, true) => mkRep (r_k r) (delete f (r_store r)) (r_queue r) (r_curr r)
  | _ => r
  end.

(** lru_k_replacer.rs 373-378. *)
Definition rep_size (r : replacer) : nat :=
  length (filter (fun e : N * (list N * bool) => e.2.2 = true) (map_to_list (r_store r))).

Definition rep_step (r : replacer) (o : rep_op) : replacer * rep_out :=
  match o with
  | RAccess f now => (rep_access r f now, RUnit)
  | RSet f b => let '(r1, x) := rep_set r f b in (r1, RBool x)
  | REvict => let '(r1, x) := rep_evict r in (r1, RFrame x)
  | RRemove f => (rep_remove r f, RUnit)
  | RSize => (r, RNat (rep_size r))
  | RTotal => (r, RNat (size (r_store r)))   (* lru_k_replacer.rs 340-345 *)
  end.
