(** * The hash block page *)
(** Models src/storage/page/page_types/hash_table_block_page.rs (B); hash_table_bucket_page.rs (K) has the same code in another
    order, its lines are given in brackets; hash_table_page_defs.rs (D). The comparator and the values' equality are parameters. *)
From Coq Require Import NArith.
From stdpp Require Import list.
From Verif Require Import HblkSpec.

(** D 57-59 [72-74]. The 4096 is DB_PAGE_SIZE of src/common/config.rs:18. *)
Definition array_size (pair : nat) : nat := N.to_nat (4 * 4096 / (4 * N.of_nat pair + 1)).

(** B 189, 203 [266, 290]: flag [i] of a vector of bytes. *)
Definition bit (l : list N) (i : nat) : bool :=
  negb (N.land (nth (i / 8) l 0%N) (N.shiftl 1 (N.of_nat (i mod 8))) =? 0)%N.
(** B 334, 344 [276, 300]: fetch_or. *)
Definition set_bit (l : list N) (i : nat) : list N :=
  alter (fun b => N.lor b (N.shiftl 1 (N.of_nat (i mod 8)))) (i / 8) l.
(** B 175 [252]: fetch_and with the complement of the u8. *)
Definition clear_bit (l : list N) (i : nat) : list N :=
  alter (fun b => N.land b (N.lxor 255 (N.shiftl 1 (N.of_nat (i mod 8))))) (i / 8) l.

Section Page.
Context {K V : Type} (cmp : K -> K -> bool) (veq : V -> V -> bool) (dflt : K * V).

(** B 73-78 [77-82]; whether the mutex of the array is poisoned. *)
Record page := Page { p_occ : list N; p_rea : list N; p_arr : list (K * V); p_poison : bool }.
(** B 99-111 [103-115]; [None]: the subtraction underflows, a panic. *)
Definition page_new (n : nat) : option page :=
  match n with
  | O => None
  | S m => Some (Page (repeat 0%N (m / 8 + 1)) (repeat 0%N (m / 8 + 1)) (repeat dflt n) false)
  end.
Definition cap (p : page) : nat := length (p_arr p).
Definition slot (p : page) (i : nat) : K * V := nth i (p_arr p) dflt.

(** B 287-295 [308-316]. *)
Definition num_readable (p : page) : nat := length (List.filter (bit (p_rea p)) (seq 0 (cap p))).
(** B 302-304 [323-325]. *)
Definition is_full (p : page) : bool := num_readable p =? cap p.

(** An answer, or a panic. *)
Inductive out (A : Type) := Panic | Ret (a : A).
Global Arguments Panic {A}. Global Arguments Ret {A} _.

(** B 152-166 [179-193]. The flags' vectors are longer than the array when the size is not a multiple of 8: then the check of
    the flag passes, and the assignment panics while the mutex is locked. *)
Definition insert_at (i : nat) (k : K) (v : V) (p : page) : out bool * page :=
  if length (p_occ p) <=? i / 8 then (Panic, p)
  else if bit (p_occ p) i then (Ret false, p)
  else if p_poison p then (Panic, p)
  else if cap p <=? i then (Panic, Page (p_occ p) (p_rea p) (p_arr p) true)
  else (Ret true, Page (set_bit (p_occ p) i) (set_bit (p_rea p) i) (<[i := (k, v)]> (p_arr p)) false).
(** B 173-176 [250-253]. *)
Definition remove_at (i : nat) (p : page) : out unit * page :=
  if length (p_rea p) <=? i / 8 then (Panic, p)
  else (Ret (), Page (p_occ p) (clear_bit (p_rea p) i) (p_arr p) (p_poison p)).

(** A loop that looks at the keys of the readable slots locks the array: it panics if the mutex is poisoned. *)
Definition locked_out (p : page) : bool := p_poison p && existsb (bit (p_rea p)) (seq 0 (cap p)).
(** B 246 [156]: slot [i] holds key [k]. *)
Definition key_here (k : K) (p : page) (i : nat) : bool := bit (p_rea p) i && cmp (slot p i).1 k.
(** B 217-226 [128-137]: the values pushed; the answer [found] is whether there are any. *)
Definition get_value (k : K) (p : page) : out (list V) :=
  if locked_out p then Panic
  else Ret (map (fun i => (slot p i).2) (List.filter (key_here k p) (seq 0 (cap p)))).
(** B 241-256 [151-166]. *)
Definition insert (k : K) (v : V) (p : page) : out bool * page :=
  if is_full p then (Ret false, p)
  else if locked_out p then (Panic, p)
  else if existsb (key_here k p) (seq 0 (cap p)) then (Ret false, p)
  else match find (fun i => negb (bit (p_occ p) i)) (seq 0 (cap p)) with
       | Some i => insert_at i k v p
       | None => (Ret false, p)
       end.
(** B 269-280 [206-217]. *)
Definition remove (k : K) (v : V) (p : page) : out bool * page :=
  if locked_out p then (Panic, p)
  else match find (fun i => key_here k p i && veq (slot p i).2 v) (seq 0 (cap p)) with
       | Some i => (Ret true, (remove_at i p).2)
       | None => (Ret false, p)
       end.

(** One request to the page, alone. *)
Definition step (o : op K V) (p : page) : out (ans V) * page :=
  match o with
  | Insert k v => match insert k v p with (Ret b, p) => (Ret (ABool b), p) | (Panic, p) => (Panic, p) end
  | Remove k v => match remove k v p with (Ret b, p) => (Ret (ABool b), p) | (Panic, p) => (Panic, p) end
  | Get k => (match get_value k p with Ret l => Ret (AVals l) | Panic => Panic end, p)
  | Count => (Ret (ANum (num_readable p)), p)
  end.
(** The requests with their answers; None after a panic. *)
Fixpoint serve (l : list (op K V)) (p : page) : option (list (op K V * ans V) * page) :=
  match l with
  | [] => Some ([], p)
  | o :: l =>
      match step o p with
      | (Ret a, p) => match serve l p with Some (h, p) => Some ((o, a) :: h, p) | None => None end
      | (Panic, _) => None
      end
  end.

(** ** Several threads *)

(** Where a thread is in [insert]: counting the readable slots (slots seen, readable ones), looking for the key (flag, then key),
    looking for a free slot, and the four parts of [insert_at]: the check, the assignment, and the two flags. *)
Inductive pc :=
| PFull (i c : nat) | PDup (i : nat) | PDupKey (i : nat) | PFind (i : nat)
| PAt (i : nat) | PWrite (i : nat) | POcc (i : nat) | PRea (i : nat) | PDone (b : bool).
(** One access to the page: B 241-256, 287-295, 152-166 [151-166, 308-316, 179-193]. The mutex is not poisoned. *)
Definition tstep (k : K) (v : V) (c : pc) (p : page) : pc * page :=
  match c with
  | PFull i c =>
      if i <? cap p then (PFull (S i) (if bit (p_rea p) i then S c else c), p)
      else if c =? cap p then (PDone false, p) else (PDup 0, p)
  | PDup i => if i <? cap p then (if bit (p_rea p) i then PDupKey i else PDup (S i), p) else (PFind 0, p)
  | PDupKey i => (if cmp (slot p i).1 k then PDone false else PDup (S i), p)
  | PFind i => if i <? cap p then (if bit (p_occ p) i then PFind (S i) else PAt i, p) else (PDone false, p)
  | PAt i => (if bit (p_occ p) i then PDone false else PWrite i, p)
  | PWrite i => (POcc i, Page (p_occ p) (p_rea p) (<[i := (k, v)]> (p_arr p)) (p_poison p))
  | POcc i => (PRea i, Page (set_bit (p_occ p) i) (p_rea p) (p_arr p) (p_poison p))
  | PRea i => (PDone true, Page (p_occ p) (set_bit (p_rea p) i) (p_arr p) (p_poison p))
  | PDone b => (PDone b, p)
  end.
(** A thread that inserts: its pair and where it is. *)
Notation thread := (K * V * pc)%type.
Definition starting (e : K * V) : thread := (e, PFull 0 0).
(** The next access is thread [t]'s. *)
Definition sched1 (t : nat) (s : list thread * page) : list thread * page :=
  match s.1 !! t with
  | Some (e, c) => let '(c2, p2) := tstep e.1 e.2 c s.2 in (<[t := (e, c2)]> s.1, p2)
  | None => s
  end.
Definition sched (l : list nat) (s : list thread * page) : list thread * page := fold_left (fun s t => sched1 t s) l s.
End Page.
Global Arguments page : clear implicits.
Global Arguments Panic {A}. Global Arguments Ret {A} _.
