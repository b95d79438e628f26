(** Reference behaviour of the LRU-K cache and of the frame replacer.

    Both keep, for every entry, the complete list of its access times (oldest first). *)
From stdpp Require Import gmap list.
From Verif Require Import CacheSpec.

(** [u64::MAX], reported when a history is empty. *)
Definition never : N := 18446744073709551615%N.

(** The K-th most recent access; the first access. *)
Definition kth_recent (k : nat) (h : list N) : N := nth (length h - k) h never.
Definition first_access (h : list N) : N := nth 0 h never.

(** An entry with access times [h1] is to be evicted strictly before one with [h2]:
    fewer than K accesses before K or more; both fewer: fewer accesses first, then the
    older first access; both K or more: the older K-th most recent access. *)
Definition goes_before (k : nat) (h1 h2 : list N) : Prop :=
  length h1 < k <= length h2 \/
  (length h1 < k /\ length h2 < k /\
     (length h1 < length h2 \/ length h1 = length h2 /\ (first_access h1 < first_access h2)%N)) \/
  (k <= length h1 /\ k <= length h2 /\ (kth_recent k h1 < kth_recent k h2)%N).

Definition lastn {A} (n : nat) (l : list A) : list A := drop (length l - n) l.

(** ** Cache *)
Inductive lruk_op (V : Type) :=
| KInsert (k : N) (v : V) (now : N) | KGet (k now : N) | KContains (k : N) | KLen | KClear
| KRemove (k : N) | KPop | KPeek | KHistory (k : N) | KCount (k : N) | KDistance (k : N) | KTouch (k now : N).
Arguments KInsert {V}. Arguments KGet {V}. Arguments KContains {V}. Arguments KLen {V}.
Arguments KClear {V}. Arguments KRemove {V}. Arguments KPop {V}. Arguments KPeek {V}.
Arguments KHistory {V}. Arguments KCount {V}. Arguments KDistance {V}. Arguments KTouch {V}.

(** Answers; [KTimes] for histories. *)
Inductive lruk_out (V : Type) := KO (o : cout V) | KTimes (l : option (list N)) | KTime (t : option N).
Arguments KO {V}. Arguments KTimes {V}. Arguments KTime {V}.

Section spec.
  Context {V : Type}.
  Implicit Types s : gmap N (V * list N).

  (** [x] is cached and no cached key is to go strictly before it. *)
  Definition lruk_victim (k : nat) s (x : N) : Prop :=
    exists v h, s !! x = Some (v, h) /\ forall y v' h', s !! y = Some (v', h') -> ~ goes_before k h' h.

  Inductive lruk_spec (cap K : nat) : gmap N (V * list N) -> lruk_op V -> gmap N (V * list N) -> lruk_out V -> Prop :=
  | ks_insert_zero s k v now : cap = 0 -> lruk_spec cap K s (KInsert k v now) s (KO (OVal None))
  | ks_insert_old s k v now old h : 0 < cap -> s !! k = Some (old, h) ->
      lruk_spec cap K s (KInsert k v now) (<[k := (v, h ++ [now])]> s) (KO (OVal (Some old)))
  | ks_insert_room s k v now : s !! k = None -> size s < cap ->
      lruk_spec cap K s (KInsert k v now) (<[k := (v, [now])]> s) (KO (OVal None))
  | ks_insert_full s k v now x : 0 < cap -> s !! k = None -> cap <= size s -> lruk_victim K s x ->
      lruk_spec cap K s (KInsert k v now) (<[k := (v, [now])]> (delete x s)) (KO (OVal None))
  | ks_get s k now v h : s !! k = Some (v, h) ->
      lruk_spec cap K s (KGet k now) (<[k := (v, h ++ [now])]> s) (KO (OVal (Some v)))
  | ks_get_none s k now : s !! k = None -> lruk_spec cap K s (KGet k now) s (KO (OVal None))
  | ks_contains s k : lruk_spec cap K s (KContains k) s (KO (OBool (bool_decide (is_Some (s !! k)))))
  | ks_len s : lruk_spec cap K s KLen s (KO (ONat (size s)))
  | ks_clear s : lruk_spec cap K s KClear ∅ (KO OUnit)
  | ks_remove s k : lruk_spec cap K s (KRemove k) (delete k s) (KO (OVal (fst <$> s !! k)))
  | ks_pop s x v h : lruk_victim K s x -> s !! x = Some (v, h) ->
      lruk_spec cap K s KPop (delete x s) (KO (OPair (Some (x, v))))
  | ks_pop_none : lruk_spec cap K ∅ KPop ∅ (KO (OPair None))
  | ks_peek s x v h : lruk_victim K s x -> s !! x = Some (v, h) ->
      lruk_spec cap K s KPeek s (KO (OPair (Some (x, v))))
  | ks_peek_none : lruk_spec cap K ∅ KPeek ∅ (KO (OPair None))
  (** At most the last K access times are reported, most recent first. *)
  | ks_history s k : lruk_spec cap K s (KHistory k) s (KTimes ((fun e => rev (lastn K e.2)) <$> s !! k))
  | ks_count s k : lruk_spec cap K s (KCount k) s (KO (ORank ((fun e => Nat.min K (length e.2)) <$> s !! k)))
  | ks_distance s k : lruk_spec cap K s (KDistance k) s
      (KTime (e ← s !! k; if decide (K <= length e.2) then Some (kth_recent K e.2) else None))
  | ks_touch s k now v h : s !! k = Some (v, h) ->
      lruk_spec cap K s (KTouch k now) (<[k := (v, h ++ [now])]> s) (KO (OBool true))
  | ks_touch_none s k now : s !! k = None -> lruk_spec cap K s (KTouch k now) s (KO (OBool false)).

  Inductive lruk_hist (cap K : nat) : gmap N (V * list N) -> list (lruk_op V * lruk_out V) -> gmap N (V * list N) -> Prop :=
  | kh_nil s : lruk_hist cap K s [] s
  | kh_cons s o r s1 tr s2 : lruk_spec cap K s o s1 r -> lruk_hist cap K s1 tr s2 ->
      lruk_hist cap K s ((o, r) :: tr) s2.
End spec.

(** What the rank is meant to be: how many cached keys are evicted strictly before. *)
Definition eviction_rank {V} (K : nat) (s : gmap N (V * list N)) (x : N) (n : nat) : Prop :=
  exists v h before, s !! x = Some (v, h) /\ n = size (before : gset N) /\
    forall y, y ∈ before <-> exists w hy, s !! y = Some (w, hy) /\ goes_before K hy h.

(** ** Frame replacer *)
Inductive rep_op := RAccess (f now : N) | RSet (f : N) (b : bool) | REvict | RRemove (f : N) | RSize | RTotal.
Inductive rep_out := RUnit | RBool (b : bool) | RFrame (f : option N) | RNat (n : nat).

(** Frames known to the replacer: access times and whether the frame may be evicted. *)
Definition rep_state : Type := gmap N (list N * bool).
Definition evictable (s : gmap N (list N * bool)) (f : N) : Prop := exists h, s !! f = Some (h, true).
(** The frames that may be evicted. *)
Definition evictable_set (s : gmap N (list N * bool)) : gset N := dom (filter (fun e : N * (list N * bool) => e.2.2 = true) s).

Inductive rep_spec (K : nat) : gmap N (list N * bool) -> rep_op -> gmap N (list N * bool) -> rep_out -> Prop :=
| rs_access_new s f now : s !! f = None -> rep_spec K s (RAccess f now) (<[f := ([now], false)]> s) RUnit
| rs_access s f now h b : s !! f = Some (h, b) -> rep_spec K s (RAccess f now) (<[f := (h ++ [now], b)]> s) RUnit
| rs_set s f h b : s !! f = Some (h, negb b) -> rep_spec K s (RSet f b) (<[f := (h, b)]> s) (RBool true)
| rs_set_same s f b : (forall h, s !! f <> Some (h, negb b)) -> rep_spec K s (RSet f b) s (RBool false)
| rs_evict s f h : s !! f = Some (h, true) ->
    (forall f' h', s !! f' = Some (h', true) -> ~ goes_before K h' h) ->
    rep_spec K s REvict (<[f := (h, false)]> s) (RFrame (Some f))
| rs_evict_none s : (forall f, ~ evictable s f) -> rep_spec K s REvict s (RFrame None)
| rs_remove s f : evictable s f -> rep_spec K s (RRemove f) (delete f s) RUnit
| rs_remove_not s f : ~ evictable s f -> rep_spec K s (RRemove f) s RUnit
| rs_size s : rep_spec K s RSize s (RNat (size (evictable_set s)))
| rs_total s : rep_spec K s RTotal s (RNat (size s)).

Inductive rep_hist (K : nat) : gmap N (list N * bool) -> list (rep_op * rep_out) -> gmap N (list N * bool) -> Prop :=
| rh_nil s : rep_hist K s [] s
| rh_cons s o r s1 tr s2 : rep_spec K s o s1 r -> rep_hist K s1 tr s2 -> rep_hist K s ((o, r) :: tr) s2.

(** Whether a frame may be evicted, read off the calls and answers alone: the last
    thing that happened to it was a successful [set_evictable f true]. *)
Definition ev_event (f : N) (b : bool) (e : rep_op * rep_out) : bool :=
  match e with
  | (RSet f' b', RBool true) => if N.eqb f f' then b' else b
  | (REvict, RFrame (Some f')) => if N.eqb f f' then false else b
  | (RRemove f', _) => if N.eqb f f' then false else b
  | _ => b
  end.
Definition marked_evictable (tr : list (rep_op * rep_out)) (f : N) : bool := fold_left (ev_event f) tr false.

(** Recorded accesses of a frame, read off the calls and answers: forgotten only when
    the frame is removed while it may be evicted. *)
Definition acc_event (f : N) (st : list N * bool) (e : rep_op * rep_out) : list N * bool :=
  (match e with
   | (RAccess f' now, _) => if N.eqb f f' then st.1 ++ [now] else st.1
   | (RRemove f', _) => if N.eqb f f' && st.2 then [] else st.1
   | _ => st.1
   end, ev_event f st.2 e).
Definition accesses (tr : list (rep_op * rep_out)) (f : N) : list N := (fold_left (acc_event f) tr ([], false)).1.
