(** Reference behaviour of the LFU caches.

    A cache is a map from keys to (value, use count). The reference is a relation
    because, among keys with equal counts, which one is dropped is unspecified. *)
From stdpp Require Import gmap list.
From Verif Require Import CacheSpec.

Inductive lfu_op (V : Type) :=
| UInsert (k : N) (v : V) | UGet (k : N) | UContains (k : N) | ULen | UClear
| URemove (k : N) | UPop | UPeek | UFreq (k : N) | UReset (k : N) | UIncr (k : N).
Arguments UInsert {V}. Arguments UGet {V}. Arguments UContains {V}. Arguments ULen {V}.
Arguments UClear {V}. Arguments URemove {V}. Arguments UPop {V}. Arguments UPeek {V}.
Arguments UFreq {V}. Arguments UReset {V}. Arguments UIncr {V}.

Section spec.
  Context {V : Type}.
  Local Notation lfu_state := (gmap N (V * N)).
  Implicit Types s : lfu_state.

  (** [x] is a key of [s] whose use count no other key undercuts. *)
  Definition least_used s (x : N) : Prop :=
    exists v f, s !! x = Some (v, f) /\ forall y v' f', s !! y = Some (v', f') -> (f <= f')%N.

  (** Answers are [CacheSpec.cout]; counts are reported as [ORank]. *)
  Inductive lfu_spec (cap : nat) : lfu_state -> lfu_op V -> lfu_state -> cout V -> Prop :=
  | sp_insert_old s k v old f : s !! k = Some (old, f) ->
      lfu_spec cap s (UInsert k v) (<[k := (v, f)]> s) (OVal (Some old))
  | sp_insert_zero s k v : s !! k = None -> cap = 0 ->
      lfu_spec cap s (UInsert k v) s (OVal None)
  | sp_insert_room s k v : s !! k = None -> size s < cap ->
      lfu_spec cap s (UInsert k v) (<[k := (v, 1%N)]> s) (OVal None)
  | sp_insert_full s k v x : s !! k = None -> 0 < cap -> cap <= size s -> least_used s x ->
      lfu_spec cap s (UInsert k v) (<[k := (v, 1%N)]> (delete x s)) (OVal None)
  | sp_get s k v f : s !! k = Some (v, f) ->
      lfu_spec cap s (UGet k) (<[k := (v, (f + 1)%N)]> s) (OVal (Some v))
  | sp_get_none s k : s !! k = None -> lfu_spec cap s (UGet k) s (OVal None)
  | sp_contains s k : lfu_spec cap s (UContains k) s (OBool (bool_decide (is_Some (s !! k))))
  | sp_len s : lfu_spec cap s ULen s (ONat (size s))
  | sp_clear s : lfu_spec cap s UClear ∅ OUnit
  | sp_remove s k : lfu_spec cap s (URemove k) (delete k s) (OVal (fst <$> s !! k))
  | sp_pop s x v f : least_used s x -> s !! x = Some (v, f) ->
      lfu_spec cap s UPop (delete x s) (OPair (Some (x, v)))
  | sp_pop_none : lfu_spec cap ∅ UPop ∅ (OPair None)
  | sp_peek s x v f : least_used s x -> s !! x = Some (v, f) ->
      lfu_spec cap s UPeek s (OPair (Some (x, v)))
  | sp_peek_none : lfu_spec cap ∅ UPeek ∅ (OPair None)
  | sp_freq s k : lfu_spec cap s (UFreq k) s (ORank (N.to_nat <$> (snd <$> s !! k)))
  | sp_reset s k v f : s !! k = Some (v, f) ->
      lfu_spec cap s (UReset k) (<[k := (v, 1%N)]> s) (ORank (Some (N.to_nat f)))
  | sp_reset_none s k : s !! k = None -> lfu_spec cap s (UReset k) s (ORank None)
  | sp_incr s k v f : s !! k = Some (v, f) ->
      lfu_spec cap s (UIncr k) (<[k := (v, (f + 1)%N)]> s) (ORank (Some (N.to_nat (f + 1))))
  | sp_incr_none s k : s !! k = None -> lfu_spec cap s (UIncr k) s (ORank None).

  (** A history: calls, answers and the final state. *)
  Inductive lfu_hist (cap : nat) : lfu_state -> list (lfu_op V * cout V) -> lfu_state -> Prop :=
  | lh_nil s : lfu_hist cap s [] s
  | lh_cons s o r s1 tr s2 : lfu_spec cap s o s1 r -> lfu_hist cap s1 tr s2 ->
      lfu_hist cap s ((o, r) :: tr) s2.

  (** Use count of a key read off the calls and answers alone: 1 when the key is
      (newly) inserted or reset, one more per successful get or increment. *)
  Definition count_event (k : N) (n : N) (e : lfu_op V * cout V) : N :=
    match e with
    | (UInsert k' _, OVal None) => if N.eqb k k' then 1%N else n
    | (UGet k', OVal (Some _)) => if N.eqb k k' then (n + 1)%N else n
    | (UIncr k', ORank (Some _)) => if N.eqb k k' then (n + 1)%N else n
    | (UReset k', ORank (Some _)) => if N.eqb k k' then 1%N else n
    | _ => n
    end.
  Definition uses (k : N) (tr : list (lfu_op V * cout V)) : N := fold_left (count_event k) tr 0%N.
End spec.
