(** What C02 and C03 say, without reference to the oracle's code. *)
From Coq Require Import List NArith.
From Verif Require Import WatermarkModel.
Import ListNotations.
Local Open Scope N_scope.

(** [m] is the smallest element of the non-empty collection [l]. *)
Definition smallest (m : N) (l : list N) : Prop := In m l /\ forall x, In x l -> m <= x.

(** Timestamps registered and not unregistered, read off the calls and their
    results in order. *)
Fixpoint registered_from (acc : list N) (tr : list (wm_op * N)) : list N :=
  match tr with
  | [] => acc
  | (OpRegister, ts) :: rest => registered_from (ts :: acc) rest
  | (OpAdd ts, _) :: rest => registered_from (ts :: acc) rest
  | (OpUnregister ts, _) :: rest => registered_from (remove N.eq_dec ts acc) rest
  | (OpNext, _) :: rest | (OpCommitTs _, _) :: rest => registered_from acc rest
  end.
Definition registered (tr : list (wm_op * N)) : list N := registered_from [] tr.

(** Timestamps handed out by the oracle, in order. *)
Fixpoint issued (tr : list (wm_op * N)) : list N :=
  match tr with
  | [] => []
  | (OpNext, ts) :: rest | (OpRegister, ts) :: rest => ts :: issued rest
  | _ :: rest => issued rest
  end.

(** The u64 counter does not overflow in this history: commit timestamps given
    to the oracle are at most [M], and [M] plus the number of calls fits. *)
Definition no_overflow (M : N) (ops : list wm_op) : Prop :=
  (forall ts, In (OpCommitTs ts) ops -> ts <= M) /\ M + 1 + N.of_nat (length ops) < 2 ^ 64.

(** Strictly increasing. *)
Fixpoint increasing (l : list N) : Prop :=
  match l with
  | [] => True
  | x :: rest => (forall y, In y rest -> x < y) /\ increasing rest
  end.

(** Snapshots of the running transactions. *)
Definition running_snapshots (s : tsys) : list N :=
  map tt_read (filter (fun t => match tt_state t with TRunning => true | _ => false end) (ts_txns s)).

(** Timestamps returned by begin and commit, in call order. *)
Fixpoint t_issued (rs : list (option N)) : list N :=
  match rs with
  | [] => []
  | Some t :: rest => t :: t_issued rest
  | None :: rest => t_issued rest
  end.
