(** * Plans the optimizer may be trusted with (C56) *)
From Coq Require Import List.
From Verif Require Import ExprModel ExecModel OptModel.
Import ListNotations.

(** The optimized plan answers what the original one does: the same rows, in the same order, and
    the same failures. *)
Definition same_answers (d : db) (p q : plan) : Prop := forall out, answers d p out <-> answers d q out.

(** [p] without filters on TRUE on top. *)
Fixpoint below_true (p : plan) : plan :=
  match p with PFilter (EConst (VBool true)) c => below_true c | _ => p end.

Definition is_project (p : plan) : Prop := match p with PProject _ _ => True | _ => False end.

(** No projection without expressions, and none directly above another (not counting filters on
    TRUE in between). *)
Fixpoint no_nested_projection (p : plan) : Prop :=
  match p with
  | PScan _ | PIndexScan _ => True
  | PProject es c => es <> [] /\ ~ is_project (below_true c) /\ no_nested_projection c
  | PFilter _ c | PSort _ c | PLimit _ c | PTopN _ _ c | PUnary _ c => no_nested_projection c
  | PBinary _ a b => no_nested_projection a /\ no_nested_projection b
  end.

Fixpoint scans (p : plan) : list nat :=
  match p with
  | PScan t => [t]
  | PIndexScan _ => []
  | PFilter _ c | PProject _ c | PSort _ c | PLimit _ c | PTopN _ _ c | PUnary _ c => scans c
  | PBinary _ a b => scans a ++ scans b
  end.

(** The tables that have an index on their first column. *)
Definition indexed (d : db) (t : nat) : bool := match d_index d t with Some _ => true | None => false end.
