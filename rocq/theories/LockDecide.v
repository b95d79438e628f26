(** * Checking the hypotheses of the locking theorems on concrete histories

    Boolean versions of the words of LockSpec.v; only used by the examples. *)
From stdpp Require Import gmap list sets fin_sets.
From Coq Require Import NArith.
From Verif Require Import LockModel LockSpec LockProofs.

Global Instance lres_eq_dec : EqDecision lres.
Proof. assert (EqDecision lock_err) by solve_decision. solve_decision. Defined.
Global Instance request_eq_dec : EqDecision request.
Proof. solve_decision. Defined.

Definition holdsb (st : lm) (t : N) (x : resource) (m : mode) : bool :=
  bool_decide (Req t m true ∈ queue_of st x).
Definition waitsb (st : lm) (t : N) (x : resource) (m : mode) : bool :=
  bool_decide (Req t m false ∈ queue_of st x).
Definition absentb (st : lm) (t : N) (x : resource) : bool :=
  forallb (fun r => negb (N.eqb (rq_txn r) t)) (queue_of st x).

Lemma holdsb_ok st t x m : holdsb st t x m = true <-> holds st t x m.
Proof. apply bool_decide_eq_true. Qed.
Lemma waitsb_ok st t x m : waitsb st t x m = true <-> waits_on st t x m.
Proof. apply bool_decide_eq_true. Qed.
Lemma absentb_ok st t x : absentb st t x = true -> absent st t x.
Proof.
  unfold absentb. rewrite forallb_forall. intros H m. unfold holds, waits_on.
  split; intros I; apply elem_of_list_In in I; specialize (H _ I); simpl in H; by rewrite N.eqb_refl in H.
Qed.

Definition polite_requestb (st : lm) (t : N) (m : mode) (x : resource) : bool :=
  match filter (fun r => rq_txn r = t) (queue_of st x) with
  | [] => true
  | [Req _ m0 true] => negb (bool_decide (m0 = MIS /\ m = MS)) && negb (bool_decide (m0 = MIX /\ m = MX))
  | _ => false
  end.

Lemma polite_requestb_ok st t m x : polite_requestb st t m x = true -> polite_request st t m x.
Proof.
  unfold polite_requestb, polite_request. destruct (filter _ _) as [|[t0 m0 [|]] [|]]; try done.
  intros H. apply andb_true_iff in H as [H1 H2].
  split; intros D; [rewrite bool_decide_eq_true_2 in H1|rewrite bool_decide_eq_true_2 in H2]; done.
Qed.

Fixpoint politeb (who : N -> bool) (st : lm) (ops : list lop) : bool :=
  match ops with
  | [] => true
  | o :: ops =>
      match lock_request o with
      | Some (t, m, x) => negb (who t) || polite_requestb st t m x
      | None => true
      end && match lstep st o with Some (_, st2) => politeb who st2 ops | None => true end
  end.

Lemma politeb_ok (whob : N -> bool) (who : N -> Prop) ops : (forall t, who t -> whob t = true) ->
  forall st, politeb whob st ops = true -> polite who st ops.
Proof.
  intros W. induction ops as [|o ops IH]; intros st H; [done|]. cbn [politeb] in H. apply andb_true_iff in H as [H1 H2]. split.
  - intros t m x L Ht. rewrite L in H1. rewrite (W t Ht) in H1. by apply polite_requestb_ok.
  - intros r st2 E. rewrite E in H2. auto.
Qed.

Lemma polite_all ops st : politeb (fun _ => true) st ops = true -> polite (fun _ => True) st ops.
Proof. by apply politeb_ok. Qed.
Lemma polite_one t ops st : politeb (N.eqb t) st ops = true -> polite (fun u => u = t) st ops.
Proof. apply politeb_ok. intros u ->. apply N.eqb_refl. Qed.

Fixpoint never_waitsb (t : N) (st : lm) (ops : list lop) : bool :=
  match ops with
  | [] => true
  | o :: ops =>
      match lstep st o with
      | Some (r, st2) =>
          negb (match lock_request o with Some (u, _, _) => N.eqb u t && bool_decide (r = LOk false) | None => false end)
          && never_waitsb t st2 ops
      | None => true
      end
  end.

Lemma never_waitsb_ok t ops : forall st, never_waitsb t st ops = true -> never_waits t st ops.
Proof.
  induction ops as [|o ops IH]; intros st H; [done|]. cbn [never_waitsb] in H. split.
  - intros m x st2 L E. rewrite E, L, N.eqb_refl in H. done.
  - intros r st2 E. rewrite E in H. apply andb_true_iff in H as [_ H]. auto.
Qed.

Fixpoint plainb (st : lm) (ops : list lop) : bool :=
  match ops with
  | [] => true
  | o :: ops =>
      match lock_request o with
      | Some (t, m, x) => bool_decide (m = MS \/ m = MX) && absentb st t x
      | None => true
      end && match lstep st o with Some (_, st2) => plainb st2 ops | None => true end
  end.

Lemma plainb_ok ops : forall st, plainb st ops = true -> plain st ops.
Proof.
  induction ops as [|o ops IH]; intros st H; [done|]. cbn [plainb] in H. apply andb_true_iff in H as [H1 H2]. split.
  - intros t m x L. rewrite L in H1. apply andb_true_iff in H1 as [H1 H3]. apply bool_decide_eq_true in H1.
    split; [done|]. by apply absentb_ok.
  - intros r st2 E. rewrite E in H2. auto.
Qed.

(** The history returns with results [rs] and a state for which [P] computes to true. *)
Definition ends (ops : list lop) (rs : list lres) (P : lm -> bool) : bool :=
  match lrun lm_init ops with
  | Some (rs2, st) => bool_decide (rs2 = rs) && P st
  | None => false
  end.

Lemma ends_ok ops rs P : ends ops rs P = true -> exists st, lrun lm_init ops = Some (rs, st) /\ P st = true.
Proof.
  unfold ends. destruct (lrun lm_init ops) as [[rs2 st]|]; [|done]. intros H. apply andb_true_iff in H as [H1 H2].
  apply bool_decide_eq_true in H1. subst. eauto.
Qed.
