(** C45: ORDER BY with a row limit, the TopN executor. *)
From Coq Require Import String ZArith List Bool Lia Permutation.
From stdpp Require list.
From Verif Require Import ExprModel ExprSpec ExecModel ExecSpec ExecProofs TopnModel TopnProofs.
Import ListNotations.
Local Open Scope nat_scope.

(** C45, what holds. With sort keys that evaluate to non-NULL values of fixed types, TopN
    returns min(k, n) of the child's n rows, and no row left out comes before a returned one
    in the DESCENDING order of the keys. Missing: the order of the output, ascending sorts
    and NULL keys, where it is false (below). *)
Theorem c45_topn_largest_partial : forall k es tys rows st out,
  (forall r, In r rows -> exists ks, keys_of es r = Some ks /\ Forall2 (fun t v => type_of v = Some t) tys ks) ->
  topn_init k es (map Row rows) = Some st ->
  produces topn_next st out ->
  exists s omitted, out = map Row s /\ Permutation rows (s ++ omitted) /\
    length s = min k (length rows) /\
    forall a o, In a s -> In o omitted -> ~ before (map (fun e => (e, true)) es) o a.
Proof.
  intros k es tys rows st out T I P.
  destruct (topn_largest k es tys rows st T I) as (s & om & Q & R). exists s, om.
  split; [exact (produces_fun _ _ _ P _ Q)|exact R].
Qed.
Print Assumptions c45_topn_largest_partial.

(** C45. The executor does start and does return on such rows. *)
Theorem c45_topn_terminates : forall k es rows,
  (forall r, In r rows -> exists ks, keys_of es r = Some ks) ->
  exists st out, topn_init k es (map Row rows) = Some st /\ produces topn_next st out.
Proof.
  intros k es rows T.
  assert (E : forall h, exists h2, topn_fill k es (map Row rows) h = Some h2).
  { induction rows as [|r rows IH]; intros h; cbn; [eexists; reflexivity|].
    destruct (T r) as [ks E]; [left; reflexivity|]. rewrite E.
    apply IH. intros r' Hr. apply T. right. exact Hr. }
  destruct (E []) as [h2 E2]. unfold topn_init. rewrite E2.
  eexists. eexists. split; [reflexivity|]. apply topn_next_produces.
Qed.
Print Assumptions c45_topn_terminates.

Definition ints (l : list Z) : list row := map (fun z => [VInt Integer z]) l.

Example c45_ex :
  (forall r, In r (ints [5; 1; 9; 7; 3]%Z) ->
     exists ks, keys_of [ECol 0] r = Some ks /\ Forall2 (fun t v => type_of v = Some t) [TInt Integer] ks) /\
  exists st, topn_init 2 [ECol 0] (map Row (ints [5; 1; 9; 7; 3]%Z)) = Some st /\
    produces topn_next st (map Row (ints [9; 7]%Z)).
Proof.
  split.
  - intros r Hr. cbn in Hr. repeat destruct Hr as [<-|Hr]; try destruct Hr;
      (eexists; split; [reflexivity|repeat constructor]).
  - eexists. split; [vm_compute; reflexivity|]. apply (topn_next_produces (ints [9; 7]%Z) 0).
Qed.

(** C45 is false of the code in its ordering part: the rows come out in the order of the
    heap's array, neither ascending nor descending. *)
Theorem c45_order_refuted : exists k es rows st out,
  topn_init k es (map Row rows) = Some st /\ produces topn_next st out /\ length rows <= k /\
  forall d, ~ exists s, out = map Row s /\ is_sorted_version (map (fun e => (e, d)) es) rows s.
Proof.
  exists 3, [ECol 0], (ints [3; 1; 2]%Z), (ints [2; 3; 1]%Z, 0), (map Row (ints [2; 3; 1]%Z)).
  split; [vm_compute; reflexivity|]. split; [apply (topn_next_produces (ints [2; 3; 1]%Z) 0)|]. split; [cbn; lia|].
  intros d (s & E & [_ Ss _]).
  assert (s = ints [2; 3; 1]%Z) as ->.
  { destruct s as [|a [|b [|c [|? ?]]]]; cbn in E; try discriminate E. injection E as <- <- <-. reflexivity. }
  apply Sorted.StronglySorted_inv in Ss as [Ss F1]. apply Sorted.StronglySorted_inv in Ss as [Ss F2].
  rewrite Forall_forall in F1, F2. destruct d.
  - apply (F1 [VInt Integer 3]); [cbn; auto|]. exists [], (ECol 0), true, [], (VInt Integer 3), (VInt Integer 2).
    repeat split; try reflexivity; [intros ? ? []|]. right. reflexivity.
  - apply (F1 [VInt Integer 1]); [cbn; auto|]. exists [], (ECol 0), false, [], (VInt Integer 1), (VInt Integer 2).
    repeat split; try reflexivity; [intros ? ? []|]. right. reflexivity.
Qed.
Print Assumptions c45_order_refuted.

(** C45 is false of the code for ascending sorts: ORDER BY c0 LIMIT 1 returns the largest
    row although a smaller one exists. *)
Theorem c45_ascending_refuted : exists k es rows st a o,
  topn_init k es (map Row rows) = Some st /\ produces topn_next st [Row a] /\
  In o rows /\ before (map (fun e => (e, false)) es) o a.
Proof.
  exists 1, [ECol 0], (ints [1; 2]%Z), (ints [2]%Z, 0), [VInt Integer 2], [VInt Integer 1].
  split; [vm_compute; reflexivity|]. split; [apply (topn_next_produces (ints [2]%Z) 0)|]. split; [cbn; auto|].
  exists [], (ECol 0), false, [], (VInt Integer 1), (VInt Integer 2).
  repeat split; try reflexivity; [intros ? ? []|]. right. reflexivity.
Qed.
Print Assumptions c45_ascending_refuted.

(** C45 is false of the code with NULL keys: NULL ties with everything, so the largest row
    can be dropped in favour of a smaller one. *)
Theorem c45_null_refuted : exists k es rows st a o x y,
  topn_init k es (map Row rows) = Some st /\ (exists s, produces topn_next st (map Row s) /\ In a s /\ ~ In o s) /\
  In o rows /\ keys_of es a = Some [x] /\ keys_of es o = Some [y] /\ sql_order x y = Some Datatypes.Lt.
Proof.
  exists 2, [ECol 0], ([[VNull]] ++ ints [1; 2]%Z), (ints [1]%Z ++ [[VNull]], 0), [VInt Integer 1], [VInt Integer 2],
    (VInt Integer 1), (VInt Integer 2).
  split; [vm_compute; reflexivity|].
  split; [exists (ints [1]%Z ++ [[VNull]]); split; [apply (topn_next_produces (ints [1]%Z ++ [[VNull]]) 0)|]; cbn; split; [auto|]|].
  - intros [E|[E|[]]]; discriminate E.
  - cbn. auto.
Qed.
Print Assumptions c45_null_refuted.

(** C45 is false of the code when the child fails: the failure is lost. *)
Theorem c45_child_error_refuted : exists k es rows st out,
  topn_init k es (map Row rows ++ [Fail]) = Some st /\ produces topn_next st out /\ ~ In Fail out /\ rows <> [].
Proof.
  exists 2, [ECol 0], (ints [1]%Z), (ints [1]%Z, 0), (map Row (ints [1]%Z)).
  split; [vm_compute; reflexivity|]. split; [apply (topn_next_produces (ints [1]%Z) 0)|].
  split; [cbn; intros [E|[]]; discriminate E|discriminate].
Qed.
Print Assumptions c45_child_error_refuted.
