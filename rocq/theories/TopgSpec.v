(** * What the first n rows of every group, and numbering the rows of every partition, should give

    Stated on plain lists of rows, with [before] and [tied] of ExecSpec.v. *)
From Coq Require Import ZArith List Bool Sorted Permutation.
From Verif Require Import ExprModel ExprSpec ExecSpec.
Import ListNotations.
Local Open Scope nat_scope.

(** Two rows that agree in the given expressions. *)
Definition same_keys (es : list expr) (a b : row) : Prop := forall e, In e es -> eval e a = eval e b.

(** [parts] are the groups of [rows]: every row is in one of them, rows of one group agree in the
    keys, rows of two groups do not, and no group is empty. *)
Record grouping (es : list expr) (rows : list row) (parts : list (list row)) : Prop := {
  gr_rows : Permutation rows (concat parts);
  gr_same : forall p a b, In p parts -> In a p -> In b p -> same_keys es a b;
  gr_diff : forall i j p q a b, i <> j -> nth_error parts i = Some p -> nth_error parts j = Some q ->
    In a p -> In b q -> ~ same_keys es a b;
  gr_some : forall p, In p parts -> p <> [];
}.

(** [s] are the first [n] rows of [l] in the order of [specs]. *)
Definition first_n (n : nat) (specs : list (expr * bool)) (l s : list row) : Prop :=
  exists omitted, Permutation l (s ++ omitted) /\ length s = min n (length l) /\
    StronglySorted (fun a b => ~ before specs b a) s /\
    forall a o, In a s -> In o omitted -> ~ before specs o a.

(** The first [n] rows of every group, one group after the other. *)
Definition top_per_group (n : nat) (specs : list (expr * bool)) (es : list expr) (rows out : list row) : Prop :=
  exists parts tops, grouping es rows parts /\ Forall2 (first_n n specs) parts tops /\ out = concat tops.

(** The rows of a partition with their numbers, from 1 on, as a last column; [k] times. *)
Fixpoint numbered (k : nat) (from : Z) (l : list row) : list row :=
  match l with
  | [] => []
  | r :: l => (r ++ repeat (VInt Integer from) k) :: numbered k (from + 1) l
  end.

(** Every partition of [rows] by [pes], put in the order of [specs] and numbered. *)
Definition row_numbers (k : nat) (pes : list expr) (specs : list (expr * bool)) (rows out : list row) : Prop :=
  exists parts sorted, grouping pes rows parts /\
    Forall2 (fun p s => Permutation p s /\ StronglySorted (fun a b => ~ before specs b a) s) parts sorted /\
    out = concat (map (numbered k 1) sorted).

(** Every expression has on every row a value that is not NULL, and of one type per expression. *)
Definition plain_keys (es : list expr) (rows : list row) : Prop :=
  exists tys, forall r, In r rows -> Forall2 (fun t e => exists v, eval e r = Ok v /\ type_of v = Some t) tys es.

(** The groups come in ascending order of their keys. *)
Definition groups_ascend (es : list expr) (parts : list (list row)) : Prop :=
  forall i j p q a b, i < j -> nth_error parts i = Some p -> nth_error parts j = Some q -> In a p -> In b q ->
    ~ before (map (fun e => (e, false)) es) b a.
