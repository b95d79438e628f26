(** * C116: a condition over two joined rows means what it means over the combined row *)
From Coq Require Import ZArith QArith Lia.
From stdpp Require Import list.
From Verif Require Import CastSpec CastModel FltSpec FltModel EjSpec EjModel EjProofs.

Local Close Scope Q_scope.
Local Open Scope nat_scope.

(** Full property: for every expression [e] whose columns are numbered over the combined row,
    [evaluate_join (length l) e l r = evaluate e (l ++ r)]. *)

(** Proved for all expressions built from columns, constants, comparisons and the other functions of their operands' values, the
    arithmetic of [same_arith], and roundings that only mention the left table. *)
Theorem c116_same_partial (e : jx) (l r : list val) :
  numbered (length l) (length r) e -> agrees (fun x => evaluate x (l ++ r)) e ->
  evaluate_join (length l) e l r = evaluate e (l ++ r).
Proof. exact (join_same e l r). Qed.
Print Assumptions c116_same_partial.

Definition is_less (v w : val) : option val := match v, w with VInt x, VInt y => Some (VBool (x <? y)%Z) | _, _ => None end.
(** l.b + 1 < r.a, with two columns on the left *)
Example c116_same_ex :
  let e := XFun2 is_less (XArith Plus (XCol 0 1) (XConst (VInt 1))) (XCol 1 2) in
  let l := [VInt 5; VInt 7] in let r := [VInt 9] in
  numbered (length l) (length r) e /\ agrees (fun x => evaluate x (l ++ r)) e /\
  evaluate_join 2 e l r = Some (VBool true).
Proof.
  cbn. split; [lia|]. split; [|easy]. split; [|easy]. split; [easy|]. split; [easy|].
  intros v w Hv Hw. injection Hv as <-. injection Hw as <-. left. split; left; easy.
Qed.

(** Arithmetic on INTEGER, BIGINT and DECIMAL values is the same, except that with a DECIMAL on the left and a whole number on the
    right the two are exchanged. *)
Theorem c116_arith_partial (op : aop) (v w : val) :
  (big_enough v \/ type_of v = TDec) -> (big_enough w \/ type_of w = TDec) ->
  (~ (type_of v = TDec /\ big_enough w) -> arith_join op v w = arith_one op v w) /\
  (op = Plus \/ op = Times -> arith_join op v w = arith_one op v w) /\
  (type_of v = TDec -> big_enough w -> arith_join op v w = arith_one op w v).
Proof.
  intros Hv Hw. rewrite (arith_same op v w Hv Hw). split; [|split].
  - intro H. rewrite decide_False by easy. easy.
  - intro Ho. case_decide as Hd; [|easy]. apply arith_comm; tauto.
  - intros H1 H2. rewrite decide_True by easy. easy.
Qed.
Print Assumptions c116_arith_partial.
Example c116_arith_ex : is_number (arith_join Times (VDec 5 1) (VInt 4)) 10.
Proof. vm_compute. easy. Qed.

(** Refuted: 10.0 - 3 is -7 in a join, 8.0 / 2 is 0.25, and 0.0 / 2 is a division by zero. *)
Theorem c116_reversed_refuted :
  (let e := XArith Minus (XCol 0 0) (XCol 1 1) in
   is_number (evaluate e [VDec 10 0; VInt 3]) 7 /\ is_number (evaluate_join 1 e [VDec 10 0] [VInt 3]) (-7)) /\
  (let e := XArith Over (XCol 0 0) (XCol 1 1) in
   is_number (evaluate e [VDec 8 0; VBig 2]) 4 /\ is_number (evaluate_join 1 e [VDec 8 0] [VBig 2]) (1 # 4) /\
   is_number (evaluate e [VDec 0 0; VBig 2]) 0 /\ evaluate_join 1 e [VDec 0 0] [VBig 2] = None).
Proof. vm_compute. repeat split. Qed.
Print Assumptions c116_reversed_refuted.

(** Refuted: arithmetic with a TINYINT, SMALLINT or FLOAT operand is always an error in a join. *)
Theorem c116_narrow_refuted (op : aop) (a b : jx) (lw : nat) (l r : list val) (v w : val) :
  evaluate_join lw a l r = Some v -> evaluate_join lw b l r = Some w -> narrow v \/ narrow w ->
  evaluate_join lw (XArith op a b) l r = None.
Proof. intros Ha Hb Hn. cbn [evaluate_join]. rewrite Ha, Hb. cbn [bind2]. apply narrow_none. exact Hn. Qed.
Print Assumptions c116_narrow_refuted.
Example c116_narrow_ex :
  let e := XArith Plus (XCol 0 0) (XCol 1 1) in
  evaluate e [VTiny 1; VInt 2] = Some (VInt 3) /\ evaluate_join 1 e [VTiny 1] [VInt 2] = None.
Proof. vm_compute. easy. Qed.

(** Refuted: CEIL, FLOOR and the like of a column of the right table are always errors in a join, whatever the function. *)
Theorem c116_round_refuted (f : val -> option val) (c : nat) (l r : list val) (v : val) :
  r !! c = Some v ->
  let e := XRound f (XCol 1 (length l + c)) in
  numbered (length l) (length r) e /\ evaluate e (l ++ r) = f v /\ evaluate_join (length l) e l r = None.
Proof.
  intros Hc e. assert (c < length r) by (apply lookup_lt_Some in Hc; exact Hc). split; [cbn; lia|]. split.
  - cbn [evaluate e]. rewrite lookup_app_r by lia. replace (length l + c - length l) with c by lia. rewrite Hc. easy.
  - cbn [evaluate_join evaluate e]. rewrite lookup_ge_None_2 by lia. easy.
Qed.
Print Assumptions c116_round_refuted.
Example c116_round_ex : [VDec 5 1] !! 0 = Some (VDec 5 1).
Proof. easy. Qed.

(** Refuted: % or || of a left and a right column is an error whenever the left table has two columns or more. *)
Theorem c116_bin_refuted (f : val -> val -> option val) (c d : nat) (l r : list val) (v w : val) :
  2 <= length l -> l !! c = Some v -> r !! d = Some w ->
  let e := XBin f (XCol 0 c) (XCol 1 (length l + d)) in
  numbered (length l) (length r) e /\ evaluate e (l ++ r) = f v w /\ evaluate_join (length l) e l r = None.
Proof.
  intros Hl Hc Hd e. assert (c < length l) by (apply lookup_lt_Some in Hc; exact Hc).
  assert (d < length r) by (apply lookup_lt_Some in Hd; exact Hd). split; [cbn; lia|]. split.
  - cbn [evaluate e]. rewrite lookup_app_l by lia. rewrite lookup_app_r by lia.
    replace (length l + d - length l) with d by lia. rewrite Hc, Hd. easy.
  - cbn [evaluate_join e]. rewrite Hc. destruct (Nat.leb_spec (length l) (length l + d)) as [_ | H1]; [|lia].
    replace (length l + d - length l) with d by lia. rewrite Hd. cbn [bind2 evaluate].
    rewrite (lookup_ge_None_2 [v; w] (length l + d)) by (cbn; lia). destruct ([v; w] !! c); easy.
Qed.
Print Assumptions c116_bin_refuted.
(** Refuted: with a constant on the right, the second column of the combined row is read as the constant; a later column is an
    error; only the first column is right. *)
Theorem c116_bin_const_refuted (f : val -> val -> option val) (c : nat) (l r : list val) (v w : val) :
  l !! c = Some v ->
  let e := XBin f (XCol 0 c) (XConst w) in
  evaluate e (l ++ r) = f v w /\
  evaluate_join (length l) e l r = match c with 0 => f v w | 1 => f w w | _ => None end.
Proof.
  intros Hc e. assert (c < length l) by (apply lookup_lt_Some in Hc; exact Hc). split.
  - cbn [evaluate e]. rewrite lookup_app_l by lia. rewrite Hc. easy.
  - cbn [evaluate_join e]. rewrite Hc. cbn [bind2 evaluate]. destruct c as [|[|c]]; easy.
Qed.
Print Assumptions c116_bin_const_refuted.
Definition modulo (v w : val) : option val := match v, w with VInt x, VInt y => Some (VInt (Z.rem x y)) | _, _ => None end.
Example c116_bin_ex :
  2 <= length [VInt 1; VInt 7] /\ [VInt 1; VInt 7] !! 1 = Some (VInt 7) /\
  evaluate_join 2 (XBin modulo (XCol 0 1) (XConst (VInt 5))) [VInt 1; VInt 7] [] = Some (VInt 0).
Proof. vm_compute. split; [lia|]. easy. Qed.

(** A column of a table other than the two, or past the end of its table, is an error, never another column's value; but a
    right-table column numbered within the left table's width reads the right table at that number. *)
Theorem c116_columns (l r : list val) (t c : nat) :
  (2 <= t -> evaluate_join (length l) (XCol t c) l r = None) /\
  (length l <= c -> evaluate_join (length l) (XCol 0 c) l r = None) /\
  (length l + length r <= c -> evaluate_join (length l) (XCol 1 c) l r = None) /\
  (c < length l -> evaluate_join (length l) (XCol 1 c) l r = r !! c).
Proof.
  repeat split.
  - intro H. destruct t as [|[|t]]; [lia | lia | easy].
  - intro H. cbn. apply lookup_ge_None_2. exact H.
  - intro H. cbn [evaluate_join]. destruct (Nat.leb_spec (length l) c); [apply lookup_ge_None_2; lia | lia].
  - intro H. cbn [evaluate_join]. destruct (Nat.leb_spec (length l) c); [lia | easy].
Qed.
Print Assumptions c116_columns.
Example c116_columns_ex : evaluate_join 1 (XCol 2 0) [VInt 1] [VInt 2] = None /\ evaluate_join 1 (XCol 1 0) [VInt 1] [VInt 2] = Some (VInt 2).
Proof. easy. Qed.
