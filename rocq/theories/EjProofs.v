(** * Proofs about evaluation over two rows *)
From Coq Require Import ZArith Lia.
From stdpp Require Import list.
From Verif Require Import CastSpec CastModel FltSpec FltModel EjSpec EjModel.
Local Open Scope Z_scope.

Lemma fop_comm p op x y : op = Plus \/ op = Times -> fop p op x y = fop p op y x.
Proof.
  intros [-> | ->]; unfold fop; f_equal; f_equal; lia.
Qed.
Lemma at64_comm op v w : op = Plus \/ op = Times -> at64 op v w = at64 op w v.
Proof.
  intro H. unfold at64. destruct (as_f64 v) as [x|], (as_f64 w) as [y|]; try easy. rewrite (fop_comm 53 op x y H). easy.
Qed.

Lemma arith_same op v w :
  (big_enough v \/ type_of v = TDec) -> (big_enough w \/ type_of w = TDec) ->
  arith_join op v w = if decide (type_of v = TDec /\ big_enough w) then arith_one op w v else arith_one op v w.
Proof.
  unfold big_enough. intros Hv Hw.
  destruct v; cbn in Hv; try (destruct Hv as [[Hv | Hv] | Hv]; discriminate); subst;
    destruct w; cbn in Hw; try (destruct Hw as [[Hw | Hw] | Hw]; discriminate); subst; cbn [type_of].
  all: try (rewrite decide_False by (intros [Ht [Hb | Hb]]; discriminate); reflexivity).
  all: try (destruct Hv as [[Hv|Hv]|Hv]; try discriminate Hv; subst t).
  all: try (destruct Hw as [[Hw|Hw]|Hw]; try discriminate Hw; subst t0).
  all: cbn [arith_join arith_one int_of FltModel.arith].
  all: try (rewrite decide_True by auto; reflexivity).
  all: try (rewrite decide_False by (intros [Ht [Hb | Hb]]; discriminate); reflexivity).
  all: try (destruct (decide _); reflexivity).
Qed.
Lemma arith_comm op v w : type_of v = TDec -> big_enough w -> op = Plus \/ op = Times -> arith_one op w v = arith_one op v w.
Proof.
  intros Hv Hw Ho. destruct v; try discriminate; destruct Hw as [Hw | Hw]; destruct w; try discriminate;
    unfold arith_one; cbn [int_of FltModel.arith]; try (apply at64_comm; easy).
  all: cbn in *; subst; easy.
Qed.
Lemma same_arith_ok op v w : same_arith op v w -> arith_join op v w = arith_one op v w.
Proof.
  intro H.
  assert (Hb : forall x, big_enough x -> type_of x <> TDec) by (intros x [Hx | Hx]; congruence).
  assert ((big_enough v \/ type_of v = TDec) /\ (big_enough w \/ type_of w = TDec)) as [Hv Hw]
    by (destruct H as [[? ?] | [[? ?] | [[? ?] | [? [? ?]]]]]; auto).
  rewrite (arith_same op v w Hv Hw). case_decide as Hd; [|easy]. destruct Hd as [Hd Hw'].
  destruct H as [[H _] | [[_ H] | [[H _] | [_ [_ Ho]]]]]; [destruct (Hb v H Hd) | destruct (Hb w Hw' H) | destruct (Hb v H Hd) |].
  apply arith_comm; easy.
Qed.

Lemma evaluate_left e l r rw : numbered (length l) rw e -> left_only e -> evaluate e (l ++ r) = evaluate e l.
Proof.
  induction e as [t c|v|op a IHa b IHb|f a IHa b IHb|f a IHa|f a IHa|f a IHa b IHb]; cbn [numbered left_only evaluate]; intros Hn Hl.
  - destruct Hn as [[-> Hc] | [-> Hc]]; [|easy]. rewrite lookup_app_l by easy. easy.
  - easy.
  - rewrite IHa, IHb by tauto. easy.
  - rewrite IHa, IHb by tauto. easy.
  - rewrite IHa by tauto. easy.
  - rewrite IHa by tauto. easy.
  - rewrite IHa, IHb by tauto. easy.
Qed.

Lemma join_same e l r : numbered (length l) (length r) e -> agrees (fun x => evaluate x (l ++ r)) e -> evaluate_join (length l) e l r = evaluate e (l ++ r).
Proof.
  induction e as [t c|v|op a IHa b IHb|f a IHa b IHb|f a IHa|f a IHa|f a IHa b IHb]; cbn [numbered agrees]; intros Hn Hg.
  - destruct Hn as [[-> Hc] | [-> Hc]]; cbn [evaluate_join evaluate].
    + rewrite lookup_app_l by easy. easy.
    + rewrite lookup_app_r by lia. destruct (Nat.leb_spec (length l) c); [easy|lia].
  - easy.
  - destruct Hn as [Hna Hnb], Hg as (Hga & Hgb & Hs). cbn [evaluate_join evaluate]. rewrite IHa, IHb by easy.
    destruct (evaluate a (l ++ r)) as [x|]; [|easy]. destruct (evaluate b (l ++ r)) as [y|]; [|easy]. cbn [bind2].
    apply same_arith_ok. auto.
  - easy.
  - cbn [evaluate_join]. symmetry. apply (evaluate_left (XRound f a) l r (length r)); easy.
  - cbn [evaluate_join evaluate]. rewrite IHa by easy. easy.
  - destruct Hn as [Hna Hnb], Hg as (Hga & Hgb). cbn [evaluate_join evaluate]. rewrite IHa, IHb by easy. easy.
Qed.

Lemma narrow_none op v w : narrow v \/ narrow w -> arith_join op v w = None.
Proof.
  intros [[H | [H | H]] | [H | [H | H]]].
  1,2,3: destruct v; try discriminate H; try (cbn in H; subst); destruct w; easy.
  all: destruct v; destruct w; try discriminate H; easy.
Qed.
