(** * Proofs about the I/O engine *)
From Coq Require Import NArith Lia.
From stdpp Require Import gmap list.
From Verif Require Import WbufSpec IoqSpec IoqModel.

(** ** The operations in the engine *)
Definition in_q (s : eng) (x : iop) : Prop := x ∈ e_q s.
Definition in_run (s : eng) (x : iop) : Prop := exists w r, e_run s !! w = Some (x, r).
Definition waits (s : eng) (x : iop) : Prop := in_q s x \/ exists w, e_run s !! w = Some (x, None).
Definition waiting (s : eng) (i : nat) : Prop := exists x, waits s x /\ o_id x = i.

Lemma del_in (i : nat) (l : list iop) x : x ∈ base.delete i l -> x ∈ l.
Proof. intros H. eapply elem_of_submseteq; [exact H|]. apply submseteq_delete. Qed.
Lemma del_nodup (i : nat) (l : list iop) : NoDup (o_id <$> l) -> NoDup (o_id <$> base.delete i l).
Proof.
  revert i. induction l as [|y l IH]; intros i H; [by destruct i|]. cbn in H. apply NoDup_cons in H as [H1 H2]. destruct i as [|i]; [done|]. cbn. constructor; [|by apply IH].
  intros Hin. apply H1. apply elem_of_list_fmap in Hin as (z & -> & Hz). apply elem_of_list_fmap_1. by eapply (del_in i).
Qed.
Lemma take_inv s w id s1 : take s w id = Some s1 -> exists i x, e_run s !! w = None /\ e_q s !! i = Some x /\ o_id x = id /\ (forall y, y ∈ e_q s -> before y x = false) /\
  (s1 = set_run (set_q s (base.delete i (e_q s))) (<[w := (x, None)]> (e_run s)) \/ s1 = set_q s (base.delete i (e_q s))).
Proof.
  unfold take. destruct (e_run s !! w) as [?|] eqn:Er; [done|]. destruct (list_find _ _) as [[i x]|] eqn:Ef; [|done]. apply list_find_Some in Ef as (E1 & E2 & _).
  destruct (forallb _ _) eqn:Ea; [|done]. intros H. exists i, x. split; [done|]. split; [done|]. split; [done|]. split.
  - intros y Hy. rewrite forallb_forall in Ea. specialize (Ea y). rewrite <- elem_of_list_In in Ea. specialize (Ea Hy). by destruct (before y x).
  - destruct (pending s id); [left|right]; congruence.
Qed.
Lemma finish_inv s id r s1 e : finish s id r = (s1, e) -> e_q s1 = e_q s /\ e_run s1 = e_run s /\ e_next s1 = e_next s /\ e_vol s1 = e_vol s /\ e_dur s1 = e_dur s /\ e_page s1 = e_page s /\ (e = [] \/ e = [ERet id r]).
Proof. unfold finish. destruct (pending s id); intros H; [pose proof (f_equal fst H) as E; cbn [fst] in E; subst s1; cbn|assert (s1 = s) by congruence; subst]; repeat split; try done; [right|left]; congruence. Qed.
Lemma execute_inv s x f s1 r : execute s x f = (s1, r) -> e_q s1 = e_q s /\ e_run s1 = e_run s /\ e_next s1 = e_next s /\ e_stat s1 = e_stat s /\ e_page s1 = e_page s.
Proof.
  unfold execute. destruct (o_kind x) as [p|p d|]; [intros H; assert (s1 = s) by congruence; by subst| |].
  - destruct (negb _); [intros H; assert (s1 = s) by congruence; by subst|]. destruct f as [[]|]; intros H; [| |]; pose proof (f_equal fst H) as E; cbn [fst] in E; subst s1; done.
  - destruct f; intros H; pose proof (f_equal fst H) as E; cbn [fst] in E; subst s1; done.
Qed.
Lemma execute_files s x f s1 r : execute s x f = (s1, r) ->
  (forall p, e_vol s1 !! p = e_vol s !! p \/ exists d, o_kind x = KWrite p d /\ e_vol s1 !! p = Some (o_id x, d)) /\
  (e_dur s1 = e_dur s \/ o_kind x = KSync /\ e_dur s1 = e_vol s /\ e_vol s1 = e_vol s) /\
  (forall d, r = IOk d -> match o_kind x with
     | KRead p => exists i, e_vol s !! p = Some (i, d) | KWrite p d' => e_vol s1 !! p = Some (o_id x, d') | KSync => e_dur s1 = e_vol s /\ e_vol s1 = e_vol s end).
Proof.
  unfold execute. destruct (o_kind x) as [p|p d|].
  - intros H. assert (s1 = s) by congruence. subst. split; [auto|]. split; [auto|]. intros d Hr. destruct f; [congruence|]. destruct (e_vol s !! p) as [[i d']|]; [|congruence]. exists i. congruence.
  - destruct (negb _) eqn:El. { intros H. assert (s1 = s) by congruence. assert (r = IErr) by congruence. subst. split; [auto|]. split; [auto|]. done. }
    assert (Hv : forall q, e_vol (set_files s (<[p := (o_id x, d)]> (e_vol s)) (e_dur s)) !! q = e_vol s !! q \/ exists d0, KWrite p d = KWrite q d0 /\ e_vol (set_files s (<[p := (o_id x, d)]> (e_vol s)) (e_dur s)) !! q = Some (o_id x, d0)).
    { intros q. cbn. destruct (decide (p = q)) as [->|]; [right; exists d; by rewrite lookup_insert|left; by rewrite lookup_insert_ne]. }
    destruct f as [[]|]; intros H; pose proof (f_equal fst H) as E; pose proof (f_equal snd H) as E2; cbn [fst snd] in E, E2; subst s1 r; (split; [auto|]); (split; [auto|]); intros d0 Hr; try done. cbn. by rewrite lookup_insert.
  - destruct f; intros H; pose proof (f_equal fst H) as E; pose proof (f_equal snd H) as E2; cbn [fst snd] in E, E2; subst s1 r; cbn; (split; [auto|]); (split; [auto|]); intros d0 Hr; done.
Qed.

(** ** Steps *)
(** An operation that waits after a step waited before, or is new. *)
Lemma step_waits s l s1 e x : istep s l = Some (s1, e) -> waits s1 x -> waits s x \/ exists k pr t, l = LSubmit k pr t /\ x = mkIop (e_next s) pr t k.
Proof.
  intros H [Hq|(w & Hw)]; destruct l as [k pr t|w' id|w' f|w'|id|p]; cbn [istep] in H.
  - cbn in H. pose proof (f_equal (fun o => match o with Some z => fst z | None => s end) H) as E. cbn in E. subst s1. unfold in_q in Hq. cbn in Hq. apply elem_of_cons in Hq as [->|Hq]; [right; eauto|left; by left].
  - destruct (take s w' id) as [s2|] eqn:Et; [|done]. assert (s2 = s1) by congruence. subst. apply take_inv in Et as (i & y & _ & Hi & _ & _ & [->| ->]); left; left; unfold in_q in *; cbn in Hq; by eapply del_in.
  - destruct (e_run s !! w') as [[y [?|]]|] eqn:Er; try done. destruct (execute s y f) as [s2 r] eqn:Ee. pose proof (f_equal (fun o => match o with Some z => fst z | None => s end) H) as E. cbn in E. subst s1. apply execute_inv in Ee as (E1 & _). left. left. unfold in_q in *. cbn in Hq. by rewrite E1 in Hq.
  - destruct (e_run s !! w') as [[y [?|]]|] eqn:Er; try done. destruct (finish (set_run s (delete w' (e_run s))) (o_id y) i) as [s2 e2] eqn:Ef. assert (s2 = s1) by congruence. subst. apply finish_inv in Ef as (E1 & _). left. left. unfold in_q in *. by rewrite E1 in Hq.
  - destruct (finish s id IErr) as [s2 e2] eqn:Ef. assert (s2 = s1) by congruence. subst. apply finish_inv in Ef as (E1 & _). left. left. unfold in_q in *. by rewrite E1 in Hq.
  - destruct (e_vol s !! p); [|done]. pose proof (f_equal (fun o => match o with Some z => fst z | None => s end) H) as E. cbn in E. subst s1. left. by left.
  - cbn in H. pose proof (f_equal (fun o => match o with Some z => fst z | None => s end) H) as E. cbn in E. subst s1. cbn in Hw. left. right. eauto.
  - destruct (take s w' id) as [s2|] eqn:Et; [|done]. assert (s2 = s1) by congruence. subst. apply take_inv in Et as (i & y & _ & Hi & _ & _ & [->| ->]); cbn in Hw.
    + apply lookup_insert_Some in Hw as [[-> E]|[_ Hw]]; [assert (y = x) by congruence; subst; left; left; by eapply elem_of_list_lookup_2|left; right; eauto].
    + left; right; eauto.
  - destruct (e_run s !! w') as [[y [?|]]|] eqn:Er; try done. destruct (execute s y f) as [s2 r] eqn:Ee. pose proof (f_equal (fun o => match o with Some z => fst z | None => s end) H) as E. cbn in E. subst s1. apply execute_inv in Ee as (_ & E1 & _). cbn in Hw. rewrite E1 in Hw.
    apply lookup_insert_Some in Hw as [[_ E]|[_ Hw]]; [congruence|left; right; eauto].
  - destruct (e_run s !! w') as [[y [?|]]|] eqn:Er; try done. destruct (finish (set_run s (delete w' (e_run s))) (o_id y) i) as [s2 e2] eqn:Ef. assert (s2 = s1) by congruence. subst. apply finish_inv in Ef as (_ & E1 & _). rewrite E1 in Hw. cbn in Hw. apply lookup_delete_Some in Hw as [_ Hw]. left; right; eauto.
  - destruct (finish s id IErr) as [s2 e2] eqn:Ef. assert (s2 = s1) by congruence. subst. apply finish_inv in Ef as (_ & E1 & _). rewrite E1 in Hw. left; right; eauto.
  - destruct (e_vol s !! p); [|done]. pose proof (f_equal (fun o => match o with Some z => fst z | None => s end) H) as E. cbn in E. subst s1. left. right. eauto.
Qed.
Lemma step_next s l s1 e : istep s l = Some (s1, e) -> e_next s1 = match l with LSubmit _ _ _ => S (e_next s) | _ => e_next s end.
Proof.
  intros H. destruct l as [k pr t|w' id|w' f|w'|id|p]; cbn [istep] in H.
  - cbn in H. pose proof (f_equal (fun o => match o with Some z => fst z | None => s end) H) as E. cbn in E. by subst s1.
  - destruct (take s w' id) as [s2|] eqn:Et; [|done]. assert (s2 = s1) by congruence. subst. by apply take_inv in Et as (i & y & _ & Hi & _ & _ & [->| ->]).
  - destruct (e_run s !! w') as [[y [?|]]|] eqn:Er; try done. destruct (execute s y f) as [s2 r] eqn:Ee. pose proof (f_equal (fun o => match o with Some z => fst z | None => s end) H) as E. cbn in E. subst s1. by apply execute_inv in Ee as (_ & _ & E1 & _).
  - destruct (e_run s !! w') as [[y [?|]]|] eqn:Er; try done. destruct (finish (set_run s (delete w' (e_run s))) (o_id y) i) as [s2 e2] eqn:Ef. assert (s2 = s1) by congruence. subst. by apply finish_inv in Ef as (_ & _ & E1 & _).
  - destruct (finish s id IErr) as [s2 e2] eqn:Ef. assert (s2 = s1) by congruence. subst. by apply finish_inv in Ef as (_ & _ & E1 & _).
  - destruct (e_vol s !! p); [|done]. pose proof (f_equal (fun o => match o with Some z => fst z | None => s end) H) as E. cbn in E. by subst s1.
Qed.
(** An operation that has been executed and not yet reported: it was so before, or this step executed it. *)
Lemma step_ran s l s1 e w x r : istep s l = Some (s1, e) -> e_run s1 !! w = Some (x, Some r) ->
  e_run s !! w = Some (x, Some r) \/ exists f s2, l = LExec w f /\ e_run s !! w = Some (x, None) /\ execute s x f = (s2, r) /\ s1 = set_run s2 (<[w := (x, Some r)]> (e_run s2)).
Proof.
  intros H Hw. destruct l as [k pr t|w' id|w' f|w'|id|p]; cbn [istep] in H.
  - cbn in H. pose proof (f_equal (fun o => match o with Some z => fst z | None => s end) H) as E. cbn in E. subst s1. by left.
  - destruct (take s w' id) as [s2|] eqn:Et; [|done]. assert (s2 = s1) by congruence. subst. apply take_inv in Et as (i & y & _ & Hi & _ & _ & [->| ->]); cbn in Hw; [|by left]. apply lookup_insert_Some in Hw as [[_ E]|[_ Hw]]; [congruence|by left].
  - destruct (e_run s !! w') as [[y [?|]]|] eqn:Er; try done. destruct (execute s y f) as [s2 r2] eqn:Ee. pose proof (f_equal (fun o => match o with Some z => fst z | None => s end) H) as E. cbn in E. subst s1. cbn in Hw.
    apply lookup_insert_Some in Hw as [[-> E]|[_ Hw]].
    + right. assert (y = x) by congruence. assert (r2 = r) by congruence. subst. exists f, s2. auto.
    + left. apply execute_inv in Ee as (_ & E1 & _). by rewrite E1 in Hw.
  - destruct (e_run s !! w') as [[y [?|]]|] eqn:Er; try done. destruct (finish (set_run s (delete w' (e_run s))) (o_id y) i) as [s2 e2] eqn:Ef. assert (s2 = s1) by congruence. subst. apply finish_inv in Ef as (_ & E1 & _). rewrite E1 in Hw. cbn in Hw. apply lookup_delete_Some in Hw as [_ Hw]. by left.
  - destruct (finish s id IErr) as [s2 e2] eqn:Ef. assert (s2 = s1) by congruence. subst. apply finish_inv in Ef as (_ & E1 & _). rewrite E1 in Hw. by left.
  - destruct (e_vol s !! p); [|done]. pose proof (f_equal (fun o => match o with Some z => fst z | None => s end) H) as E. cbn in E. subst s1. by left.
Qed.
(** What a step does to the file. *)
Lemma step_vol s l s1 e p : istep s l = Some (s1, e) -> e_vol s1 !! p = e_vol s !! p \/ exists w x d, e_run s !! w = Some (x, None) /\ o_kind x = KWrite p d /\ e_vol s1 !! p = Some (o_id x, d).
Proof.
  intros H. destruct l as [k pr t|w' id|w' f|w'|id|p']; cbn [istep] in H.
  - cbn in H. pose proof (f_equal (fun o => match o with Some z => fst z | None => s end) H) as E. cbn in E. subst s1. by left.
  - destruct (take s w' id) as [s2|] eqn:Et; [|done]. assert (s2 = s1) by congruence. subst. apply take_inv in Et as (i & y & _ & Hi & _ & _ & [->| ->]); by left.
  - destruct (e_run s !! w') as [[y [?|]]|] eqn:Er; try done. destruct (execute s y f) as [s2 r2] eqn:Ee. pose proof (f_equal (fun o => match o with Some z => fst z | None => s end) H) as E. cbn in E. subst s1. cbn.
    apply execute_files in Ee as (E1 & _). destruct (E1 p) as [->|(d & E2 & E3)]; [by left|]. right. exists w', y, d. auto.
  - destruct (e_run s !! w') as [[y [?|]]|] eqn:Er; try done. destruct (finish (set_run s (delete w' (e_run s))) (o_id y) i) as [s2 e2] eqn:Ef. assert (s2 = s1) by congruence. subst. apply finish_inv in Ef as (_ & _ & _ & E1 & _). rewrite E1. by left.
  - destruct (finish s id IErr) as [s2 e2] eqn:Ef. assert (s2 = s1) by congruence. subst. apply finish_inv in Ef as (_ & _ & _ & E1 & _). rewrite E1. by left.
  - destruct (e_vol s !! p'); [|done]. pose proof (f_equal (fun o => match o with Some z => fst z | None => s end) H) as E. cbn in E. subst s1. by left.
Qed.
Lemma step_dur s l s1 e p : istep s l = Some (s1, e) -> e_dur s1 !! p = e_dur s !! p \/ e_dur s1 !! p = e_vol s !! p.
Proof.
  intros H. destruct l as [k pr t|w' id|w' f|w'|id|p']; cbn [istep] in H.
  - cbn in H. pose proof (f_equal (fun o => match o with Some z => fst z | None => s end) H) as E. cbn in E. subst s1. by left.
  - destruct (take s w' id) as [s2|] eqn:Et; [|done]. assert (s2 = s1) by congruence. subst. apply take_inv in Et as (i & y & _ & Hi & _ & _ & [->| ->]); by left.
  - destruct (e_run s !! w') as [[y [?|]]|] eqn:Er; try done. destruct (execute s y f) as [s2 r2] eqn:Ee. pose proof (f_equal (fun o => match o with Some z => fst z | None => s end) H) as E. cbn in E. subst s1. cbn.
    apply execute_files in Ee as (_ & [->|(_ & -> & _)] & _); auto.
  - destruct (e_run s !! w') as [[y [?|]]|] eqn:Er; try done. destruct (finish (set_run s (delete w' (e_run s))) (o_id y) i) as [s2 e2] eqn:Ef. assert (s2 = s1) by congruence. subst. apply finish_inv in Ef as (_ & _ & _ & _ & E1 & _). rewrite E1. by left.
  - destruct (finish s id IErr) as [s2 e2] eqn:Ef. assert (s2 = s1) by congruence. subst. apply finish_inv in Ef as (_ & _ & _ & _ & E1 & _). rewrite E1. by left.
  - destruct (e_vol s !! p') as [c|] eqn:Ec; [|done]. pose proof (f_equal (fun o => match o with Some z => fst z | None => s end) H) as E. cbn in E. subst s1. cbn. destruct (decide (p' = p)) as [->|]; [right; by rewrite lookup_insert|left; by rewrite lookup_insert_ne].
Qed.
(** What a step reports. *)
Lemma step_ev s l s1 e : istep s l = Some (s1, e) -> e = [] \/ exists v, e = [v] /\
  match v with
  | ESub i k pr t => l = LSubmit k pr t /\ i = e_next s
  | ERet i r => (exists w x, l = LDone w /\ e_run s !! w = Some (x, Some r) /\ o_id x = i /\ e_run s1 = delete w (e_run s) /\ e_q s1 = e_q s) \/ l = LCancel i /\ r = IErr
  end.
Proof.
  intros H. destruct l as [k pr t|w' id|w' f|w'|id|p']; cbn [istep] in H.
  - right. pose proof (f_equal (fun o => match o with Some z => snd z | None => [] end) H) as E. cbn in E. exists (ESub (e_next s) k pr t). split; [done|]. auto.
  - left. destruct (take s w' id) as [s2|] eqn:Et; [|done]. congruence.
  - left. destruct (e_run s !! w') as [[y [?|]]|] eqn:Er; try done. destruct (execute s y f). congruence.
  - destruct (e_run s !! w') as [[y [r|]]|] eqn:Er; try done. destruct (finish (set_run s (delete w' (e_run s))) (o_id y) r) as [s2 e2] eqn:Ef. assert (s2 = s1) by congruence. assert (e2 = e) by congruence. subst. apply finish_inv in Ef as (E0 & E1 & _ & _ & _ & _ & [->| ->]); [by left|]. right. eexists. split; [done|]. left. exists w', y. auto.
  - destruct (finish s id IErr) as [s2 e2] eqn:Ef. assert (s2 = s1) by congruence. assert (e2 = e) by congruence. subst. apply finish_inv in Ef as (_ & E1 & _ & _ & _ & _ & [->| ->]); [by left|]. right. eexists. split; [done|]. by right.
  - left. destruct (e_vol s !! p'); [|done]. congruence.
Qed.
Lemma step_sub s k pr t s1 e : istep s (LSubmit k pr t) = Some (s1, e) -> e = [ESub (e_next s) k pr t].
Proof. intros H. pose proof (f_equal (fun o => match o with Some z => snd z | None => [] end) H) as E. by cbn in E. Qed.

(** ** Runs *)
Lemma irun_app s l1 l2 : irun s (l1 ++ l2) = match irun s l1 with Some (s1, t1) => match irun s1 l2 with Some (s2, t2) => Some (s2, t1 ++ t2) | None => None end | None => None end.
Proof.
  revert s. induction l1 as [|l l1 IH]; intros s; cbn [app irun]; [by destruct (irun s l2) as [[]|]|]. destruct (istep s l) as [[s1 e]|]; [|done]. rewrite IH. destruct (irun s1 l1) as [[s2 t1]|]; [|done]. destruct (irun s2 l2) as [[s3 t2]|]; [|done]. by rewrite app_assoc.
Qed.
(** A run can be cut at any event. *)
Lemma irun_cut s ls s1 t1 v t2 : irun s ls = Some (s1, t1 ++ v :: t2) -> exists l1 l l2 sa sb, ls = l1 ++ l :: l2 /\ irun s l1 = Some (sa, t1) /\ istep sa l = Some (sb, [v]) /\ irun sb l2 = Some (s1, t2).
Proof.
  revert s t1. induction ls as [|l ls IH]; intros s t1 H; cbn [irun] in H. { exfalso. destruct t1; cbn in H; congruence. }
  destruct (istep s l) as [[s2 e]|] eqn:Es; [|done]. destruct (irun s2 ls) as [[s3 t]|] eqn:Er; [|done]. assert (s3 = s1) by congruence. assert (Ht : e ++ t = t1 ++ v :: t2) by congruence. subst s3.
  destruct (step_ev _ _ _ _ Es) as [->|(v' & -> & _)]; cbn in Ht.
  - subst t. destruct (IH _ _ Er) as (l1 & l' & l2 & sa & sb & -> & E1 & E2 & E3). exists (l :: l1), l', l2, sa, sb. cbn [app irun]. rewrite Es, E1. auto.
  - destruct t1 as [|v1 t1]; cbn in Ht.
    + assert (v' = v) by congruence. assert (t = t2) by congruence. subst. exists [], l, ls, s, s2. auto.
    + assert (v' = v1) by congruence. assert (t = t1 ++ v :: t2) by congruence. subst. destruct (IH _ _ Er) as (l1 & l' & l2 & sa & sb & -> & E1 & E2 & E3). exists (l :: l1), l', l2, sa, sb. cbn [app irun]. rewrite Es, E1. auto.
Qed.

Record IInv (s : eng) (tr : list ev) : Prop := {
  ii_sub : forall x, in_q s x \/ in_run s x -> ESub (o_id x) (o_kind x) (o_prio x) (o_at x) ∈ tr;
  ii_lt : forall i k a b, ESub i k a b ∈ tr -> i < e_next s;
  ii_one : forall i k a b k' a' b', ESub i k a b ∈ tr -> ESub i k' a' b' ∈ tr -> k = k' /\ a = a' /\ b = b';
  ii_q : NoDup (o_id <$> e_q s);
  ii_qr : forall x y, in_q s x -> in_run s y -> o_id x <> o_id y;
  ii_rr : forall w w' x y r r', e_run s !! w = Some (x, r) -> e_run s !! w' = Some (y, r') -> o_id x = o_id y -> w = w';
  ii_vol : forall p i d, e_vol s !! p = Some (i, d) -> exists a b, ESub i (KWrite p d) a b ∈ tr;
  ii_dur : forall p i d, e_dur s !! p = Some (i, d) -> exists a b, ESub i (KWrite p d) a b ∈ tr;
  ii_ret : forall i r, ERet i (IOk r) ∈ tr -> i < e_next s /\ ~ waiting s i }.
Lemma iinv_new page : IInv (eng_new page) [].
Proof.
  split; cbn; try (intros; by match goal with H : _ ∈ [] |- _ => apply elem_of_nil in H end).
  - intros x [H|(w & r & H)]; [by apply elem_of_nil in H|]. cbn in H. by rewrite lookup_empty in H.
  - constructor.
  - intros x y H. by apply elem_of_nil in H.
  - intros w w' x y r r' H. by rewrite lookup_empty in H.
  - intros p i d H. by rewrite lookup_empty in H.
  - intros p i d H. by rewrite lookup_empty in H.
Qed.
(** Operations in the engine after a step: queued, or with a worker. *)
Lemma step_all s l s1 e x : istep s l = Some (s1, e) -> in_q s1 x \/ in_run s1 x -> (in_q s x \/ in_run s x) \/ exists k pr t, l = LSubmit k pr t /\ x = mkIop (e_next s) pr t k.
Proof.
  intros H Hx. assert (Hc : waits s1 x \/ exists w r, e_run s1 !! w = Some (x, Some r)) by (destruct Hx as [Hx|(w & [r|] & Hx)]; [left; by left|right; eauto|left; right; eauto]).
  destruct Hc as [Hc|(w & r & Hc)].
  - destruct (step_waits _ _ _ _ _ H Hc) as [[Hq|(w & Hw)]|Hn]; [left; by left|left; right; by exists w, None|by right].
  - left. right. destruct (step_ran _ _ _ _ _ _ _ H Hc) as [Hw|(f & s2 & _ & Hw & _)]; eexists _, _; exact Hw.
Qed.
Lemma iinv_step s tr l s1 e : IInv s tr -> istep s l = Some (s1, e) -> IInv s1 (tr ++ e).
Proof.
  intros HI H. pose proof (step_next _ _ _ _ H) as Hn. assert (Hle : e_next s <= e_next s1) by (rewrite Hn; destruct l; lia).
  assert (Hold : forall i k a b, ESub i k a b ∈ tr ++ e -> ESub i k a b ∈ tr \/ l = LSubmit k a b /\ i = e_next s).
  { intros i k a b Hin. apply elem_of_app in Hin as [Hin|Hin]; [by left|]. destruct (step_ev _ _ _ _ H) as [->|(v & -> & Hv)]; [by apply elem_of_nil in Hin|]. apply elem_of_list_singleton in Hin. subst v. by right. }
  assert (Hnew : forall k pr t, l = LSubmit k pr t -> ESub (e_next s) k pr t ∈ tr ++ e) by (intros k pr t ->; rewrite (step_sub _ _ _ _ _ _ H); apply elem_of_app; right; by apply elem_of_list_singleton).
  assert (Hfresh : forall x, in_q s x \/ in_run s x -> o_id x < e_next s) by (intros x Hx; eapply ii_lt; [exact HI|]; by apply (ii_sub _ _ HI)).
  assert (Hstr : NoDup (o_id <$> e_q s1) /\ (forall x y, in_q s1 x -> in_run s1 y -> o_id x <> o_id y) /\
     (forall w w' x y r r', e_run s1 !! w = Some (x, r) -> e_run s1 !! w' = Some (y, r') -> o_id x = o_id y -> w = w')).
  { destruct HI as [_ _ _ Iq Iqr Irr _ _ _]. destruct l as [k pr t|w' id|w' f|w'|id|p']; cbn [istep] in H.
    - cbn in H. pose proof (f_equal (fun o => match o with Some z => fst z | None => s end) H) as E. cbn in E. subst s1. cbn. split; [|split].
      + constructor; [|done]. intros Hin. apply elem_of_list_fmap in Hin as (x & Hx & Hin). specialize (Hfresh x (or_introl Hin)). lia.
      + intros x y Hx Hy. unfold in_q in Hx. cbn in Hx. apply elem_of_cons in Hx as [->|Hx]; [cbn|by apply Iqr]. specialize (Hfresh y (or_intror Hy)). lia.
      + exact Irr.
    - destruct (take s w' id) as [s2|] eqn:Et; [|done]. assert (s2 = s1) by congruence. subst s2. apply take_inv in Et as (i & y & Hw & Hi & Hid & _ & Hs).
      assert (Hnd : NoDup (o_id <$> base.delete i (e_q s))) by (by apply del_nodup).
      assert (Hqr : forall x z, x ∈ base.delete i (e_q s) -> in_run s z -> o_id x <> o_id z) by (intros x z Hx; apply Iqr; unfold in_q; by eapply del_in).
      assert (Hy : forall x, x ∈ base.delete i (e_q s) -> o_id x <> o_id y).
      { intros x Hx Heq. pose proof Iq as Iq2. rewrite (delete_take_drop) in Hx. rewrite <- (take_drop_middle _ _ _ Hi) in Iq2. rewrite fmap_app, fmap_cons in Iq2. apply NoDup_app in Iq2 as (_ & N1 & N2). apply NoDup_cons in N2 as [N2 _].
        apply elem_of_app in Hx as [Hx|Hx].
        - apply (N1 (o_id x)); [by apply elem_of_list_fmap_1|]. rewrite Heq. apply elem_of_cons. by left.
        - apply N2. rewrite <- Heq. by apply elem_of_list_fmap_1. }
      destruct Hs as [->| ->]; cbn; (split; [done|]); split; try done.
      + intros x z Hx (w & r & Hz). cbn in Hz. apply lookup_insert_Some in Hz as [[_ E]|[_ Hz]]; [assert (y = z) by congruence; subst; by apply Hy|]. apply Hqr; [exact Hx|]. by exists w, r.
      + intros w w2 x z r r' H1 H2 Heq. apply lookup_insert_Some in H1 as [[<- E1]|[N1 H1]]; apply lookup_insert_Some in H2 as [[<- E2]|[N2 H2]]; try done.
        * exfalso. assert (y = x) by congruence. subst. eapply Iqr; [|by exists w2, r'|exact Heq]. unfold in_q. by eapply elem_of_list_lookup_2.
        * exfalso. assert (y = z) by congruence. subst. eapply Iqr; [|by exists w, r|symmetry; exact Heq]. unfold in_q. by eapply elem_of_list_lookup_2.
        * by eapply Irr.
    - destruct (e_run s !! w') as [[y [?|]]|] eqn:Er; try done. destruct (execute s y f) as [s2 r] eqn:Ee. pose proof (f_equal (fun o => match o with Some z => fst z | None => s end) H) as E. cbn in E. subst s1. apply execute_inv in Ee as (E1 & E2 & _). unfold in_q, in_run. cbn. rewrite E1, E2. split; [done|]. split.
      + intros x z Hx (w & r' & Hz). apply lookup_insert_Some in Hz as [[<- E]|[_ Hz]]; [assert (y = z) by congruence; subst; apply Iqr; [done|by exists w', None]|]. apply Iqr; [done|]. by exists w, r'.
      + assert (Hl : forall w x r', <[w' := (y, Some r)]> (e_run s) !! w = Some (x, r') -> exists r'', e_run s !! w = Some (x, r'')).
        { intros w x r' Hz. apply lookup_insert_Some in Hz as [[<- E]|[_ Hz]]; [assert (y = x) by congruence; subst; eauto|eauto]. }
        intros w w2 x z r1 r2 H1 H2 Heq. destruct (Hl _ _ _ H1) as [r3 H3]. destruct (Hl _ _ _ H2) as [r4 H4]. by eapply Irr.
    - destruct (e_run s !! w') as [[y [?|]]|] eqn:Er; try done. destruct (finish (set_run s (delete w' (e_run s))) (o_id y) i) as [s2 e2] eqn:Ef. assert (s2 = s1) by congruence. subst. apply finish_inv in Ef as (E1 & E2 & _). unfold in_q, in_run. rewrite E1, E2. cbn. split; [done|]. split.
      + intros x z Hx (w & r' & Hz). apply lookup_delete_Some in Hz as [_ Hz]. apply Iqr; [done|]. by exists w, r'.
      + intros w w2 x z r1 r2 [_ H1]%lookup_delete_Some [_ H2]%lookup_delete_Some Heq. by eapply Irr.
    - destruct (finish s id IErr) as [s2 e2] eqn:Ef. assert (s2 = s1) by congruence. subst. apply finish_inv in Ef as (E1 & E2 & _). unfold in_q, in_run. rewrite E1, E2. done.
    - destruct (e_vol s !! p'); [|done]. pose proof (f_equal (fun o => match o with Some z => fst z | None => s end) H) as E. cbn in E. subst s1. done. }
  destruct Hstr as (S1 & S2 & S3).
  assert (Hvol : forall p i d, e_vol s1 !! p = Some (i, d) -> exists a b, ESub i (KWrite p d) a b ∈ tr).
  { intros p i d Hp. destruct (step_vol _ _ _ _ p H) as [E|(w & x & d' & E1 & E2 & E3)]; [apply (ii_vol _ _ HI); by rewrite <- E|].
    assert (i = o_id x) by congruence. assert (d' = d) by congruence. subst. exists (o_prio x), (o_at x). rewrite <- E2. apply (ii_sub _ _ HI). right. by exists w, None. }
  split; try done.
  - intros x Hx. destruct (step_all _ _ _ _ _ H Hx) as [Ho|(k & pr & t & -> & ->)]; [apply elem_of_app; left; by apply (ii_sub _ _ HI)|]. cbn. by apply Hnew.
  - intros i k a b Hin. apply Hold in Hin as [Hin|[-> ->]]; [apply (ii_lt _ _ HI) in Hin; lia|]. rewrite Hn. lia.
  - intros i k a b k' a' b' H1 H2. apply Hold in H1 as [H1|[E1 ->]]; apply Hold in H2 as [H2|[E2 E3]].
    + by eapply (ii_one _ _ HI).
    + subst. apply (ii_lt _ _ HI) in H1. lia.
    + apply (ii_lt _ _ HI) in H2. lia.
    + rewrite E1 in E2. split; [congruence|]. split; congruence.
  - intros p i d Hp. destruct (Hvol _ _ _ Hp) as (a & b & Hin). exists a, b. apply elem_of_app. by left.
  - intros p i d Hp. assert (exists a b, ESub i (KWrite p d) a b ∈ tr) as (a & b & Hin); [|exists a, b; apply elem_of_app; by left].
    destruct (step_dur _ _ _ _ p H) as [E|E]; rewrite E in Hp; [by apply (ii_dur _ _ HI)|by apply (ii_vol _ _ HI)].
  - intros i r Hin. apply elem_of_app in Hin as [Hin|Hin].
    + destruct (ii_ret _ _ HI _ _ Hin) as [H1 H2]. split; [lia|]. intros (x & Hx & Hi). destruct (step_waits _ _ _ _ _ H Hx) as [Hw|(k & pr & t & -> & ->)]; [apply H2; by exists x|]. cbn in Hi. lia.
    + destruct (step_ev _ _ _ _ H) as [->|(v & -> & Hv)]; [by apply elem_of_nil in Hin|]. apply elem_of_list_singleton in Hin. subst v. destruct Hv as [(w & x & -> & Hw & Hi & Hr & Hq)|[_ ?]]; [|done]. subst i.
      assert (Hx : in_run s x) by (by exists w, (Some (IOk r))). split; [specialize (Hfresh x (or_intror Hx)); lia|].
      intros (y & [Hy|(w2 & Hy)] & Hi).
      * unfold in_q in Hy. rewrite Hq in Hy. eapply (ii_qr _ _ HI); [exact Hy|exact Hx|exact Hi].
      * rewrite Hr in Hy. apply lookup_delete_Some in Hy as [Hne Hy]. apply Hne. eapply (ii_rr _ _ HI); [exact Hw|exact Hy|by symmetry].
Qed.
Lemma iinv_run s tr ls s1 t : IInv s tr -> irun s ls = Some (s1, t) -> IInv s1 (tr ++ t).
Proof.
  revert s tr t. induction ls as [|l ls IH]; intros s tr t HI H; cbn [irun] in H; [assert (s1 = s) by congruence; assert (t = []) by congruence; subst; by rewrite app_nil_r|].
  destruct (istep s l) as [[s2 e]|] eqn:Es; [|done]. destruct (irun s2 ls) as [[s3 t3]|] eqn:Er; [|done]. assert (s3 = s1) by congruence. assert (t = e ++ t3) by congruence. subst. rewrite app_assoc. eapply IH; [|exact Er]. by eapply iinv_step.
Qed.

(** ** Contents at least as new as some moment *)
(** [O]: operations that were over at that moment; they never run again. *)
Definition quiet (O : nat -> Prop) (s : eng) : Prop := forall i, O i -> i < e_next s /\ ~ waiting s i.
Definition good (O : nat -> Prop) (m : gmap N (nat * bytes)) (p : N) : Prop := exists i d, m !! p = Some (i, d) /\ ~ O i.
Lemma quiet_step O s l s1 e : quiet O s -> istep s l = Some (s1, e) -> quiet O s1.
Proof.
  intros HQ H i Hi. destruct (HQ i Hi) as [H1 H2]. pose proof (step_next _ _ _ _ H) as Hn. split; [rewrite Hn; destruct l; lia|].
  intros (x & Hx & E). destruct (step_waits _ _ _ _ _ H Hx) as [Hw|(k & pr & t & -> & ->)]; [apply H2; by exists x|]. cbn in E. lia.
Qed.
Lemma good_vol_step O s l s1 e p : quiet O s -> good O (e_vol s) p -> istep s l = Some (s1, e) -> good O (e_vol s1) p.
Proof.
  intros HQ (i & d & Hp & HO) H. destruct (step_vol _ _ _ _ p H) as [E|(w & x & d' & E1 & E2 & E3)].
  - exists i, d. by rewrite E.
  - exists (o_id x), d'. split; [done|]. intros Ho. apply (HQ _ Ho). exists x. split; [right; eauto|done].
Qed.
Lemma good_dur_step O s l s1 e p : good O (e_vol s) p -> good O (e_dur s) p -> istep s l = Some (s1, e) -> good O (e_dur s1) p.
Proof. intros Hv Hd H. destruct (step_dur _ _ _ _ p H) as [E|E]; unfold good; by rewrite E. Qed.
(** The write [w] of page [p]: once it has been executed the page is good. *)
Definition wrote (O : nat -> Prop) (s : eng) (w : nat) (p : N) : Prop :=
  ~ O w /\ (forall x, waits s x -> o_id x = w -> exists d, o_kind x = KWrite p d) /\ (forall k x r, e_run s !! k = Some (x, Some (IOk r)) -> o_id x = w -> good O (e_vol s) p) /\ w < e_next s.
Lemma wrote_step O s l s1 e w p : quiet O s -> wrote O s w p -> istep s l = Some (s1, e) -> wrote O s1 w p /\ (forall r, ERet w (IOk r) ∈ e -> good O (e_vol s1) p).
Proof.
  intros HQ (H0 & H1 & H2 & H3) H. split; [split; [done|split; [|split]]|].
  - intros x Hx Hi. destruct (step_waits _ _ _ _ _ H Hx) as [Hw|(k & pr & t & -> & ->)]; [by apply H1|]. cbn in Hi. lia.
  - intros k x r Hk Hi. destruct (step_ran _ _ _ _ _ _ _ H Hk) as [Hr|(f & s2 & -> & Hr & He & ->)]; [eapply good_vol_step; [done| |exact H]; by eapply H2|].
    destruct (H1 x) as [d Hd]; [right; eauto|done|]. apply execute_files in He as (_ & _ & He). specialize (He r eq_refl). rewrite Hd in He. exists (o_id x), d. cbn. split; [done|]. by rewrite Hi.
  - rewrite (step_next _ _ _ _ H). destruct l; lia.
  - intros r Hin. destruct (step_ev _ _ _ _ H) as [->|(v & -> & Hv)]; [by apply elem_of_nil in Hin|]. apply elem_of_list_singleton in Hin. subst v. destruct Hv as [(k & x & -> & Hk & Hi & _)|[_ ?]]; [|done].
    eapply good_vol_step; [done| |exact H]. by eapply H2.
Qed.
Lemma wrote_run O w p ls : forall s s1 t, quiet O s -> wrote O s w p -> irun s ls = Some (s1, t) -> quiet O s1 /\ wrote O s1 w p.
Proof.
  induction ls as [|l ls IH]; intros s s1 t HQ Hw H; cbn [irun] in H; [assert (s1 = s) by congruence; by subst|].
  destruct (istep s l) as [[s2 e]|] eqn:Es; [|done]. destruct (irun s2 ls) as [[s3 t3]|] eqn:Er; [|done]. assert (s3 = s1) by congruence. subst. eapply IH; [by eapply quiet_step| |exact Er]. exact (proj1 (wrote_step _ _ _ _ _ _ _ HQ Hw Es)).
Qed.
Lemma good_run O p ls : forall s s1 t, quiet O s -> good O (e_vol s) p -> irun s ls = Some (s1, t) -> quiet O s1 /\ good O (e_vol s1) p /\ (good O (e_dur s) p -> good O (e_dur s1) p).
Proof.
  induction ls as [|l ls IH]; intros s s1 t HQ Hg H; cbn [irun] in H; [assert (s1 = s) by congruence; by subst|].
  destruct (istep s l) as [[s2 e]|] eqn:Es; [|done]. destruct (irun s2 ls) as [[s3 t3]|] eqn:Er; [|done]. assert (s3 = s1) by congruence. subst.
  destruct (IH s2 s1 t3) as (A & B & C); [by eapply quiet_step|by eapply good_vol_step|done|]. split; [done|]. split; [done|]. intros Hd. apply C. exact (good_dur_step _ _ _ _ _ _ Hg Hd Es).
Qed.
(** The call [y] made while page [p] is good: a sync makes it good on the device, a read returns a good content. *)
Definition later (O : nat -> Prop) (s : eng) (y : nat) (k : kind) (p : N) (P : gmap N (nat * bytes) -> bytes -> Prop) : Prop :=
  (forall x, waits s x -> o_id x = y -> o_kind x = k) /\ (forall w x r, e_run s !! w = Some (x, Some (IOk r)) -> o_id x = y -> P (e_dur s) r) /\ y < e_next s.
Lemma later_step O (tr t0 : list ev) s l s1 e y k p P : IInv s t0 -> (forall v, v ∈ t0 -> v ∈ tr) -> quiet O s -> good O (e_vol s) p -> later O s y k p P ->
  (forall s0 d r s2 l0 e0, good O (e_vol s0) p -> P d r -> istep s0 l0 = Some (s2, e0) -> d = e_dur s0 -> P (e_dur s2) r) ->
  (forall s0 u x f s2 r, IInv s0 u -> (forall v, v ∈ u -> v ∈ tr) -> good O (e_vol s0) p -> o_kind x = k -> execute s0 x f = (s2, IOk r) -> P (e_dur s2) r) ->
  istep s l = Some (s1, e) -> later O s1 y k p P /\ (forall r, ERet y (IOk r) ∈ e -> P (e_dur s1) r).
Proof.
  intros HI Htr HQ Hg (H1 & H2 & H3) HP1 HP2 H. split; [split; [|split]|].
  - intros x Hx Hi. destruct (step_waits _ _ _ _ _ H Hx) as [Hw|(k' & pr & t & -> & ->)]; [by apply H1|]. cbn in Hi. lia.
  - intros w x r Hk Hi. destruct (step_ran _ _ _ _ _ _ _ H Hk) as [Hr|(f & s2 & -> & Hr & He & ->)]; [eapply HP1; [exact Hg|by eapply H2|exact H|done]|].
    cbn. eapply HP2; [exact HI|exact Htr|exact Hg| |exact He]. apply H1; [right; eauto|done].
  - rewrite (step_next _ _ _ _ H). destruct l; lia.
  - intros r Hin. destruct (step_ev _ _ _ _ H) as [->|(v & -> & Hv)]; [by apply elem_of_nil in Hin|]. apply elem_of_list_singleton in Hin. subst v. destruct Hv as [(w & x & -> & Hk & Hi & _)|[_ ?]]; [|done].
    eapply HP1; [exact Hg|by eapply H2|exact H|done].
Qed.
Lemma later_run O (tr : list ev) y k p P ls : forall t0 s s1 t, IInv s t0 -> (forall v, v ∈ t0 ++ t -> v ∈ tr) -> quiet O s -> good O (e_vol s) p -> later O s y k p P ->
  (forall s0 d r s2 l0 e0, good O (e_vol s0) p -> P d r -> istep s0 l0 = Some (s2, e0) -> d = e_dur s0 -> P (e_dur s2) r) ->
  (forall s0 u x f s2 r, IInv s0 u -> (forall v, v ∈ u -> v ∈ tr) -> good O (e_vol s0) p -> o_kind x = k -> execute s0 x f = (s2, IOk r) -> P (e_dur s2) r) ->
  irun s ls = Some (s1, t) -> quiet O s1 /\ good O (e_vol s1) p /\ later O s1 y k p P.
Proof.
  induction ls as [|l ls IH]; intros t0 s s1 t HI Htr HQ Hg Hw HP1 HP2 H; cbn [irun] in H; [assert (s1 = s) by congruence; by subst|].
  destruct (istep s l) as [[s2 e]|] eqn:Es; [|done]. destruct (irun s2 ls) as [[s3 t3]|] eqn:Er; [|done]. assert (s3 = s1) by congruence. assert (t = e ++ t3) by congruence. subst.
  assert (Hpre : forall v, v ∈ t0 -> v ∈ tr) by (intros v Hv; apply Htr, elem_of_app; by left).
  eapply (IH (t0 ++ e)); [by eapply iinv_step|by rewrite <- app_assoc|by eapply quiet_step|by eapply good_vol_step| |done|done|exact Er]. exact (proj1 (later_step _ _ _ _ _ _ _ _ _ _ _ HI Hpre HQ Hg Hw HP1 HP2 Es)).
Qed.

(** ** One worker *)
Definition acked (s : eng) (t : list ev) (b : nat) : Prop := (exists w x r, e_run s !! w = Some (x, Some (IOk r)) /\ o_id x = b) \/ exists r, ERet b (IOk r) ∈ t.
Record Ord (s : eng) (t : list ev) (a b : nat) (p : N) (d : bytes) : Prop := {
  or_wait : waiting s a -> b < e_next s -> exists x, x ∈ e_q s /\ o_id x = b;
  or_one : forall w x, e_run s !! w = Some x -> w = 0;
  or_vol : acked s t b -> e_vol s !! p = Some (b, d) }.
Lemma acked_over s t b : IInv s t -> acked s t b -> b < e_next s /\ ~ waiting s b.
Proof.
  intros HI [(w & x & r & Hw & <-)|[r Hr]]; [|by apply (ii_ret _ _ HI _ r)]. assert (Hx : in_run s x) by (by exists w, (Some (IOk r))).
  split; [eapply (ii_lt _ _ HI), (ii_sub _ _ HI); by right|]. intros (y & [Hy|(w2 & Hy)] & Hi).
  - by eapply (ii_qr _ _ HI y x).
  - assert (w2 = w) by (by eapply (ii_rr _ _ HI)). subst. congruence.
Qed.
Section order.
  Context (tr : list ev) (a b : nat) (p : N) (d1 d2 : bytes) (pa pb ta tb : N).
  Context (Hone : forall i k u v k' u' v', ESub i k u v ∈ tr -> ESub i k' u' v' ∈ tr -> k = k' /\ u = u' /\ v = v').
  Context (Ha : ESub a (KWrite p d1) pa ta ∈ tr) (Hb : ESub b (KWrite p d2) pb tb ∈ tr).
  Context (Hlt : a < b) (Hbef : (pb < pa)%N \/ pa = pb /\ (ta < tb)%N) (Honly : only_writers tr p [a; b]).
  Lemma ord_step s t l s1 e t2 : tr = t ++ e ++ t2 -> IInv s t -> Ord s t a b p d2 -> one_worker l -> istep s l = Some (s1, e) -> Ord s1 (t ++ e) a b p d2.
  Proof.
    intros Htr HI [O1 O2 O3] Hw H. pose proof (iinv_step _ _ _ _ _ HI H) as HI1. pose proof (step_next _ _ _ _ H) as Hn.
    assert (Hin : forall x, in_q s x \/ in_run s x -> ESub (o_id x) (o_kind x) (o_prio x) (o_at x) ∈ tr) by (intros x Hx; rewrite Htr; apply elem_of_app; left; by apply (ii_sub _ _ HI)).
    assert (Hbefore : forall x y, in_q s x \/ in_run s x -> in_q s y \/ in_run s y -> o_id x = a -> o_id y = b -> before x y = true).
    { intros x y Hx Hy Ea Eb. apply Hin in Hx. apply Hin in Hy. rewrite Ea in Hx. rewrite Eb in Hy. destruct (Hone _ _ _ _ _ _ _ Ha Hx) as (_ & X1 & X2). destruct (Hone _ _ _ _ _ _ _ Hb Hy) as (_ & X3 & X4). unfold before. rewrite <- X1, <- X2, <- X3, <- X4.
      apply orb_true_iff. destruct Hbef as [Hp|[Hp Ht]]; [left; by apply N.ltb_lt|right]. apply andb_true_iff. split; [by apply N.eqb_eq|by apply N.ltb_lt]. }
    assert (Hq1 : waiting s1 a -> b < e_next s1 -> exists x, x ∈ e_q s1 /\ o_id x = b).
    { intros (x & Hx & Hxa) Hb1. destruct (step_waits _ _ _ _ _ H Hx) as [Hx0|(k & pr & u & -> & ->)]; [|cbn in Hxa; lia].
      assert (Hwa : waiting s a) by (by exists x).
      destruct l as [k pr u|w id|w f|w|id|q]; cbn [istep] in H.
      - cbn in H. pose proof (f_equal (fun o => match o with Some z => fst z | None => s end) H) as E. cbn in E. subst s1. cbn in *. destruct (decide (b = e_next s)) as [->|]; [eexists; split; [apply elem_of_cons; by left|done]|].
        destruct O1 as (y & Hy & Hyb); [done|lia|]. exists y. split; [apply elem_of_cons; by right|done].
      - destruct (take s w id) as [s2|] eqn:Et; [|done]. assert (s2 = s1) by congruence. subst s2. apply take_inv in Et as (i & y & Hrw & Hi & Hid & Hmax & Hs).
        destruct O1 as (z & Hz & Hzb); [done|rewrite Hn in Hb1; lia|].
        assert (Hzi : z ∈ base.delete i (e_q s)).
        { apply elem_of_list_lookup in Hz as [j Hj]. destruct (decide (i = j)) as [->|Hne].
          - exfalso. assert (y = z) by congruence. subst y. destruct Hx0 as [Hxq|(w2 & Hw2)].
            + pose proof (Hmax x Hxq) as Hf. rewrite (Hbefore x z) in Hf; [done|by left|left; by eapply elem_of_list_lookup_2|done|done].
            + assert (w2 = 0) by (by eapply O2). cbn in Hw. subst. congruence.
          - rewrite delete_take_drop. apply elem_of_app. destruct (decide (j < i)).
            + left. apply elem_of_list_lookup. exists j. by rewrite lookup_take by lia.
            + right. apply elem_of_list_lookup. exists (j - S i). rewrite lookup_drop. by replace (S i + (j - S i)) with j by lia. }
        exists z. split; [|done]. by destruct Hs as [->| ->].
      - destruct O1 as (y & Hy & Hyb); [done|rewrite Hn in Hb1; lia|]. exists y. split; [|done]. destruct (e_run s !! w) as [[y' [?|]]|] eqn:Er; try done. destruct (execute s y' f) as [s2 r] eqn:Ee. pose proof (f_equal (fun o => match o with Some z => fst z | None => s end) H) as E. cbn in E. subst s1. apply execute_inv in Ee as (E1 & _). cbn. by rewrite E1.
      - destruct O1 as (y & Hy & Hyb); [done|rewrite Hn in Hb1; lia|]. exists y. split; [|done]. destruct (e_run s !! w) as [[y' [?|]]|] eqn:Er; try done. destruct (finish (set_run s (delete w (e_run s))) (o_id y') i) as [s2 e2] eqn:Ef. assert (s2 = s1) by congruence. subst. apply finish_inv in Ef as (E1 & _). by rewrite E1.
      - destruct O1 as (y & Hy & Hyb); [done|rewrite Hn in Hb1; lia|]. exists y. split; [|done]. destruct (finish s id IErr) as [s2 e2] eqn:Ef. assert (s2 = s1) by congruence. subst. apply finish_inv in Ef as (E1 & _). by rewrite E1.
      - destruct O1 as (y & Hy & Hyb); [done|rewrite Hn in Hb1; lia|]. exists y. split; [|done]. destruct (e_vol s !! q); [|done]. pose proof (f_equal (fun o => match o with Some z => fst z | None => s end) H) as E. cbn in E. by subst s1. }
    split; [done| |].
    - intros w x Hx. destruct l as [k pr u|w' id|w' f|w'|id|q]; cbn [istep] in H.
      + cbn in H. pose proof (f_equal (fun o => match o with Some z => fst z | None => s end) H) as E. cbn in E. subst s1. by eapply O2.
      + destruct (take s w' id) as [s2|] eqn:Et; [|done]. assert (s2 = s1) by congruence. subst s2. apply take_inv in Et as (i & y & Hrw & Hi & Hid & Hmax & [->| ->]); cbn in Hx; [|by eapply O2]. apply lookup_insert_Some in Hx as [[<- _]|[_ Hx]]; [done|by eapply O2].
      + destruct (e_run s !! w') as [[y' [?|]]|] eqn:Er; try done. destruct (execute s y' f) as [s2 r] eqn:Ee. pose proof (f_equal (fun o => match o with Some z => fst z | None => s end) H) as E. cbn in E. subst s1. apply execute_inv in Ee as (_ & E1 & _). cbn in Hx. rewrite E1 in Hx. apply lookup_insert_Some in Hx as [[<- _]|[_ Hx]]; [done|by eapply O2].
      + destruct (e_run s !! w') as [[y' [?|]]|] eqn:Er; try done. destruct (finish (set_run s (delete w' (e_run s))) (o_id y') i) as [s2 e2] eqn:Ef. assert (s2 = s1) by congruence. subst. apply finish_inv in Ef as (_ & E1 & _). rewrite E1 in Hx. cbn in Hx. apply lookup_delete_Some in Hx as [_ Hx]. by eapply O2.
      + destruct (finish s id IErr) as [s2 e2] eqn:Ef. assert (s2 = s1) by congruence. subst. apply finish_inv in Ef as (_ & E1 & _). rewrite E1 in Hx. by eapply O2.
      + destruct (e_vol s !! q); [|done]. pose proof (f_equal (fun o => match o with Some z => fst z | None => s end) H) as E. cbn in E. subst s1. by eapply O2.
    - intros Hack.
      assert (Hcase : acked s t b \/ exists w x f s2 r, l = LExec w f /\ e_run s !! w = Some (x, None) /\ o_id x = b /\ execute s x f = (s2, IOk r) /\ s1 = set_run s2 (<[w := (x, Some (IOk r))]> (e_run s2))).
      { destruct Hack as [(w & x & r & Hr & Hi)|[r Hr]].
        - destruct (step_ran _ _ _ _ _ _ _ H Hr) as [Hr0|(f & s2 & -> & Hr0 & He & ->)]; [left; left; by exists w, x, r|]. right. exists w, x, f, s2, r. done.
        - left. apply elem_of_app in Hr as [Hr|Hr]; [right; by exists r|]. destruct (step_ev _ _ _ _ H) as [->|(v & -> & Hv)]; [by apply elem_of_nil in Hr|]. apply elem_of_list_singleton in Hr. subst v. destruct Hv as [(w & x & -> & Hk & Hi & _)|[_ ?]]; [|done]. left. by exists w, x, r. }
      destruct Hcase as [Hold|(w & x & f & s2 & r & -> & Hr & Hi & He & ->)].
      + destruct (acked_over _ _ _ HI Hold) as [Hbn Hbw]. destruct (step_vol _ _ _ _ p H) as [->|(w & x & d & E1 & E2 & E3)]; [by apply O3|]. exfalso.
        assert (Hx : in_run s x) by (by exists w, None). pose proof (Hin x (or_intror Hx)) as Hs. rewrite E2 in Hs. apply Honly in Hs. apply elem_of_cons in Hs as [Hs|Hs]; [|apply elem_of_list_singleton in Hs].
        * destruct O1 as (y & Hy & Hyb); [exists x; split; [right; eauto|done]|done|]. apply Hbw. exists y. split; [by left|done].
        * apply Hbw. exists x. split; [right; eauto|done].
      + assert (Hx : in_run s x) by (by exists w, None). pose proof (Hin x (or_intror Hx)) as Hs. rewrite Hi in Hs. destruct (Hone _ _ _ _ _ _ _ Hb Hs) as (Hk & _). apply execute_files in He as (_ & _ & He). specialize (He r eq_refl). rewrite <- Hk in He. cbn. by rewrite He, Hi.
  Qed.
  Lemma ord_run ls : forall s t s1 t2, tr = t ++ t2 -> IInv s t -> Ord s t a b p d2 -> Forall one_worker ls -> irun s ls = Some (s1, t2) -> Ord s1 tr a b p d2.
  Proof.
    induction ls as [|l ls IH]; intros s t s1 t2 Htr HI HO Hw H; cbn [irun] in H; [assert (s1 = s) by congruence; assert (t2 = []) by congruence; subst s1 t2; rewrite app_nil_r in Htr; by subst t|].
    apply Forall_cons in Hw as [Hw1 Hw2]. destruct (istep s l) as [[s2 e]|] eqn:Es; [|done]. destruct (irun s2 ls) as [[s3 t3]|] eqn:Er; [|done]. assert (s3 = s1) by congruence. assert (t2 = e ++ t3) by congruence. subst s3 t2.
    eapply (IH s2 (t ++ e)); [by rewrite <- app_assoc|by eapply iinv_step|by eapply ord_step|done|done].
  Qed.
End order.
