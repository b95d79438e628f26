From Coq Require Import List NArith Lia Bool Arith ZifyBool ZifyNat ZifyN.
From Verif Require Import WatermarkModel WatermarkSpec.
Import ListNotations.
Local Open Scope N_scope.

Lemma list_min_spec x l : smallest (list_min x l) (x :: l).
Proof.
  unfold list_min. revert x. induction l as [|y l IH]; intros x; cbn [fold_left].
  - split; [now left|]. intros z [->|[]]. lia.
  - destruct (IH (N.min x y)) as [Hin Hle]. split.
    + destruct Hin as [E|Hin]; [|now right; right].
      rewrite <- E. destruct (N.min_spec x y) as [[_ ->]|[_ ->]]; [now left|now right; left].
    + intros z [<-|[<-|Hz]].
      * specialize (Hle (N.min x y) (or_introl eq_refl)). lia.
      * specialize (Hle (N.min x y) (or_introl eq_refl)). lia.
      * apply Hle. now right.
Qed.

Definition mark_ok (w : wm) : Prop := wm_active w <> [] -> smallest (wm_mark w) (wm_active w).
Definition fresh (w : wm) : Prop := wm_active w = [] -> wm_mark w = wm_next w.

Lemma uw_active w : wm_active (update_watermark w) = wm_active w.
Proof. unfold update_watermark. destruct (wm_active w) eqn:E; cbn; congruence. Qed.
Lemma uw_next w : wm_next (update_watermark w) = wm_next w.
Proof. unfold update_watermark. destruct (wm_active w) eqn:E; reflexivity. Qed.
Lemma uw_mark_ok w : mark_ok (update_watermark w).
Proof.
  unfold mark_ok, update_watermark. destruct (wm_active w) as [|x l] eqn:E; cbn [wm_active wm_mark].
  - congruence.
  - intros _. apply list_min_spec.
Qed.
Lemma uw_fresh w : fresh (update_watermark w).
Proof.
  unfold fresh, update_watermark. destruct (wm_active w) as [|x l] eqn:E; cbn; congruence.
Qed.

Lemma set_insert_in x y l : In y (set_insert x l) <-> x = y \/ In y l.
Proof.
  unfold set_insert. destruct (existsb (N.eqb x) l) eqn:E; [|reflexivity].
  apply existsb_exists in E as (z & Hz & Ez). apply N.eqb_eq in Ez. subst z.
  split; [tauto|]. intros [<-|H]; assumption.
Qed.
Lemma set_remove_in x y l : In y (set_remove x l) <-> In y l /\ x <> y.
Proof.
  unfold set_remove. rewrite filter_In. split; intros [H1 H2]; split; try exact H1.
  - intros ->. rewrite N.eqb_refl in H2. discriminate.
  - apply negb_true_iff, N.eqb_neq, H2.
Qed.

Lemma add_in w ts y : In y (wm_active (add_txn w ts)) <-> ts = y \/ In y (wm_active w).
Proof. unfold add_txn. rewrite uw_active. cbn. apply set_insert_in. Qed.
Lemma remove_in w ts y : In y (wm_active (remove_txn w ts)) <-> In y (wm_active w) /\ ts <> y.
Proof. unfold remove_txn. rewrite uw_active. cbn. apply set_remove_in. Qed.
Lemma add_next w ts : wm_next (add_txn w ts) = wm_next w.
Proof. unfold add_txn. now rewrite uw_next. Qed.
Lemma remove_next w ts : wm_next (remove_txn w ts) = wm_next w.
Proof. unfold remove_txn. now rewrite uw_next. Qed.
Lemma commit_active w ts : wm_active (update_commit_ts w ts) = wm_active w.
Proof. unfold update_commit_ts. now rewrite uw_active. Qed.
Lemma commit_next w ts : wm_next (update_commit_ts w ts) = N.max (wm_next w) (u64_sat_succ ts).
Proof.
  unfold update_commit_ts. rewrite uw_next. cbn [wm_next].
  destruct (N.ltb_spec (wm_next w) (u64_sat_succ ts)); lia.
Qed.

(** One call and the specification's set of registered timestamps. *)
Lemma step_registered w o l :
  mark_ok w -> (forall x, In x (wm_active w) <-> In x l) ->
  let (w', r) := wm_step w o in
  mark_ok w' /\ (forall x, In x (wm_active w') <-> In x (registered_from l [(o, r)])).
Proof.
  intros Hm Hl. destruct o as [| |ts|ts|ts]; cbn [wm_step registered_from].
  - cbn. split; [exact Hm|exact Hl].
  - unfold get_next_ts_and_register. cbn [get_next_ts].
    split; [apply uw_mark_ok|]. intros x. rewrite add_in. cbn. now rewrite Hl.
  - split; [apply uw_mark_ok|]. intros x. rewrite add_in. cbn. now rewrite Hl.
  - cbn. split; [apply uw_mark_ok|]. intros x. rewrite remove_in. cbn. rewrite Hl.
    split.
    + intros [H1 H2]. apply in_in_remove; congruence.
    + intros H. apply in_remove in H as [H1 H2]. split; congruence.
  - cbn. split; [apply uw_mark_ok|]. intros x. rewrite commit_active. apply Hl.
Qed.

Lemma registered_from_cons l e tr : registered_from l (e :: tr) = registered_from (registered_from l [e]) tr.
Proof. destruct e as [[| |ts|ts|ts] r]; reflexivity. Qed.

Lemma run_registered ops : forall w l,
  mark_ok w -> (forall x, In x (wm_active w) <-> In x l) ->
  let (w', tr) := wm_run_from w ops in
  mark_ok w' /\ (forall x, In x (wm_active w') <-> In x (registered_from l tr)).
Proof.
  induction ops as [|o ops IH]; intros w l Hm Hl; cbn [wm_run_from].
  - cbn. auto.
  - pose proof (step_registered w o l Hm Hl) as S. destruct (wm_step w o) as [w1 r].
    destruct S as [Hm1 Hl1]. specialize (IH w1 _ Hm1 Hl1).
    destruct (wm_run_from w1 ops) as [w2 tr]. now rewrite registered_from_cons.
Qed.

Lemma new_mark_ok : mark_ok wm_new.
Proof. intros H. now destruct H. Qed.

Lemma smallest_ext m l l' : (forall x, In x l <-> In x l') -> smallest m l -> smallest m l'.
Proof. intros E [H1 H2]. split; [now apply E|]. intros x Hx. apply H2. now apply E. Qed.

Lemma watermark_is_min ops :
  let (w, tr) := wm_run ops in
  registered tr <> [] -> smallest (get_watermark w) (registered tr).
Proof.
  pose proof (run_registered ops wm_new [] new_mark_ok (fun x => iff_refl _)) as H.
  unfold wm_run, registered. destruct (wm_run_from wm_new ops) as [w tr].
  destruct H as [Hm Hl]. intros Hne.
  apply (smallest_ext _ _ _ Hl). apply Hm. intros E. apply Hne.
  destruct (registered_from [] tr) as [|x l]; [reflexivity|].
  exfalso. specialize (Hl x). rewrite E in Hl. apply Hl. now left.
Qed.

Lemma run_from_app w ops1 ops2 :
  wm_run_from w (ops1 ++ ops2) =
  let (w1, t1) := wm_run_from w ops1 in
  let (w2, t2) := wm_run_from w1 ops2 in (w2, t1 ++ t2).
Proof.
  revert w. induction ops1 as [|o ops1 IH]; intros w; cbn [app wm_run_from].
  - now destruct (wm_run_from w ops2).
  - destruct (wm_step w o) as [w1 r]. rewrite IH.
    destruct (wm_run_from w1 ops1) as [w2 t1]. now destruct (wm_run_from w2 ops2).
Qed.

Lemma step_fresh w o : o <> OpNext -> fresh (fst (wm_step w o)).
Proof.
  destruct o; intros H; try congruence; cbn; apply uw_fresh.
Qed.

Lemma watermark_when_idle ops o :
  o <> OpNext ->
  let (w, tr) := wm_run (ops ++ [o]) in
  registered tr = [] -> get_watermark w = snd (get_next_ts w).
Proof.
  intros Ho. pose proof (run_registered (ops ++ [o]) wm_new [] new_mark_ok (fun x => iff_refl _)) as H.
  unfold wm_run, registered in *. rewrite run_from_app in *.
  destruct (wm_run_from wm_new ops) as [w1 t1]. cbn [wm_run_from] in *.
  pose proof (step_fresh w1 o Ho) as F.
  destruct (wm_step w1 o) as [w2 r]. cbn [fst] in F.
  destruct H as [_ Hl]. intros E. rewrite E in Hl. apply F.
  destruct (wm_active w2) as [|x l]; [reflexivity|]. exfalso. apply (Hl x). now left.
Qed.

(** Bounds and monotonicity. *)
Definition bounded (w : wm) : Prop :=
  mark_ok w /\ (forall x, In x (wm_active w) -> x < wm_next w) /\ wm_mark w <= wm_next w.

Definition plain (o : wm_op) : Prop := match o with OpAdd _ => False | _ => True end.

Lemma mark_le_new w' m :
  mark_ok w' -> fresh w' ->
  (forall x, In x (wm_active w') -> m <= x) -> m <= wm_next w' -> m <= wm_mark w'.
Proof.
  intros Hm Hf Ha Hn. destruct (wm_active w') as [|x l] eqn:E.
  - rewrite (Hf E). exact Hn.
  - destruct (Hm ltac:(rewrite E; discriminate)) as [Hin _]. rewrite E in Hin. apply Ha. exact Hin.
Qed.

Lemma mark_bound w' :
  mark_ok w' -> fresh w' -> (forall x, In x (wm_active w') -> x < wm_next w') -> wm_mark w' <= wm_next w'.
Proof.
  intros Hm Hf Ha. destruct (wm_active w') as [|x l] eqn:E.
  - rewrite (Hf E). lia.
  - destruct (Hm ltac:(rewrite E; discriminate)) as [Hin _]. rewrite E in Hin.
    specialize (Ha _ Hin). lia.
Qed.

Lemma old_mark_le w x : bounded w -> In x (wm_active w) -> wm_mark w <= x.
Proof.
  intros (Hm & _ & _) Hx. apply Hm; [|exact Hx]. intros E. now rewrite E in Hx.
Qed.

Lemma u64_incr_small x : x + 1 < 2 ^ 64 -> u64_incr x = x + 1.
Proof. intros H. unfold u64_incr. now apply N.mod_small. Qed.

Lemma sat_small x : x + 1 < 2 ^ 64 -> u64_sat_succ x = x + 1.
Proof. intros H. unfold u64_sat_succ. lia. Qed.

Definition op_room (B : N) (o : wm_op) : Prop :=
  match o with OpCommitTs ts => ts + 1 <= B | _ => True end.

Lemma step_bounded w o B :
  bounded w -> plain o -> wm_next w <= B -> B + 1 < 2 ^ 64 -> op_room B o ->
  let w' := fst (wm_step w o) in
  bounded w' /\ wm_next w <= wm_next w' <= B + 1 /\ wm_mark w <= wm_mark w'.
Proof.
  intros Hb Hp Hn HB Hr. pose proof Hb as (Hm & Ha & Hmn).
  destruct o as [| |ts|ts|ts]; cbn [wm_step plain op_room] in *; try contradiction.
  - cbn. unfold bounded, mark_ok. cbn [wm_active wm_mark wm_next].
    rewrite u64_incr_small by lia. repeat split.
    + apply Hm; assumption.
    + apply Hm; assumption.
    + intros x Hx. specialize (Ha _ Hx). lia.
    + lia.
    + lia.
    + lia.
    + lia.
  - unfold get_next_ts_and_register. cbn [get_next_ts fst].
    set (w1 := mkWm _ _ _).
    assert (M : mark_ok (add_txn w1 (wm_next w))) by apply uw_mark_ok.
    assert (F : fresh (add_txn w1 (wm_next w))) by apply uw_fresh.
    assert (N1 : wm_next (add_txn w1 (wm_next w)) = wm_next w + 1).
    { rewrite add_next. cbn. apply u64_incr_small. lia. }
    assert (A : forall x, In x (wm_active (add_txn w1 (wm_next w))) -> x < wm_next w + 1).
    { intros x Hx. apply add_in in Hx as [<-|Hx]; [lia|]. cbn in Hx. specialize (Ha _ Hx). lia. }
    split; [split; [exact M|split]|split].
    + rewrite N1. exact A.
    + apply mark_bound; [exact M|exact F|]. rewrite N1. exact A.
    + rewrite N1. lia.
    + apply mark_le_new; [exact M|exact F| |rewrite N1; lia].
      intros x Hx. apply add_in in Hx as [<-|Hx]; [exact Hmn|]. now apply old_mark_le.
  - cbn [unregister_txn fst].
    assert (M : mark_ok (remove_txn w ts)) by apply uw_mark_ok.
    assert (F : fresh (remove_txn w ts)) by apply uw_fresh.
    assert (N1 : wm_next (remove_txn w ts) = wm_next w) by apply remove_next.
    assert (A : forall x, In x (wm_active (remove_txn w ts)) -> x < wm_next w).
    { intros x Hx. apply remove_in in Hx as [Hx _]. now apply Ha. }
    split; [split; [exact M|split]|split].
    + rewrite N1. exact A.
    + apply mark_bound; [exact M|exact F|]. rewrite N1. exact A.
    + rewrite N1. lia.
    + apply mark_le_new; [exact M|exact F| |rewrite N1; exact Hmn].
      intros x Hx. apply remove_in in Hx as [Hx _]. now apply old_mark_le.
  - cbn [update_commit_ts_and_get_watermark fst].
    assert (M : mark_ok (update_commit_ts w ts)) by apply uw_mark_ok.
    assert (F : fresh (update_commit_ts w ts)) by apply uw_fresh.
    assert (N1 : wm_next (update_commit_ts w ts) = N.max (wm_next w) (ts + 1)).
    { rewrite commit_next, sat_small; lia. }
    assert (A : forall x, In x (wm_active (update_commit_ts w ts)) -> x < wm_next (update_commit_ts w ts)).
    { intros x Hx. rewrite commit_active in Hx. specialize (Ha _ Hx). lia. }
    split; [split; [exact M|split]|split].
    + exact A.
    + apply mark_bound; [exact M|exact F|exact A].
    + rewrite N1. lia.
    + apply mark_le_new; [exact M|exact F| |lia].
      intros x Hx. rewrite commit_active in Hx. now apply old_mark_le.
Qed.

Lemma run_bounded ops : forall w B,
  bounded w -> Forall plain ops -> wm_next w <= B -> B + N.of_nat (length ops) < 2 ^ 64 ->
  Forall (op_room B) ops ->
  let w' := fst (wm_run_from w ops) in
  bounded w' /\ wm_next w' <= B + N.of_nat (length ops) /\ wm_mark w <= wm_mark w' /\ wm_next w <= wm_next w'.
Proof.
  induction ops as [|o ops IH]; intros w B Hb Hp Hn HB Hr; cbn [wm_run_from length] in *.
  - cbn [fst]. split; [exact Hb|]. cbn [N.of_nat]. lia.
  - inversion Hp as [|? ? Hp1 Hp2]; subst. inversion Hr as [|? ? Hr1 Hr2]; subst.
    pose proof (step_bounded w o B Hb Hp1 Hn ltac:(lia) Hr1) as S. cbn zeta in S.
    destruct (wm_step w o) as [w1 r]. cbn [fst] in S. destruct S as (Hb1 & Hn1 & Hm1).
    assert (Hr2' : Forall (op_room (B + 1)) ops).
    { eapply Forall_impl; [|exact Hr2]. intros []; cbn; lia. }
    specialize (IH w1 (B + 1) Hb1 Hp2 ltac:(lia) ltac:(lia) Hr2').
    destruct (wm_run_from w1 ops) as [w2 tr]. cbn [fst] in *.
    destruct IH as (I1 & I2 & I3 & I4). split; [exact I1|]. lia.
Qed.

Lemma new_bounded : bounded wm_new.
Proof. split; [exact new_mark_ok|split]; cbn; [tauto|lia]. Qed.

Lemma room_of M ops : (forall ts, In (OpCommitTs ts) ops -> ts <= M) -> Forall (op_room (M + 1)) ops.
Proof.
  intros H. apply Forall_forall. intros o Ho. destruct o; cbn; try exact I. specialize (H _ Ho). lia.
Qed.

Lemma plain_of ops : (forall ts, ~ In (OpAdd ts) ops) -> Forall plain ops.
Proof. intros H. apply Forall_forall. intros o Ho. destruct o; cbn; try exact I. now apply (H ts). Qed.

Lemma watermark_monotone M ops1 ops2 :
  no_overflow M (ops1 ++ ops2) -> (forall ts, ~ In (OpAdd ts) (ops1 ++ ops2)) ->
  get_watermark (fst (wm_run ops1)) <= get_watermark (fst (wm_run (ops1 ++ ops2))).
Proof.
  intros [HM HB] Hp. rewrite app_length in HB.
  pose proof (room_of _ _ HM) as Hr. pose proof (plain_of _ Hp) as Hpl.
  apply Forall_app in Hr as [Hr1 Hr2]. apply Forall_app in Hpl as [Hp1 Hp2].
  unfold wm_run. rewrite run_from_app.
  pose proof (run_bounded ops1 wm_new (M + 1) new_bounded Hp1 ltac:(cbn; lia) ltac:(lia) Hr1) as R1.
  cbn zeta in R1. destruct (wm_run_from wm_new ops1) as [w1 t1]. cbn [fst] in *.
  destruct R1 as (B1 & N1 & _).
  assert (Hr2' : Forall (op_room (M + 1 + N.of_nat (length ops1))) ops2).
  { eapply Forall_impl; [|exact Hr2]. intros []; cbn; lia. }
  pose proof (run_bounded ops2 w1 (M + 1 + N.of_nat (length ops1)) B1 Hp2 ltac:(lia) ltac:(lia) Hr2') as R2.
  cbn zeta in R2. destruct (wm_run_from w1 ops2) as [w2 t2]. cbn [fst] in *. apply R2.
Qed.

Lemma watermark_le_next M ops :
  no_overflow M ops -> (forall ts, ~ In (OpAdd ts) ops) ->
  let w := fst (wm_run ops) in get_watermark w <= snd (get_next_ts w).
Proof.
  intros [HM HB] Hp.
  pose proof (run_bounded ops wm_new (M + 1) new_bounded (plain_of _ Hp) ltac:(cbn; lia) ltac:(lia) (room_of _ _ HM)) as R.
  cbn zeta in *. destruct R as ((_ & _ & R) & _). exact R.
Qed.

(** Issued timestamps. [OpAdd] does not touch the counter. *)
Lemma step_next w o B :
  wm_next w <= B -> B + 1 < 2 ^ 64 -> op_room B o ->
  let w' := fst (wm_step w o) in
  wm_next w <= wm_next w' <= B + 1 /\
  (forall ts, In ts (issued [(o, snd (wm_step w o))]) -> ts = wm_next w /\ ts < wm_next w') /\
  (forall ts, o = OpCommitTs ts -> ts < wm_next w').
Proof.
  intros Hn HB Hr. destruct o as [| |ts|ts|ts]; cbn [wm_step issued op_room fst snd] in *.
  - cbn. rewrite u64_incr_small by lia. repeat split; try lia; try (intros; discriminate).
    all: destruct H as [<-|[]]; lia.
  - unfold get_next_ts_and_register. cbn [get_next_ts fst snd]. rewrite add_next. cbn [wm_next].
    rewrite u64_incr_small by lia. repeat split; try lia; try (intros; discriminate).
    all: destruct H as [<-|[]]; lia.
  - rewrite add_next. repeat split; try lia; try (intros; discriminate). all: destruct H.
  - cbn [unregister_txn fst snd]. rewrite remove_next.
    repeat split; try lia; try (intros; discriminate). all: destruct H.
  - cbn [update_commit_ts_and_get_watermark fst snd]. rewrite commit_next, sat_small by lia.
    repeat split; try lia.
    + destruct H.
    + destruct H.
    + intros ts' [= <-]. lia.
Qed.

Lemma issued_cons e tr : issued (e :: tr) = issued [e] ++ issued tr.
Proof. destruct e as [[| | | |] r]; reflexivity. Qed.

Lemma issued_app t1 t2 : issued (t1 ++ t2) = issued t1 ++ issued t2.
Proof.
  induction t1 as [|e t1 IH]; [reflexivity|]. rewrite <- app_comm_cons, issued_cons, IH, (issued_cons e t1).
  now rewrite app_assoc.
Qed.

Lemma run_issued ops : forall w B,
  wm_next w <= B -> B + N.of_nat (length ops) < 2 ^ 64 -> Forall (op_room B) ops ->
  let (w', tr) := wm_run_from w ops in
  increasing (issued tr) /\ (forall ts, In ts (issued tr) -> wm_next w <= ts < wm_next w') /\
  wm_next w <= wm_next w' <= B + N.of_nat (length ops) /\
  (forall ts, In (OpCommitTs ts) ops -> ts < wm_next w').
Proof.
  induction ops as [|o ops IH]; intros w B Hn HB Hr; cbn [wm_run_from length] in *.
  - cbn [issued increasing]. split; [exact I|]. split; [contradiction|]. split; [cbn [N.of_nat]; lia|]. contradiction.
  - inversion Hr as [|? ? Hr1 Hr2]; subst.
    pose proof (step_next w o B Hn ltac:(lia) Hr1) as S. cbn zeta in S.
    destruct (wm_step w o) as [w1 r]. cbn [fst snd] in S. destruct S as (S1 & S2 & S3).
    assert (Hr2' : Forall (op_room (B + 1)) ops).
    { eapply Forall_impl; [|exact Hr2]. intros []; cbn; lia. }
    specialize (IH w1 (B + 1) ltac:(lia) ltac:(lia) Hr2').
    destruct (wm_run_from w1 ops) as [w2 tr]. destruct IH as (I1 & I2 & I3 & I4).
    rewrite issued_cons. repeat split.
    + destruct o; cbn in S2 |- *; try exact I1; (split; [|exact I1]);
        intros y Hy; specialize (I2 _ Hy); specialize (S2 _ (or_introl eq_refl)); lia.
    + apply in_app_iff in H as [H|H]; [apply S2 in H|apply I2 in H]; lia.
    + apply in_app_iff in H as [H|H]; [apply S2 in H|apply I2 in H]; lia.
    + lia.
    + lia.
    + intros ts [->|H]; [specialize (S3 _ eq_refl); lia|now apply I4].
Qed.

Lemma issued_increasing M ops : no_overflow M ops -> increasing (issued (snd (wm_run ops))).
Proof.
  intros [HM HB].
  pose proof (run_issued ops wm_new (M + 1) ltac:(cbn; lia) ltac:(lia) (room_of _ _ HM)) as R.
  unfold wm_run. destruct (wm_run_from wm_new ops) as [w tr]. apply R.
Qed.

Lemma issued_after_commit M ops1 ts ops2 t :
  no_overflow M (ops1 ++ OpCommitTs ts :: ops2) ->
  In t (issued (snd (wm_run_from (fst (wm_run (ops1 ++ [OpCommitTs ts]))) ops2))) ->
  ts < t.
Proof.
  intros [HM HB].
  replace (ops1 ++ OpCommitTs ts :: ops2) with ((ops1 ++ [OpCommitTs ts]) ++ ops2) in * by now rewrite <- app_assoc.
  pose proof (room_of _ _ HM) as Hr. rewrite app_length in HB. apply Forall_app in Hr as [Hr1 Hr2].
  pose proof (run_issued (ops1 ++ [OpCommitTs ts]) wm_new (M + 1) ltac:(cbn; lia) ltac:(lia) Hr1) as R1.
  unfold wm_run. destruct (wm_run_from wm_new (ops1 ++ [OpCommitTs ts])) as [w1 t1]. cbn [fst].
  destruct R1 as (_ & _ & R1 & R2).
  specialize (R2 ts ltac:(apply in_or_app; right; left; reflexivity)).
  set (B := M + 1 + N.of_nat (length (ops1 ++ [OpCommitTs ts]))) in *.
  assert (Hr2' : Forall (op_room B) ops2).
  { eapply Forall_impl; [|exact Hr2]. unfold B. intros []; cbn; lia. }
  pose proof (run_issued ops2 w1 B ltac:(lia) ltac:(lia) Hr2') as R3.
  destruct (wm_run_from w1 ops2) as [w2 t2]. cbn [snd]. intros Ht. apply R3 in Ht. lia.
Qed.

(** ** Transaction histories *)

Record tinv (s : tsys) : Prop := {
  ti_bounded : bounded (ts_wm s);
  ti_fresh : fresh (ts_wm s);
  ti_active : forall x, In x (wm_active (ts_wm s)) <-> In x (running_snapshots s);
  ti_nodup : NoDup (map tt_read (ts_txns s));
  ti_lt : forall t, In t (ts_txns s) -> tt_read t < wm_next (ts_wm s)
}.

Definition is_running (t : ttxn) : bool := match tt_state t with TRunning => true | _ => false end.
Definition snaps (l : list ttxn) : list N := map tt_read (filter is_running l).

Lemma snaps_in x l : In x (snaps l) <-> exists t, In t l /\ is_running t = true /\ tt_read t = x.
Proof.
  unfold snaps. rewrite in_map_iff. split.
  - intros (t & E & H). apply filter_In in H as [H1 H2]. now exists t.
  - intros (t & H1 & H2 & E). exists t. split; [exact E|]. apply filter_In. now split.
Qed.

Lemma set_nth_reads i t' l t : nth_error l i = Some t -> tt_read t' = tt_read t ->
  map tt_read (set_nth i t' l) = map tt_read l.
Proof.
  revert i. induction l as [|h l IH]; intros [|i] H E; cbn in *; try discriminate.
  - injection H as ->. now rewrite E.
  - f_equal. now apply IH.
Qed.

Lemma set_nth_in {A} i (x : A) l y : In y (set_nth i x l) -> y = x \/ In y l.
Proof.
  revert i. induction l as [|h l IH]; intros [|i] H; cbn in *; try tauto.
  - destruct H; [left; congruence|tauto].
  - destruct H as [H|H]; [tauto|]. apply IH in H. tauto.
Qed.

Lemma snaps_set i t' l t :
  nth_error l i = Some t -> is_running t = true -> is_running t' = false ->
  NoDup (map tt_read l) -> forall x, In x (snaps (set_nth i t' l)) <-> In x (snaps l) /\ tt_read t <> x.
Proof.
  revert i. induction l as [|h l IH]; intros [|i] H Hr Hr' Hnd x; cbn in *; try discriminate.
  - injection H as ->. unfold snaps. cbn. rewrite Hr, Hr'. cbn. inversion Hnd as [|? ? Hn1 Hn2]; subst.
    split.
    + intros Hx. split; [now right|]. intros E. apply Hn1. rewrite E. apply in_map_iff in Hx as (u & Eu & Hu).
      apply filter_In in Hu as [Hu _]. apply in_map_iff. now exists u.
    + intros [[Hx|Hx] Hne]; [congruence|exact Hx].
  - inversion Hnd as [|? ? Hn1 Hn2]; subst. specialize (IH i H Hr Hr' Hn2 x).
    unfold snaps in *. cbn. destruct (is_running h) eqn:Eh; cbn; [|exact IH].
    split.
    + intros [Hx|Hx].
      * split; [now left|]. intros E. apply Hn1. rewrite Hx, <- E.
        apply in_map. eapply nth_error_In; eauto.
      * apply IH in Hx as [Hx Hne]. split; [now right|exact Hne].
    + intros [[Hx|Hx] Hne]; [now left|]. right. apply IH. now split.
Qed.

Lemma tinv_init : tinv tsys_init.
Proof.
  constructor; cbn.
  - exact new_bounded.
  - intros _. reflexivity.
  - intros x. reflexivity.
  - constructor.
  - tauto.
Qed.

Lemma remove_bounded w ts : bounded w -> bounded (remove_txn w ts) /\ fresh (remove_txn w ts) /\
  wm_mark w <= wm_mark (remove_txn w ts).
Proof.
  intros Hb. pose proof Hb as (_ & Ha & Hmn).
  assert (M : mark_ok (remove_txn w ts)) by apply uw_mark_ok.
  assert (F : fresh (remove_txn w ts)) by apply uw_fresh.
  assert (A : forall x, In x (wm_active (remove_txn w ts)) -> x < wm_next (remove_txn w ts)).
  { intros x Hx. apply remove_in in Hx as [Hx _]. rewrite remove_next. now apply Ha. }
  repeat split; try assumption.
  - apply M; assumption.
  - apply M; assumption.
  - apply mark_bound; assumption.
  - apply mark_le_new; [exact M|exact F| |rewrite remove_next; exact Hmn].
    intros x Hx. apply remove_in in Hx as [Hx _]. now apply old_mark_le.
Qed.

Lemma t_step_inv s o :
  tinv s -> wm_next (ts_wm s) + 2 < 2 ^ 64 ->
  let s' := fst (t_step s o) in
  tinv s' /\ wm_mark (ts_wm s) <= wm_mark (ts_wm s') /\
  wm_next (ts_wm s) <= wm_next (ts_wm s') <= wm_next (ts_wm s) + 1 /\
  (forall ts, snd (t_step s o) = Some ts -> ts = wm_next (ts_wm s) /\ ts < wm_next (ts_wm s')).
Proof.
  intros [Hb Hf Ha Hd Hl] Hroom. cbn zeta. destruct o as [|i|i]; cbn [t_step].
  - destruct (step_bounded (ts_wm s) OpRegister (wm_next (ts_wm s)) Hb I ltac:(lia) ltac:(lia) I) as (B1 & B2 & B3).
    destruct (step_next (ts_wm s) OpRegister (wm_next (ts_wm s)) ltac:(lia) ltac:(lia) I) as (_ & N2 & _).
    cbn [wm_step] in *. unfold get_next_ts_and_register in *. cbn [get_next_ts fst snd issued] in *.
    set (w1 := add_txn _ _) in *. specialize (N2 _ (or_introl eq_refl)). destruct N2 as [_ N2].
    cbn [ts_wm ts_txns]. split; [|split; [exact B3|split; [lia|]]].
    2: { intros ts [= <-]. split; [reflexivity|lia]. }
    constructor; cbn [ts_wm ts_txns].
    + exact B1.
    + apply uw_fresh.
    + intros x. unfold w1. rewrite add_in. cbn [wm_active]. rewrite Ha.
      unfold running_snapshots. cbn [ts_txns]. rewrite filter_app, map_app, in_app_iff. cbn. tauto.
    + rewrite map_app. cbn.
      apply NoDup_rev in Hd. rewrite <- (rev_involutive (map tt_read (ts_txns s) ++ [wm_next (ts_wm s)])).
      apply NoDup_rev. rewrite rev_app_distr. cbn. constructor; [|exact Hd].
      rewrite <- in_rev. intros Hin. apply in_map_iff in Hin as (t & E & Ht). specialize (Hl _ Ht). lia.
    + intros t Ht. apply in_app_iff in Ht as [Ht|[<-|[]]]; [specialize (Hl _ Ht); lia|]. cbn. exact N2.
  - destruct (nth_error (ts_txns s) i) as [t|] eqn:Et; cbn [fst snd].
    2: { (split; [constructor; assumption|]; split; [lia|]; split; [lia|]; discriminate). }
    destruct (tt_state t) eqn:Es; cbn [fst snd].
    2,3: (split; [constructor; assumption|]; split; [lia|]; split; [lia|]; discriminate).
    pose proof (step_bounded (ts_wm s) OpNext (wm_next (ts_wm s)) Hb I ltac:(lia) ltac:(lia) I) as (B1 & B2 & B3).
    cbn [wm_step get_next_ts fst snd] in *. rewrite u64_incr_small in * by lia.
    set (w1 := mkWm _ _ _) in *.
    pose proof (step_bounded w1 (OpCommitTs (wm_next (ts_wm s))) (wm_next (ts_wm s) + 1) B1 I
      ltac:(cbn; lia) ltac:(lia) ltac:(cbn; lia)) as (C1 & C2 & C3).
    cbn [wm_step update_commit_ts_and_get_watermark fst] in *.
    set (w2 := update_commit_ts w1 _) in *.
    assert (N2 : wm_next w2 = wm_next (ts_wm s) + 1).
    { unfold w2. rewrite commit_next, sat_small by lia. cbn. lia. }
    destruct (remove_bounded w2 (tt_read t) C1) as (D1 & D2 & D3).
    set (w3 := remove_txn w2 _) in *.
    assert (N3 : wm_next w3 = wm_next (ts_wm s) + 1) by (unfold w3; now rewrite remove_next).
    assert (R : is_running t = true) by (unfold is_running; now rewrite Es).
    cbn [ts_wm ts_txns]. split; [|split; [|split; [lia|]]].
    + constructor; cbn [ts_wm ts_txns].
      * exact D1.
      * exact D2.
      * intros x. unfold w3. rewrite remove_in. unfold w2. rewrite commit_active. cbn [w1 wm_active].
        rewrite Ha. symmetry.
        exact (snaps_set i (mkTtxn (tt_read t) (Some (wm_next (ts_wm s))) TCommitted)
                 (ts_txns s) t Et R eq_refl Hd x).
      * rewrite (set_nth_reads i _ _ t Et); [exact Hd|reflexivity].
      * intros u Hu. rewrite N3. apply set_nth_in in Hu as [->|Hu].
        -- cbn. specialize (Hl t (nth_error_In _ _ Et)). lia.
        -- specialize (Hl _ Hu). lia.
    + lia.
    + intros ts [= <-]. split; [reflexivity|lia].
  - destruct (nth_error (ts_txns s) i) as [t|] eqn:Et; cbn [fst snd].
    2: { (split; [constructor; assumption|]; split; [lia|]; split; [lia|]; discriminate). }
    destruct (tt_state t) eqn:Es; cbn [fst snd].
    2,3: (split; [constructor; assumption|]; split; [lia|]; split; [lia|]; discriminate).
    destruct (remove_bounded (ts_wm s) (tt_read t) Hb) as (D1 & D2 & D3).
    assert (R : is_running t = true) by (unfold is_running; now rewrite Es).
    cbn [ts_wm ts_txns]. rewrite remove_next. split; [|split; [exact D3|split; [lia|discriminate]]].
    constructor; cbn [ts_wm ts_txns].
    + exact D1.
    + exact D2.
    + intros x. rewrite remove_in, Ha. symmetry.
      exact (snaps_set i (mkTtxn (tt_read t) (tt_commit t) TAborted) (ts_txns s) t Et R eq_refl Hd x).
    + rewrite (set_nth_reads i _ _ t Et); [exact Hd|reflexivity].
    + intros u Hu. rewrite remove_next. apply set_nth_in in Hu as [->|Hu].
      * cbn. exact (Hl t (nth_error_In _ _ Et)).
      * now apply Hl.
Qed.

Lemma t_issued_cons r rs : t_issued (r :: rs) = (match r with Some t => [t] | None => [] end) ++ t_issued rs.
Proof. now destruct r. Qed.

Lemma t_run_inv ops : forall s,
  tinv s -> wm_next (ts_wm s) + N.of_nat (length ops) + 2 < 2 ^ 64 ->
  let (s', rs) := t_run_from s ops in
  tinv s' /\ wm_mark (ts_wm s) <= wm_mark (ts_wm s') /\
  wm_next (ts_wm s) <= wm_next (ts_wm s') <= wm_next (ts_wm s) + N.of_nat (length ops) /\
  increasing (t_issued rs) /\
  (forall ts, In ts (t_issued rs) -> wm_next (ts_wm s) <= ts < wm_next (ts_wm s')).
Proof.
  induction ops as [|o ops IH]; intros s Hi Hroom; cbn [t_run_from length] in *.
  - cbn [t_issued increasing]. split; [exact Hi|]. split; [lia|]. split; [cbn [N.of_nat]; lia|]. split; [exact I|]. contradiction.
  - pose proof (t_step_inv s o Hi ltac:(lia)) as S. cbn zeta in S.
    destruct (t_step s o) as [s1 r]. cbn [fst snd] in S. destruct S as (S1 & S2 & S3 & S4).
    specialize (IH s1 S1 ltac:(lia)). destruct (t_run_from s1 ops) as [s2 rs].
    destruct IH as (I1 & I2 & I3 & I4 & I5). rewrite t_issued_cons.
    split; [exact I1|]. split; [lia|]. split; [lia|]. split.
    + destruct r as [t|]; [|exact I4]. cbn. split; [|exact I4].
      intros y Hy. specialize (I5 _ Hy). specialize (S4 _ eq_refl). lia.
    + intros ts Hts. apply in_app_iff in Hts as [Hts|Hts].
      * destruct r as [t|]; [|destruct Hts]. destruct Hts as [<-|[]]. specialize (S4 _ eq_refl). lia.
      * specialize (I5 _ Hts). lia.
Qed.

Lemma t_watermark ops :
  N.of_nat (length ops) + 3 < 2 ^ 64 ->
  let s := fst (t_run ops) in
  (running_snapshots s <> [] -> smallest (get_watermark (ts_wm s)) (running_snapshots s)) /\
  (running_snapshots s = [] -> get_watermark (ts_wm s) = snd (get_next_ts (ts_wm s))).
Proof.
  intros Hroom. pose proof (t_run_inv ops tsys_init tinv_init ltac:(cbn [ts_wm tsys_init wm_new wm_next]; lia)) as R.
  unfold t_run. destruct (t_run_from tsys_init ops) as [s rs]. cbn [fst].
  destruct R as ([Hb Hf Ha Hd Hl] & _). split.
  - intros Hne. apply (smallest_ext _ _ _ Ha). apply Hb. intros E. apply Hne.
    destruct (running_snapshots s) as [|x l]; [reflexivity|]. exfalso.
    specialize (Ha x). rewrite E in Ha. apply Ha. now left.
  - intros E. apply Hf. destruct (wm_active (ts_wm s)) as [|x l]; [reflexivity|]. exfalso.
    specialize (Ha x). rewrite E in Ha. apply Ha. now left.
Qed.

Lemma t_run_from_app s ops1 ops2 :
  t_run_from s (ops1 ++ ops2) =
  let (s1, r1) := t_run_from s ops1 in
  let (s2, r2) := t_run_from s1 ops2 in (s2, r1 ++ r2).
Proof.
  revert s. induction ops1 as [|o ops1 IH]; intros s; cbn [app t_run_from].
  - now destruct (t_run_from s ops2).
  - destruct (t_step s o) as [s1 r]. rewrite IH.
    destruct (t_run_from s1 ops1) as [s2 r1]. now destruct (t_run_from s2 ops2).
Qed.

Lemma t_monotone ops1 ops2 :
  N.of_nat (length (ops1 ++ ops2)) + 3 < 2 ^ 64 ->
  get_watermark (ts_wm (fst (t_run ops1))) <= get_watermark (ts_wm (fst (t_run (ops1 ++ ops2)))).
Proof.
  intros Hroom. rewrite app_length in Hroom. unfold t_run. rewrite t_run_from_app.
  pose proof (t_run_inv ops1 tsys_init tinv_init ltac:(cbn [ts_wm tsys_init wm_new wm_next]; lia)) as R1.
  destruct (t_run_from tsys_init ops1) as [s1 r1]. destruct R1 as (I1 & _ & N1 & _).
  cbn [ts_wm tsys_init wm_new wm_next] in N1.
  pose proof (t_run_inv ops2 s1 I1 ltac:(lia)) as R2.
  destruct (t_run_from s1 ops2) as [s2 r2]. cbn [fst]. apply R2.
Qed.

Lemma t_issued_increasing ops :
  N.of_nat (length ops) + 3 < 2 ^ 64 -> increasing (t_issued (snd (t_run ops))).
Proof.
  intros Hroom. pose proof (t_run_inv ops tsys_init tinv_init ltac:(cbn [ts_wm tsys_init wm_new wm_next]; lia)) as R.
  unfold t_run. destruct (t_run_from tsys_init ops) as [s rs]. cbn [snd]. apply R.
Qed.
