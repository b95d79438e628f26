(** * C34, C35: durability of commits and log sequence numbers *)
From Coq Require Import NArith Lia Sorted.
From stdpp Require Import list.
From Verif Require Import WalSpec WalModel WalProofs.
Local Open Scope N_scope.

(** C34, as long as no log write failed and the log was not shut down, and but for the record with number 0 after a recovery:
    when a commit returns, it and every record the process appended before it are on the device, in order, whatever happens
    afterwards, crashes included. *)
Theorem wal_commit_durable_partial : forall ls s t1 r t2,
  wrun fresh ls = Some (s, t1 ++ ERet r :: t2) ->
  N.of_nat (length (t1 ++ ERet r :: t2)) < no_lsn ->
  r_commit r = true -> calm t1 -> recovered t1 = false \/ r_lsn r <> 0 ->
  exists pre l post, appended t1 = l ++ [r] /\ w_dev s = pre ++ map IRec (l ++ [r]) ++ post.
Proof.
  intros ls s t1 r t2 Hr Hb Hcom Hcalm Hrec.
  destruct (wrun_split _ _ _ _ _ _ Hr) as (l1 & l & l2 & sa & sb & Ha & Hstep & Hrest).
  rewrite app_length in Hb. cbn [length] in Hb.
  destruct (winv_run l1 fresh [] [] [] sa t1 winv_fresh) as (pre & W & H); [cbn [app]; lia|done|]. cbn [app] in H.
  assert (l = LRet) as ->.
  { destruct l; try done; cbn in Hstep; unfold append, flush_step in Hstep;
      repeat match type of Hstep with context [match ?x with _ => _ end] => destruct x eqn:? end; discriminate Hstep. }
  cbn in Hstep. unfold ret in Hstep. destruct (w_app sa) as [[r' []]|] eqn:Eapp; try done.
  destruct H as [Hf Hp Hn Hx Hsub Happ Hc]. destruct (Hc Hcalm) as (H1 & H2 & H3 & H4 & H5).
  rewrite H3 in Hstep. cbn [negb] in Hstep. rewrite andb_true_r in Hstep.
  assert (r' = r) as ->. { destruct (r_commit r' && must_wait sa (r_lsn r')); [done|]. by inversion Hstep. }
  rewrite Hcom in Hstep. cbn [andb] in Hstep. destruct (must_wait sa (r_lsn r)) eqn:Hw; [done|].
  assert (sb = set_app sa None) as -> by (by inversion Hstep).
  destruct (Happ r true Eapp) as [l Hl].
  destruct (H5 _ Hw) as [[Hr1 Hr2]|[_ [post Hpost]]]. { destruct Hrec; congruence. }
  assert (r_lsn r = N.of_nat (length l)) as Elsn. { apply Hn. rewrite Hl. by rewrite list_lookup_middle. }
  rewrite Elsn, Nat2N.id, Hl in Hpost. rewrite take_ge in Hpost by (rewrite app_length; cbn; lia).
  destruct (wrun_dev _ _ _ _ Hrest) as [q Hq]. cbn in Hq.
  exists pre, l, (post ++ q). split; [done|]. by rewrite Hq, Hpost, <- !app_assoc.
Qed.
Print Assumptions wal_commit_durable_partial.

(** A begin and a commit, flushed together; the database is opened again and loses what was not flushed. *)
Definition b0 := mkLrec 0 false 5.
Definition c1 := mkLrec 1 true 6.
Definition ok_run : list wlab :=
  [LAppend false 5; LSend; LRet; LAppend true 6; LSend; LFlush None; LFlush None; LFlush None; LFlush None; LFlush None;
   LFlush None; LFlush None; LRet; LAppend false 9; LSend; LRet; LFlush None; LFlush None; LFlush None; LFlush None; LCrash 0 true true].
Example wal_commit_durable_ex : exists s,
  wrun fresh ok_run = Some (s, [EApp b0; ERet b0; EApp c1] ++ ERet c1 :: [EApp (mkLrec 2 false 9); ERet (mkLrec 2 false 9); ERestart true]) /\
  calm [EApp b0; ERet b0; EApp c1] /\ r_commit c1 = true /\ w_dev s = [IRec b0; IRec c1; ITorn].
Proof.
  eexists. split; [vm_compute; reflexivity|]. split; [|done].
  split; intros H; cbn in H; apply elem_of_list_In in H; cbn in H; repeat destruct H as [H|H]; done.
Qed.

(** C34 as stated is false. A commit returns after its record could not be written, and a crash loses it. *)
Theorem wal_commit_durable_refuted : exists ls s t1 r t2,
  wrun fresh ls = Some (s, t1 ++ ERet r :: t2) /\ r_commit r = true /\ recovered t1 = false /\ w_dev s = [].
Proof.
  exists [LAppend true 7; LSend; LFlush None; LFlush None; LFlush None; LFlush (Some false); LRet; LCrash 0 false true].
  eexists _, [EApp (mkLrec 0 true 7); EFail], _, [ERestart true]. by split; [vm_compute; reflexivity|].
Qed.
Print Assumptions wal_commit_durable_refuted.

(** Nor does it hold without failures: after a recovery the first record counts as flushed. *)
Theorem wal_first_commit_refuted : exists ls s t1 r t2,
  wrun fresh ls = Some (s, t1 ++ ERet r :: t2) /\ r_commit r = true /\ calm t1 /\ w_dev s = [].
Proof.
  exists [LCrash 0 false true; LAppend true 7; LSend; LRet; LCrash 0 false true].
  eexists _, [ERestart true; EApp (mkLrec 0 true 7)], _, [ERestart true].
  split; [vm_compute; reflexivity|]. split; [done|]. split; [|done].
  split; intros H; cbn in H; apply elem_of_list_In in H; cbn in H; repeat destruct H as [H|H]; done.
Qed.
Print Assumptions wal_first_commit_refuted.

(** And once the flush task has ended, every commit returns and none is written. *)
Theorem wal_commit_lost_when_stopped : forall ls s tr body,
  wrun fresh ls = Some (s, tr) -> w_fl s = FDead -> w_app s = None -> w_join s = false -> w_stop s = true ->
  exists s', wrun s [LAppend true body; LSend; LRet] = Some (s', [EApp (mkLrec (w_next s) true body); ERet (mkLrec (w_next s) true body)]) /\
    w_dev s' = w_dev s /\ w_os s' = w_os s /\ w_chan s' = w_chan s /\ w_fl s' = FDead.
Proof.
  intros ls s tr body _ Hfl Happ Hj Hst. cbn. unfold append. rewrite Happ, Hj. cbn. unfold send. cbn. rewrite Hfl. cbn.
  unfold ret, must_wait. cbn. rewrite Hst. cbn. rewrite andb_false_r. eexists. split; [reflexivity|]. cbn. by rewrite ?Hfl.
Qed.
Print Assumptions wal_commit_lost_when_stopped.
Example wal_commit_lost_when_stopped_ex : exists s tr,
  wrun fresh [LShut; LFlush None; LFlush None; LJoined] = Some (s, tr) /\
  w_fl s = FDead /\ w_app s = None /\ w_join s = false /\ w_stop s = true.
Proof. eexists _, _. by split; [vm_compute; reflexivity|]. Qed.

Lemma numbered_sorted A : numbered A -> StronglySorted N.lt (map r_lsn A).
Proof.
  intros H. assert (forall k, (forall i r, A !! i = Some r -> r_lsn r = N.of_nat (k + i)) -> StronglySorted N.lt (map r_lsn A)) as G.
  { clear H. induction A as [|r A IH]; intros k H; cbn; constructor.
    - apply (IH (S k)). intros i x Hx. rewrite (H (S i) x Hx). f_equal. lia.
    - apply Forall_forall. intros y Hy. apply elem_of_list_In, in_map_iff in Hy as (x & <- & Hx).
      apply elem_of_list_In, elem_of_list_lookup in Hx as [i Hi].
      rewrite (H 0%nat r eq_refl), (H (S i) x Hi). lia. }
  apply (G 0%nat). intros i r Hr. by apply H.
Qed.
Lemma sorted_sublist (a b : list N) : a `sublist_of` b -> StronglySorted N.lt b -> StronglySorted N.lt a.
Proof.
  induction 1 as [|x a b Hs IH|x a b Hs IH]; intros Hb; [done| |].
  - inversion Hb; subst. constructor; [by apply IH|]. apply Forall_forall. intros y Hy.
    rewrite Forall_forall in H2. apply H2. eapply elem_of_submseteq; [done|by apply sublist_submseteq].
  - apply IH. by inversion Hb.
Qed.
Lemma sublist_map (a b : list lrec) : a `sublist_of` b -> map r_lsn a `sublist_of` map r_lsn b.
Proof. induction 1; cbn; by constructor. Qed.

(** C35, within one process: records are numbered 0, 1, 2, ... in the order in which they are appended, and the records the
    process has added to the file have increasing numbers, whatever failed. *)
Theorem wal_lsns_partial : forall ls s tr,
  wrun fresh ls = Some (s, tr) -> N.of_nat (length tr) < no_lsn ->
  (forall i r, appended tr !! i = Some r -> r_lsn r = N.of_nat i) /\
  exists old new, w_dev s ++ w_os s = old ++ new /\
    recs new `sublist_of` appended tr /\ StronglySorted N.lt (map r_lsn (recs new)).
Proof.
  intros ls s tr Hr Hb. destruct (winv_run ls fresh [] [] [] s tr winv_fresh Hb Hr) as (pre & W & [Hf Hp Hn Hx Hsub Happ Hc]).
  cbn [app] in *. split; [exact Hn|]. exists pre, W.
  assert (recs W `sublist_of` appended tr) as Hs. { etrans; [|exact Hsub]. by apply sublist_inserts_r. }
  split; [done|]. split; [done|]. eapply sorted_sublist; [by apply sublist_map|]. by apply numbered_sorted.
Qed.
Print Assumptions wal_lsns_partial.
Example wal_lsns_ex : exists s tr, wrun fresh (firstn 20 ok_run) = Some (s, tr) /\
  appended tr = [b0; c1; mkLrec 2 false 9] /\ recs (w_dev s ++ w_os s) = appended tr.
Proof. eexists _, _. split; [vm_compute; reflexivity|]. done. Qed.

(** C35 is false across restarts: numbering starts again at 0, always, so the file gets two records with one number. *)
Theorem wal_lsns_restart : forall s n torn recovery c body s' e,
  wrun s [LCrash n torn recovery; LAppend c body] = Some (s', e) -> e = [ERestart recovery; EApp (mkLrec 0 c body)].
Proof. intros s n torn recovery c body s' e H. cbn in H. by inversion H. Qed.
Print Assumptions wal_lsns_restart.
Theorem wal_lsns_refuted : exists ls s tr r r',
  wrun fresh ls = Some (s, tr) /\ IRec r ∈ w_dev s /\ IRec r' ∈ w_dev s /\ r_lsn r = r_lsn r' /\ r_body r <> r_body r'.
Proof.
  exists (ok_run ++ [LAppend false 8; LSend; LRet; LFlush None; LFlush None; LFlush None; LFlush None; LFlush None; LFlush None]).
  eexists _, _, b0, (mkLrec 0 false 8). split; [vm_compute; reflexivity|].
  split; [apply elem_of_list_In; cbn; tauto|]. split; [apply elem_of_list_In; cbn; tauto|]. done.
Qed.
Print Assumptions wal_lsns_refuted.
