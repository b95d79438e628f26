(** C02 and C03: the watermark and the timestamp oracle. *)
From Coq Require Import List NArith Lia.
From Verif Require Import WatermarkModel WatermarkSpec WatermarkProofs.
Import ListNotations.
Local Open Scope N_scope.

(** C02. After any history of calls, if some timestamp is registered then the
    watermark is the smallest registered one. *)
Theorem c02_watermark_is_oldest_registered : forall ops,
  let (w, tr) := wm_run ops in
  registered tr <> [] -> smallest (get_watermark w) (registered tr).
Proof. exact watermark_is_min. Qed.
Print Assumptions c02_watermark_is_oldest_registered.
Example c02_watermark_is_oldest_registered_ex :
  let (w, tr) := wm_run [OpRegister; OpRegister; OpCommitTs 7; OpRegister; OpUnregister 1] in
  registered tr = [8; 2] /\ get_watermark w = 2.
Proof. split; reflexivity. Qed.

(** C02. With nothing registered the watermark is the next timestamp, as long as
    the last call was not a bare [get_next_ts]. *)
Theorem c02_watermark_when_idle_partial : forall ops o,
  o <> OpNext ->
  let (w, tr) := wm_run (ops ++ [o]) in
  registered tr = [] -> get_watermark w = snd (get_next_ts w).
Proof. exact watermark_when_idle. Qed.
Print Assumptions c02_watermark_when_idle_partial.
Example c02_watermark_when_idle_partial_ex :
  let (w, tr) := wm_run ([OpRegister; OpCommitTs 4] ++ [OpUnregister 1]) in
  registered tr = [] /\ get_watermark w = 5.
Proof. split; reflexivity. Qed.

(** C02, refuted part: after a bare [get_next_ts] the idle watermark lags behind
    the next timestamp ("at every moment" fails). *)
Theorem c02_watermark_when_idle_refuted : exists ops,
  let (w, tr) := wm_run ops in
  registered tr = [] /\ get_watermark w <> snd (get_next_ts w).
Proof. exists [OpNext]. cbn. split; [reflexivity|discriminate]. Qed.
Print Assumptions c02_watermark_when_idle_refuted.

(** C02. Even then it never runs ahead of the next timestamp. *)
Theorem c02_watermark_never_ahead : forall M ops,
  no_overflow M ops -> (forall ts, ~ In (OpAdd ts) ops) ->
  let w := fst (wm_run ops) in get_watermark w <= snd (get_next_ts w).
Proof. exact watermark_le_next. Qed.
Print Assumptions c02_watermark_never_ahead.
Example c02_watermark_never_ahead_ex : no_overflow 9 [OpNext; OpCommitTs 9; OpRegister].
Proof. split; [|reflexivity]. intros ts [H|[H|[H|[]]]]; try discriminate. injection H as <-. discriminate. Qed.

(** C02. The watermark never moves backwards when timestamps are registered as
    they are issued. *)
Theorem c02_watermark_monotone : forall M ops1 ops2,
  no_overflow M (ops1 ++ ops2) -> (forall ts, ~ In (OpAdd ts) (ops1 ++ ops2)) ->
  get_watermark (fst (wm_run ops1)) <= get_watermark (fst (wm_run (ops1 ++ ops2))).
Proof. exact watermark_monotone. Qed.
Print Assumptions c02_watermark_monotone.
Example c02_watermark_monotone_ex :
  no_overflow 9 ([OpRegister; OpNext] ++ [OpCommitTs 9; OpUnregister 1]) /\
  get_watermark (fst (wm_run ([OpRegister; OpNext] ++ [OpCommitTs 9; OpUnregister 1]))) = 10.
Proof.
  split; [split; [|reflexivity]|reflexivity].
  intros ts [H|[H|[H|[H|[]]]]]; try discriminate. injection H as <-. discriminate.
Qed.

(** C02, refuted part: issuing a timestamp and registering it in a later call
    can move the watermark backwards, although the timestamp came from the oracle. *)
Theorem c02_split_registration_refuted : exists ops1 ts ops2,
  In ts (issued (snd (wm_run ops1))) /\
  get_watermark (fst (wm_run (ops1 ++ ops2))) > get_watermark (fst (wm_run ((ops1 ++ ops2) ++ [OpAdd ts]))).
Proof. exists [OpNext], 1, [OpCommitTs 1]. cbn. split; [now left|reflexivity]. Qed.
Print Assumptions c02_split_registration_refuted.

(** C02 for transactions: after any history of begin / commit / abort calls the
    watermark is the oldest snapshot of a running transaction, or the next
    timestamp when none is running. *)
Theorem c02_transactions : forall ops,
  N.of_nat (length ops) + 3 < 2 ^ 64 ->
  let s := fst (t_run ops) in
  (running_snapshots s <> [] -> smallest (get_watermark (ts_wm s)) (running_snapshots s)) /\
  (running_snapshots s = [] -> get_watermark (ts_wm s) = snd (get_next_ts (ts_wm s))).
Proof. exact t_watermark. Qed.
Print Assumptions c02_transactions.
Example c02_transactions_ex :
  let s := fst (t_run [TBegin; TBegin; TCommit 0; TBegin; TAbort 0; TCommit 7]) in
  running_snapshots s = [2; 4] /\ get_watermark (ts_wm s) = 2.
Proof. split; reflexivity. Qed.

(** C02 for transactions: monotone. *)
Theorem c02_transactions_monotone : forall ops1 ops2,
  N.of_nat (length (ops1 ++ ops2)) + 3 < 2 ^ 64 ->
  get_watermark (ts_wm (fst (t_run ops1))) <= get_watermark (ts_wm (fst (t_run (ops1 ++ ops2)))).
Proof. exact t_monotone. Qed.
Print Assumptions c02_transactions_monotone.
Example c02_transactions_monotone_ex :
  get_watermark (ts_wm (fst (t_run [TBegin; TBegin]))) = 1 /\
  get_watermark (ts_wm (fst (t_run ([TBegin; TBegin] ++ [TAbort 1; TCommit 0])))) = 4.
Proof. split; reflexivity. Qed.

(** C03. The oracle hands out strictly increasing timestamps. *)
Theorem c03_issued_increasing : forall M ops,
  no_overflow M ops -> increasing (issued (snd (wm_run ops))).
Proof. exact issued_increasing. Qed.
Print Assumptions c03_issued_increasing.
Example c03_issued_increasing_ex :
  no_overflow 20 [OpRegister; OpCommitTs 20; OpNext; OpAdd 3; OpRegister] /\
  issued (snd (wm_run [OpRegister; OpCommitTs 20; OpNext; OpAdd 3; OpRegister])) = [1; 21; 22].
Proof.
  split; [split; [|reflexivity]|reflexivity].
  intros ts H. cbn in H. destruct H as [H|[H|[H|[H|[H|[]]]]]]; try discriminate. injection H as <-. discriminate.
Qed.

(** C03. Once a commit timestamp has been reported, everything issued later is larger. *)
Theorem c03_issued_after_commit : forall M ops1 ts ops2 t,
  no_overflow M (ops1 ++ OpCommitTs ts :: ops2) ->
  In t (issued (snd (wm_run_from (fst (wm_run (ops1 ++ [OpCommitTs ts]))) ops2))) -> ts < t.
Proof. exact issued_after_commit. Qed.
Print Assumptions c03_issued_after_commit.
Example c03_issued_after_commit_ex :
  In 21 (issued (snd (wm_run_from (fst (wm_run ([OpNext] ++ [OpCommitTs 20]))) [OpRegister]))).
Proof. left. reflexivity. Qed.

(** C03 for transactions: snapshots and commit timestamps, in the order the calls
    return them, are strictly increasing; so no two are equal and a commit
    timestamp exceeds everything issued before it. *)
Theorem c03_transactions : forall ops,
  N.of_nat (length ops) + 3 < 2 ^ 64 -> increasing (t_issued (snd (t_run ops))).
Proof. exact t_issued_increasing. Qed.
Print Assumptions c03_transactions.
Example c03_transactions_ex :
  t_issued (snd (t_run [TBegin; TBegin; TCommit 0; TBegin; TAbort 0; TCommit 1])) = [1; 2; 3; 4; 5].
Proof. reflexivity. Qed.

(** Without the overflow hypothesis uniqueness fails: at the end of the u64 range
    the counter wraps to 0. *)
Theorem c03_wraparound_refuted : exists ops,
  ~ increasing (issued (snd (wm_run ops))).
Proof.
  exists [OpCommitTs (2 ^ 64 - 1); OpNext; OpNext]. vm_compute. intros [H _].
  specialize (H 0 (or_introl eq_refl)). discriminate.
Qed.
Print Assumptions c03_wraparound_refuted.
