(** * C75: UPDATE and DELETE change exactly the matching rows *)
From stdpp Require Import gmap list.
From Coq Require Import NArith Lia ZifyBool ZifyNat ZifyN.
From Verif Require Import WatermarkModel WatermarkProofs MvccModel MvccSpec MvccRowProofs MvccProofs MvccDecide
  UpdSpec UpdModel UpdProofs.
Local Open Scope N_scope.

Definition r0 : rid := (0, 0).
Definition r1 : rid := (0, 1).
Definition r2 : rid := (0, 2).
Notation results ops := (mrun mv_init ops).1.
Notation final ops := (mrun mv_init ops).2.

(** After a calm history (see C25), an UPDATE of a transaction with snapshot reads that succeeds has changed the rows it saw that
    match, and no others, each computed from the row as it was; it reports their number; and the other transactions with
    snapshot reads see what they saw before.

    Not covered (hence _partial): READ COMMITTED and READ UNCOMMITTED, histories that are not calm, and a running transaction
    0 (see below). *)
Theorem update_exact_partial ops rs st t a slots pick f k st' :
  mrun mv_init ops = (rs, st) -> calm_history world0 (zip ops rs) -> N.of_nat (length ops) + 3 < 2 ^ 64 ->
  now (world_after ops rs) !! t = Some a -> snapshot_level (a_level a) ->
  (now (world_after ops rs) !! 0 = None \/ t = 0) ->
  NoDup slots -> update_scan t pick f slots 0 st = (Some k, st') ->
  (forall rd, rd ∈ slots -> read st' t rd = updated pick f (read st t rd)) /\
  (forall rd, rd ∉ slots -> read st' t rd = read st t rd) /\
  (forall rd y, rd ∈ slots -> read st t rd = Some y -> pick y = true -> exists y', f y = Some y') /\
  k = length (matching pick (read st t) slots) /\
  (forall u b rd, u <> t -> now (world_after ops rs) !! u = Some b -> snapshot_level (a_level b) -> read st' u rd = read st u rd).
Proof.
  intros R C L Ha Hl Z ND E. destruct (history_inv ops rs st R C L) as [HI _].
  destruct (update_scan_ok t pick f slots 0 k st st' _ a E HI Ha Hl Z ND) as (w' & a' & I' & [O1 O2 O3 O4 O5] & K & G).
  assert (forall rd, read st' t rd = seen w' a' rd) as R' by (intros rd; apply inv_read; [done|done|by rewrite O2]).
  assert (forall rd, read st t rd = seen (world_after ops rs) a rd) as R0 by (intros rd; by apply inv_read).
  split; [|split; [|split; [|split]]].
  - intros rd X. by rewrite R', O3, decide_True, R0.
  - intros rd X. by rewrite R', O3, decide_False, R0.
  - intros rd y X Y. rewrite R0 in Y. by apply (G rd).
  - rewrite K. rewrite (matching_ext pick (read st t) (seen (world_after ops rs) a)); [lia|done].
  - intros u b rd U B Lb. rewrite (inv_read st' w' u b); [|done|by rewrite O4|done].
    rewrite (inv_read st (world_after ops rs) u b); [|done..]. apply O5.
Qed.
Print Assumptions update_exact_partial.

(** Three rows, two of which match; a second transaction looks on. *)
Definition start : list mop :=
  [OBegin LSnap; OInsert 0 r0 10; OInsert 0 r1 11; OInsert 0 r2 12; OCommit 0; OBegin LSnap; OBegin LRR].
Definition small (y : tuple) : bool := y <? 12.
Definition plus (y : tuple) : option tuple := Some (y + 100).
Example update_exact_ex :
  calm_history world0 (zip start (results start)) /\
  (exists a, now (world_after start (results start)) !! 1 = Some a /\ snapshot_level (a_level a)) /\
  now (world_after start (results start)) !! 0 = None /\
  let r := update_scan 1 small plus [r0; r1; r2] 0 (final start) in
  r.1 = Some 2%nat /\ map (read r.2 1) [r0; r1; r2] = [Some 110; Some 111; Some 12] /\
  map (read r.2 2) [r0; r1; r2] = [Some 10; Some 11; Some 12].
Proof.
  split; [apply calm_historyb_ok; vm_compute; reflexivity|].
  split; [eexists; split; [vm_compute; reflexivity|cbn; unfold snapshot_level; tauto]|].
  repeat split; vm_compute; reflexivity.
Qed.

(** The same for DELETE. *)
Theorem delete_exact_partial ops rs st t a slots pick k st' :
  mrun mv_init ops = (rs, st) -> calm_history world0 (zip ops rs) -> N.of_nat (length ops) + 3 < 2 ^ 64 ->
  now (world_after ops rs) !! t = Some a -> snapshot_level (a_level a) ->
  NoDup slots -> delete_scan t pick slots 0 st = (Some k, st') ->
  (forall rd, rd ∈ slots -> read st' t rd = remaining pick (read st t rd)) /\
  (forall rd, rd ∉ slots -> read st' t rd = read st t rd) /\
  k = length (matching pick (read st t) slots) /\
  (forall u b rd, u <> t -> now (world_after ops rs) !! u = Some b -> snapshot_level (a_level b) -> read st' u rd = read st u rd).
Proof.
  intros R C L Ha Hl ND E. destruct (history_inv ops rs st R C L) as [HI _].
  destruct (delete_scan_ok t pick slots 0 k st st' _ a E HI Ha Hl ND) as (w' & a' & I' & [O1 O2 O3 O4 O5] & K).
  assert (forall rd, read st' t rd = seen w' a' rd) as R' by (intros rd; apply inv_read; [done|done|by rewrite O2]).
  assert (forall rd, read st t rd = seen (world_after ops rs) a rd) as R0 by (intros rd; by apply inv_read).
  split; [|split; [|split]].
  - intros rd X. by rewrite R', O3, decide_True, R0.
  - intros rd X. by rewrite R', O3, decide_False, R0.
  - rewrite K. rewrite (matching_ext pick (read st t) (seen (world_after ops rs) a)); [lia|done].
  - intros u b rd U B Lb. rewrite (inv_read st' w' u b); [|done|by rewrite O4|done].
    rewrite (inv_read st (world_after ops rs) u b); [|done..]. apply O5.
Qed.
Print Assumptions delete_exact_partial.
Example delete_exact_ex :
  let r := delete_scan 1 small [r0; r1; r2] 0 (final start) in
  r.1 = Some 2%nat /\ map (read r.2 1) [r0; r1; r2] = [None; None; Some 12] /\
  map (read r.2 2) [r0; r1; r2] = [Some 10; Some 11; Some 12].
Proof. repeat split; vm_compute; reflexivity. Qed.

(** An UPDATE whose rows include one that the transaction itself has inserted or updated fails, in every state, and ... *)
Theorem update_own_row_refuted st t x rd y i pick f y' slots n :
  t <> 0 -> running st t = Some x -> pg st !! rd = Some (Meta t None false i, y) -> pick y = true -> f y = Some y' ->
  x_level x <> LRC -> update_scan t pick f (rd :: slots) n st = (None, st).
Proof.
  intros T Rn P Pk F Lv. cbn [update_scan]. apply running_spec in Rn as Rx. destruct Rx as [Hx _].
  assert (read st t rd = Some y) as ->.
  { unfold read, resolve. rewrite P, Hx. cbn [fst snd m_del].
    unfold get_visible, visibility. cbn [fst snd m_creator m_del]. rewrite N.eqb_refl. by destruct (x_level x). }
  rewrite Pk, F. unfold update. rewrite Rn, P. cbn [m_del m_creator].
  assert (t =? 0 = false) as -> by lia. done.
Qed.
Print Assumptions update_own_row_refuted.
Example update_own_row_ex :
  let ops := start ++ [OInsert 1 (0, 3) 9] in
  pg (final ops) !! (0, 3) = Some (Meta 1 None false None, 9) /\
  update_scan 1 small plus [(0, 3)] 0 (final ops) = (None, final ops).
Proof. split; vm_compute; reflexivity. Qed.

(** ... leaves the rows before that one changed: the transaction that got the error sees them changed. *)
Theorem update_halfway_refuted :
  exists ops slots k, calm_history world0 (zip ops (results ops)) /\ NoDup slots /\
    let r := update_scan 1 small plus slots 0 (final ops) in
    r.1 = None /\ read (final ops) 1 k = Some 10 /\ read r.2 1 k = Some 110.
Proof.
  exists (start ++ [OInsert 1 (0, 3) 9]), [r0; r1; r2; (0, 3)], r0.
  split; [apply calm_historyb_ok; vm_compute; reflexivity|].
  split; [apply (bool_decide_unpack _); vm_compute; exact I|]. repeat split; vm_compute; reflexivity.
Qed.
Print Assumptions update_halfway_refuted.

(** With transaction 0 running, an UPDATE of another one is let through to its uncommitted row. Transaction 0 updates a row to 7
    and commits, the other one rolls back: a later transaction does not see 7. Without the UPDATE it does. *)
Theorem update_others_row_refuted :
  exists ops ops2, calm_history world0 (zip ops (results ops)) /\
    let st := final ops in
    let r := update_scan 2 small plus [r0] 0 st in
    r.1 = Some 1%nat /\
    read (mrun st ops2).2 3 r0 = Some 7 /\ read (mrun r.2 ops2).2 3 r0 <> Some 7.
Proof.
  exists [OBegin LSnap; OBegin LSnap; OInsert 1 r0 10; OCommit 1; OUpdate 0 0 r0 7; OBegin LSnap],
    [OCommit 0; OAbort 2; OBegin LSnap].
  split; [apply calm_historyb_ok; vm_compute; reflexivity|].
  split; [vm_compute; reflexivity|]. split; [vm_compute; reflexivity|]. vm_compute. intros H. discriminate H.
Qed.
Print Assumptions update_others_row_refuted.
