(** C133: the figures of the performance monitor say what was reported to it. *)

From Coq Require Import List ZArith QArith Qminmax Bool Lia Lqa.
From Verif Require Import PmonSpec PmonModel.
Import ListNotations.
Open Scope Z_scope.

Lemma after_snoc h e : after (h ++ [e]) = step (after h) e.
Proof. unfold after. rewrite fold_left_app. reflexivity. Qed.

Lemma since_snoc h e :
  since_reset (h ++ [e]) =
  match e with Reset => [] | _ => since_reset h ++ [e] end.
Proof.
  induction h as [| x h IH].
  - destruct e; reflexivity.
  - cbn [app since_reset]. rewrite existsb_app. cbn [existsb].
    destruct e; cbn [orb]; rewrite ?orb_true_r, ?orb_false_r;
      try exact IH;
      (destruct (existsb _ h); [exact IH | destruct x; reflexivity]).
Qed.

Lemma how_many_snoc p h e : how_many p (h ++ [e]) = how_many p h + (if p e then 1 else 0).
Proof.
  unfold how_many. rewrite filter_app, app_length. cbn [filter].
  destruct (p e); cbn [List.length]; lia.
Qed.

(** The counters of fetches, of the disk, of locks asked for and in conflict and of
    chains walked count what was reported since the last reset. *)
Theorem c133_counts :
  forall h,
    let m := after h in let s := since_reset h in
    hits m = how_many is_hit s /\ misses m = how_many is_miss s /\
    reads m = how_many is_read s /\ writes m = how_many is_write_ s /\
    requests m = how_many is_request s /\ conflicts m = how_many is_conflict s /\
    traversals m = how_many is_traversal s.
Proof.
  intros h. cbv zeta. induction h as [| e h IH] using rev_ind.
  - repeat split.
  - rewrite after_snoc, since_snoc.
    destruct IH as [H1 [H2 [H3 [H4 [H5 [H6 H7]]]]]].
    destruct e as [b | w l s | i w c | n | |]; cbn [step];
      rewrite ?how_many_snoc;
      unfold record_buffer, record_disk, record_lock, record_traversal, record_check,
        reset, plus_if; cbn [hits misses reads writes requests conflicts traversals];
      rewrite ?H1, ?H2, ?H3, ?H4, ?H5, ?H6, ?H7;
      cbn [is_hit is_miss is_read is_write_ is_request is_conflict is_traversal];
      repeat match goal with b : bool |- _ => destruct b end; cbn [negb];
      repeat split; lia.
Qed.

Example c133_counts_ex :
  let h := [Fetch true; Lock true 0 false; Reset; Fetch true; Fetch false; Lock false 5 true] in
  hits (after h) = 1 /\ misses (after h) = 1 /\ requests (after h) = 1 /\
  since_reset h = [Fetch true; Fetch false; Lock false 5 true].
Proof. repeat split. Qed.

(** No eviction is ever counted. *)
Lemma no_evictions h : evictions (after h) = 0.
Proof.
  induction h as [| e h IH] using rev_ind; [reflexivity |].
  rewrite after_snoc. destruct e; cbn [step]; exact IH.
Qed.

Lemma how_many_nonneg p h : 0 <= how_many p h.
Proof. unfold how_many. lia. Qed.

Lemma clamp_score q : a_score (clamp q).
Proof.
  unfold a_score, clamp. split.
  - apply Q.le_max_l.
  - apply Q.max_lub; [discriminate | apply Q.le_min_l].
Qed.

Lemma clamp_id q : a_score q -> (clamp q == q)%Q.
Proof.
  intros [H0 H1]. unfold clamp. rewrite (Q.min_r 1 q) by exact H1.
  rewrite (Q.max_r 0 q) by exact H0. reflexivity.
Qed.

Lemma ratio_score a b : 0 <= a -> 0 < b -> a <= b -> a_score (ratio a b).
Proof.
  intros Ha Hb Hab.
  assert (Hq : (0 < inject_Z b)%Q) by (change 0%Q with (inject_Z 0); rewrite <- Zlt_Qlt; exact Hb).
  split.
  - apply Qle_shift_div_l; [exact Hq |]. rewrite Qmult_0_l.
    change 0%Q with (inject_Z 0). rewrite <- Zle_Qle. exact Ha.
  - apply Qle_shift_div_r; [exact Hq |]. rewrite Qmult_1_l.
    rewrite <- Zle_Qle. exact Hab.
Qed.

(** The score of the buffer pool is the share of the fetches since the last reset
    that found their page there; it is one if there were none. *)
Theorem c133_buffer_score :
  forall h,
    let n := how_many is_hit (since_reset h) in
    let k := how_many is_miss (since_reset h) in
    (n + k = 0 -> (buffer_score (after h) == 1)%Q) /\
    (n + k <> 0 -> (buffer_score (after h) * inject_Z (n + k) == inject_Z n)%Q) /\
    a_score (buffer_score (after h)).
Proof.
  intros h n k.
  destruct (c133_counts h) as [H1 [H2 _]]. fold n in H1. fold k in H2.
  assert (Hn : 0 <= n) by apply how_many_nonneg.
  assert (Hk : 0 <= k) by apply how_many_nonneg.
  unfold buffer_score. rewrite H1, H2, no_evictions.
  destruct (Z.eqb_spec (n + k) 0) as [E | E].
  - split; [reflexivity |]. split; [intros C; contradiction |]. split; discriminate.
  - assert (Hp : (Qmin (ratio 0 (n + k)) (1 # 2) == 0)%Q).
    { assert (Hz : (ratio 0 (n + k) == 0)%Q) by (unfold ratio, Qdiv; apply Qmult_0_l).
      rewrite Hz. reflexivity. }
    assert (Hs : (ratio n (n + k) * (1 - Qmin (ratio 0 (n + k)) (1 # 2)) == ratio n (n + k))%Q).
    { rewrite Hp. ring. }
    assert (Hr : a_score (ratio n (n + k))) by (apply ratio_score; lia).
    split; [intros C; contradiction |]. split; [| apply clamp_score].
    intros _. rewrite clamp_id.
    + rewrite Hs. unfold ratio. field. intros Hc.
      apply (inject_Z_injective (n + k) 0) in Hc. contradiction.
    + destruct Hr as [Ha Hb]. split; rewrite Hs; assumption.
Qed.

Example c133_buffer_score_ex :
  (buffer_score (after [Fetch true; Fetch false; Fetch true; Fetch true]) == 3 # 4)%Q.
Proof. vm_compute. reflexivity. Qed.

(** The score of the locks is a score. *)
Theorem c133_lock_score_bounds : forall h, a_score (lock_score (after h)).
Proof.
  intros h. unfold lock_score. destruct (requests (after h) =? 0); [split; discriminate |].
  apply clamp_score.
Qed.

Example c133_lock_score_bounds_ex :
  (lock_score (after [Lock true 0 false; Lock false 50000000 true]) == 0)%Q.
Proof. vm_compute. reflexivity. Qed.

Lemma reads_nonneg h : 0 <= sequential (after h) /\ 0 <= random (after h).
Proof.
  induction h as [| e h IH] using rev_ind; [cbn; lia |].
  rewrite after_snoc.
  destruct e as [b | w l s | i w c | n | |]; cbn [step]; try exact IH.
  unfold record_disk, plus_if. cbn [sequential random].
  destruct w, s; cbn [negb andb]; lia.
Qed.

(** So is that of the disk. *)
Theorem c133_disk_score_bounds : forall h, a_score (disk_score (after h)).
Proof.
  intros h. destruct (reads_nonneg h) as [Hs Hr]. unfold disk_score.
  destruct (if (0 <? read_ns (after h)) && _ then _ else _) as [l |]; [| split; discriminate].
  split; [| apply Q.le_min_r]. apply Q.min_glb; [| discriminate].
  assert (Hl : (0 <= latency_score l)%Q).
  { unfold latency_score. destruct (l <? 1000000); [discriminate |].
    destruct (l <? 5000000); [discriminate |]. destruct (l <? 10000000); discriminate. }
  destruct (Z.ltb_spec 0 (sequential (after h) + random (after h))) as [Hp | Hp].
  - destruct (ratio_score (sequential (after h)) (sequential (after h) + random (after h)))
      as [Ha _]; [lia | lia | lia |]. lra.
  - lra.
Qed.

Example c133_disk_score_bounds_ex :
  (disk_score (after [Disk false 6000000 true; Disk true 8000000 false]) == 4 # 5)%Q.
Proof. vm_compute. reflexivity. Qed.

(** A reset forgets the requests and not the grants. *)
Lemma immediate_count h : immediate (after h) = how_many is_immediate h.
Proof.
  induction h as [| e h IH] using rev_ind; [reflexivity |].
  rewrite after_snoc, how_many_snoc.
  destruct e as [b | w l s | i w c | n | |]; cbn [step is_immediate]; cbn; rewrite ?IH;
    try lia.
  destruct i; cbn [plus_if]; lia.
Qed.

(** Refuted: after a reset the score of the locks is the best there is, though the
    only request since then had to wait, however long, and was in conflict, if two
    requests before the reset were granted at once. *)
Theorem c133_lock_reset_refuted :
  forall h w,
    2 <= how_many is_immediate h ->
    (lock_score (after (h ++ [Reset; Lock false w true])) == 1)%Q.
Proof.
  intros h w Hi.
  change [Reset; Lock false w true] with ([Reset] ++ [Lock false w true]).
  rewrite app_assoc, !after_snoc. cbn [step].
  rewrite <- immediate_count in Hi.
  unfold lock_score, record_lock, reset, plus_if.
  cbn [requests immediate conflicts wait_ns]. change (0 + 1) with 1. change (1 =? 0) with false.
  cbv iota zeta.
  assert (Hg : (2 <= ratio (immediate (after h)) 1)%Q).
  { assert (He : (ratio (immediate (after h)) 1 == inject_Z (immediate (after h)))%Q)
      by (unfold ratio; field).
    rewrite He. change 2%Q with (inject_Z 2). rewrite <- Zle_Qle. exact Hi. }
  assert (Hc : (ratio 1 1 == 1)%Q) by reflexivity.
  set (p := Qmin (ratio (Z.of_N w) 1000000 / 100) (1 # 2)).
  assert (Hp : (p <= 1 # 2)%Q) by apply Q.le_min_r.
  unfold clamp. rewrite (Q.min_l 1).
  - reflexivity.
  - rewrite Hc. lra.
Qed.

Example c133_lock_reset_refuted_ex :
  (lock_score (after [Lock true 0 false; Lock true 0 false; Reset; Lock false 900000000 true]) == 1)%Q /\
  (lock_score (after [Lock false 900000000 true]) == 0)%Q.
Proof. split; vm_compute; reflexivity. Qed.

(** Refuted: the average length of the version chains is the length of the last
    one, whatever came before, reset or not. *)
Theorem c133_average_refuted :
  forall h n, chain_length (after (h ++ [Traversal n])) = Z.of_N n /\
              chain_length (after (h ++ [Traversal n; Reset])) = Z.of_N n.
Proof.
  intros h n. split.
  - rewrite after_snoc. reflexivity.
  - change [Traversal n; Reset] with ([Traversal n] ++ [Reset]).
    rewrite app_assoc, !after_snoc. reflexivity.
Qed.

Example c133_average_refuted_ex :
  chain_length (after [Traversal 100; Traversal 100; Traversal 1]) = 1.
Proof. reflexivity. Qed.

(** The latency that makes the score of the disk is that of the last read and the
    last write, and a reset leaves both. *)
Theorem c133_latency_refuted :
  forall h l s, read_ns (after (h ++ [Disk false l s; Reset])) = Z.of_N l /\
                write_ns (after (h ++ [Disk true l s; Reset])) = Z.of_N l.
Proof.
  intros h l s. split.
  - change [Disk false l s; Reset] with ([Disk false l s] ++ [Reset]).
    rewrite app_assoc, !after_snoc. reflexivity.
  - change [Disk true l s; Reset] with ([Disk true l s] ++ [Reset]).
    rewrite app_assoc, !after_snoc. reflexivity.
Qed.

Example c133_latency_refuted_ex :
  (disk_score (after [Disk false 90000000 false; Reset]) == 3 # 10)%Q /\
  (disk_score (after []) == 1)%Q.
Proof. split; vm_compute; reflexivity. Qed.

Print Assumptions c133_counts.
Print Assumptions c133_buffer_score.
Print Assumptions c133_lock_score_bounds.
Print Assumptions c133_lock_reset_refuted.
Print Assumptions c133_average_refuted.
Print Assumptions c133_latency_refuted.
Print Assumptions c133_disk_score_bounds.
