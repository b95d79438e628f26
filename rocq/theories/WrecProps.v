(** * C36, C66: reading the log back *)
From Coq Require Import NArith ZArith Lia.
From stdpp Require Import list.
From Verif Require Import Bytes PageModel WrecSpec WrecModel WrecProofs.
Local Open Scope N_scope.

(** C36, for records of at most 1,000,000 bytes that are not marked invalid: iterating over the file gives exactly the records, in order. *)
Theorem log_reads_back : forall {T} (tenc : T -> list N) (tdec : dec T), codec tenc tdec -> forall rs,
  Forall (fun r => rec_ok r /\ l_kind r <> 0 /\ N.of_nat (length (to_bytes tenc r)) <= 1000000) rs ->
  collect_all tdec (flat_map (to_bytes tenc) rs) = rs.
Proof.
  intros T tenc tdec Hc rs Hg. unfold collect_all.
  pose proof (collect_good tenc tdec Hc rs [] Hg) as H.
  specialize (H (fun a => ex_intro _ _ (eq_trans (f_equal (fun z => next tdec z _) (app_nil_r a)) (next_end tdec a)))).
  specialize (H (S (length (flat_map (to_bytes tenc) rs))) []). cbn [app length] in H. rewrite app_nil_r in H. apply H.
  pose proof (bytes_of_le tenc rs) as Hle. unfold bytes_of in Hle. lia.
Qed.
Print Assumptions log_reads_back.

(** The same when the last record was written only in part, wherever it was cut. *)
Theorem log_reads_back_torn : forall {T} (tenc : T -> list N) (tdec : dec T), codec tenc tdec -> forall rs r k,
  Forall (fun r => rec_ok r /\ l_kind r <> 0 /\ N.of_nat (length (to_bytes tenc r)) <= 1000000) rs ->
  N.of_nat (length (to_bytes tenc r)) <= 1000000 -> (k < length (to_bytes tenc r))%nat ->
  collect_all tdec (flat_map (to_bytes tenc) rs ++ take k (to_bytes tenc r)) = rs.
Proof.
  intros T tenc tdec Hc rs r k Hg Hf Hk. unfold collect_all.
  pose proof (collect_good tenc tdec Hc rs (take k (to_bytes tenc r)) Hg) as H.
  assert (forall a, exists off, next tdec (a ++ take k (to_bytes tenc r)) (N.of_nat (length a)) = (None, off)) as Ht.
  { intros a. rewrite <- (app_nil_r (take k _)). apply next_torn; [exact Hf|cbn [length]; lia|].
    destruct (le_lt_dec 4 k); [by left|by right]. }
  specialize (H Ht (S (length (flat_map (to_bytes tenc) rs ++ take k (to_bytes tenc r)))) []). cbn [app length] in H. apply H.
  pose proof (bytes_of_le tenc rs) as Hle. unfold bytes_of in Hle. rewrite app_length. lia.
Qed.
Print Assumptions log_reads_back_torn.

(** An encoding of tuples for the examples: a length and as many bytes. *)
Definition venc (l : list N) : list N := u64_enc (N.of_nat (length l)) ++ l.
Definition vdec : dec (list N) :=
  bind u64_dec (fun n l => if n <=? N.of_nat (length l) then Some (take (N.to_nat n) l, drop (N.to_nat n) l) else None).
Lemma vcodec_len l rest : N.of_nat (length l) < 2 ^ 64 -> vdec (venc l ++ rest) = Some (l, rest).
Proof.
  intros H. unfold vdec, venc, bind. rewrite <- app_assoc, u64_rt by exact H. rewrite app_length.
  replace (_ <=? _) with true by (symmetry; apply N.leb_le; lia). by rewrite !Nat2N.id, take_app, drop_app.
Qed.
(** One that is a codec for all tuples: bytes, closed by a mark. *)
Fixpoint menc (l : list N) : list N := match l with [] => [0] | b :: l => 1 :: b :: menc l end.
Fixpoint mdec_aux (fuel : nat) (l : list N) : option (list N * list N) :=
  match fuel, l with
  | S f, 0 :: l => Some ([], l)
  | S f, 1 :: b :: l => match mdec_aux f l with Some (t, l) => Some (b :: t, l) | None => None end
  | _, _ => None
  end.
Definition mdec : dec (list N) := fun l => mdec_aux (S (length l)) l.
Lemma mcodec : codec menc mdec.
Proof.
  intros t rest. unfold mdec.
  assert (forall n, (length t < n)%nat -> mdec_aux n (menc t ++ rest) = Some (t, rest)) as H.
  { induction t as [|b t IH]; intros n Hn; (destruct n as [|n]; [lia|]); cbn; [done|]. rewrite IH; [done|cbn in Hn; lia]. }
  apply H. rewrite app_length. assert (length t <= length (menc t))%nat; [|lia]. clear. induction t; cbn; lia.
Qed.

Definition txn_rec (lsn txn prev kind : N) : lrec (list N) :=
  mkL _ 43 lsn txn prev kind None None None None None None None None None.
Definition ins_rec (lsn txn prev : N) (t : list N) : lrec (list N) :=
  mkL _ (-7) lsn txn prev 1 None None (Some (300, 2)) (Some t) None None None None None.
Definition log1 : list (lrec (list N)) := [txn_rec 0 1 (2 ^ 64 - 1) 6; ins_rec 1 1 0 [104; 105; 255]; txn_rec 2 1 1 7].
Example log_reads_back_ex :
  Forall (fun r => rec_ok r /\ l_kind r <> 0 /\ N.of_nat (length (to_bytes menc r)) <= 1000000) log1 /\
  length (flat_map (to_bytes menc) log1) = 73%nat /\ collect_all mdec (flat_map (to_bytes menc) log1) = log1.
Proof.
  split; [|split; vm_compute; reflexivity].
  assert (forall r, In r log1 -> rec_ok r /\ l_kind r <> 0 /\ N.of_nat (length (to_bytes menc r)) <= 1000000) as H.
  { intros r Hr. cbn in Hr. destruct Hr as [<-|[<-|[<-|[]]]];
      (split; [constructor; cbn; unfold u64_ok, rid_ok; cbn; (lia || done)|split; [done|vm_compute; discriminate]]). }
  apply List.Forall_forall. exact H.
Qed.
Example log_reads_back_torn_ex : collect_all mdec (flat_map (to_bytes menc) log1 ++ take 9 (to_bytes menc (ins_rec 3 2 0 [1]))) = log1.
Proof. vm_compute. reflexivity. Qed.

(** C36 is false of a log that goes on after a torn record (the log is opened again after a crash and more is appended; nothing cuts
    the torn record off): whatever follows is lost, as long as it is shorter than what the torn record lacks. *)
Theorem log_after_torn_refuted : forall {T} (tenc : T -> list N) (tdec : dec T), codec tenc tdec -> forall rs r k more,
  Forall (fun r => rec_ok r /\ l_kind r <> 0 /\ N.of_nat (length (to_bytes tenc r)) <= 1000000) rs ->
  N.of_nat (length (to_bytes tenc r)) <= 1000000 -> (4 <= k)%nat ->
  (k + length (flat_map (to_bytes tenc) more) < length (to_bytes tenc r))%nat ->
  collect_all tdec (flat_map (to_bytes tenc) rs ++ take k (to_bytes tenc r) ++ flat_map (to_bytes tenc) more) = rs.
Proof.
  intros T tenc tdec Hc rs r k more Hg Hf Hk4 Hk. unfold collect_all.
  set (tail := take k (to_bytes tenc r) ++ flat_map (to_bytes tenc) more).
  pose proof (collect_good tenc tdec Hc rs tail Hg) as H.
  assert (forall a, exists off, next tdec (a ++ tail) (N.of_nat (length a)) = (None, off)) as Ht.
  { intros a. apply next_torn; [exact Hf|done|by left]. }
  specialize (H Ht (S (length (flat_map (to_bytes tenc) rs ++ tail))) []). cbn [app length] in H. apply H.
  pose proof (bytes_of_le tenc rs) as Hle. unfold bytes_of in Hle. rewrite app_length. lia.
Qed.
Print Assumptions log_after_torn_refuted.
(** A begin, the beginning of an insert; after the crash a begin and a commit. *)
Example log_after_torn_ex :
  let r := ins_rec 1 1 0 (repeat 7 40) in let more := [txn_rec 0 1 (2 ^ 64 - 1) 6; txn_rec 1 1 0 7] in
  (4 <= 30)%nat /\ (30 + length (flat_map (to_bytes menc) more) < length (to_bytes menc r))%nat /\
  collect_all mdec (flat_map (to_bytes menc) [txn_rec 0 1 (2 ^ 64 - 1) 6] ++ take 30 (to_bytes menc r) ++ flat_map (to_bytes menc) more)
    = [txn_rec 0 1 (2 ^ 64 - 1) 6].
Proof. cbv zeta. split; [lia|]. split; [vm_compute; lia|]. vm_compute. reflexivity. Qed.

(** C66: reading the record at an offset gives the record that is there, if it is at most 1024 bytes long and the log has 1024 bytes there. *)
Theorem log_read_at_partial : forall {T} (tenc : T -> list N) (tdec : dec T), codec tenc tdec -> forall before r after,
  rec_ok r -> (length (to_bytes tenc r) <= 1024 <= length (to_bytes tenc r ++ after))%nat ->
  read_record tdec (before ++ to_bytes tenc r ++ after) (N.of_nat (length before)) = Some r.
Proof.
  intros T tenc tdec Hc before r after Hok [H1 H2]. unfold read_record.
  assert (to_bytes tenc r ++ after =
          (to_bytes tenc r ++ take (1024 - length (to_bytes tenc r)) after) ++ drop (1024 - length (to_bytes tenc r)) after) as E.
  { by rewrite <- app_assoc, take_drop. }
  rewrite E, read_at_app; [by apply from_to|]. rewrite app_length in H2. rewrite app_length, take_length. lia.
Qed.
Print Assumptions log_read_at_partial.
Example log_read_at_ex :
  let l := txn_rec 0 1 (2 ^ 64 - 1) 6 in let r := ins_rec 1 1 0 [104; 105; 255] in
  (length (to_bytes menc r) <= 1024 <= length (to_bytes menc r ++ repeat 0%N 1024))%nat /\
  read_record mdec (to_bytes menc l ++ to_bytes menc r ++ repeat 0%N 1024) (N.of_nat (length (to_bytes menc l))) = Some r.
Proof. cbv zeta. split; [vm_compute; lia|]. vm_compute. reflexivity. Qed.

(** As stated it is false: nothing can be read in the last 1023 bytes of the log, and so nothing of a log that short. *)
Theorem log_read_at_refuted : forall {T} (tenc : T -> list N) (tdec : dec T) before r after,
  (length (to_bytes tenc r ++ after) < 1024)%nat ->
  read_record tdec (before ++ to_bytes tenc r ++ after) (N.of_nat (length before)) = None.
Proof.
  intros T tenc tdec before r after H. unfold read_record. rewrite read_at_short; [done|lia|]. rewrite app_length. lia.
Qed.
Print Assumptions log_read_at_refuted.
Example log_read_at_refuted_ex :
  (length (to_bytes menc (txn_rec 0 1 5 6) ++ to_bytes menc (txn_rec 1 1 0 7)) < 1024)%nat.
Proof. vm_compute. lia. Qed.

(** C36 is also false of longer records: one of more than 1,000,000 bytes is written, and neither it nor what follows is read. *)
Theorem log_long_record_refuted : exists r r' : lrec (list N),
  rec_ok r /\ rec_ok r' /\ l_kind r <> 0 /\ l_kind r' <> 0 /\ codec menc mdec /\
  collect_all mdec (flat_map (to_bytes menc) [r; r']) = [].
Proof.
  exists (ins_rec 0 1 0 (repeat 7 (N.to_nat 500000))), (txn_rec 1 1 0 7).
  split; [constructor; cbn; unfold u64_ok, rid_ok; cbn; (lia || done)|].
  split; [constructor; cbn; unfold u64_ok, rid_ok; cbn; (lia || done)|].
  split; [done|]. split; [done|]. split; [exact mcodec|]. vm_cast_no_check (@eq_refl (list (lrec (list N))) []).
Qed.
Print Assumptions log_long_record_refuted.
