(** * C73, C74: reading and writing parts of a file *)
From Coq Require Import NArith Lia ZifyNat.
From stdpp Require Import list.
From Verif Require Import FioSpec FioModel FioProofs.
Local Open Scope nat_scope.

(** ** C73: reads return the bytes of the file at that place, writes put them there *)

(** A read into a buffer that succeeds fills all of it with the bytes at that offset, however the kernel splits the transfer. *)
Theorem read_into_exact c o pa off len f b :
  read_aligned_into c o pa off len f = Ok b -> length b = len /\ holds f off b.
Proof.
  unfold read_aligned_into. intros E.
  destruct (len =? 0) eqn:Z. { apply Nat.eqb_eq in Z as ->. injection E as <-. split; [done|]. intros i x X. done. }
  assert (read_exact_at o off len f = Ok b -> length b = len /\ holds f off b) as G.
  { intros R. apply read_exact_ok in R as [-> L]. split; [done|apply pread_holds]. }
  destruct (d_enabled c); [|by apply G].
  destruct (negb (validate_alignment (d_align c))); [done|]. destruct (negb (aligned off (d_align c))); [done|].
  destruct (negb pa || negb (aligned len (d_align c))); [|by apply G].
  destruct (read_exact_at o off (round_up len (d_align c)) f) as [b2| |] eqn:R; [|done|done].
  injection E as <-. apply read_exact_ok in R as [-> L]. pose proof (round_up_le len (d_align c)) as U.
  split; [rewrite take_length; lia|]. intros i x X. apply lookup_take_Some in X as [X _]. by apply pread_holds in X.
Qed.
Print Assumptions read_into_exact.
Example read_into_exact_ex :
  read_aligned_into (DConf true 4) [Some 1; Some 2] false 4 3 [0; 1; 2; 3; 4; 5; 6; 7]%N = Ok [4; 5; 6]%N.
Proof. done. Qed.

(** A read into a new buffer starts with the bytes asked for; with direct I/O the buffer may be longer than asked for, and the rest is
    what follows in the file. *)
Theorem read_new_exact_partial c o off size f b :
  read_aligned c o off size f = Ok b -> size <= length b /\ holds f off b /\ (d_enabled c = false -> length b = size).
Proof.
  unfold read_aligned, new_buffer. intros E.
  destruct (size =? 0) eqn:Z.
  { apply Nat.eqb_eq in Z as ->. destruct (pow2 _); [|done]. injection E as <-. split; [done|]. split; [|done]. intros i x X. done. }
  destruct (d_enabled c) eqn:D.
  - cbn [andb] in E. destruct (negb _); [done|]. destruct (pow2 _); [|done].
    apply read_exact_ok in E as [-> L]. split; [rewrite L; apply round_up_le|]. split; [apply pread_holds|done].
  - cbn [andb] in E. destruct (pow2 _); [|done].
    apply read_exact_ok in E as [-> L]. split; [lia|]. split; [apply pread_holds|done].
Qed.
Print Assumptions read_new_exact_partial.
(** The buffer is not of the length asked for. *)
Theorem read_new_length_refuted :
  exists c off size f b, off + size <= length f /\ read_aligned c [] off size f = Ok b /\ length b <> size.
Proof. exists (DConf true 4), 0, 3, [1; 2; 3; 4]%N, [1; 2; 3; 4]%N. split; [cbn; lia|]. split; [done|cbn; lia]. Qed.
Print Assumptions read_new_length_refuted.

(** A read of bytes the file has, without a fault, succeeds: with buffered I/O always, and with direct I/O when the offset is a
    multiple of the alignment and the file has the whole last block. *)
Theorem read_into_succeeds_partial c o pa off len f :
  Forall is_Some o -> off + len <= length f ->
  (d_enabled c = true -> validate_alignment (d_align c) = true /\ aligned off (d_align c) = true /\
                         off + round_up len (d_align c) <= length f) ->
  exists b, read_aligned_into c o pa off len f = Ok b.
Proof.
  intros F L D. unfold read_aligned_into. destruct (len =? 0); [by eexists|].
  pose proof (read_exact_total o off len f F L) as G.
  destruct (d_enabled c); [|done]. destruct (D eq_refl) as (V & A & U). rewrite V, A. cbn [negb].
  destruct (negb pa || _); [|done].
  destruct (read_exact_total o off _ f F U) as [b ->]. by eexists.
Qed.
Print Assumptions read_into_succeeds_partial.
(** With direct I/O the bytes at the end of a file whose length is not a multiple of the alignment cannot be read, whatever the
    kernel does: the file is there, the offset is aligned, and the call fails. *)
Theorem read_tail_refuted o pa a off len f :
  aligned len a = false -> length f < off + round_up len a -> 0 < len ->
  forall b, read_aligned_into (DConf true a) o pa off len f <> Ok b /\ read_aligned (DConf true a) o off len f <> Ok b.
Proof.
  intros A S P b. pose proof (round_up_le len a) as U.
  assert (forall b, read_exact_at o off (round_up len a) f <> Ok b) as N by (apply read_exact_short; lia).
  unfold read_aligned_into, read_aligned, new_buffer. rewrite (proj2 (Nat.eqb_neq len 0)) by lia.
  cbn [d_enabled d_align andb]. rewrite A. split.
  - destruct (negb (validate_alignment a)); [done|]. destruct (negb (aligned off a)); [done|].
    cbn [negb]. rewrite orb_true_r. destruct (read_exact_at o off (round_up len a) f) as [x| |] eqn:E; [|done|done].
    by destruct (N x).
  - destruct (negb _); [done|]. destruct (pow2 _); [apply N|done].
Qed.
Print Assumptions read_tail_refuted.
Example read_tail_ex : let f := [1; 2; 3; 4; 5; 6]%N in
  aligned 2 4 = false /\ length f < 4 + round_up 2 4 /\ 4 + 2 <= length f /\ read_aligned_into (DConf true 4) [] true 4 2 f = Err.
Proof. cbn. repeat split; lia. Qed.

(** A write that succeeds changes exactly the bytes of its range; one that fails leaves a prefix of the data or nothing. *)
Theorem write_exact c o off d f r f' : write_aligned c o off d f = (r, f') -> d <> [] ->
  (r = Ok () /\ written off d f f') \/ (r = Err /\ torn off d f f').
Proof.
  unfold write_aligned. intros E D. destruct d as [|b d]; [done|]. destruct (d_enabled c && _).
  - injection E as <- <-. right. split; [done|]. exists 0. cbn. split; [lia|done].
  - by apply (write_all_spec o).
Qed.
Print Assumptions write_exact.
Example write_exact_ex :
  write_aligned (DConf false 512) [Some 2; None] 1 [7; 8; 9]%N [1]%N = (Err, [1; 7; 8]%N) /\
  write_aligned (DConf true 2) [Some 1] 4 [7; 8]%N [1]%N = (Ok (), [1; 0; 0; 0; 7; 8]%N).
Proof. done. Qed.

(** What was written is read back. *)
Theorem write_then_read c o off d f f' c2 o2 pa b :
  write_aligned c o off d f = (Ok (), f') -> read_aligned_into c2 o2 pa off (length d) f' = Ok b -> b = d.
Proof.
  intros W R. apply read_into_exact in R as [L H]. destruct d as [|x d]; [by apply nil_length_inv|].
  destruct (write_exact _ _ _ _ _ _ _ W ltac:(done)) as [[_ Wr]|[? _]]; [|done].
  apply written_holds in Wr. apply holds_pread in H. apply holds_pread in Wr. rewrite L in H. congruence.
Qed.
Print Assumptions write_then_read.

(** ** C74: writing a page changes that page only *)

(** A configuration whose blocks fit in a page (the disk manager uses 4096, manager.rs 320-330). *)
Definition fits (c : dconf) : Prop := d_enabled c = true -> pow2 (d_align c) = true /\ aligned PAGE (d_align c) = true.

Lemma write_page_shape c o p d f r f' : fits c -> execute_write_page c o p d f = (r, f') ->
  (r = Err /\ f' = f) \/ (length d = PAGE /\ write_all_at o (page_offset p) d f = (r, f')).
Proof.
  intros F E. unfold execute_write_page in E. destruct (length d =? PAGE) eqn:L; cbn [negb] in E; [|left; by injection E as <- <-].
  apply Nat.eqb_eq in L. right. split; [done|].
  unfold fits in F. destruct (d_enabled c); [|done]. destruct (F eq_refl) as [P A]. rewrite P in E.
  unfold padded in E. rewrite L, Nat.max_id, round_up_exact in E by done. by rewrite <- L, resize_all in E.
Qed.

(** After a page write that succeeds the page has the data. Whether it succeeds or not, every other page that could be read has the
    bytes it had. *)
Theorem write_page_partial c o p d f r f' :
  fits c -> (p < 2 ^ 52)%N -> execute_write_page c o p d f = (r, f') ->
  (r = Ok () -> page_bytes f' p d) /\
  (forall q b, (q < 2 ^ 52)%N -> q <> p -> page_bytes f q b -> page_bytes f' q b).
Proof.
  intros F P E. destruct (write_page_shape _ _ _ _ _ _ _ F E) as [[-> ->]|[L W]]; [done|].
  rewrite page_offset_small in W by done.
  assert (d <> []) as D by (intros ->; done).
  assert (forall q : N, q <> p -> N.to_nat q * PAGE + PAGE <= N.to_nat p * PAGE \/ N.to_nat p * PAGE + PAGE <= N.to_nat q * PAGE) as A.
  { intros q Q. destruct (N.lt_trichotomy q p) as [X|[X|X]]; [left|done|right]; nia. }
  destruct (write_all_spec _ _ _ _ _ _ W D) as [[-> Wr]|[-> T]].
  - split. { intros _. split; [done|]. by apply (written_holds _ _ f). }
    intros q b _ Q [Lb H]. split; [done|]. eapply written_elsewhere; [done|done|]. rewrite L, Lb. by apply A.
  - split; [done|]. intros q b _ Q [Lb H]. split; [done|]. eapply torn_elsewhere; [done|done|]. rewrite L, Lb. by apply A.
Qed.
Print Assumptions write_page_partial.
Example write_page_ex : fits (DConf true 4096) /\ fits (DConf false 0).
Proof. unfold fits. cbn [d_enabled d_align]. split; [intros _; split; by vm_compute|done]. Qed.

(** A page read returns the page's bytes, and returns them when there is no fault. *)
Theorem read_page_exact c o p f b : (p < 2 ^ 52)%N -> execute_read_page c o p f = Ok b -> page_bytes f p b.
Proof.
  intros P E. unfold execute_read_page, new_buffer in E. rewrite page_offset_small in E by done.
  assert (read_exact_at o (N.to_nat p * PAGE) PAGE f = Ok b) as R.
  { destruct (d_enabled c); [|done]. by destruct (pow2 _). }
  apply read_exact_ok in R as [-> L]. split; [done|apply pread_holds].
Qed.
Print Assumptions read_page_exact.
Theorem read_page_succeeds c o p f b : (p < 2 ^ 52)%N -> fits c -> Forall is_Some o -> page_bytes f p b ->
  execute_read_page c o p f = Ok b.
Proof.
  intros P F O [L H]. unfold execute_read_page, new_buffer. rewrite page_offset_small by done.
  assert (read_exact_at o (N.to_nat p * PAGE) PAGE f = Ok b) as R.
  { destruct (read_exact_total o (N.to_nat p * PAGE) PAGE f O) as [b2 R].
    - rewrite <- L at 2. apply holds_length; [|done]. intros ->. done.
    - rewrite R. apply read_exact_ok in R as [-> _]. f_equal. apply holds_pread in H. by rewrite L in H. }
  unfold fits in F. destruct (d_enabled c); [|done]. destruct (F eq_refl) as [-> _]. done.
Qed.
Print Assumptions read_page_succeeds.

(** With blocks larger than a page a successful write of a page overwrites the next one with zeros, whatever it held. *)
Theorem write_page_block_refuted p d f b : (p + 1 < 2 ^ 52)%N -> length d = PAGE -> page_bytes f (p + 1) b ->
  exists f', execute_write_page (DConf true (2 * PAGE)) [] p d f = (Ok (), f') /\ page_bytes f' (p + 1) (replicate PAGE 0%N).
Proof.
  intros P L _. unfold execute_write_page. rewrite L, Nat.eqb_refl. cbn [negb d_enabled d_align].
  assert (pow2 (2 * PAGE) = true) as -> by by vm_compute.
  assert (padded d PAGE (2 * PAGE) = d ++ replicate PAGE 0%N) as ->.
  { unfold padded. rewrite L, Nat.max_id. assert (round_up PAGE (2 * PAGE) = PAGE + PAGE) as -> by by vm_compute.
    rewrite resize_ge by lia. f_equal. f_equal. lia. }
  rewrite page_offset_small by lia.
  assert (d ++ replicate PAGE 0%N <> []) as D by (intros W; apply app_nil in W as [-> _]; done).
  destruct (write_all_at [] (N.to_nat p * PAGE) (d ++ replicate PAGE 0%N) f) as [r f'] eqn:E.
  destruct (write_all_spec _ _ _ _ _ _ E D) as [[-> W]|[-> _]].
  - exists f'. split; [done|]. split; [by rewrite replicate_length|].
    apply written_holds in W. intros i x X. rewrite N2Nat.inj_add, Nat.mul_add_distr_r.
    rewrite <- Nat.add_assoc. apply W. rewrite lookup_app_r by lia. rewrite L. change (N.to_nat 1 * PAGE + i - PAGE) with (PAGE + i - PAGE).
    by replace (PAGE + i - PAGE) with i by lia.
  - cbn [write_all_at] in E. by destruct (d ++ replicate PAGE 0%N).
Qed.
Print Assumptions write_page_block_refuted.
Example write_page_block_ex : page_bytes (replicate (PAGE + PAGE) 7%N) 1 (replicate PAGE 7%N).
Proof.
  split; [by rewrite replicate_length|]. intros i x X. apply lookup_replicate in X as [-> X].
  apply lookup_replicate. split; [done|]. change (N.to_nat 1 * PAGE) with PAGE. lia.
Qed.

(** Page numbers wrap: writing page 2^52 overwrites page 0. *)
Theorem write_page_wrap_refuted d f : length d = PAGE ->
  exists f', execute_write_page (DConf true 4096) [] (2 ^ 52) d f = (Ok (), f') /\ page_bytes f' 0 d.
Proof.
  intros L. unfold execute_write_page. rewrite L, Nat.eqb_refl. cbn [negb d_enabled d_align].
  assert (pow2 4096 = true) as -> by by vm_compute.
  assert (padded d PAGE 4096 = d) as ->.
  { unfold padded. rewrite L, Nat.max_id. assert (round_up PAGE 4096 = PAGE) as -> by by vm_compute. by rewrite <- L, resize_all. }
  assert (page_offset (2 ^ 52) = 0) as -> by by vm_compute.
  assert (d <> []) as D by (intros ->; done).
  exists (pwrite 0 d f). split; [cbn [write_all_at]; by destruct d|]. split; [done|].
  change (N.to_nat 0 * PAGE) with 0. by apply (written_holds _ _ f), pwrite_written.
Qed.
Print Assumptions write_page_wrap_refuted.

(** ** Appends to the log file (for C34-C36): what was appended stays, at the offset that was returned *)
Definition append_run (l : list (oracle * list N)) (f : file) : file :=
  foldl (fun (f : file) (x : oracle * list N) => (execute_append_log x.1 x.2 f).2) f l.

Lemma append_keeps o d f off b : holds f off b -> off + length b <= length f -> holds (execute_append_log o d f).2 off b.
Proof.
  intros H L. unfold execute_append_log. destruct d as [|x d]; [done|].
  destruct (write_all_at o (length f) (x :: d) f) as [r f'] eqn:E.
  assert (holds f' off b) as G; [|by destruct r].
  destruct (write_all_spec _ _ _ _ _ _ E ltac:(done)) as [[_ W]|[_ W]]; [eapply written_elsewhere|eapply torn_elsewhere]; eauto.
Qed.
Theorem append_read_back o d f off f' later o2 b :
  execute_append_log o d f = (Ok off, f') ->
  execute_read_log o2 off (length d) (append_run later f') = Ok b -> b = d.
Proof.
  intros E R. unfold execute_read_log in R. destruct d as [|x d]; [by injection R as <-|]. cbn [length Nat.eqb] in R.
  unfold execute_append_log in E. destruct (write_all_at o (length f) (x :: d) f) as [r f1] eqn:W.
  destruct (write_all_spec _ _ _ _ _ _ W ltac:(done)) as [[-> Wr]|[-> _]]; [|done]. injection E as <- <-.
  pose proof (written_holds _ _ _ _ Wr) as H.
  assert (forall l g, holds g (length f) (x :: d) -> holds (append_run l g) (length f) (x :: d)) as G.
  { induction l as [|[o3 d3] l IH]; intros g Hg; [done|]. cbn [append_run foldl]. apply IH.
    apply append_keeps; [done|]. by apply holds_length. }
  apply (G later) in H. apply holds_pread in H.
  apply read_exact_ok in R as [-> _]. exact H.
Qed.
Print Assumptions append_read_back.
Example append_read_back_ex :
  execute_append_log [Some 1] [5; 6]%N [1]%N = (Ok 1, [1; 5; 6]%N) /\
  execute_read_log [] 1 2 (append_run [([Some 1; None], [8; 9]%N); ([], [3]%N)] [1; 5; 6]%N) = Ok [5; 6]%N.
Proof. done. Qed.
