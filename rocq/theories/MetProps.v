(** C126: the figures about disk operations are true. *)
From Coq Require Import NArith List Bool Lia ZifyN ZifyNat Arith.
From Verif Require Import MetSpec MetModel.
Import ListNotations.
Local Open Scope N_scope.

(** ** Counters *)

Lemma record_all_app h e s : record_all (h ++ [e]) s = record (record_all h s) e.
Proof. unfold record_all. rewrite fold_left_app. reflexivity. Qed.
Lemma total_app f h e : total f (h ++ [e]) = total f h + f e.
Proof. induction h as [|x h IH]; cbn [app total]; [lia|rewrite IH; lia]. Qed.
Lemma counter (field : live -> N) (f : event -> N) :
  (forall s e, field (record s e) = field s /\ f e = 0 \/ field (record s e) = add64 (field s) (f e)) ->
  field fresh = 0 -> forall h, field (record_all h fresh) = total f h mod 2 ^ 64.
Proof.
  intros St I h. induction h as [|e h IH] using rev_ind; [exact I|].
  rewrite record_all_app, total_app.
  destruct (St (record_all h fresh) e) as [[-> ->]| ->]; rewrite IH.
  - rewrite N.add_0_r. reflexivity.
  - unfold add64. rewrite N.add_mod_idemp_l by discriminate. reflexivity.
Qed.
Ltac field_ok := intros [] []; cbn; repeat match goal with |- context [if ?b then _ else _] => destruct b end; auto.
(** How many operations an event stands for. *)
Definition ops_of (e : event) : N :=
  match e with Read _ _ _ | Write _ _ => 1 | BatchRead n _ _ | BatchWrite n _ _ | Flush _ n => n | Lookup _ => 0 end.

(** Every counter is the count or the sum it stands for, as far as 64 bits reach. *)
Theorem c126_counters h :
  reads (record_all h fresh) = total reads_of h mod 2 ^ 64 /\
  writes (record_all h fresh) = total writes_of h mod 2 ^ 64 /\
  bytes (record_all h fresh) = total bytes_of h mod 2 ^ 64 /\
  written (record_all h fresh) = total written_of h mod 2 ^ 64 /\
  errors (record_all h fresh) = total failures_of h mod 2 ^ 64 /\
  flushes (record_all h fresh) = total flushes_of h mod 2 ^ 64 /\
  hits (record_all h fresh) = total hits_of h mod 2 ^ 64 /\
  misses (record_all h fresh) = total misses_of h mod 2 ^ 64.
Proof.
  repeat match goal with |- _ /\ _ => split end; apply counter; try reflexivity; field_ok.
Qed.

(** The averages are the averages. *)
Theorem c126_averages h : total reads_of h < 2 ^ 64 -> total read_time_of h < 2 ^ 64 ->
  total writes_of h < 2 ^ 64 -> total write_time_of h < 2 ^ 64 ->
  (0 < total reads_of h -> read_average (record_all h fresh) = total read_time_of h / total reads_of h) /\
  (0 < total writes_of h -> write_average (record_all h fresh) = total write_time_of h / total writes_of h).
Proof.
  intros A B C D.
  assert (E1 : reads (record_all h fresh) = total reads_of h)
    by (rewrite (counter reads reads_of); [apply N.mod_small; exact A|field_ok|reflexivity]).
  assert (E2 : rsum (record_all h fresh) = total read_time_of h)
    by (rewrite (counter rsum read_time_of); [apply N.mod_small; exact B|field_ok|reflexivity]).
  assert (E3 : writes (record_all h fresh) = total writes_of h)
    by (rewrite (counter writes writes_of); [apply N.mod_small; exact C|field_ok|reflexivity]).
  assert (E4 : wsum (record_all h fresh) = total write_time_of h)
    by (rewrite (counter wsum write_time_of); [apply N.mod_small; exact D|field_ok|reflexivity]).
  unfold read_average, write_average. rewrite E1, E2, E3, E4.
  split; intros P; apply N.ltb_lt in P; rewrite P; reflexivity.
Qed.

(** ** Extremes, one recording after the other *)

Lemma times_app h e : times (h ++ [e]) = times h ++ times [e].
Proof. unfold times. apply flat_map_app. Qed.
Lemma extremes_run h : Forall (fun t => t < 2 ^ 64) (times h) ->
  (times h = [] /\ lmax (record_all h fresh) = 0 /\ lmin (record_all h fresh) = 2 ^ 64 - 1) \/
  (largest (times h) (lmax (record_all h fresh)) /\ smallest (times h) (lmin (record_all h fresh))).
Proof.
  induction h as [|e h IH] using rev_ind; intros F; [left; repeat split|].
  rewrite times_app in *. apply Forall_app in F as [F1 F2]. specialize (IH F1). rewrite record_all_app.
  assert (Q : forall t, times [e] = [t] ->
    lmax (record (record_all h fresh) e) = raise_max t (lmax (record_all h fresh)) ->
    lmin (record (record_all h fresh) e) = lower_min t (lmin (record_all h fresh)) ->
    largest (times h ++ [t]) (lmax (record (record_all h fresh) e)) /\
    smallest (times h ++ [t]) (lmin (record (record_all h fresh) e))).
  { intros t Et -> ->. rewrite Et in F2. inversion_clear F2 as [|? ? Ft _].
    unfold raise_max, lower_min. destruct IH as [(E & -> & ->)|[[L1 L2] [S1 S2]]].
    - rewrite E. split.
      + destruct (0 <? t) eqn:Z; [|apply N.ltb_ge in Z].
        * split; [left; reflexivity|]. intros x [<-|[]]. lia.
        * assert (t = 0) as -> by lia. split; [left; reflexivity|]. intros x [<-|[]]. lia.
      + destruct (t <? 2 ^ 64 - 1) eqn:Z; [|apply N.ltb_ge in Z].
        * split; [left; reflexivity|]. intros x [<-|[]]. lia.
        * assert (t = 2 ^ 64 - 1) as -> by lia. split; [left; reflexivity|]. intros x [<-|[]]. lia.
    - split.
      + destruct (lmax (record_all h fresh) <? t) eqn:Z; [apply N.ltb_lt in Z|apply N.ltb_ge in Z].
        * split; [apply in_or_app; right; left; reflexivity|]. intros x I.
          apply in_app_or in I as [I|[<-|[]]]; [apply L2 in I; lia|lia].
        * split; [apply in_or_app; left; exact L1|]. intros x I.
          apply in_app_or in I as [I|[<-|[]]]; [apply L2 in I; lia|lia].
      + destruct (t <? lmin (record_all h fresh)) eqn:Z; [apply N.ltb_lt in Z|apply N.ltb_ge in Z].
        * split; [apply in_or_app; right; left; reflexivity|]. intros x I.
          apply in_app_or in I as [I|[<-|[]]]; [apply S2 in I; lia|lia].
        * split; [apply in_or_app; left; exact S1|]. intros x I.
          apply in_app_or in I as [I|[<-|[]]]; [apply S2 in I; lia|lia]. }
  assert (P : times [e] = [] ->
    lmax (record (record_all h fresh) e) = lmax (record_all h fresh) ->
    lmin (record (record_all h fresh) e) = lmin (record_all h fresh) ->
    (times h ++ times [e] = [] /\ lmax (record (record_all h fresh) e) = 0 /\
       lmin (record (record_all h fresh) e) = 2 ^ 64 - 1) \/
    (largest (times h ++ times [e]) (lmax (record (record_all h fresh) e)) /\
     smallest (times h ++ times [e]) (lmin (record (record_all h fresh) e)))).
  { intros E -> ->. rewrite E, app_nil_r. exact IH. }
  clear IH. destruct (record_all h fresh) as [? ? ? ? ? ? ? ? ? ? ? ? ? mx mn ?].
  destruct e; try (apply P; reflexivity); right; (apply (Q time); reflexivity).
Qed.
Theorem c126_extremes h : Forall (fun t => t < 2 ^ 64) (times h) -> times h <> [] ->
  largest (times h) (lmax (record_all h fresh)) /\ smallest (times h) (lmin (record_all h fresh)).
Proof. intros F N. destruct (extremes_run h F) as [[E _]|X]; [contradiction|exact X]. Qed.

(** ** Percentiles *)

Definition cnt (f : N -> bool) (l : list N) : N := N.of_nat (length (filter f l)).
Definition at_ (i : nat) (t : N) : bool := Nat.eqb (bucket_idx t) i.
Definition below (i : nat) (t : N) : bool := Nat.ltb (bucket_idx t) i.
Lemma bucket_small t : (bucket_idx t < 11)%nat.
Proof. unfold bucket_idx. repeat match goal with |- context [if ?b then _ else _] => destruct b end; lia. Qed.
Lemma cnt_app f l t : cnt f (l ++ [t]) = cnt f l + (if f t then 1 else 0).
Proof. unfold cnt. rewrite filter_app, app_length. cbn [filter]. destruct (f t); cbn [length]; lia. Qed.
Lemma cnt_le f l : cnt f l <= N.of_nat (length l).
Proof.
  unfold cnt. induction l as [|x l IH]; cbn [filter length]; [lia|]. destruct (f x); cbn [length]; lia.
Qed.
Lemma cnt_below l i : cnt (below i) l + cnt (at_ i) l = cnt (below (S i)) l.
Proof.
  unfold cnt, below, at_. induction l as [|x l IH]; [reflexivity|]. cbn [filter].
  destruct (Nat.ltb_spec (bucket_idx x) i); destruct (Nat.eqb_spec (bucket_idx x) i);
    destruct (Nat.ltb_spec (bucket_idx x) (S i)); cbn [length]; lia.
Qed.
Lemma cnt_ext f g l : (forall x, In x l -> f x = g x) -> cnt f l = cnt g l.
Proof.
  unfold cnt. induction l as [|x l IH]; intros H; [reflexivity|]. cbn [filter].
  rewrite (H x (or_introl eq_refl)). specialize (IH (fun y Hy => H y (or_intror Hy))).
  destruct (g x); cbn [length]; lia.
Qed.
(** The bucket's bound decides what lies in it or lower. *)
Lemma below_bound t i b : t < 2 ^ 64 -> nth_error scale i = Some b -> below (S i) t = (t <=? b).
Proof.
  intros T E. unfold below, bucket_idx.
  do 11 (destruct i as [|i]; [injection E as <-;
    repeat match goal with |- context [t <=? ?x] => destruct (N.leb_spec t x) end; cbn; try reflexivity; exfalso; lia|]).
  destruct i; discriminate.
Qed.

Lemma bump_nth i j l : nth_error (bump i l) j =
  match nth_error l j with Some x => Some (if Nat.eqb j i then add64 x 1 else x) | None => None end.
Proof.
  revert i j. induction l as [|x l IH]; intros i j.
  - destruct i, j; reflexivity.
  - destruct i as [|i], j as [|j]; cbn [bump nth_error Nat.eqb]; try reflexivity.
    + destruct (nth_error l j); reflexivity.
    + apply IH.
Qed.
Lemma bump_length i l : length (bump i l) = length l.
Proof. revert i. induction l as [|x l IH]; intros [|i]; cbn; auto. Qed.
Lemma length_times h : Forall single h -> length (times h) = length h.
Proof.
  intros F. induction F as [|e h S F IH]; [reflexivity|]. destruct e; cbn in S; try contradiction; cbn; f_equal; exact IH.
Qed.
Lemma total_length h : Forall single h -> total ops_of h = N.of_nat (length h).
Proof.
  intros F. induction F as [|e h S F IH]; [reflexivity|]. cbn [total length]. rewrite IH.
  destruct e; cbn in S; try contradiction; cbn [ops_of]; lia.
Qed.
Lemma nth_ext {A} (l1 l2 : list A) : (forall i, nth_error l1 i = nth_error l2 i) -> l1 = l2.
Proof.
  revert l2. induction l1 as [|x l1 IH]; intros [|y l2] H; try reflexivity; try (specialize (H O); discriminate).
  pose proof (H O) as E. injection E as ->. f_equal. apply IH. intros i. exact (H (S i)).
Qed.
Lemma buckets_run h : Forall single h -> N.of_nat (length h) < 2 ^ 64 ->
  buckets (record_all h fresh) = map (fun i => cnt (at_ i) (times h)) (seq 0 11).
Proof.
  intros F L.
  assert (X : length (buckets (record_all h fresh)) = 11%nat /\
    forall i, (i < 11)%nat -> nth_error (buckets (record_all h fresh)) i = Some (cnt (at_ i) (times h))).
  { induction h as [|e h IH] using rev_ind.
    - split; [reflexivity|]. intros i Hi. do 11 (destruct i as [|i]; [reflexivity|]). lia.
    - apply Forall_app in F as [F1 F2]. rewrite app_length in L. cbn [length] in L.
      destruct IH as [I1 I2]; [exact F1|lia|]. rewrite record_all_app.
      assert (E : exists t, times [e] = [t] /\
        buckets (record (record_all h fresh) e) = bump (bucket_idx t) (buckets (record_all h fresh))).
      { inversion_clear F2 as [|? ? S _]. destruct (record_all h fresh).
        destruct e; cbn in S; try contradiction; eexists; (split; reflexivity). }
      destruct E as (t & Et & ->). rewrite times_app, Et. split; [rewrite bump_length; exact I1|].
      intros i Hi. rewrite bump_nth, (I2 i Hi), cnt_app. f_equal.
      change (at_ i t) with (Nat.eqb (bucket_idx t) i).
      rewrite (Nat.eqb_sym i). destruct (Nat.eqb (bucket_idx t) i); [|lia].
      unfold add64. apply N.mod_small. pose proof (cnt_le (at_ i) (times h)) as C.
      rewrite (length_times h F1) in C. lia. }
  destruct X as [X1 X2]. apply nth_ext. intros i. destruct (Nat.lt_ge_cases i 11) as [Hi|Hi].
  - rewrite (X2 i Hi). rewrite nth_error_map.
    rewrite (nth_error_nth' (seq 0 11) O) by (rewrite seq_length; exact Hi).
    rewrite seq_nth by exact Hi. reflexivity.
  - rewrite (proj2 (nth_error_None _ _)) by lia. symmetry. apply nth_error_None.
    rewrite map_length, seq_length. exact Hi.
Qed.

Lemma scan_ok l k n i max target : (i + n = 11)%nat -> target = k ->
  (forall j b, nth_error scale j = Some b -> (j < i)%nat -> cnt (below (S j)) l < k) ->
  k <= cnt (below 11) l -> n <> O ->
  exists j b, nth_error scale j = Some b /\ k <= cnt (below (S j)) l /\
    (forall j2 b2, nth_error scale j2 = Some b2 -> (j2 < j)%nat -> cnt (below (S j2)) l < k) /\
    scan (cnt (below i) l) target (map (fun i => cnt (at_ i) l) (seq i n)) (skipn i scale) max = b.
Proof.
  intros In ->. revert i In. induction n as [|n IH]; intros i In Lo Hi Nz; [contradiction|].
  assert (E : exists b, nth_error scale i = Some b).
  { destruct (nth_error scale i) eqn:E; [eauto|]. apply nth_error_None in E. cbn in E. lia. }
  destruct E as [b E].
  assert (Sk : skipn i scale = b :: skipn (S i) scale).
  { clear -E. revert E. generalize scale as sc. induction i as [|i IH]; intros [|x sc] E; try discriminate.
    - injection E as ->. reflexivity.
    - exact (IH sc E). }
  cbn [seq map]. rewrite Sk. cbn [scan]. rewrite cnt_below.
  destruct (N.leb_spec k (cnt (below (S i)) l)) as [G|G].
  - exists i, b. repeat split; [exact E|exact G|exact Lo].
  - destruct n as [|n].
    + exfalso. assert (i = 10)%nat as -> by lia. lia.
    + apply (IH (S i)); [lia| |exact Hi|discriminate].
      intros j b2 Ej Lj. destruct (Nat.eq_dec j i) as [->|Ne]; [exact G|apply (Lo j b2 Ej); lia].
Qed.
Lemma scale_order j j2 b b2 : nth_error scale j = Some b -> nth_error scale j2 = Some b2 -> b2 < b -> (j2 < j)%nat.
Proof.
  intros E E2 L.
  do 11 (destruct j as [|j]; [injection E as <-;
    do 11 (destruct j2 as [|j2]; [injection E2 as <-; try lia; exfalso; lia|]); destruct j2; discriminate|]).
  destruct j; discriminate.
Qed.

(** For a history of single reads and writes the latency reported for a rank is the point of the
    scale below which the operation of that rank lies.  Missing, and false: batches and flushes. *)
Theorem c126_percentile_partial h rank : Forall single h -> N.of_nat (length h) < 2 ^ 64 -> h <> [] ->
  Forall (fun t => t < 2 ^ 64) (times h) ->
  rank (N.of_nat (length h)) <= N.of_nat (length h) -> 1 <= rank (N.of_nat (length h)) ->
  on_scale (rank (N.of_nat (length h))) (times h) (percentile rank (record_all h fresh)).
Proof.
  intros F L Ne T R1 R2.
  assert (I : ios (record_all h fresh) = N.of_nat (length h)).
  { rewrite <- (total_length h F). rewrite (counter ios ops_of);
      [apply N.mod_small; rewrite (total_length h F); exact L|field_ok|reflexivity]. }
  unfold percentile. rewrite I, (buckets_run h F L).
  destruct (N.eqb_spec (N.of_nat (length h)) 0) as [Z|_]; [destruct h; [contradiction|cbn in Z; lia]|].
  set (k := rank (N.of_nat (length h))) in *.
  assert (All : forall t, below 11 t = true) by (intros t; apply Nat.ltb_lt, bucket_small).
  assert (W : forall j b, nth_error scale j = Some b -> cnt (below (S j)) (times h) = within b (times h)).
  { intros j b E. apply cnt_ext. intros x Hx. rewrite Forall_forall in T. apply below_bound; [apply T; exact Hx|exact E]. }
  destruct (scan_ok (times h) k 11 0 (lmax (record_all h fresh)) k eq_refl eq_refl) as (j & b & E & G & Lo & Sc).
  - intros j b _ Lj. lia.
  - rewrite (cnt_ext _ (fun _ => true)) by (intros; apply All). unfold cnt.
    assert (X : filter (fun _ => true) (times h) = times h) by (clear; induction (times h) as [|x l IH]; [reflexivity|cbn; f_equal; exact IH]).
    rewrite X, (length_times h F). lia.
  - discriminate.
  - assert (Z : cnt (below 0) (times h) = 0).
    { rewrite (cnt_ext _ (fun _ => false)) by (intros; reflexivity). unfold cnt.
      clear. induction (times h) as [|x l IH]; [reflexivity|exact IH]. }
    rewrite Z in Sc. change (skipn 0 scale) with scale in Sc. unfold scale in Sc at 1. rewrite Sc. split; [apply nth_error_In in E; exact E|]. split.
    + rewrite <- (W j b E). exact G.
    + intros c Ic Lc. apply In_nth_error in Ic as [j2 E2]. rewrite <- (W j2 c E2).
      apply (Lo j2 c E2). exact (scale_order j j2 b c E E2 Lc).
Qed.

(** A batch is counted but enters no bucket: after batches only, of whatever length and however
    slow, every percentile is reported as 0. *)
Theorem c126_batch_refuted n t b rank : 0 < n -> n < 2 ^ 64 -> 1 <= rank n ->
  percentile rank (record_all [BatchRead n t b] fresh) = 0 /\
  percentile rank (record_all [BatchWrite n t b] fresh) = 0.
Proof.
  intros P L R. unfold percentile, record_all. cbn [fold_left record fresh ios buckets lmax].
  unfold add64. rewrite N.add_0_l, (N.mod_small n) by exact L.
  destruct (N.eqb_spec n 0); [lia|]. cbn [scan]. rewrite !N.add_0_l.
  destruct (N.leb_spec (rank n) 0); [lia|]. split; reflexivity.
Qed.

(** ** Errors *)

(** What the disk manager reports as errors are the reads that succeeded without the cache; a
    read that fails is not counted. *)
Definition reads_done (l : list (N * N * outcome)) : history := flat_map (fun '(t, b, o) => read_page t b o) l.
Definition is_error (o : outcome) : bool := match o with Error => true | _ => false end.
Definition is_disk (o : outcome) : bool := match o with FromDisk => true | _ => false end.
Theorem c126_errors_refuted l : N.of_nat (length l) < 2 ^ 64 ->
  errors (record_all (reads_done l) fresh) = N.of_nat (length (filter (fun x => is_disk (snd x)) l)).
Proof.
  intros L. rewrite (counter errors failures_of); [|field_ok|reflexivity].
  assert (E : total failures_of (reads_done l) = N.of_nat (length (filter (fun x => is_disk (snd x)) l))).
  { clear L. unfold reads_done in *. induction l as [|[[t b] []] l IH]; [reflexivity| | |];
      cbn [flat_map read_page app total failures_of filter snd is_disk length]; rewrite IH; lia. }
  rewrite E. apply N.mod_small.
  assert (X : (length (filter (fun x : N * N * outcome => is_disk (snd x)) l) <= length l)%nat).
  { clear. induction l as [|x l IH]; cbn; [lia|]. destruct (is_disk (snd x)); cbn; lia. }
  lia.
Qed.
(** So a disk that fails every read loses nothing but the 20 points for cold cache, and one that
    never fails is charged for as many errors as it served reads. *)
Theorem c126_health_refuted t b (k : nat) : 100 < N.of_nat k -> N.of_nat k < 2 ^ 64 ->
  health (record_all (reads_done (repeat (t, b, Error) k)) fresh) = 80 /\
  errors (record_all (reads_done (repeat (t, b, FromDisk) k)) fresh) = N.of_nat k /\
  health (record_all (reads_done (repeat (t, b, FromDisk) k)) fresh) <= 50.
Proof.
  intros K L.
  assert (X : forall o f, (forall x : N * N * outcome, x = (t, b, o) -> f x = true) ->
    length (filter f (repeat (t, b, o) k)) = k).
  { intros o f H. clear K L. induction k as [|k IH]; [reflexivity|]. cbn. rewrite H by reflexivity. cbn. now rewrite IH. }
  assert (Z : forall f : event -> N, f (Lookup false) = 0 -> total f (reads_done (repeat (t, b, Error) k)) = 0).
  { intros f H. clear K L X. induction k as [|k IH]; [reflexivity|]. cbn. rewrite H. unfold reads_done in IH. rewrite IH. reflexivity. }
  assert (M : forall o, o = Error \/ o = FromDisk -> misses (record_all (reads_done (repeat (t, b, o) k)) fresh) = N.of_nat k /\
    hits (record_all (reads_done (repeat (t, b, o) k)) fresh) = 0).
  { intros o O. rewrite (counter misses misses_of); [|field_ok|reflexivity].
    rewrite (counter hits hits_of); [|field_ok|reflexivity].
    assert (A : total misses_of (reads_done (repeat (t, b, o) k)) = N.of_nat k /\
      total hits_of (reads_done (repeat (t, b, o) k)) = 0).
    { clear -O. induction k as [|k [I1 I2]]; [split; reflexivity|]. unfold reads_done in *.
      cbn [repeat flat_map]. destruct O as [-> | ->]; cbn [read_page app total misses_of hits_of]; rewrite I1, I2; lia. }
    destruct A as [-> ->]. split; [apply N.mod_small; exact L|reflexivity]. }
  split; [|split].
  - unfold health. destruct (M Error (or_introl eq_refl)) as [-> ->].
    rewrite (counter ios ops_of);
      [|field_ok|reflexivity]. rewrite (counter errors failures_of); [|field_ok|reflexivity].
    rewrite !Z by reflexivity. rewrite N.mod_0_l by discriminate. cbn -[N.of_nat].
    destruct (N.ltb_spec 0 (N.of_nat k)); [reflexivity|lia].
  - rewrite c126_errors_refuted by (rewrite repeat_length; exact L). f_equal. apply X. now intros x ->.
  - unfold health. rewrite c126_errors_refuted by (rewrite repeat_length; exact L).
    rewrite (X FromDisk) by (now intros x ->). destruct (M FromDisk (or_intror eq_refl)) as [-> ->].
    destruct (N.ltb_spec 100 (N.of_nat k)); [|lia].
    destruct (N.ltb_spec 0 (0 + N.of_nat k)); [|lia]. destruct (N.ltb_spec (2 * 0) (0 + N.of_nat k)); [|lia].
    match goal with |- context [if ?b then 80 else _] => destruct b; [vm_compute; discriminate|] end.
    match goal with |- context [if ?b then 90 else _] => destruct b; vm_compute; discriminate end.
Qed.
(** The score is always between 30 and 100. *)
Theorem c126_health_range s : 30 <= health s <= 100.
Proof.
  unfold health. repeat match goal with |- context [if ?b then _ else _] => destruct b end; lia.
Qed.

(** ** Reset *)

Definition same_io (a b : live) : Prop :=
  ios a = ios b /\ isum a = isum b /\ reads a = reads b /\ rsum a = rsum b /\ writes a = writes b /\ wsum a = wsum b /\
  bytes a = bytes b /\ written a = written b /\ batches a = batches b /\ flushes a = flushes b /\ errors a = errors b /\
  lmax a = lmax b /\ lmin a = lmin b /\ buckets a = buckets b.
Theorem c126_reset s h : same_io (record_all h (reset s)) (record_all h fresh).
Proof.
  unfold record_all. assert (G : forall h a b, same_io a b -> same_io (fold_left record h a) (fold_left record h b)).
  { clear. induction h as [|e h IH]; intros a b R; [exact R|]. cbn [fold_left]. apply IH.
    destruct a, b. unfold same_io in *. cbn in R. destruct R as (->&->&->&->&->&->&->&->&->&->&->&->&->&->).
    destruct e; cbn; repeat split. }
  apply G. unfold same_io, reset, fresh. cbn. repeat split.
Qed.
(** But rates are of the time since the collector was made: with as much before the reset as
    after it, half of the bytes a second are reported. *)
Theorem c126_rate_refuted s lat k up : 0 < up -> 2 * k * up < 2 ^ 64 ->
  bytes_per_second (record_all [Write lat (2 * k * up)] (reset s)) (up + up) = k /\
  2 * k * up / up = 2 * k.
Proof.
  intros U L. unfold bytes_per_second, record_all. cbn [fold_left record reset bytes].
  unfold add64. rewrite N.add_0_l, N.mod_small by exact L.
  destruct (N.ltb_spec 0 (up + up)); [|lia]. split.
  - replace (2 * k * up) with (k * (up + up)) by lia. apply N.div_mul. lia.
  - apply N.div_mul. lia.
Qed.

(** ** Concurrent recording *)

Lemma elem_mid {A} (l1 l2 : list A) x y : In y (l1 ++ x :: l2) <-> y = x \/ In y (l1 ++ l2).
Proof. rewrite !in_app_iff. cbn. intuition. Qed.

(** With compare and exchange the maximum is right in every schedule, once all have finished. *)
Definition cas_inv (all : list N) (s : N * list thread) : Prop :=
  (forall t, In t all <-> exists th, In th (snd s) /\ time_of th = t) /\
  (fst s = 0 \/ In (fst s) all) /\
  (forall th, In th (snd s) -> match th with Over t => t <= fst s | Loaded _ cur => cur <= fst s | Begin _ => True end).
Lemma cas_keeps all s1 s2 : interleaved cas_step s1 s2 -> cas_inv all s1 -> cas_inv all s2.
Proof.
  induction 1 as [s|m before th after m2 th2 s St _ IH]; [auto|]. intros (I1 & I2 & I3). apply IH.
  assert (Tm : time_of th2 = time_of th) by (inversion St; reflexivity).
  assert (Up : m <= m2) by (inversion St; subst; lia).
  cbn [fst snd] in *. split; [|split]; cbn [fst snd].
  - intros t. rewrite I1. split; intros (x & Hx & Ex); apply elem_mid in Hx as [->|Hx].
    + exists th2. split; [apply elem_mid; auto|congruence].
    + exists x. split; [apply elem_mid; auto|exact Ex].
    + exists th. split; [apply elem_mid; auto|congruence].
    + exists x. split; [apply elem_mid; auto|exact Ex].
  - inversion St; subst; try exact I2. right. apply I1. exists (Loaded m2 m). split; [apply elem_mid; auto|reflexivity].
  - intros x Hx. apply elem_mid in Hx as [->|Hx].
    + pose proof (I3 th (proj2 (elem_mid before after th th) (or_introl eq_refl))) as B.
      inversion St; subst; lia.
    + pose proof (I3 x (proj2 (elem_mid before after th x) (or_intror Hx))) as B. destruct x; lia.
Qed.
Theorem c126_cas_max ts m ths : ts <> [] ->
  interleaved cas_step (0, map Begin ts) (m, ths) ->
  (forall th, In th ths -> exists t, th = Over t) -> largest ts m.
Proof.
  intros N R D.
  assert (I : cas_inv ts (m, ths)).
  { apply (cas_keeps ts _ _ R). split; [|split]; cbn [fst snd].
    - intros t. split.
      + intros H. exists (Begin t). split; [apply in_map; exact H|reflexivity].
      + intros (x & Hx & <-). apply in_map_iff in Hx as (y & <- & Hy). exact Hy.
    - left. reflexivity.
    - intros x Hx. apply in_map_iff in Hx as (y & <- & _). exact Logic.I. }
  destruct I as (I1 & I2 & I3). cbn [fst snd] in *.
  assert (Up : forall x, In x ts -> x <= m).
  { intros x Hx. apply I1 in Hx as (th & Hth & <-). pose proof (I3 th Hth) as B.
    destruct (D th Hth) as [t ->]. exact B. }
  split; [|exact Up]. destruct I2 as [->|I2]; [|exact I2].
  destruct ts as [|x ts]; [contradiction|]. pose proof (Up x (or_introl eq_refl)).
  assert (x = 0) as -> by lia. left. reflexivity.
Qed.

(** With load and store it is not: for any two times there is a schedule after which the smaller
    one is the maximum. *)
Theorem c126_store_max_refuted small big : 0 < small -> small < big ->
  interleaved store_step (0, [Begin small; Begin big]) (small, [Over small; Over big]) /\
  ~ largest [small; big] small.
Proof.
  intros P L. split.
  - eapply (il_step _ 0 [] (Begin small) [Begin big]); [constructor|]. cbn [app].
    eapply (il_step _ 0 [Loaded small 0] (Begin big) []); [constructor|]. cbn [app].
    eapply (il_step _ 0 [Loaded small 0] (Loaded big 0) []); [apply ss_store; lia|]. cbn [app].
    eapply (il_step _ big [] (Loaded small 0) [Over big]); [apply ss_store; lia|]. cbn [app].
    apply il_done.
  - intros [_ H]. pose proof (H big (or_intror (or_introl eq_refl))). lia.
Qed.

(** ** The completion tracker *)

Lemma io_app k h e s : io_record_all k (h ++ [e]) s = io_record k (io_record_all k h s) e.
Proof. unfold io_record_all. rewrite fold_left_app. reflexivity. Qed.
Lemma io_count_app f h e : io_count f (h ++ [e]) = io_count f h + (if f e then 1 else 0).
Proof. unfold io_count. rewrite filter_app, app_length. cbn [filter]. destruct (f e); cbn [length]; lia. Qed.
Lemma io_count_le f h : io_count f h <= N.of_nat (length h).
Proof. unfold io_count. induction h as [|x h IH]; cbn; [lia|]. destruct (f x); cbn [length]; lia. Qed.
Lemma sensible_app h e : sensible (h ++ [e]) -> sensible h.
Proof.
  intros S i. specialize (S (Nat.min i (length h))). rewrite firstn_app in S.
  replace (Nat.min i (length h) - length h)%nat with O in S by lia. cbn [firstn] in S. rewrite app_nil_r in S.
  destruct (Nat.le_ge_cases i (length h)).
  - rewrite Nat.min_l in S by lia. exact S.
  - rewrite Nat.min_r in S by lia. rewrite firstn_all2 by lia. rewrite firstn_all in S. exact S.
Qed.

Lemma keep_last {A} k (l : list A) d :
  skipn (length (skipn (length l - k) l ++ [d]) - k) (skipn (length l - k) l ++ [d]) =
  skipn (length (l ++ [d]) - k) (l ++ [d]).
Proof.
  rewrite !app_length, skipn_length. cbn [length]. destruct (Nat.le_gt_cases (length l + 1) k) as [G|G].
  - replace (length l - k)%nat with O by lia. replace (length l + 1 - k)%nat with O by lia.
    replace (length l - 0 + 1 - k)%nat with O by lia. reflexivity.
  - replace (length l - (length l - k) + 1 - k)%nat with 1%nat by lia.
    replace (length l + 1 - k)%nat with (1 + (length l - k))%nat by lia.
    assert (Sk : forall a b (m : list A), skipn (a + b) m = skipn a (skipn b m)).
    { clear. intros a b. induction b as [|b IH]; intros m; [rewrite Nat.add_0_r; reflexivity|].
      rewrite Nat.add_succ_r. destruct m as [|x m]; [destruct a; reflexivity|]. exact (IH m). }
    rewrite Sk. f_equal. rewrite skipn_app. replace (length l - k - length l)%nat with O by lia. reflexivity.
Qed.
(** Everything that was started is pending or has ended in one of the four ways, and the recent
    durations are the last k. *)
Theorem c126_pending k h : sensible h -> N.of_nat (length h) < 2 ^ 64 ->
  let s := io_record_all k h io_fresh in
  started s = io_count (fun e => negb (ends e)) h /\
  started s = pending s + completed s + failed s + cancelled s + timed_out s /\
  pending s = io_count (fun e => negb (ends e)) h - io_count ends h /\
  recent s = skipn (length (durations h) - k) (durations h).
Proof.
  intros S L. cbn zeta.
  assert (G : started (io_record_all k h io_fresh) = io_count (fun e => negb (ends e)) h /\
    completed (io_record_all k h io_fresh) + failed (io_record_all k h io_fresh) +
      cancelled (io_record_all k h io_fresh) + timed_out (io_record_all k h io_fresh) = io_count ends h /\
    pending (io_record_all k h io_fresh) = io_count (fun e => negb (ends e)) h - io_count ends h /\
    io_count ends h <= io_count (fun e => negb (ends e)) h /\
    recent (io_record_all k h io_fresh) = skipn (length (durations h) - k) (durations h)).
  { induction h as [|e h IH] using rev_ind; [repeat split; discriminate|].
    pose proof (S (length (h ++ [e]))) as Now. rewrite firstn_all in Now.
    apply sensible_app in S. rewrite app_length in L. cbn [length] in L.
    destruct IH as (A & B & C & D & E); [exact S|lia|]. rewrite io_app.
    pose proof (io_count_le ends h) as X1. pose proof (io_count_le (fun e => negb (ends e)) h) as X2.
    assert (Du : durations (h ++ [e]) = durations h ++ durations [e]) by apply flat_map_app.
    rewrite Du. rewrite !io_count_app in *.
    destruct (io_record_all k h io_fresh) as [st co fa ca ti pe br bw mi re]. cbn [started completed failed cancelled timed_out pending recent] in *.
    assert (Sm : forall a, a + 1 < 2 ^ 64 -> add64 a 1 = a + 1) by (intros a Ha; apply N.mod_small; exact Ha).
    assert (De : forall a, 0 < a -> a < 2 ^ 64 -> dec64 a = a - 1).
    { intros a Ha Hb. unfold dec64. replace (a + (2 ^ 64 - 1)) with (a - 1 + 1 * 2 ^ 64) by lia.
      rewrite N.mod_add by discriminate. apply N.mod_small. lia. }
    destruct e; cbn [io_record started completed failed cancelled timed_out pending recent ends negb durations flat_map app] in *;
      rewrite ?app_nil_r; rewrite ?Sm, ?De by lia; (repeat split; try lia; try exact E).
    rewrite E. apply keep_last. }
  destruct G as (A & B & C & D & E). repeat split; [exact A|lia|exact C|exact E].
Qed.

(** ** Cases *)

Definition ex_h : history :=
  [Read 7000 4096 true; Write 250000 4096; Read 40000000 4096 false; Write 9000 4096; Flush 100 3; Lookup true].
Definition ex_s : history := [Read 7000 4096 true; Write 250000 4096; Read 40000000 4096 true; Write 9000 4096].
Example c126_averages_ex :
  read_average (record_all ex_h fresh) = 20003500 /\ write_average (record_all ex_h fresh) = 129500 /\
  bytes (record_all ex_h fresh) = 16384 /\ errors (record_all ex_h fresh) = 1.
Proof. repeat split. Qed.
Example c126_extremes_ex : largest (times ex_h) 40000000 /\ smallest (times ex_h) 7000.
Proof. apply (c126_extremes ex_h); [|discriminate]. repeat (constructor; [vm_compute; reflexivity|]). constructor. Qed.
(** Of four operations the third fastest took 250 us and lies below 500 us. *)
Example c126_percentile_ex :
  on_scale 3 (times ex_s) (percentile (fun n => n * 3 / 4) (record_all ex_s fresh)) /\
  percentile (fun n => n * 3 / 4) (record_all ex_s fresh) = 500000.
Proof.
  split; [|vm_compute; reflexivity].
  assert (R : (fun n => n * 3 / 4) (N.of_nat (length ex_s)) = 3) by (vm_compute; reflexivity).
  pose proof (c126_percentile_partial ex_s (fun n => n * 3 / 4)) as P. cbv beta in P, R. rewrite R in P. apply P; clear P R.
  - repeat (constructor; [exact I|]). constructor.
  - vm_compute. reflexivity.
  - discriminate.
  - repeat (constructor; [vm_compute; reflexivity|]). constructor.
  - vm_compute. discriminate.
  - vm_compute. discriminate.
Qed.
Example c126_batch_ex : percentile (fun n => n) (record_all [BatchRead 8 3000000000 32768] fresh) = 0.
Proof. apply c126_batch_refuted; vm_compute; congruence. Qed.
Example c126_errors_ex :
  errors (record_all (reads_done [(1, 4096, Error); (1, 4096, FromDisk); (1, 4096, Cached); (1, 4096, FromDisk)]) fresh) = 2.
Proof. rewrite c126_errors_refuted; reflexivity. Qed.
Example c126_cas_ex :
  interleaved cas_step (0, map Begin [5; 9]) (9, [Over 5; Over 9]).
Proof.
  eapply (il_step _ 0 [] (Begin 5) [Begin 9]); [constructor|]. cbn [app].
  eapply (il_step _ 0 [Loaded 5 0] (Begin 9) []); [constructor|]. cbn [app].
  eapply (il_step _ 0 [Loaded 5 0] (Loaded 9 0) []); [apply cs_swap; reflexivity|]. cbn [app].
  eapply (il_step _ 9 [] (Loaded 5 0) [Over 9]); [apply cs_fail; reflexivity|]. cbn [app].
  eapply (il_step _ 9 [] (Loaded 5 9) [Over 9]); [apply cs_skip; discriminate|]. cbn [app].
  apply il_done.
Qed.
Example c126_store_ex : exists m, m = 5 /\ interleaved store_step (0, [Begin 5; Begin 9]) (m, [Over 5; Over 9]).
Proof. exists 5. split; [reflexivity|]. apply c126_store_max_refuted; reflexivity. Qed.
Example c126_rate_ex : bytes_per_second (record_all [Write 1 1000000] (reset fresh)) 20 = 50000.
Proof. exact (proj1 (c126_rate_refuted fresh 1 50000 10 eq_refl eq_refl)). Qed.
Definition ex_io : list io_event := [Start; Start; Complete 40 4096 true; Start; Failed; Complete 20 4096 false; Start].
Example c126_pending_ex :
  sensible ex_io /\ pending (io_record_all 1 ex_io io_fresh) = 1 /\ recent (io_record_all 1 ex_io io_fresh) = [20].
Proof.
  split; [|split; reflexivity]. intros i. do 8 (destruct i as [|i]; [vm_compute; discriminate|]).
  destruct i; vm_compute; discriminate.
Qed.

Print Assumptions c126_counters.
Print Assumptions c126_averages.
Print Assumptions c126_extremes.
Print Assumptions c126_percentile_partial.
Print Assumptions c126_batch_refuted.
Print Assumptions c126_errors_refuted.
Print Assumptions c126_health_refuted.
Print Assumptions c126_health_range.
Print Assumptions c126_reset.
Print Assumptions c126_rate_refuted.
Print Assumptions c126_cas_max.
Print Assumptions c126_store_max_refuted.
Print Assumptions c126_pending.
