(** * The figures kept about disk operations

    Models src/storage/disk/async_disk/metrics/collector.rs (K),
    src/storage/disk/async_disk/metrics/live_metrics.rs:80-140 (the initial values),
    src/storage/disk/async_disk/manager.rs:421-556 (M, what a read records) and
    src/storage/disk/async_disk/io/metrics.rs (I).

    Simplifications: the clock is given; the rank of a percentile, computed in floating point
    (K 486), is given; ratios compared with 0.5 and 0.8 are compared exactly; throughput and
    rates in floating point are left out; record_batch_operation (K 169-187), which nothing
    calls, is left out. *)
From Coq Require Import NArith List Bool.
From Verif Require Import MetSpec.
Import ListNotations.
Local Open Scope N_scope.

(** AtomicU64::fetch_add and fetch_sub of 1 wrap. *)
Definition add64 (a b : N) : N := (a + b) mod 2 ^ 64.
Definition dec64 (a : N) : N := (a + (2 ^ 64 - 1)) mod 2 ^ 64.

Record live := Live {
  ios : N; isum : N; reads : N; rsum : N; writes : N; wsum : N; bytes : N; written : N;
  batches : N; flushes : N; errors : N; hits : N; misses : N;
  lmax : N; lmin : N; buckets : list N
}.
(** live_metrics.rs:84-140 *)
Definition fresh : live :=
  Live 0 0 0 0 0 0 0 0 0 0 0 0 0 0 (2 ^ 64 - 1) [0; 0; 0; 0; 0; 0; 0; 0; 0; 0; 0].

(** K 326-338 *)
Definition bucket_idx (t : N) : nat :=
  if t <=? 10000 then 0
  else if t <=? 100000 then 1
  else if t <=? 500000 then 2
  else if t <=? 1000000 then 3
  else if t <=? 5000000 then 4
  else if t <=? 10000000 then 5
  else if t <=? 50000000 then 6
  else if t <=? 100000000 then 7
  else if t <=? 500000000 then 8
  else if t <=? 1000000000 then 9
  else 10.
Fixpoint bump (i : nat) (l : list N) : list N :=
  match l, i with
  | x :: l, O => add64 x 1 :: l
  | x :: l, S i => x :: bump i l
  | [], _ => []
  end.
(** K 308-323: the extremes, undisturbed. *)
Definition raise_max (t m : N) : N := if m <? t then t else m.
Definition lower_min (t m : N) : N := if t <? m then t else m.

(** K 114-140, 143-166, 190-214, 217-244, 247-260 and 263-292. *)
Definition record (s : live) (e : event) : live :=
  let 'Live io is rd rs wr ws by_ wt ba fl er hi mi mx mn bk := s in
  match e with
  | Read t b ok =>
      Live (add64 io 1) (add64 is t) (add64 rd 1) (add64 rs t) wr ws (add64 by_ b) wt ba fl
        (if ok then er else add64 er 1) hi mi (raise_max t mx) (lower_min t mn) (bump (bucket_idx t) bk)
  | Write t b =>
      Live (add64 io 1) (add64 is t) rd rs (add64 wr 1) (add64 ws t) (add64 by_ b) (add64 wt b) ba fl
        er hi mi (raise_max t mx) (lower_min t mn) (bump (bucket_idx t) bk)
  | BatchRead n t b =>
      Live (add64 io n) (add64 is t) (add64 rd n) (add64 rs t) wr ws (add64 by_ b) wt (add64 ba 1) fl
        er hi mi mx mn bk
  | BatchWrite n t b =>
      Live (add64 io n) (add64 is t) rd rs (add64 wr n) (add64 ws t) (add64 by_ b) (add64 wt b) (add64 ba 1) fl
        er hi mi mx mn bk
  | Flush t n =>
      Live (add64 io n) (add64 is t) rd rs wr ws by_ wt ba (add64 fl 1) er hi mi mx mn bk
  | Lookup hit =>
      Live io is rd rs wr ws by_ wt ba fl er (if hit then add64 hi 1 else hi) (if hit then mi else add64 mi 1)
        mx mn bk
  end.
Definition record_all (h : history) (s : live) : live := fold_left record h s.

(** K 553-563 *)
Definition read_average (s : live) : N := if 0 <? reads s then rsum s / reads s else 0.
Definition write_average (s : live) : N := if 0 <? writes s then wsum s / writes s else 0.
(** K 503-511: through the buckets and their bounds. *)
Fixpoint scan (cur target : N) (bs bounds : list N) (max : N) : N :=
  match bs, bounds with
  | x :: bs, b :: bounds => let cur := cur + x in if target <=? cur then b else scan cur target bs bounds max
  | _, _ => max
  end.
(** K 480-512; [rank n] is the rank asked for among n. *)
Definition percentile (rank : N -> N) (s : live) : N :=
  if ios s =? 0 then 0
  else scan 0 (rank (ios s)) (buckets s)
    [10000; 100000; 500000; 1000000; 5000000; 10000000; 50000000; 100000000; 500000000; 1000000000; 2 ^ 64 - 1]
    (lmax s).
(** K 422-472 *)
Definition health (s : live) : N :=
  let avg := if 0 <? ios s then isum s / ios s else 0 in
  let score := if 50000000 <? avg then 80 else if 10000000 <? avg then 90 else 100 in
  let n := hits s + misses s in
  let score := if 0 <? n then
      if 2 * hits s <? n then score - 20 else if 10 * hits s <? 8 * n then score - 10 else score
    else score in
  if 100 <? errors s then score - 30 else if 10 <? errors s then score - 15
  else if 0 <? errors s then score - 5 else score.
(** K 382-419: the figures of the cache and the time the collector was made stay. *)
Definition reset (s : live) : live :=
  Live 0 0 0 0 0 0 0 0 0 0 0 (hits s) (misses s) 0 (2 ^ 64 - 1) [0; 0; 0; 0; 0; 0; 0; 0; 0; 0; 0].
(** K 346-358: [up] are the seconds since the collector was made. *)
Definition bytes_per_second (s : live) (up : N) : N := if 0 <? up then bytes s / up else 0.

(** How a read of a page ends: found in the cache, read from the disk, or failed. *)
Inductive outcome := Cached | FromDisk | Error.
(** M 421-556: what it records. *)
Definition read_page (t b : N) (o : outcome) : history :=
  match o with
  | Cached => [Lookup true; Read t b true]
  | FromDisk => [Lookup false; Read t b false]
  | Error => [Lookup false]
  end.

(** ** The extremes under concurrency *)

(** A thread that records the time t: before it loads the maximum; after it has loaded it;
    finished. *)
Inductive thread := Begin (t : N) | Loaded (t cur : N) | Over (t : N).
Definition time_of (th : thread) : N := match th with Begin t | Loaded t _ | Over t => t end.
(** K 310-315: load, compare, store. *)
Inductive store_step : N * thread -> N * thread -> Prop :=
| ss_load m t : store_step (m, Begin t) (m, Loaded t m)
| ss_store m t cur : cur < t -> store_step (m, Loaded t cur) (t, Over t)
| ss_skip m t cur : t <= cur -> store_step (m, Loaded t cur) (m, Over t).
(** I 127-138: load, then compare and exchange until it succeeds or is not needed; the exchange
    may fail for no reason. *)
Inductive cas_step : N * thread -> N * thread -> Prop :=
| cs_load m t : cas_step (m, Begin t) (m, Loaded t m)
| cs_swap m t : m < t -> cas_step (m, Loaded t m) (t, Over t)
| cs_fail m t cur : cur < t -> cas_step (m, Loaded t cur) (m, Loaded t m)
| cs_skip m t cur : t <= cur -> cas_step (m, Loaded t cur) (m, Over t).
(** Threads take their steps in any order. *)
Inductive interleaved (step : N * thread -> N * thread -> Prop) : N * list thread -> N * list thread -> Prop :=
| il_done s : interleaved step s s
| il_step m before th after m2 th2 s :
    step (m, th) (m2, th2) -> interleaved step (m2, before ++ th2 :: after) s ->
    interleaved step (m, before ++ th :: after) s.

(** ** The figures of the completion tracker *)

Record io_live := IoLive {
  started : N; completed : N; failed : N; cancelled : N; timed_out : N; pending : N;
  bytes_read : N; bytes_written : N; micros : N; recent : list N
}.
(** I 64-81 *)
Definition io_fresh : io_live := IoLive 0 0 0 0 0 0 0 0 0 [].
(** I 84-164; [k] is the number of recent durations kept. *)
Definition io_record (k : nat) (s : io_live) (e : io_event) : io_live :=
  let 'IoLive st co fa ca ti pe br bw mi re := s in
  match e with
  | Start => IoLive (add64 st 1) co fa ca ti (add64 pe 1) br bw mi re
  | Complete d b r =>
      let all := re ++ [d] in
      IoLive st (add64 co 1) fa ca ti (dec64 pe) (if r then add64 br b else br) (if r then bw else add64 bw b)
        (add64 mi d) (skipn (length all - k) all)
  | Failed => IoLive st co (add64 fa 1) ca ti (dec64 pe) br bw mi re
  | Cancelled => IoLive st co fa (add64 ca 1) ti (dec64 pe) br bw mi re
  | TimedOut => IoLive st co fa ca (add64 ti 1) (dec64 pe) br bw mi re
  end.
Definition io_record_all (k : nat) (h : list io_event) (s : io_live) : io_live := fold_left (io_record k) h s.
