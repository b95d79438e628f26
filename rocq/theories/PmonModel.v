(** The performance monitor: /repo/src/common/performance_monitor.rs.

    Modelled: the counters of the buffer pool, the disk, the locks and the
    version chains, and the scores of the buffer pool, the disk and the locks.  Simplified: the counters
    do not wrap at 2^64, and the scores are rationals where the code has f64. *)

From Coq Require Import List ZArith QArith Qminmax Bool.
From Verif Require Import PmonSpec.
Import ListNotations.
Open Scope Z_scope.

(** The fields of [PerformanceMetrics] used here (lines 18-59); [evictions] is
    [page_evictions], which nothing ever changes. *)
Record metrics := {
  hits : Z; misses : Z; evictions : Z;
  reads : Z; writes : Z; read_ns : Z; write_ns : Z; sequential : Z; random : Z;
  requests : Z; immediate : Z; waits : Z; wait_ns : Z; conflicts : Z;
  traversals : Z; chain_length : Z; checks : Z }.

(** Lines 105-168. *)
Definition start : metrics :=
  {| hits := 0; misses := 0; evictions := 0; reads := 0; writes := 0; read_ns := 0;
     write_ns := 0; sequential := 0; random := 0; requests := 0; immediate := 0;
     waits := 0; wait_ns := 0; conflicts := 0; traversals := 0; chain_length := 0;
     checks := 0 |}.

Definition plus_if (b : bool) (n : Z) : Z := if b then n + 1 else n.

(** [record_buffer_pool_operation] (lines 197-211). *)
Definition record_buffer (hit : bool) (m : metrics) : metrics :=
  {| hits := plus_if hit (hits m); misses := plus_if (negb hit) (misses m);
     evictions := evictions m; reads := reads m; writes := writes m;
     read_ns := read_ns m; write_ns := write_ns m; sequential := sequential m;
     random := random m; requests := requests m; immediate := immediate m;
     waits := waits m; wait_ns := wait_ns m; conflicts := conflicts m;
     traversals := traversals m; chain_length := chain_length m; checks := checks m |}.

(** [record_disk_io] (lines 214-240). *)
Definition record_disk (w : bool) (latency : N) (seq : bool) (m : metrics) : metrics :=
  {| hits := hits m; misses := misses m; evictions := evictions m;
     reads := plus_if (negb w) (reads m); writes := plus_if w (writes m);
     read_ns := if w then read_ns m else Z.of_N latency;
     write_ns := if w then Z.of_N latency else write_ns m;
     sequential := plus_if (negb w && seq) (sequential m);
     random := plus_if (negb w && negb seq) (random m);
     requests := requests m; immediate := immediate m;
     waits := waits m; wait_ns := wait_ns m; conflicts := conflicts m;
     traversals := traversals m; chain_length := chain_length m; checks := checks m |}.

(** [record_lock_operation] (lines 263-286). *)
Definition record_lock (imm : bool) (wait : N) (conflict : bool) (m : metrics) : metrics :=
  {| hits := hits m; misses := misses m; evictions := evictions m; reads := reads m;
     writes := writes m; read_ns := read_ns m; write_ns := write_ns m;
     sequential := sequential m; random := random m;
     requests := requests m + 1; immediate := plus_if imm (immediate m);
     waits := plus_if (negb imm) (waits m);
     wait_ns := if imm then wait_ns m else Z.of_N wait;
     conflicts := plus_if conflict (conflicts m);
     traversals := traversals m; chain_length := chain_length m; checks := checks m |}.

(** [record_mvcc_operation] (lines 289-311), for "version_traversal" and for
    "visibility_check". *)
Definition record_traversal (chain : N) (m : metrics) : metrics :=
  {| hits := hits m; misses := misses m; evictions := evictions m; reads := reads m;
     writes := writes m; read_ns := read_ns m; write_ns := write_ns m;
     sequential := sequential m; random := random m; requests := requests m;
     immediate := immediate m; waits := waits m; wait_ns := wait_ns m;
     conflicts := conflicts m; traversals := traversals m + 1;
     chain_length := Z.of_N chain; checks := checks m |}.

Definition record_check (m : metrics) : metrics :=
  {| hits := hits m; misses := misses m; evictions := evictions m; reads := reads m;
     writes := writes m; read_ns := read_ns m; write_ns := write_ns m;
     sequential := sequential m; random := random m; requests := requests m;
     immediate := immediate m; waits := waits m; wait_ns := wait_ns m;
     conflicts := conflicts m; traversals := traversals m;
     chain_length := chain_length m; checks := checks m + 1 |}.

(** [reset_metrics] (lines 1143-1184): the fields it names, and no others. *)
Definition reset (m : metrics) : metrics :=
  {| hits := 0; misses := 0; evictions := evictions m; reads := 0; writes := 0;
     read_ns := read_ns m; write_ns := write_ns m; sequential := sequential m;
     random := random m; requests := 0; immediate := immediate m; waits := waits m;
     wait_ns := wait_ns m; conflicts := 0; traversals := 0;
     chain_length := chain_length m; checks := checks m |}.

Definition step (m : metrics) (e : event) : metrics :=
  match e with
  | Fetch hit => record_buffer hit m
  | Disk w l s => record_disk w l s m
  | Lock i w c => record_lock i w c m
  | Traversal n => record_traversal n m
  | Visibility => record_check m
  | Reset => reset m
  end.

Definition after (h : list event) : metrics := fold_left step h start.

Definition ratio (a b : Z) : Q := (inject_Z a / inject_Z b)%Q.
Definition clamp (q : Q) : Q := Qmax 0 (Qmin 1 q).

(** [analyze_buffer_pool_performance] (lines 353-373). *)
Definition buffer_score (m : metrics) : Q :=
  let total := hits m + misses m in
  if total =? 0 then 1%Q
  else
    let pressure := ratio (evictions m) total in
    clamp (ratio (hits m) total * (1 - Qmin pressure (1 # 2)))%Q.

(** [analyze_disk_io_performance] (lines 376-418). *)
Definition latency_score (l : Z) : Q :=
  if l <? 1000000 then 1%Q
  else if l <? 5000000 then (4 # 5)%Q
  else if l <? 10000000 then (3 # 5)%Q
  else (3 # 10)%Q.

Definition disk_score (m : metrics) : Q :=
  let avg :=
    if (0 <? read_ns m) && (0 <? write_ns m) then Some ((read_ns m + write_ns m) / 2)
    else if 0 <? read_ns m then Some (read_ns m)
    else if 0 <? write_ns m then Some (write_ns m)
    else None in
  match avg with
  | None => 1%Q
  | Some l =>
    let bonus :=
      if 0 <? sequential m + random m
      then (ratio (sequential m) (sequential m + random m) * (1 # 5))%Q
      else 0%Q in
    Qmin (latency_score l + bonus)%Q 1
  end.

(** [analyze_lock_manager_performance] (lines 421-445). *)
Definition lock_score (m : metrics) : Q :=
  if requests m =? 0 then 1%Q
  else
    let grant := ratio (immediate m) (requests m) in
    let conflict := ratio (conflicts m) (requests m) in
    let wait_ms := ratio (wait_ns m) 1000000 in
    clamp (grant - conflict * (1 # 2) - Qmin (wait_ms / 100) (1 # 2))%Q.
