(** * The disk manager: write path, page cache and reads *)
(** src/storage/disk/async_disk/manager.rs (M), memory/write_manager.rs (W), cache/cache_manager.rs (C),
    memory/durability_manager.rs (D) and memory/flush_coordinator.rs (F). The coalescing engine is left out: it
    hands back the content it is given and fails only on empty content (theorem c18_latest). The file is a map of
    pages; its durability is the subject of C52. The tiers of the cache are maps from which any pages may leave
    whenever a page is inserted. Compression is off or the identity. *)
From Coq Require Import NArith Lia.
From stdpp Require Import gmap list.
From Verif Require Import WbufSpec WbufModel DiskSpec.

(** config.rs 108-153: the page size is 4096; [d_max] is write_buffer_size_mb in bytes; [d_cache] is
    cache_size_mb > 0; [d_steal] is work_stealing_enabled; [d_fsync] is false for FsyncPolicy::Never; [d_dur]
    is whether the durability level makes a flush sync before it hands over the pages (D 226-306). *)
Record dcfg := mkDcfg { d_page : nat; d_max : nat; d_threshold : nat; d_batch : nat; d_cache : bool; d_steal : bool; d_fsync : bool; d_dur : bool }.
(** The defaults: 64 MB, 128 pages, batches of 64. *)
Definition default_cfg : dcfg := mkDcfg 4096 (64 * 1024 * 1024) 128 64 true true true true.

Record disk := mkDisk {
  s_buf : wbuf;
  s_hot : gmap N bytes; s_warm : gmap N bytes; s_cold : gmap N bytes;
  s_count : gmap N N;            (* C 837: accesses per page *)
  s_hash : gmap N N;             (* C 840: content hash to page *)
  s_file : gmap N bytes; s_len : N;  (* the pages written to the file and its length in pages *)
  s_fly : gmap nat (list (N * bytes)) }. (* pages taken by a running flush *)
Definition disk_new (g : dcfg) : disk := mkDisk (wbuf_new (d_max g)) ∅ ∅ ∅ ∅ ∅ ∅ 0 ∅.

Definition set_buf (s : disk) (b : wbuf) : disk := mkDisk b (s_hot s) (s_warm s) (s_cold s) (s_count s) (s_hash s) (s_file s) (s_len s) (s_fly s).
Definition set_fly (s : disk) (f : gmap nat (list (N * bytes))) : disk := mkDisk (s_buf s) (s_hot s) (s_warm s) (s_cold s) (s_count s) (s_hash s) (s_file s) (s_len s) f.

(** One page into the file (M 740, io executor). *)
Definition file_write (s : disk) (x : N * bytes) : disk :=
  mkDisk (s_buf s) (s_hot s) (s_warm s) (s_cold s) (s_count s) (s_hash s) (<[x.1 := x.2]> (s_file s)) (N.max (s_len s) (x.1 + 1)) (s_fly s).
(** M 727-760: the first error ends the loop; then the durability policy is applied again. *)
Definition write_pages (g : dcfg) (s : disk) (l : list (N * bytes)) (f : fault) : disk * bool :=
  match f_wr f with
  | Some ps => (fold_left file_write (filter (fun x => x.1 ∈ ps) l) s, false)
  | None => (fold_left file_write l s, negb (d_dur g && f_post f))
  end.
(** W 468-513: the pages are drained before the sync; when it fails they are dropped. *)
Definition drain (g : dcfg) (s : disk) (f : fault) : disk * option (list (N * bytes)) :=
  let '(b, l) := wbuf_drain (s_buf s) in
  match l with
  | [] => (set_buf s b, Some [])
  | _ => if d_dur g && f_pre f then (set_buf s b, None) else (set_buf s b, Some l)
  end.
(** W 396-413 then M 602-608, or W 416-465 then M 655-660: no other flush is running. *)
Definition flush_pages (g : dcfg) (s : disk) (f : fault) : disk * bool :=
  let '(s1, r) := drain g s f in
  match r with
  | None => (s1, false)
  | Some [] => (s1, true)
  | Some l => write_pages g s1 l f
  end.
(** M 650-684. *)
Definition flush (g : dcfg) (s : disk) (f : fault) : disk * bool :=
  let '(s1, ok) := flush_pages g s f in
  if ok then (s1, negb (d_fsync g && f_sync f)) else (s1, false).

(** ** The cache *)
(** C 574-580. *)
Definition content_hash (d : bytes) : N := fold_left (fun h b => ((h * 31 + b) mod 2 ^ 64)%N) d 0%N.
(** C 1152-1185: the access counter. *)
Definition record_access (s : disk) (p : N) (locked : bool) : disk :=
  if locked then mkDisk (s_buf s) (s_hot s) (s_warm s) (s_cold s) (<[p := (default 0 (s_count s !! p) + 1)%N]> (s_count s)) (s_hash s) (s_file s) (s_len s) (s_fly s)
  else s.
(** Insertion into a tier; the pages [out] leave it. *)
Definition tier_put (m : gmap N bytes) (p : N) (d : bytes) (out : list N) : gmap N bytes :=
  filter (fun x => x.1 ∉ out) (<[p := d]> m).
(** C 1225-1291 with C 553-572 and C 1366-1375. *)
Definition store_page (s : disk) (p : N) (d : bytes) (c : cstore) : disk :=
  if negb (c_admit c) then s
  else
    let h := content_hash d in
    let dup := c_dedup c && match s_hash s !! h with Some q => negb (q =? p)%N | None => false end in
    if dup then s
    else
      let hs := if c_dedup c then <[h := p]> (s_hash s) else s_hash s in
      let n := if c_temp c then default 0%N (s_count s !! p) else 0%N in
      let hot := (10 <? n)%N in
      let warm := negb hot && (5 <? n)%N in
      let put (b : bool) m := if b && c_lock c then tier_put m p d (c_out c) else m in
      record_access
        (mkDisk (s_buf s) (put hot (s_hot s)) (put warm (s_warm s)) (put (negb hot && negb warm) (s_cold s)) (s_count s) hs (s_file s) (s_len s) (s_fly s))
        p (c_rec c).
(** C 1015-1104. *)
Definition lookup_page (s : disk) (p : N) (k : clook) : disk * option bytes :=
  let s := record_access s p (k_rec k) in
  match (if k_hot k then s_hot s !! p else None) with
  | Some d => (s, Some d)
  | None =>
      match (if k_warm k then s_warm s !! p else None) with
      | Some d => (mkDisk (s_buf s) (if k_up k then tier_put (s_hot s) p d (k_out k) else s_hot s) (s_warm s) (s_cold s) (s_count s) (s_hash s) (s_file s) (s_len s) (s_fly s), Some d)
      | None =>
          match (if k_cold k then s_cold s !! p else None) with
          | Some d => (mkDisk (s_buf s) (s_hot s) (if k_up k then tier_put (s_warm s) p d (k_out k) else s_warm s) (s_cold s) (s_count s) (s_hash s) (s_file s) (s_len s) (s_fly s), Some d)
          | None => (s, None)
          end
      end
  end.

(** ** Calls *)
(** Reading the file: a page past the end is an error, a page never written before the end is zeros. *)
Definition file_read (g : dcfg) (s : disk) (p : N) : option bytes :=
  if (p <? s_len s)%N then Some (default (replicate (d_page g) 0%N) (s_file s !! p)) else None.
(** M 422-550. With work stealing the read becomes a task of the scheduler (scheduler.rs 79-84), and nothing takes
    tasks from its queues: its only readers are try_steal_work and get_worker_receiver (scheduler.rs 94-109), which
    are called nowhere. *)
Definition read_page (g : dcfg) (s : disk) (p : N) (k : clook) : disk * dout :=
  let '(s1, r) := if d_cache g then lookup_page s p k else (s, None) in
  match r with
  | Some d => (s1, Data d)
  | None =>
      if d_steal g then (s1, Waits)
      else if k_err k then (s1, Failed)
      else match file_read g s1 p with
           | None => (s1, Failed)
           | Some d => (if d_cache g then store_page s1 p d (k_store k) else s1, Data d)
           end
  end.
(** W 295-377: true when the call goes on. A refused write is dropped and the buffer is flushed. *)
Definition buffer_write (g : dcfg) (s : disk) (p : N) (d : bytes) (due : bool) : disk * bool :=
  let '(b, ok) := wbuf_write (s_buf s) p d in
  (set_buf s b, if ok then (d_threshold g <=? w_dirty b) || due else true).
(** M 579-608 (the first half of a write), with the cache updated before (M 596-608) or after (M 905-916) the
    flushed pages are written. *)
Definition write_one (g : dcfg) (s : disk) (p : N) (d : bytes) (due : bool) (f : fault) (c : cstore) (before : bool) : disk * bool :=
  if negb (length d =? d_page g) then (s, false)
  else
    let '(s1, full) := buffer_write g s p d due in
    let '(s2, r) := if full then drain g s1 f else (s1, Some []) in
    match r with
    | None => (s2, false)
    | Some l =>
        let s3 := if d_cache g && before then store_page s2 p d c else s2 in
        let '(s4, ok) := match l with [] => (s3, true) | _ => write_pages g s3 l f end in
        if ok then (if d_cache g && negb before then store_page s4 p d c else s4, true) else (s4, false)
    end.
(** M 630-647. *)
Definition should_flush (g : dcfg) (s : disk) (due : bool) : bool :=
  (d_threshold g <=? w_dirty (s_buf s)) || due || (d_batch g <=? w_dirty (s_buf s)).
Definition answer (x : disk * bool) : disk * dout := (x.1, if x.2 then Done else Failed).
(** M 573-627. *)
Definition write_page (g : dcfg) (s : disk) (p : N) (d : bytes) (due1 : bool) (f1 : fault) (c : cstore) (due2 : bool) (f2 : fault) : disk * bool :=
  let '(s1, ok) := write_one g s p d due1 f1 c true in
  if negb ok then (s1, false) else if should_flush g s1 due2 then flush g s1 f2 else (s1, true).
(** M 886-940; the chunks are written one after the other. *)
Fixpoint write_list (g : dcfg) (s : disk) (l : list (N * bytes * (bool * fault * cstore))) : disk * bool :=
  match l with
  | [] => (s, true)
  | (p, d, (due, f, c)) :: t => let '(s1, ok) := write_one g s p d due f c false in if ok then write_list g s1 t else (s1, false)
  end.
Definition write_batch (g : dcfg) (s : disk) (l : list (N * bytes * (bool * fault * cstore))) (due2 : bool) (f2 : fault) : disk * bool :=
  let '(s1, ok) := write_list g s l in
  if negb ok then (s1, false) else if should_flush g s1 due2 then flush g s1 f2 else (s1, true).
(** M 964-994 is [flush] and one more sync. The flag that only one flush runs at a time is released when the pages
    are drained and before they are written (W 407-412), so another task can be between the two. *)
Definition dstep (g : dcfg) (s : disk) (o : dop) : disk * dout :=
  match o with
  | DWrite p d due1 f1 c due2 f2 => answer (write_page g s p d due1 f1 c due2 f2)
  | DBatch l due2 f2 => answer (write_batch g s l due2 f2)
  | DRead p k => read_page g s p k
  | DFlush f => answer (flush g s f)
  | DDrain t f =>
      let '(s1, r) := drain g s f in
      match r with Some l => (set_fly s1 (<[t := l]> (s_fly s1)), Done) | None => (s1, Failed) end
  | DLand t f =>
      match s_fly s !! t with
      | None => (s, Failed)
      | Some l =>
          let s1 := set_fly s (delete t (s_fly s)) in
          let '(s2, ok) := match l with [] => (s1, true) | _ => write_pages g s1 l f end in
          answer (s2, ok && negb (d_fsync g && f_sync f))
      end
  end.
Fixpoint drun (g : dcfg) (s : disk) (ops : list dop) : disk * list dcall :=
  match ops with
  | [] => (s, [])
  | o :: t => let '(s1, r) := dstep g s o in let '(s2, tr) := drun g s1 t in (s2, (o, r) :: tr)
  end.
