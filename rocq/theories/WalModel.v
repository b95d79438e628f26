(** * The log manager: appending, the flush task, crashes and restarts *)
(** src/recovery/log_manager.rs (L), the log's part of src/storage/disk/async_disk/manager.rs (M) and io/executor.rs (X), and
    what src/common/db_instance.rs:445-521 does with them when a database is opened. The log file is a list of records (its
    bytes are C36) in two layers: what is on the device and what the operating system still holds. Writing a record that
    fails leaves nothing or a torn record. A sync that fails leaves the operating system's part as it was.
    The fsync policy is any but Never (with Never, M 1010 makes the sync do nothing; opening a database uses OnFlush). *)
From Coq Require Import NArith Lia.
From stdpp Require Import list.
From Verif Require Import WalSpec.
Local Open Scope N_scope.

(** src/common/config.rs: INVALID_LSN. *)
Definition no_lsn : N := 2 ^ 64 - 1.
(** L 253: the capacity of the channel. *)
Definition capacity : nat := 1000.

(** Where the flush task is: L 296 (the loop's test), L 298 (waiting for a record), L 313-323 (taking more records), L 382-384
    (records still to be written; the last number of the batch; is it the last flush?), L 386, L 334-336, ended. *)
Inductive flusher :=
| FTop
| FRecv
| FDrain (batch : list lrec) (mx : N)
| FWrite (todo : list lrec) (mx : N) (final : bool)
| FSync (mx : N) (final : bool)
| FFinal (batch : list lrec)
| FDead.

(** L 205-242. [w_app]: the append in progress and whether its record was handed over (append_log_record and shut_down take
    [&mut self] behind one lock, so there is at most one); [w_join]: shut_down is waiting for the task. *)
Record wal := mkWal { w_next : N; w_pers : N; w_stop : bool; w_chan : list lrec; w_app : option (lrec * bool);
                      w_join : bool; w_fl : flusher; w_os : list item; w_dev : list item }.

(** L 252-268 and 284-349 on a log file that holds [f]; DB 502-514 with R 351-354 if there is recovery: the persistent LSN
    becomes the next LSN, which is 0. *)
Definition boot (f : list item) (recovery : bool) : wal :=
  mkWal 0 (if recovery then 0 else no_lsn) false [] None false FTop [] f.

Inductive wlab :=
| LAppend (commit : bool) (body : N)       (* append_log_record is called *)
| LSend                                     (* it tries to hand over the record *)
| LRet                                      (* it returns *)
| LShut                                     (* shut_down is called *)
| LJoined                                   (* and returns *)
| LTimeout                                  (* nothing came for 10 ms *)
| LFlush (fault : option bool)              (* the flush task makes a step; a failing write may leave a torn record *)
| LWriteback (n : nat)                      (* the operating system writes something to the device *)
| LCrash (n : nat) (torn : bool) (recovery : bool).  (* the process dies, something of the rest survives, the database is opened *)

Definition set_app (s : wal) (a : option (lrec * bool)) : wal :=
  mkWal (w_next s) (w_pers s) (w_stop s) (w_chan s) a (w_join s) (w_fl s) (w_os s) (w_dev s).
Definition set_chan (s : wal) (c : list lrec) : wal :=
  mkWal (w_next s) (w_pers s) (w_stop s) c (w_app s) (w_join s) (w_fl s) (w_os s) (w_dev s).
Definition set_fl (s : wal) (f : flusher) : wal :=
  mkWal (w_next s) (w_pers s) (w_stop s) (w_chan s) (w_app s) (w_join s) f (w_os s) (w_dev s).
Definition set_files (s : wal) (os dev : list item) : wal :=
  mkWal (w_next s) (w_pers s) (w_stop s) (w_chan s) (w_app s) (w_join s) (w_fl s) os dev.
Definition set_pers (s : wal) (p : N) : wal :=
  mkWal (w_next s) p (w_stop s) (w_chan s) (w_app s) (w_join s) (w_fl s) (w_os s) (w_dev s).
Definition set_stop (s : wal) : wal :=
  mkWal (w_next s) (w_pers s) true (w_chan s) (w_app s) (w_join s) (w_fl s) (w_os s) (w_dev s).
Definition set_join (s : wal) (b : bool) : wal :=
  mkWal (w_next s) (w_pers s) (w_stop s) (w_chan s) (w_app s) b (w_fl s) (w_os s) (w_dev s).

(** L 452-455. *)
Definition append (s : wal) (commit : bool) (body : N) : option (wal * list wev) :=
  match w_app s with
  | Some _ => None
  | None =>
      if w_join s then None
      else
        let r := mkLrec (w_next s) commit body in
        Some (mkWal ((w_next s + 1) mod 2 ^ 64) (w_pers s) (w_stop s) (w_chan s) (Some (r, false)) (w_join s) (w_fl s) (w_os s) (w_dev s),
              [EApp r])
  end.
(** L 460-474: the channel is closed once the task has ended; while it is full the append keeps trying. *)
Definition send (s : wal) : option wal :=
  match w_app s with
  | Some (r, false) =>
      match w_fl s with
      | FDead => Some (set_app s (Some (r, true)))
      | _ => if (length (w_chan s) <? capacity)%nat then Some (set_app (set_chan s (w_chan s ++ [r])) (Some (r, true))) else None
      end
  | _ => None
  end.
(** L 485-488. *)
Definition must_wait (s : wal) (lsn : N) : bool := (w_pers s =? no_lsn) || (w_pers s <? lsn).
(** L 477-502. *)
Definition ret (s : wal) : option (wal * list wev) :=
  match w_app s with
  | Some (r, true) =>
      if r_commit r && must_wait s (r_lsn r) && negb (w_stop s) then None else Some (set_app s None, [ERet r])
  | _ => None
  end.

Definition last_of (b : list lrec) : N := foldr N.max 0 (map r_lsn b).
(** L 391-410: how a flush ends, and where the task goes next. *)
Definition after (final : bool) : flusher := if final then FDead else FTop.
Definition flushed (s : wal) (mx : N) (final : bool) : wal :=
  set_fl (if mx =? no_lsn then s else set_pers s mx) (after final).
Definition failed (s : wal) (final : bool) : wal := set_fl (set_stop s) (after final).
(** M 1338-1359 with X 567-578 (the fault says whether a torn record is left); M 1008-1019 with X 598-609. *)
Definition write_log (s : wal) (r : lrec) (fault : option bool) : wal :=
  set_files s (w_os s ++ match fault with None => [IRec r] | Some true => [ITorn] | Some false => [] end) (w_dev s).
Definition sync_log (s : wal) : wal := set_files s [] (w_dev s ++ w_os s).
(** L 293-345, one step of the flush task. *)
Definition flush_step (s : wal) (fault : option bool) : option (wal * list wev) :=
  match w_fl s with
  | FTop => Some (set_fl s (if w_stop s then FFinal [] else FRecv), [])
  | FRecv => match w_chan s with [] => None | r :: c => Some (set_fl (set_chan s c) (FDrain [r] (r_lsn r)), []) end
  | FDrain b mx =>
      match w_chan s with
      | [] => Some (set_fl s (FWrite b mx false), [])
      | r :: c =>
          let mx := if (mx =? no_lsn) || (mx <? r_lsn r) then r_lsn r else mx in
          Some (set_fl (set_chan s c) (if r_commit r then FWrite (b ++ [r]) mx false else FDrain (b ++ [r]) mx), [])
      end
  | FWrite [] mx final => Some (set_fl s (FSync mx final), [])
  | FWrite (r :: t) mx final =>
      match fault with
      | None => Some (set_fl (write_log s r None) (FWrite t mx final), [])
      | Some _ => Some (failed (write_log s r fault) final, [EFail])
      end
  | FSync mx final =>
      match fault with
      | None => Some (flushed (sync_log s) mx final, [])
      | Some _ => Some (failed s final, [EFail])
      end
  | FFinal b =>
      match w_chan s with
      | r :: c => Some (set_fl (set_chan s c) (FFinal (b ++ [r])), [])
      | [] => Some (set_fl s (match b with [] => FDead | _ => FWrite b (last_of b) true end), [])
      end
  | FDead => None
  end.

Definition wstep (s : wal) (l : wlab) : option (wal * list wev) :=
  match l with
  | LAppend c b => append s c b
  | LSend => match send s with Some s1 => Some (s1, []) | None => None end
  | LRet => ret s
  | LShut => match w_app s with None => if w_join s then None else Some (set_join (set_stop s) true, [EShut]) | _ => None end
  | LJoined => match w_fl s with FDead => if w_join s then Some (set_join s false, []) else None | _ => None end
  | LTimeout => match w_fl s with FRecv => Some (set_fl s FTop, []) | _ => None end
  | LFlush fault => flush_step s fault
  | LWriteback n => Some (set_files s (drop n (w_os s)) (w_dev s ++ take n (w_os s)), [])
  | LCrash n torn recovery =>
      Some (boot (w_dev s ++ take n (w_os s) ++ if torn then [ITorn] else []) recovery, [ERestart recovery])
  end.
Fixpoint wrun (s : wal) (ls : list wlab) : option (wal * list wev) :=
  match ls with
  | [] => Some (s, [])
  | l :: t =>
      match wstep s l with
      | None => None
      | Some (s1, e) => match wrun s1 t with None => None | Some (s2, tr) => Some (s2, e ++ tr) end
      end
  end.
(** A database with an empty log, opened for the first time. *)
Definition fresh : wal := boot [] false.
