(** * Positioned file I/O *)
(** src/storage/disk/direct_io.rs (D) and src/storage/disk/async_disk/io/executor.rs (X), on Linux. What the kernel does is an
    argument: the oracle says for each system call how many bytes it transfers ([None]: the call fails); when it runs out, the
    kernel transfers all it can. Offsets stay below 2^63 (the kernel refuses others), except that the multiplication of X 418 and
    461 wraps at 2^64, as in a release build. Sizes do not overflow (D 411 panics). *)
From Coq Require Import NArith Lia.
From stdpp Require Import list.
From Verif Require Import FioSpec.
Local Open Scope nat_scope.

Notation oracle := (list (option nat)).

(** write_at and read_at of the standard library: pwrite(2) and pread(2) with a full transfer. *)
Definition pwrite (off : nat) (d : list N) (f : file) : file :=
  list_inserts off d (resize (length f `max` (off + length d)) 0%N f).
Definition pread (off len : nat) (f : file) : list N := take len (drop off f).

(** D 467-482; the loop ends because the kernel reports at least one byte or the function fails. Also tokio's write_all on a
    file positioned at [off]. *)
Fixpoint write_all_at (o : oracle) (off : nat) (d : list N) (f : file) {struct o} : res () * file :=
  match d with
  | [] => (Ok (), f)
  | _ =>
      match o with
      | [] => (Ok (), pwrite off d f)
      | None :: _ => (Err, f)
      | Some n :: o =>
          let n := n `min` length d in
          if n =? 0 then (Err, f) else write_all_at o (off + n) (drop n d) (pwrite off (take n d) f)
      end
  end.
(** D 431-443; read_at returns 0 bytes only at the end of the file. Also tokio's read_exact. *)
Fixpoint read_exact_at (o : oracle) (off len : nat) (f : file) {struct o} : res (list N) :=
  match len with
  | 0 => Ok []
  | _ =>
      match o with
      | [] => let b := pread off len f in if length b =? len then Ok b else Err
      | None :: _ => Err
      | Some n :: o =>
          let b := pread off (len `min` (1 `max` n)) f in
          if length b =? 0 then Err
          else match read_exact_at o (off + length b) (len - length b) f with
               | Ok c => Ok (b ++ c)
               | r => r
               end
      end
  end.

(** D 163-167. *)
Record dconf := DConf { d_enabled : bool; d_align : nat }.
(** D 254-260, 417-422. *)
Definition aligned (n a : nat) : bool := (a =? 0) || (n mod a =? 0).
Definition pow2 (a : nat) : bool := negb (a =? 0) && (2 ^ Nat.log2 a =? a).
(** D 274-285. *)
Definition validate_alignment (a : nat) : bool := negb (a =? 0) && pow2 a.
(** D 401-413. *)
Definition round_up (n a : nat) : nat := if a =? 0 then n else (n + (a - 1)) / a * a.

(** D 297-324: a layout needs a power of two. *)
Definition new_buffer {A} (a : nat) (k : res A) : res A := if pow2 a then k else Panic.

(** D 512-551. *)
Definition read_aligned (c : dconf) (o : oracle) (off size : nat) (f : file) : res (list N) :=
  if size =? 0 then new_buffer (1 `max` d_align c) (Ok [])
  else if d_enabled c && negb (validate_alignment (d_align c) && aligned off (d_align c)) then Err
  else if d_enabled c then new_buffer (1 `max` d_align c) (read_exact_at o off (round_up size (d_align c)) f)
  else new_buffer (1 `max` d_align c) (read_exact_at o off size f).
(** D 554-594: the buffer's new content. [pa] says whether the caller's buffer is aligned. *)
Definition read_aligned_into (c : dconf) (o : oracle) (pa : bool) (off len : nat) (f : file) : res (list N) :=
  if len =? 0 then Ok []
  else if d_enabled c then
    if negb (validate_alignment (d_align c)) then Err
    else if negb (aligned off (d_align c)) then Err
    else if negb pa || negb (aligned len (d_align c)) then
      match read_exact_at o off (round_up len (d_align c)) f with
      | Ok b => Ok (take len b)
      | r => r
      end
    else read_exact_at o off len f
  else read_exact_at o off len f.
(** D 597-646: an unaligned buffer is copied to an aligned one first, which does not change the bytes. *)
Definition write_aligned (c : dconf) (o : oracle) (off : nat) (d : list N) (f : file) : res () * file :=
  match d with
  | [] => (Ok (), f)
  | _ =>
      if d_enabled c &&
         negb (validate_alignment (d_align c) && aligned off (d_align c) && aligned (length d) (d_align c))
      then (Err, f)
      else write_all_at o off d f
  end.

(** X 418, 461: page_id * DB_PAGE_SIZE in u64. *)
Definition page_offset (p : N) : nat := N.to_nat ((p * 4096) mod 2 ^ 64)%N.
(** X 417-435. *)
Definition execute_read_page (c : dconf) (o : oracle) (p : N) (f : file) : res (list N) :=
  if d_enabled c then new_buffer (d_align c) (read_exact_at o (page_offset p) PAGE f)
  else read_exact_at o (page_offset p) PAGE f.
(** D 392-397: the data, padded with zeros. *)
Definition padded (d : list N) (size a : nat) : list N := resize (round_up (size `max` length d) a) 0%N d.
(** X 448-508. *)
Definition execute_write_page (c : dconf) (o : oracle) (p : N) (d : list N) (f : file) : res () * file :=
  if negb (length d =? PAGE) then (Err, f)
  else if d_enabled c then
    if pow2 (d_align c) then write_all_at o (page_offset p) (padded d PAGE (d_align c)) f else (Panic, f)
  else write_all_at o (page_offset p) d f.

(** X 522-534. *)
Definition execute_read_log (o : oracle) (off size : nat) (f : file) : res (list N) :=
  if size =? 0 then Ok [] else read_exact_at o off size f.
(** X 567-578: the offset and the new file. *)
Definition execute_append_log (o : oracle) (d : list N) (f : file) : res nat * file :=
  let off := length f in
  match d with
  | [] => (Ok off, f)
  | _ => match write_all_at o off d f with
         | (Ok _, f') => (Ok off, f')
         | (Err, f') => (Err, f')
         | (Panic, f') => (Panic, f')
         end
  end.
(** X 543-556. *)
Definition execute_write_log (o : oracle) (d : list N) (off : nat) (f : file) : res () * file :=
  match d with [] => (Ok (), f) | _ => write_all_at o off d f end.
