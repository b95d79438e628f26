(** * The log file's bytes: writing and reading records *)
(** src/recovery/log_record.rs (R), src/recovery/log_iterator.rs (I), read_log_record of src/recovery/log_manager.rs (L), with the log
    reads of src/storage/disk/async_disk (executor.rs:522-534: read_exact, which fails if the file is too short; the worker
    passes the error on as a message that starts with "UnexpectedEof", which is_eof_error, I 246, recognises). Bytes are [N]s.
    Records are encoded by postcard: integers as varints (signed ones zigzagged), options with a tag byte, the type by its
    position. How a tuple is encoded is a parameter. *)
From Coq Require Import NArith ZArith Lia.
From stdpp Require Import list.
From Verif Require Import Bytes PageModel WrecSpec.
Local Open Scope N_scope.

(** postcard's u32 (used for the slot, the record type and, zigzagged, the i32 size): at most five bytes, the fifth at most 15. *)
Definition u32_enc (x : N) : list N := varint_enc 5 x.
Fixpoint u32_dec_aux (fuel : nat) (l : list N) : option (N * list N) :=
  match fuel, l with
  | S f, b :: l =>
      if b <? 128 then (if (f =? 0)%nat && (15 <? b) then None else Some (b, l))
      else match u32_dec_aux f l with Some (x, l) => Some (b - 128 + 128 * x, l) | None => None end
  | _, _ => None
  end.
Definition u32_dec (l : list N) : option (N * list N) := u32_dec_aux 5 l.
Definition zigzag (z : Z) : N := if (z <? 0)%Z then Z.to_N (- 2 * z - 1) else Z.to_N (2 * z).
Definition unzigzag (n : N) : Z := if N.odd n then (- Z.of_N (n / 2) - 1)%Z else Z.of_N (n / 2).

Definition dec (A : Type) := list N -> option (A * list N).
Definition bind {A B} (d : dec A) (f : A -> dec B) : dec B :=
  fun l => match d l with Some (x, l) => f x l | None => None end.
Definition done_ {A} (x : A) : dec A := fun l => Some (x, l).
Definition i32_dec : dec Z := bind u32_dec (fun n => done_ (unzigzag n)).
(** An unknown variant is an error. *)
Definition kind_dec : dec N := bind u32_dec (fun n l => if n <? 10 then Some (n, l) else None).
Definition rid_enc (r : N * N) : list N := u64_enc r.1 ++ u32_enc r.2.
Definition rid_dec : dec (N * N) := bind u64_dec (fun p => bind u32_dec (fun s => done_ (p, s))).
Definition oenc {A} (e : A -> list N) (o : option A) : list N := match o with None => [0] | Some x => 1 :: e x end.
Definition odec {A} (d : dec A) : dec (option A) :=
  fun l => match l with
           | 0 :: l => Some (None, l)
           | 1 :: l => bind d (fun x => done_ (Some x)) l
           | _ => None
           end.

Section Codec.
Context {T : Type} (tenc : T -> list N) (tdec : dec T).

(** R 604, postcard::to_allocvec: the fields in the order in which they are declared (R 231-269). *)
Definition payload (r : lrec T) : list N :=
  u32_enc (zigzag (l_size r)) ++ u64_enc (l_lsn r) ++ u64_enc (l_txn r) ++ u64_enc (l_prev r) ++ u32_enc (l_kind r) ++
  oenc rid_enc (l_drid r) ++ oenc tenc (l_dtup r) ++ oenc rid_enc (l_irid r) ++ oenc tenc (l_itup r) ++
  oenc rid_enc (l_urid r) ++ oenc tenc (l_old r) ++ oenc tenc (l_new r) ++ oenc u64_enc (l_ppage r) ++ oenc u64_enc (l_page r).
(** R 627, postcard::from_bytes, which ignores what follows. *)
Definition rec_dec : dec (lrec T) :=
  bind i32_dec (fun size => bind u64_dec (fun lsn => bind u64_dec (fun txn => bind u64_dec (fun prev => bind kind_dec (fun kind =>
  bind (odec rid_dec) (fun drid => bind (odec tdec) (fun dtup => bind (odec rid_dec) (fun irid => bind (odec tdec) (fun itup =>
  bind (odec rid_dec) (fun urid => bind (odec tdec) (fun old => bind (odec tdec) (fun new =>
  bind (odec u64_dec) (fun ppage => bind (odec u64_dec) (fun page =>
  done_ (mkL T size lsn txn prev kind drid dtup irid itup urid old new ppage page))))))))))))))).

(** R 603-610. The length is cast to 32 bits. *)
Definition to_bytes (r : lrec T) : list N := le_enc 4 (4 + N.of_nat (length (payload r))) ++ payload r.
(** R 622-628. *)
Definition from_bytes (l : list N) : option (lrec T) :=
  if (length l <? 4)%nat then None else match rec_dec (drop 4 l) with Some (r, _) => Some r | None => None end.

(** Executor 522-534: [None] is the end-of-file error. *)
Definition read_at (f : list N) (off n : N) : option (list N) :=
  if n =? 0 then Some []
  else if off + n <=? N.of_nat (length f) then Some (take (N.to_nat n) (drop (N.to_nat off) f)) else None.

(** I 289-432: [next], with [att] attempts left, at offset [off]; the record if there is one, and the new offset. Once there is
    none the iterator stays at the end. A header is an i32: a negative one is at least 2^31 here. *)
Fixpoint next_loop (att : nat) (f : list N) (off : N) : option (lrec T) * N :=
  match att with
  | O => (None, off)
  | S att =>
      match read_at f off 4 with
      | None => (None, off)
      | Some h =>
          let size := le_dec h in
          if (size =? 0) || (1000000 <? size) then
            if bool_decide (h = [0; 0; 0; 0]) then next_loop att f ((off / 4096 + 1) * 4096) else next_loop att f (off + 1)
          else
            match read_at f off size with
            | None => (None, off)
            | Some bs =>
                match from_bytes bs with
                | None => next_loop att f (off + 1)
                | Some r => if l_kind r =? 0 then next_loop att f (off + 1) else (Some r, off + size)
                end
            end
      end
  end.
Definition next := next_loop 100.
(** I 477-483: [n] calls of [next], or until there is no record. *)
Fixpoint collect (n : nat) (f : list N) (off : N) : list (lrec T) :=
  match n with
  | O => []
  | S n => match next f off with (Some r, off) => r :: collect n f off | (None, _) => [] end
  end.
(** I 258-265, 477-483. Every record is at least one byte long, so that many calls reach the end (proved). *)
Definition collect_all (f : list N) : list (lrec T) := collect (S (length f)) f 0.

(** L 579-609 with src/storage/disk/async_disk/manager.rs:1306-1325: always 1024 bytes are read. *)
Definition read_record (f : list N) (off : N) : option (lrec T) :=
  match read_at f off 1024 with None => None | Some bs => from_bytes bs end.
End Codec.
