(** * What a user expects of reading the log back *)
From Coq Require Import NArith ZArith Lia.
From stdpp Require Import list.

(** A log record over tuples of type [T]: its fields as src/recovery/log_record.rs:231-269 has them. [l_kind]: 0 invalid, 1 insert,
    2 mark-delete, 3 apply-delete, 4 rollback-delete, 5 update, 6 begin, 7 commit, 8 abort, 9 new page. A RID is a page and a slot. *)
Record lrec {T : Type} := mkL {
  l_size : Z; l_lsn : N; l_txn : N; l_prev : N; l_kind : N;
  l_drid : option (N * N); l_dtup : option T; l_irid : option (N * N); l_itup : option T;
  l_urid : option (N * N); l_old : option T; l_new : option T; l_ppage : option N; l_page : option N }.
Arguments lrec : clear implicits.

(** The fields are in the ranges of their types: i32, u64, u32. *)
Definition u64_ok (x : N) : Prop := (x < 2 ^ 64)%N.
Definition rid_ok (r : N * N) : Prop := (r.1 < 2 ^ 64 /\ r.2 < 2 ^ 32)%N.
Definition opt_ok {A} (P : A -> Prop) (o : option A) : Prop := match o with Some x => P x | None => True end.
Record rec_ok {T} (r : lrec T) : Prop := mkRecOk {
  ok_size : (- 2 ^ 31 <= l_size r < 2 ^ 31)%Z;
  ok_lsn : u64_ok (l_lsn r); ok_txn : u64_ok (l_txn r); ok_prev : u64_ok (l_prev r); ok_kind : (l_kind r < 10)%N;
  ok_drid : opt_ok rid_ok (l_drid r); ok_irid : opt_ok rid_ok (l_irid r); ok_urid : opt_ok rid_ok (l_urid r);
  ok_ppage : opt_ok u64_ok (l_ppage r); ok_page : opt_ok u64_ok (l_page r) }.

(** What a tuple's encoding must satisfy: it tells where it ends, and gives the tuple back. *)
Definition codec {T} (enc : T -> list N) (dec : list N -> option (T * list N)) : Prop :=
  forall t rest, dec (enc t ++ rest) = Some (t, rest).
