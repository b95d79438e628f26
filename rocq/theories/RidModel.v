(** Record identifiers.  Models src/common/rid.rs. *)
From Coq Require Import List NArith ZArith.
From Verif Require Import Bytes.
Import ListNotations.
Local Open Scope N_scope.

(** src/common/rid.rs 204-209: [page_id : u64], [slot_num : u32]. *)
Record rid := mkRid { rid_page : N; rid_slot : N }.

(** The values a Rust [RID] can take. *)
Definition rid_ok (r : rid) : Prop := rid_page r < 2 ^ 64 /\ rid_slot r < 2 ^ 32.

(** [x as u64] for an [i64] (two's complement). *)
Definition i64_to_u64 (z : Z) : N := Z.to_N (z mod 2 ^ 64)%Z.
(** [x as i64] for a [u64] (two's complement). *)
Definition u64_to_i64 (n : N) : Z :=
  if n <? 2 ^ 63 then Z.of_N n else (Z.of_N n - 2 ^ 64)%Z.

(** src/common/rid.rs 239-244, [RID::from_i64]. *)
Definition rid_from_i64 (z : Z) : rid :=
  let bits := i64_to_u64 z in
  let page_u32 := N.shiftr bits 32 mod 2 ^ 32 in
  let slot := bits mod 2 ^ 32 in
  mkRid page_u32 slot.

(** src/common/rid.rs 252-258, [RID::to_i64]. [page_id << 32] drops the high
    bits as on a [u64]. *)
Definition rid_to_i64 (r : rid) : option Z :=
  if 2 ^ 32 - 1 <? rid_page r then None
  else Some (u64_to_i64 (N.lor (N.shiftl (rid_page r) 32 mod 2 ^ 64) (rid_slot r))).

(** src/common/rid.rs 272-277, [RID::to_bytes_le]. *)
Definition rid_to_bytes (r : rid) : list N :=
  le_enc 8 (rid_page r) ++ le_enc 4 (rid_slot r).

(** src/common/rid.rs 280-287, [RID::try_deserialize]. *)
Definition rid_try_deserialize (data : list N) : option rid :=
  if Nat.ltb (length data) 12 then None
  else Some (mkRid (le_dec (firstn 8 data)) (le_dec (firstn 4 (skipn 8 data)))).

(** src/common/rid.rs 202-203: derived [Ord], lexicographic on the fields. *)
Definition rid_ltb (a b : rid) : bool :=
  if rid_page a =? rid_page b then rid_slot a <? rid_slot b else rid_page a <? rid_page b.
