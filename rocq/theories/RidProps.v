(** C01: RID encodings round-trip. *)
From Coq Require Import List NArith ZArith.
From Verif Require Import Bytes RidModel RidProofs.
Import ListNotations.
Local Open Scope N_scope.

(** Packing into an [i64] and unpacking is the identity for every RID whose
    page id fits in 32 bits. *)
Theorem c01_i64_roundtrip : forall r, rid_ok r -> rid_page r < 2 ^ 32 ->
  exists z, rid_to_i64 r = Some z /\ (- 2 ^ 63 <= z < 2 ^ 63)%Z /\ rid_from_i64 z = r.
Proof. exact i64_roundtrip. Qed.
Print Assumptions c01_i64_roundtrip.
Example c01_i64_roundtrip_ex : rid_ok (mkRid (2 ^ 32 - 1) 7) /\ 2 ^ 32 - 1 < 2 ^ 32 /\
  rid_to_i64 (mkRid (2 ^ 32 - 1) 7) = Some (- 2 ^ 32 + 7)%Z.
Proof. repeat split. Qed.

(** Packing fails exactly when the page id does not fit. *)
Theorem c01_i64_none_iff : forall r, rid_ok r -> (rid_to_i64 r = None <-> 2 ^ 32 <= rid_page r).
Proof. exact i64_none. Qed.
Print Assumptions c01_i64_none_iff.
Example c01_i64_none_iff_ex : rid_ok (mkRid (2 ^ 32) 0) /\ rid_to_i64 (mkRid (2 ^ 32) 0) = None.
Proof. repeat split. Qed.

(** Every [i64] unpacks to a valid RID that packs back to it. *)
Theorem c01_i64_onto : forall z, (- 2 ^ 63 <= z < 2 ^ 63)%Z ->
  rid_ok (rid_from_i64 z) /\ rid_to_i64 (rid_from_i64 z) = Some z.
Proof. exact i64_onto. Qed.
Print Assumptions c01_i64_onto.
Example c01_i64_onto_ex : (- 2 ^ 63 <= -1 < 2 ^ 63)%Z /\
  rid_from_i64 (-1) = mkRid (2 ^ 32 - 1) (2 ^ 32 - 1).
Proof. repeat split; reflexivity || discriminate. Qed.

(** The 12-byte encoding decodes to the same RID; trailing bytes are ignored. *)
Theorem c01_bytes_roundtrip : forall r rest, rid_ok r ->
  rid_try_deserialize (rid_to_bytes r ++ rest) = Some r.
Proof. exact bytes_roundtrip. Qed.
Print Assumptions c01_bytes_roundtrip.
Example c01_bytes_roundtrip_ex : rid_ok (mkRid (2 ^ 64 - 1) 258) /\
  rid_to_bytes (mkRid (2 ^ 64 - 1) 258) = [255;255;255;255;255;255;255;255;2;1;0;0].
Proof. repeat split. Qed.

(** Buffers shorter than 12 bytes, and only those, are rejected. *)
Theorem c01_bytes_short_iff : forall data,
  (length data < 12)%nat <-> rid_try_deserialize data = None.
Proof. exact deserialize_short. Qed.
Print Assumptions c01_bytes_short_iff.
Example c01_bytes_short_iff_ex : rid_try_deserialize [1;2;3] = None /\
  rid_try_deserialize [1;0;0;0;0;0;0;0;2;0;0;0] = Some (mkRid 1 2).
Proof. split; reflexivity. Qed.

(** What was decoded re-encodes to the bytes it came from. *)
Theorem c01_bytes_reencode : forall data r, bytes_ok data ->
  rid_try_deserialize data = Some r -> rid_ok r /\ rid_to_bytes r = firstn 12 data.
Proof. exact deserialize_reencode. Qed.
Print Assumptions c01_bytes_reencode.
Example c01_bytes_reencode_ex :
  bytes_ok [1;0;0;0;0;0;0;0;2;0;0;0;9] /\
  rid_try_deserialize [1;0;0;0;0;0;0;0;2;0;0;0;9] = Some (mkRid 1 2).
Proof. split; [repeat constructor|reflexivity]. Qed.

(** RID order and packed order agree for page ids below 2^31. *)
Theorem c01_order_agrees : forall a b za zb, rid_ok a -> rid_ok b ->
  rid_page a < 2 ^ 31 -> rid_page b < 2 ^ 31 ->
  rid_to_i64 a = Some za -> rid_to_i64 b = Some zb ->
  (rid_ltb a b = true <-> (za < zb)%Z).
Proof. exact order_agrees. Qed.
Print Assumptions c01_order_agrees.
Example c01_order_agrees_ex : rid_ltb (mkRid 1 9) (mkRid 2 0) = true /\
  rid_to_i64 (mkRid 1 9) = Some (2 ^ 32 + 9)%Z /\ rid_to_i64 (mkRid 2 0) = Some (2 ^ 33)%Z.
Proof. repeat split. Qed.
