(** * Theorems: index pages as bytes (C112) *)
From Coq Require Import NArith ZArith Lia.
From stdpp Require Import list.
From Verif Require Import Bytes PageModel WrecSpec WrecModel WrecProofs IpSpec IpModel IpProofs.
Local Open Scope N_scope.

(** What the pages say they hold. *)
Definition held_header (h : header) : header_content := HC (h_root h) (h_height h) (h_keys h) (h_order h).
Definition held_leaf {K V} (p : leaf K V) : leaf_content K V := LC (zip (l_keys p) (l_vals p)) (l_next p) (l_max p).
Definition held_inner {K} (p : inner K) : inner_content K := IC (i_keys p) (i_vals p) (i_max p).

(** The example pages: keys and values are i32, written by postcard. *)
Definition i32_ok (z : Z) : Prop := (- 2 ^ 31 <= z < 2 ^ 31)%Z.
Definition i32_enc (z : Z) : list N := u32_enc (zigzag z).
Lemma i32_reads_back : reads_back i32_ok i32_enc i32_dec.
Proof. intros z rest Hz. apply i32_rt. exact Hz. Qed.

(** ** The byte forms the pages define *)

(** A header read from its bytes holds what was written. *)
Theorem c112_header_trip h : h_root h < 2 ^ 64 -> h_height h < 2 ^ 32 -> h_keys h < 2 ^ 64 -> h_order h < 2 ^ 32 ->
  exists h', h_deserialize (h_serialize h) = Some h' /\ held_header h' = held_header h.
Proof.
  intros H1 H2 H3 H4. unfold h_deserialize, h_serialize, bind, done_.
  rewrite u64_rt by exact H1. rewrite u32_rt by exact H2. rewrite u64_rt by exact H3.
  rewrite <- (app_nil_r (u32_enc (h_order h))), u32_rt by exact H4. eexists. split; reflexivity.
Qed.
Print Assumptions c112_header_trip.
Example c112_header_trip_ex : exists h, run hstep [HRoot 300; HUp; HOrder 4; HMore; HMore] new_header = Some h /\
  held_header h = HC 300 1 2 4 /\ h_serialize h = [172; 2; 1; 2; 4].
Proof. eexists. split; [reflexivity|]. split; reflexivity. Qed.

Section Leaf.
Context {K V : Type} (cmp : K -> K -> comparison) (kenc : K -> list N) (kdec : dec K) (venc : V -> list N) (vdec : dec V)
  (okk : K -> Prop) (okv : V -> Prop).

(** Calls on a leaf never panic, and its size is the number of its keys and of its values. *)
Theorem c112_leaf_calls max root os : exists p, run (lstep cmp) os (new_leaf (K := K) (V := V) max root) = Some p /\
  l_size p = N.of_nat (length (l_keys p)) /\ length (l_vals p) = length (l_keys p).
Proof. destruct (leaf_run_ok cmp max root os) as (p & HR & HS & HV & _). exists p. auto. Qed.

(** A leaf that fits the buffer is written in the documented layout, the rest of the buffer is left alone, and any page that
    reads it holds the same pairs in the same order, the same next page and the same capacity. *)
Theorem c112_leaf_trip max root os p q buf :
  reads_back okk kenc kdec -> reads_back okv venc vdec ->
  run (lstep cmp) os (new_leaf max root) = Some p ->
  l_max p < 2 ^ 64 -> (forall n, l_next p = Some n -> n < 2 ^ 64) -> Forall okk (l_keys p) -> Forall okv (l_vals p) ->
  let bytes := leaf_bytes kenc venc (oenc u64_enc) (held_leaf p) in
  (length bytes <= length buf)%nat -> N.of_nat (length buf) < 2 ^ 32 ->
  exists written, l_serialize kenc venc p buf = Some written /\ written = bytes ++ drop (length bytes) buf /\
  exists q', l_deserialize kdec vdec q written = Some q' /\ held_leaf q' = held_leaf p /\ l_size q' = l_size p.
Proof.
  intros HK HV HR HM HN HKs HVs bytes HL HB. apply leaf_reach in HR as HO.
  exists (bytes ++ drop (length bytes) buf). split.
  { rewrite (l_serialize_eq kenc venc p buf HO). change (leaf_bytes kenc venc (oenc u64_enc) (content p)) with bytes. cbn zeta.
    apply Nat.leb_le in HL. now rewrite HL. }
  split; [reflexivity|]. eexists. split.
  { apply (l_deserialize_eq kenc kdec venc vdec okk okv HK HV p q); try assumption. change (leaf_bytes _ _ _ _) with bytes. lia. }
  split; reflexivity.
Qed.

(** A leaf that does not fit panics. *)
Theorem c112_leaf_full max root os p buf : run (lstep cmp) os (new_leaf max root) = Some p ->
  l_serialize kenc venc p buf = None <-> (length buf < length (leaf_bytes kenc venc (oenc u64_enc) (held_leaf p)))%nat.
Proof.
  intros HR. apply leaf_reach in HR as HO. rewrite (l_serialize_eq kenc venc p buf HO). cbn zeta. change (content p) with (held_leaf p).
  destruct (length (leaf_bytes kenc venc (oenc u64_enc) (held_leaf p)) <=? length buf)%nat eqn:E.
  - apply Nat.leb_le in E. split; [discriminate|lia].
  - apply Nat.leb_gt in E. split; [intros _; exact E|reflexivity].
Qed.

(** Whether a page is a root is not written: the reader keeps its own mark. *)
Theorem c112_root_refuted (p q p' : leaf K V) buf written : l_serialize kenc venc p buf = Some written ->
  l_deserialize kdec vdec q written = Some p' -> l_root p <> l_root q -> l_root p' <> l_root p.
Proof.
  intros _ HD HN. assert (HE : l_root p' = l_root q); [|congruence].
  unfold l_deserialize in HD.
  repeat match type of HD with
         | mbind _ ?x = Some _ => destruct x as [[? ?]|]; [cbn [mbind option_bind] in HD|discriminate]
         end. injection HD as <-. reflexivity.
Qed.

(** The bytes begin with the size, where the buffer pool looks for the kind of a page: a leaf written this way is taken for a
    leaf only if it has 8 entries, or 264, ... *)
Theorem c112_kind_refuted max root os p buf written : run (lstep cmp) os (new_leaf max root) = Some p ->
  l_serialize kenc venc p buf = Some written -> length buf = page_bytes ->
  N.of_nat (length (l_keys p)) mod 256 <> leaf_kind -> load_leaf (K := K) (V := V) written = NotFound.
Proof.
  intros HR HS HB HN. apply leaf_reach in HR as HO. rewrite (l_serialize_eq kenc venc p buf HO) in HS. cbn zeta in HS.
  set (bytes := leaf_bytes kenc venc (oenc u64_enc) (content p)) in *.
  destruct (length bytes <=? length buf)%nat eqn:E; [|discriminate]. assert (EW : written = bytes ++ drop (length bytes) buf) by congruence. clear HS. subst written. apply Nat.leb_le in E.
  assert (HL : length (bytes ++ drop (length bytes) buf) = 4096%nat) by (rewrite app_length, drop_length; unfold page_bytes in HB; lia).
  unfold load_leaf, load. rewrite HL. change (4096 <? 4096)%nat with false. cbn iota.
  destruct HO as (HSz & HV & _).
  change (bytes ++ drop (length bytes) buf) with
    (N.of_nat (length (zip (l_keys p) (l_vals p))) mod 256 :: tail (bytes ++ drop (length bytes) buf)).
  rewrite zip_with_length_l by lia.
  destruct (N.of_nat (length (l_keys p)) mod 256 =? 8) eqn:EE; [|reflexivity].
  apply N.eqb_eq in EE. exfalso. apply HN. exact EE.
Qed.

(** A page image read by a leaf panics: the type byte is taken for the size, and the next page cannot be read. *)
Theorem c112_leaf_read_refuted (q : leaf K V) t : l_set_data kdec vdec q (t :: repeat 0 4095) = None.
Proof. reflexivity. Qed.

(** The capacity does not promise that a leaf fits: 510 pairs never fit a page, whatever they are. *)
Theorem c112_room_refuted max root os p buf : run (lstep cmp) os (new_leaf max root) = Some p ->
  length buf = page_bytes -> 510 <= N.of_nat (length (l_keys p)) -> l_serialize kenc venc p buf = None.
Proof.
  intros HR HB HL. apply (c112_leaf_full max root os p buf HR). apply leaf_reach in HR as (_ & HV & _).
  unfold leaf_bytes. rewrite !app_length, !in_bytes_length, framed_length. cbn [c_pairs held_leaf c_next].
  pose proof (pairs_long kenc venc (zip (l_keys p) (l_vals p))) as HP. unfold pair_bytes in HP.
  rewrite zip_with_length_l in HP by lia. unfold page_bytes in HB. lia.
Qed.
End Leaf.
Print Assumptions c112_leaf_calls.
Print Assumptions c112_leaf_trip.
Print Assumptions c112_leaf_full.
Print Assumptions c112_root_refuted.
Print Assumptions c112_kind_refuted.
Print Assumptions c112_leaf_read_refuted.
Print Assumptions c112_room_refuted.
Definition three : list (lop Z Z) := [LInsert 7%Z 70%Z; LInsert 3%Z 30%Z; LInsert 5%Z (-1)%Z; LNext (Some 9)].
Example c112_leaf_calls_ex :
  run (lstep Z.compare) (three ++ [LRemove 0; LInsert 7%Z 71%Z; LKey 9 1%Z]) (new_leaf 4 true) =
  Some (Lf [5; 7]%Z [-1; 71]%Z (Some 9) 2 4 true (8 :: repeat 0 4095)).
Proof. reflexivity. Qed.
Example c112_leaf_trip_ex : exists p, run (lstep Z.compare) three (new_leaf 4 true) = Some p /\
  held_leaf p = LC [(3, 30); (5, -1); (7, 70)]%Z (Some 9) 4 /\ Forall i32_ok (l_keys p) /\ Forall i32_ok (l_vals p) /\
  length (leaf_bytes i32_enc i32_enc (oenc u64_enc) (held_leaf p)) = 53%nat /\
  l_root p <> l_root (new_leaf (K := Z) (V := Z) 4 false) /\
  N.of_nat (length (l_keys p)) mod 256 <> leaf_kind.
Proof.
  eexists. split; [reflexivity|]. split; [reflexivity|]. unfold i32_ok. cbn [l_keys l_vals].
  split; [repeat constructor; lia|]. split; [repeat constructor; lia|]. split; [vm_compute; reflexivity|].
  split; discriminate.
Qed.
Example c112_leaf_full_ex : exists p, run (lstep Z.compare) three (new_leaf 4 true) = Some p /\
  l_serialize i32_enc i32_enc p (repeat 0 53) <> None /\ l_serialize i32_enc i32_enc p (repeat 0 52) = None.
Proof. eexists. split; [reflexivity|]. split; [vm_compute; discriminate|vm_compute; reflexivity]. Qed.
Example c112_room_refuted_ex : exists p,
  run (lstep Z.compare) (map (fun i => LInsert (Z.of_nat i) 0%Z) (seq 0 510)) (new_leaf 600 true) = Some p /\
  510 <= N.of_nat (length (l_keys p)).
Proof.
  destruct (leaf_run_ok Z.compare 600 true (map (fun i => LInsert (Z.of_nat i) 0%Z) (seq 0 510))) as (p & HR & _).
  exists p. split; [exact HR|].
  assert (HL : option_map (fun p => length (l_keys p))
    (run (lstep Z.compare) (map (fun i => LInsert (Z.of_nat i) 0%Z) (seq 0 510)) (new_leaf 600 true)) = Some 510%nat)
    by (vm_compute; reflexivity).
  rewrite HR in HL. cbn [option_map] in HL. assert (HE : length (l_keys p) = 510%nat) by congruence. rewrite HE. lia.
Qed.

(** ** Inner pages *)

Section Inner.
Context {K : Type} (cmp : K -> K -> comparison).

(** Calls on an inner page never panic, and its size is the number of its keys. *)
Theorem c112_inner_calls max root os : exists p, run (istep cmp) os (new_inner (K := K) max root) = Some p /\
  i_size p = N.of_nat (length (i_keys p)).
Proof. destruct (inner_run_ok cmp max root os) as (p & HR & HS & _). exists p. auto. Qed.

(** The size and the capacity come back. Missing: the keys and the children. *)
Theorem c112_inner_trip_partial (p q : inner K) buf : i_size p < 2 ^ 32 -> i_max p < 2 ^ 32 -> (12 <= length buf)%nat ->
  exists written q', i_serialize p buf = Some written /\ length written = length buf /\ head written = Some inner_kind /\
  drop 12 written = drop 12 buf /\ i_deserialize q written = Some q' /\ i_size q' = i_size p /\ i_max q' = i_max p.
Proof.
  intros HS HM HL. rewrite (i_serialize_eq p buf HL). rewrite !N.mod_small by assumption.
  eexists. eexists. split; [reflexivity|].
  split; [rewrite !app_length, !in_bytes_length, drop_length; lia|]. split; [reflexivity|]. split; [reflexivity|].
  split; [apply i_deserialize_eq; [apply in_bytes_length|exact HS|exact HM]|]. split; reflexivity.
Qed.

(** The keys and the children are not written. Whatever inner page is written, a new page that reads it has none of them,
    though its size says otherwise, and sends no key to any child. *)
Theorem c112_inner_trip_refuted max root os p buf : run (istep cmp) os (new_inner max root) = Some p ->
  0 < i_size p < 2 ^ 32 -> i_max p < 2 ^ 32 -> length buf = page_bytes ->
  exists written q', i_serialize p buf = Some written /\ i_deserialize (new_inner max root) written = Some q' /\
  c_keys (held_inner q') = [] /\ c_children (held_inner q') = [] /\ c_keys (held_inner p) <> [] /\
  i_size q' = i_size p /\ forall k, i_child cmp q' k = None.
Proof.
  intros HR HS HM HB. apply inner_reach in HR as (HZ & _). unfold page_bytes in HB.
  rewrite (i_serialize_eq p buf) by lia. rewrite !N.mod_small by lia.
  eexists. eexists. split; [reflexivity|]. split; [apply i_deserialize_eq; [apply in_bytes_length|lia|exact HM]|].
  split; [reflexivity|]. split; [reflexivity|]. split; [|split; [reflexivity|]].
  - cbn. intros HE. rewrite HE in HZ. cbn in HZ. lia.
  - intros k. unfold i_child. cbn [i_size i_vals new_inner length]. now rewrite orb_true_r.
Qed.
End Inner.
Print Assumptions c112_inner_calls.
Print Assumptions c112_inner_trip_partial.
Print Assumptions c112_inner_trip_refuted.
Example c112_inner_calls_ex :
  run (istep Z.compare) [IPopulate 10 5%Z 11; IInsert 8%Z 12; IInsert 2%Z 13; IRemove 0; IBorrowL 1%Z 9] (new_inner 4 false) =
  Some (Inn [1; 5; 8]%Z [9; 10; 11; 12] 3 4 true (7 :: repeat 0 4095)).
Proof. vm_compute. reflexivity. Qed.
Example c112_inner_trip_refuted_ex : exists p, run (istep Z.compare) [IPopulate 10 5%Z 11; IInsert 8%Z 12] (new_inner 4 false) = Some p /\
  i_size p = 2 /\ i_max p = 4 /\ i_child Z.compare p 6%Z = Some 11.
Proof. eexists. split; [vm_compute; reflexivity|]. vm_compute. auto. Qed.

(** ** What the buffer pool writes and reads *)

(** Whatever is called on a page, the bytes written to disk are its kind and zeros. *)
Theorem c112_image_refuted {K V} (cmp : K -> K -> comparison) :
  (forall os h, run hstep os new_header = Some h -> blank (h_image h) /\ head (h_image h) = Some header_kind) /\
  (forall max root os p, run (lstep cmp) os (new_leaf (V := V) max root) = Some p -> blank (l_image p)) /\
  (forall max root os p, run (istep cmp) os (new_inner max root) = Some p -> blank (i_image p) /\ head (i_image p) = Some inner_kind).
Proof.
  split; [|split].
  - intros os h HR. apply header_reach in HR as HO. unfold h_image. rewrite HO. repeat split; reflexivity.
  - intros max root os p HR. apply leaf_reach in HR as (_ & _ & t & HD). unfold l_image. rewrite HD. split; reflexivity.
  - intros max root os p HR. apply inner_reach in HR as (_ & HD). unfold i_image. rewrite HD. repeat split; reflexivity.
Qed.
Print Assumptions c112_image_refuted.

(** So no way of reading the bytes on disk, however written, gives back what the pages held. *)
Theorem c112_lost_refuted {K V} (cmp : K -> K -> comparison) (k : K) (v : V) :
  (forall read : list N -> header_content, exists os h, run hstep os new_header = Some h /\ read (h_image h) <> held_header h) /\
  (forall (read : list N -> leaf_content K V) max root, 1 <= max ->
     exists os p, run (lstep cmp) os (new_leaf max root) = Some p /\ read (l_image p) <> held_leaf p) /\
  (forall (read : list N -> inner_content K) max root, 1 <= max ->
     exists os p, run (istep cmp) os (new_inner max root) = Some p /\ read (i_image p) <> held_inner p).
Proof.
  split; [|split].
  - intros read. destruct (decide (c_root (read (h_image new_header)) = 1)) as [E|E].
    + exists [], new_header. split; [reflexivity|]. intros HE. rewrite HE in E. discriminate.
    + exists [HRoot 1]. eexists. split; [reflexivity|]. intros HE. apply E.
      change (h_image new_header) with (h_image (Hd 1 0 0 0 (with_type 6 zeros))). unfold new_header in HE. rewrite HE. reflexivity.
  - intros read max root HM. destruct (c_pairs (read (l_image (new_leaf (K := K) (V := V) max root)))) as [|e es] eqn:E.
    + exists [LInsert k v]. eexists. split.
      { cbn -[zeros]. rewrite (proj2 (N.leb_gt max 0)) by lia. reflexivity. }
      intros HE. change (l_image _) with (l_image (new_leaf (K := K) (V := V) max root)) in HE. rewrite HE in E. discriminate.
    + exists []. eexists. split; [reflexivity|]. intros HE. rewrite HE in E. discriminate.
  - intros read max root HM. destruct (c_keys (read (i_image (new_inner (K := K) max root)))) as [|e es] eqn:E.
    + exists [IInsert k 0]. eexists. split.
      { cbn -[zeros]. rewrite (proj2 (N.leb_gt max 0)) by lia. reflexivity. }
      intros HE. change (i_image _) with (i_image (new_inner (K := K) max root)) in HE. rewrite HE in E. discriminate.
    + exists []. eexists. split; [reflexivity|]. intros HE. rewrite HE in E. discriminate.
Qed.
Print Assumptions c112_lost_refuted.

(** A header that comes back from disk names no root, no keys and no order, whatever it named before. *)
Theorem c112_reload_refuted os h : run hstep os new_header = Some h ->
  exists h', load_header (h_image h) = Page h' /\ held_header h' = HC no_page 0 0 0.
Proof. intros HR. apply header_reach in HR as HO. unfold h_image. rewrite HO. eexists. split; reflexivity. Qed.
Print Assumptions c112_reload_refuted.

(** A leaf or an inner page that comes back from disk panics: a page of 4096 bytes with the right kind is never read. *)
Theorem c112_reload_panics {K V} d : length d = page_bytes ->
  (head d = Some leaf_kind -> load_leaf (K := K) (V := V) d = Panic) /\
  (head d = Some inner_kind -> load_inner (K := K) d = Panic).
Proof.
  intros HL. unfold load_leaf, load_inner, load. rewrite HL. unfold page_bytes. change (4096 <? 4096)%nat with false. cbn iota.
  destruct d as [|t d]; [discriminate|]. split; intros HE; injection HE as ->; reflexivity.
Qed.
Print Assumptions c112_reload_panics.
Example c112_image_refuted_ex : exists h p q,
  run hstep [HRoot 300; HUp; HOrder 4; HMore] new_header = Some h /\ run (lstep Z.compare) three (new_leaf 4 true) = Some p /\
  run (istep Z.compare) [IPopulate 10 5%Z 11] (new_inner 4 false) = Some q /\
  length (h_image h) = page_bytes /\ head (l_image p) = Some leaf_kind /\ head (i_image q) = Some inner_kind.
Proof.
  eexists. eexists. eexists. split; [reflexivity|]. split; [reflexivity|]. split; [reflexivity|]. repeat split; reflexivity.
Qed.
