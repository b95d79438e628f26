(** * The directory page of the extendible hash table

    Models the rest of src/storage/page/page_types/extendable_hash_table_directory_page.rs (DP);
    growing, splitting through update_directory_for_split and merging are in HtabModel.v, with the
    simplifications named there.  Assertions that fail make [verify_integrity] false. *)
From Coq Require Import NArith List Bool.
From Verif Require Import HtabModel.
Import ListNotations.
Local Open Scope N_scope.

(** DP 72. *)
Definition array_size : nat := 512.

(** DP 184-206. *)
Definition split_image (b : N) (d : dir) : N :=
  let l := d_loc d b in
  if l =? 0 then b + 1 else N.lxor b (2 ^ (l - 1)).

(** DP 318-321 and 324-330. *)
Definition incr_global (d : dir) : dir := match grow d with Some d => d | None => d end.
Definition decr_global (d : dir) : dir :=
  if d_glob d =? 0 then d else mkD (d_max d) (d_glob d - 1) (d_loc d) (d_page d).

(** DP 336-343: over the whole array. *)
Definition can_shrink (d : dir) : bool :=
  forallb (fun i => negb (d_glob d <=? d_loc d (N.of_nat i))) (seq 0 array_size).

(** DP 150-171. *)
Definition set_page (i p : N) (d : dir) : dir :=
  mkD (d_max d) (d_glob d) (d_loc d) (fun j => if j =? i then p else d_page d j).

(** DP 568-614. *)
Definition split_bucket (b page : N) (d : dir) : dir :=
  let l := d_loc d b in
  match (if d_glob d <=? l then grow d else Some d) with
  | None => d
  | Some d =>
      let mask := 2 ^ l - 1 in
      let old_page := d_page d b in
      let hit i := (i <? 2 ^ d_glob d) && (N.land i mask =? N.land b mask) in
      mkD (d_max d) (d_glob d) (fun i => if hit i then l + 1 else d_loc d i)
        (fun i => if hit i then (if N.testbit i l then page else old_page) else d_page d i)
  end.

(** DP 95-113 and 150-171, as called in src/container/disk_extendable_hash_table.rs: a new directory with its
    first bucket. *)
Definition fresh (mx p : N) : dir := set_page 0 p (dir_init mx).
(** Splits one after the other, each of the bucket of some hash (DP 122-124). *)
Definition split_all (ops : list (N * N)) (d : dir) : dir :=
  fold_left (fun d op => split_bucket (hash_to_bucket (fst op) d) (snd op) d) ops d.

(** The indices in use, DP 437. *)
Definition indices (d : dir) : list N := map N.of_nat (seq 0 (N.to_nat (2 ^ d_glob d))).
(** DP 648-655. *)
Definition find_bucket_index (p : N) (d : dir) : option N := find (fun i => d_page d i =? p) (indices d).
(** DP 455-461: how many entries point to a page. *)
Definition page_count (p : N) (d : dir) : nat := length (filter (fun i => d_page d i =? p) (indices d)).
(** DP 420-501. *)
Definition verify_integrity (d : dir) : bool :=
  forallb (fun i => d_loc d i <=? d_glob d) (indices d) &&
  forallb (fun i => match find_bucket_index (d_page d i) d with
                    | Some j => N.of_nat (page_count (d_page d i) d) =? 2 ^ (d_glob d - d_loc d j)
                    | None => false
                    end) (indices d) &&
  forallb (fun i => forallb (fun j => if d_page d j =? d_page d i then d_loc d i =? d_loc d j else true) (indices d)) (indices d).
