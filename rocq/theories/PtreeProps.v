(** * Properties of the paged index *)
From Coq Require Import ZArith Lia.
From stdpp Require Import list gmap sorting.
From Verif Require Import PtreeSpec PtreeModel PtreePages PtreeProofs PtreeInv.
Local Open Scope nat_scope.

Definition plain (l : list op) : list (bool * op) := map (pair false) l.
Definition upto (n : nat) : list op := map (fun i => Insert (Z.of_nat i) (10 * Z.of_nat i)%Z) (seq 1 n).
(** The answers of a history on a new tree, when no allocation fails. *)
Definition answers (ord : nat) (l : list op) : list answer := (run (init ord) (length l) (plain l)).2.

(** ** C78: insertions and reads *)
(** For every history of insertions, searches, range scans and size queries, of either variant, every answer is the map's
    answer. Missing: order below two, allocations that fail, pages that leave the buffer pool, and removals (C79). *)
Theorem C78_paged_index_map_partial ord al l :
  2 <= ord -> length l <= al -> (forall b k, (b, Remove k) ∉ l) ->
  exists m, map_run ∅ (zip l.*2 (run (init ord) al l).2) m.
Proof.
  intros O2 Al Nr. destruct (run_ok l (init ord) ∅ al (inv_init ord O2)) as (m & H & _); [done|by apply no_remove_spares|]. by exists m.
Qed.
Print Assumptions C78_paged_index_map_partial.
Example C78_paged_index_map_ex :
  let l := map (pair true) (upto 5) ++ plain (upto 9 ++ [Insert 3 33; Search 3; Search 77; Range 2 4; Size]%Z) in
  (forall b k, (b, Remove k) ∉ l) /\
  drop 15 (run (init 3) (length l) l).2 = [Found (Some 33%Z); Found None; Pairs [(2, 20); (3, 33); (4, 40)]%Z; Count 9].
Proof.
  cbn zeta. split; [|vm_compute; reflexivity]. intros b k X. apply elem_of_list_In in X. cbn in X.
  repeat (destruct X as [X|X]; [discriminate X|]). done.
Qed.
(** Between any two calls the tree can be asked again: the answers of a state reached this way are the map's. *)
Theorem C78_reachable_reads_partial ord al l k a b :
  2 <= ord -> length l <= al -> (forall b k, (b, Remove k) ∉ l) ->
  exists m, map_run ∅ (zip l.*2 (run (init ord) al l).2) m /\
    map_step m (Search k) (call (run (init ord) al l).1 0 false (Search k)).2 m /\
    map_step m (Range a b) (call (run (init ord) al l).1 0 false (Range a b)).2 m.
Proof.
  intros O2 Al Nr. destruct (run_ok l (init ord) ∅ al (inv_init ord O2)) as (m & H & Iv & _); [done|by apply no_remove_spares|].
  exists m. split; [done|]. cbn [call snd]. rewrite (search_ok _ m k Iv). destruct (range_ok _ m a b Iv) as (x & -> & P).
  split; [constructor|by constructor].
Qed.
Print Assumptions C78_reachable_reads_partial.
(** An order of one: the third insertion makes a key unreachable. *)
Theorem C78_order_one_refuted :
  answers 1 (upto 3 ++ [Search 1; Search 3]%Z) = [Done; Done; Done; Error; Found None].
Proof. vm_compute. reflexivity. Qed.
Print Assumptions C78_order_one_refuted.
(** The header page leaves the buffer pool: every tree looks empty, and the next insertion is accepted and lost. *)
Theorem C78_header_evicted_refuted st al k v :
  (call (evict_header st) al false (Search k)).2 = Found None /\
  (call (evict_header st) al false Size).2 = Count 0 /\
  (1 <= al -> (call (evict_header st) al false (Insert k v)).2 = Done /\
     (call (call (evict_header st) al false (Insert k v)).1 al false (Search k)).2 = Found None).
Proof.
  split; [done|]. split; [done|]. intros Al. destruct al as [|al]; [lia|]. split; [done|].
  set (st' := set_header (new_page (evict_header st) (Leaf [] None true 0)) (Some (fresh st)) 1 1).
  assert (search st' k = Ok None) as E.
  { unfold search, find_leaf, st', new_page, set_header. cbn [pages hroot height fresh order evict_header]. change (1 - 1) with 0. cbn [descend].
    rewrite !lookup_insert. done. }
  change (of_res Found (search st' k) = Found None). by rewrite E.
Qed.
Print Assumptions C78_header_evicted_refuted.
(** A page of the path leaves the buffer pool: the search panics. *)
Theorem C78_page_evicted_refuted st r al k : hroot st = Some r -> (call (evict_page st r) al false (Search k)).2 = NoReturn.
Proof.
  intros H. cbn [call snd]. unfold search. assert (hroot (evict_page st r) = Some r) as -> by done.
  unfold find_leaf, evict_page. cbn [set_page pages height]. destruct (height st - 1); cbn [descend]; by rewrite lookup_insert.
Qed.
Print Assumptions C78_page_evicted_refuted.
Example C78_page_evicted_ex : hroot (run (init 4) 9 (plain (upto 9))).1 = Some 3.
Proof. vm_compute. reflexivity. Qed.
(** Allocations fail during splits: the insertions that report an error are there, are not counted, and an insertion accepted
    later is lost. *)
Theorem C78_allocation_failure_refuted :
  let st0 := (run (init 4) 4 (plain (upto 4))).1 in
  let r1 := call st0 0 false (Insert 5 50)%Z in
  let r2 := call r1.1 0 false (Insert 6 60)%Z in
  let r3 := call r2.1 9 false (Insert 7 70)%Z in
  r1.2 = Error /\ (call r1.1 0 false (Search 5%Z)).2 = Found (Some 50%Z) /\ (call r1.1 0 false Size).2 = Count 4 /\
  r2.2 = Error /\ r3.2 = Done /\ (call r3.1 9 false (Search 7%Z)).2 = Found None.
Proof. vm_compute. done. Qed.
Print Assumptions C78_allocation_failure_refuted.

(** ** C79: removals *)
(** Every history, removals included, whose map never has more keys than the order of the tree is answered as by a map. *)
Theorem C79_removal_small_partial ord al l :
  2 <= ord -> 2 <= al -> fits ord ∅ l.*2 -> exists m, map_run ∅ (zip l.*2 (run (init ord) al l).2) m.
Proof. intros O2 Al Fi. apply run_small; [by apply inv_init|unfold small; cbn; lia|done|done]. Qed.
Print Assumptions C79_removal_small_partial.
Example C79_removal_small_ex :
  let l := plain (upto 3 ++ [Remove 2; Search 2; Insert 9 90; Remove 1; Remove 3; Remove 9; Size; Insert 4 40; Range 0 9]%Z) in
  fits 3 ∅ l.*2 /\ drop 3 (run (init 3) 2 l).2 =
    [Removed true; Found None; Done; Removed true; Removed true; Removed true; Count 0; Done; Pairs [(4, 40)%Z]].
Proof. cbn zeta. split; vm_compute; [lia|reflexivity]. Qed.
(** Histories of any size in which a removed key's leaf is the root or keeps at least half of the order. *)
Theorem C79_removal_spared_partial ord al l :
  2 <= ord -> length l <= al -> spares (init ord) al l -> exists m, map_run ∅ (zip l.*2 (run (init ord) al l).2) m.
Proof. intros O2 Al Sp. destruct (run_ok l (init ord) ∅ al (inv_init ord O2)) as (m & H & _); [done|done|]. by exists m. Qed.
Print Assumptions C79_removal_spared_partial.
Example C79_removal_spared_ex :
  let l := plain (upto 9 ++ [Remove 9; Search 9; Search 8]%Z) in
  spares (init 4) (length l) l /\ drop 9 (run (init 4) (length l) l).2 = [Removed true; Found None; Found (Some 80%Z)].
Proof.
  cbn zeta. split; [|vm_compute; reflexivity]. cbn -[init call plus]. repeat (split; [intros k E; discriminate E|]).
  split; [|repeat (split; [intros k E; discriminate E|]); done].
  intros k E. injection E as <-. intros r id path es nx rt mx Hr FL PL _.
  vm_compute in Hr. injection Hr as <-. vm_compute in FL. injection FL as <- <-. vm_compute in PL. injection PL as <- <- <- <-.
  right. vm_compute. lia.
Qed.
(** The full statement fails three ways. A removal that never returns: an internal page made by a split has its first pointer
    twice, and the leaf is merged with itself. *)
Theorem C79_removal_hangs_refuted : drop 11 (answers 4 (upto 11 ++ [Remove 7]%Z)) = [NoReturn].
Proof. vm_compute. reflexivity. Qed.
Print Assumptions C79_removal_hangs_refuted.
(** A removal that moves entries between the two leaves of a root with one key leaves a third pointer; the key 8, inserted
    afterwards, is in a range scan and not found by a search. *)
Theorem C79_redistribution_refuted :
  drop 6 (answers 4 (upto 6 ++ [Remove 1; Insert 7 70; Insert 8 80; Insert 9 90; Search 8; Range 8 8]%Z)) =
    [Removed true; Done; Done; Done; Found None; Pairs [(8, 80)%Z]].
Proof. vm_compute. reflexivity. Qed.
Print Assumptions C79_redistribution_refuted.
(** Order three: removing 1, 3 and 2 from twelve keys loses key 4. *)
Theorem C79_order_three_refuted :
  drop 12 (answers 3 (upto 12 ++ [Search 4; Remove 1; Remove 3; Remove 2; Search 4]%Z)) =
    [Found (Some 40%Z); Removed true; Removed true; Removed true; Found None].
Proof. vm_compute. reflexivity. Qed.
Print Assumptions C79_order_three_refuted.

(** ** C80: two insertions at the same time *)
(** An insertion looks for the leaf, and after that locks it and inserts; another insertion runs in between. If the other one
    needed no new page, both are there afterwards, in every tree that insertions and reads produce. *)
Theorem C80_concurrent_inserts_partial ord al l k1 v1 k2 v2 r id path st2 :
  2 <= ord -> length l + 2 <= al -> (forall b k, (b, Remove k) ∉ l) ->
  let st := (run (init ord) al l).1 in
  hroot st = Some r -> find_leaf st r k1 = Ok (id, path) ->
  insert st al k2 v2 = (st2, Ok tt) -> fresh st2 = fresh st ->
  exists st3 m, insert_at st2 al k1 v1 id path = (st3, Ok tt) /\ map_run ∅ (zip l.*2 (run (init ord) al l).2) m /\
    forall k, search st3 k = Ok ((<[k1 := v1]> (<[k2 := v2]> m)) !! k).
Proof.
  intros O2 Al Nr st Hr FL I2 Fr. subst st. set (st := (run (init ord) al l).1) in *.
  destruct (run_ok l (init ord) ∅ al (inv_init ord O2)) as (m & H & Iv & Or & Hh); [cbn; lia|by apply no_remove_spares|]. fold st in Iv, Or, Hh. cbn in Hh.
  destruct (insert_room st m al k2 v2 st2 Iv I2 ltac:(congruence) Fr ltac:(lia) k1 r Hr) as (R1 & R2 & R3).
  destruct (insert_ok st m al k2 v2 Iv ltac:(lia)) as (s & E & Iv2 & Or2 & Hh2). rewrite I2 in E. injection E as <-.
  destruct (insert_ok st2 _ al k1 v1 Iv2 ltac:(lia)) as (st3 & E & Iv3 & _). exists st3, m.
  unfold insert in E. rewrite R1, R3, FL in E. split; [done|]. split; [done|]. intros k. by apply search_ok.
Qed.
Print Assumptions C80_concurrent_inserts_partial.
Example C80_concurrent_inserts_ex :
  let st := (run (init 4) 20 (plain (upto 9))).1 in
  hroot st = Some 3 /\ find_leaf st 3 4%Z = Ok (2, [3]) /\ (insert st 20 0 5)%Z.2 = Ok tt /\
  fresh (insert st 20 0 5)%Z.1 = fresh st.
Proof. vm_compute. done. Qed.
(** In general not: the other insertion splits the leaf, this one goes into the wrong half, and its key is not found although
    both were accepted. Also with the latch crabbing variant. *)
Theorem C80_concurrent_inserts_refuted :
  let st := (run (init 4) 20 (plain (upto 4))).1 in
  let r := insert st 20 5 50 in
  find_leaf st 1 6%Z = Ok (1, []) /\ r.2 = Ok tt /\
  let r' := insert_at r.1 20 6 60 1 [] in
  r'.2 = Ok tt /\ search r'.1 6 = Ok None /\
  let r'' := insert_crab_at r.1 20 6 60 1 in
  r''.2 = Ok tt /\ search r''.1 6 = Ok None.
Proof. vm_compute. done. Qed.
Print Assumptions C80_concurrent_inserts_refuted.
