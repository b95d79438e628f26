(** * Properties of the index's own checks and traversals *)
From Coq Require Import ZArith Lia.
From stdpp Require Import list gmap sorting.
From Verif Require Import PtreeSpec PtreeModel PtreePages PtreeProofs PtreeInv PtreeProps PchkSpec PchkModel PchkProofs.
Local Open Scope nat_scope.

(** In this file the histories are those of C79: insertions, reads, and removals after which a leaf that is not the root
    still has half its entries. A history without removals is one of them. *)
Lemma inserts_spare ord al l : (forall b k, (b, Remove k) ∉ l) -> spares (init ord) al l.
Proof. intros H. by apply no_remove_spares. Qed.

(** The in-order traversal lists the map's keys, each once and ascending. *)
Theorem c121_in_order_partial ord al l :
  2 <= ord -> length l <= al -> spares (init ord) al l ->
  exists m ks, map_run ∅ (zip l.*2 (run (init ord) al l).2) m /\ in_order (run (init ord) al l).1 = Ok ks /\ keys_of m ks.
Proof.
  intros O2 Al Sp. destruct (run_ok l (init ord) ∅ al (inv_init ord O2)) as (m & H & Iv & _); [done|done|].
  destruct (in_order_ok _ m Iv) as (ks & E & K). by exists m, ks.
Qed.
Print Assumptions c121_in_order_partial.
Example c121_in_order_ex :
  let l := plain (upto 11 ++ [Insert 0 5; Insert 3 4]%Z) in
  spares (init 4) (length l) l /\ in_order (run (init 4) (length l) l).1 = Ok (map Z.of_nat (seq 0 12)).
Proof.
  cbn zeta. split; [|vm_compute; reflexivity]. apply inserts_spare. intros b k X. apply elem_of_list_In in X. cbn in X.
  repeat (destruct X as [X|X]; [discriminate X|]). done.
Qed.

(** A tree of one or two levels passes the health check, which counts the map's keys and the levels below the root. *)
Theorem c121_health_partial ord al l :
  2 <= ord -> length l <= al -> spares (init ord) al l -> height (run (init ord) al l).1 <= 2 ->
  exists m s, map_run ∅ (zip l.*2 (run (init ord) al l).2) m /\ health_check (run (init ord) al l).1 = Ok s /\
    total s = size m /\ max_depth s = height (run (init ord) al l).1 - 1.
Proof.
  intros O2 Al Sp Hh. destruct (run_ok l (init ord) ∅ al (inv_init ord O2)) as (m & H & Iv & _); [done|done|].
  destruct (health_ok _ m Iv) as [X _]. destruct (X Hh) as (s & E). by exists m, s.
Qed.
Print Assumptions c121_health_partial.
Example c121_health_ex :
  height (run (init 4) 10 (plain (upto 10))).1 = 2 /\
  health_check (run (init 4) 10 (plain (upto 10))).1 = Ok (Stats 1 10 (Some 1)).
Proof. vm_compute. done. Qed.

(** The full statement fails: every tree of three levels or more is reported as broken, however it was made by such a
    history, although every search, range scan and size query on it is answered as by a map. *)
Theorem c121_health_refuted ord al l :
  2 <= ord -> length l <= al -> spares (init ord) al l -> 2 < height (run (init ord) al l).1 ->
  health_check (run (init ord) al l).1 = Er /\ exists m, map_run ∅ (zip l.*2 (run (init ord) al l).2) m /\
    forall k, search (run (init ord) al l).1 k = Ok (m !! k).
Proof.
  intros O2 Al Sp Hh. destruct (run_ok l (init ord) ∅ al (inv_init ord O2)) as (m & H & Iv & _); [done|done|].
  destruct (health_ok _ m Iv) as [_ X]. split; [by apply X|]. exists m. split; [done|]. intros k. by apply search_ok.
Qed.
Print Assumptions c121_health_refuted.
Example c121_health_refuted_ex :
  spares (init 4) 11 (plain (upto 11)) /\ height (run (init 4) 11 (plain (upto 11))).1 = 3.
Proof.
  split; [|vm_compute; reflexivity]. apply inserts_spare. intros b k X. apply elem_of_list_In in X. cbn in X.
  repeat (destruct X as [X|X]; [discriminate X|]). done.
Qed.

(** The other way round: two insertions at the same time (C80), and a removal followed by insertions (C79), leave trees that
    pass the check although a key whose insertion was accepted is not found. *)
Theorem c121_blind_refuted :
  let st1 := (insert_at (insert (run (init 4) 20 (plain (upto 4))).1 20 5 50).1 20 6 60 1 []).1 in
  let st2 := (run (init 4) 20 (plain (upto 6 ++ [Remove 1; Insert 7 70; Insert 8 80; Insert 9 90]%Z))).1 in
  (exists s, health_check st1 = Ok s) /\ search st1 6%Z = Ok None /\ 6%Z ∈ [1; 2; 6; 3; 4; 5]%Z /\
  in_order st1 = Ok [1; 2; 6; 3; 4; 5]%Z /\
  (exists s, health_check st2 = Ok s) /\ search st2 8%Z = Ok None.
Proof.
  cbn zeta. split; [eexists; vm_compute; reflexivity|]. split; [vm_compute; reflexivity|]. split; [set_solver|].
  split; [vm_compute; reflexivity|]. split; [eexists; vm_compute; reflexivity|vm_compute; reflexivity].
Qed.
Print Assumptions c121_blind_refuted.

(** The traversals of pages list a page twice exactly when the tree has three levels or more. *)
Theorem c121_page_order ord al l :
  2 <= ord -> length l <= al -> spares (init ord) al l ->
  exists ps qs, pre_order (run (init ord) al l).1 = Ok ps /\ post_order (run (init ord) al l).1 = Ok qs /\ qs ≡ₚ ps /\
    (NoDup ps <-> height (run (init ord) al l).1 <= 2).
Proof.
  intros O2 Al Sp. destruct (run_ok l (init ord) ∅ al (inv_init ord O2)) as (m & H & Iv & _); [done|done|].
  destruct (pre_order_iff _ m Iv) as (ps & E & K). exists ps. unfold pre_order, post_order in *.
  destruct (hroot (run (init ord) al l).1) as [r|].
  - destruct (post_pre _ _ _ _ E []) as (l' & -> & Pm). exists (l' ++ [r]). done.
  - injection E as <-. by exists [].
Qed.
Print Assumptions c121_page_order.
Example c121_page_order_ex :
  pre_order (run (init 4) 11 (plain (upto 11))).1 = Ok [8; 3; 1; 2; 4; 7; 5; 5; 6] /\
  post_order (run (init 4) 11 (plain (upto 11))).1 = Ok [1; 2; 4; 3; 5; 5; 6; 7; 8] /\
  pre_order (run (init 4) 10 (plain (upto 10))).1 = Ok [3; 1; 2; 4; 5].
Proof. vm_compute. done. Qed.
