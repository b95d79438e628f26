(** * Deleting from the in-memory B+-tree index: C39 *)
From Coq Require Import ZArith Lia Sorting.Permutation Sorting.Sorted.
From stdpp Require Import list.
From Verif Require Import ExprModel ExecProofs AggModel BtreeModel BtreeSpec BtreeProofs BtreeRunProofs BtreeDelProofs BtreeProps.
Open Scope nat_scope.

Lemma sorted_drop_one {A} (Q : A -> A -> Prop) a x b : StronglySorted Q (a ++ x :: b) -> StronglySorted Q (a ++ b).
Proof.
  intros S. apply sorted_app in S as (Sa & Sx & H). apply StronglySorted_inv in Sx as [Sb _]. apply sorted_app. split; [exact Sa|]. split; [exact Sb|].
  intros y z Hy Hz. apply H; [exact Hy|]. apply elem_of_cons. auto.
Qed.

Lemma deletes_ok T m : forall ds ix F bs ix', holding ix F -> Forall (of_type T) (keys F) -> Forall (of_type T) (keys ds) ->
  deletes m ds ix = Some (bs, ix') -> exists F', holding ix' F' /\ Permutation F (said_yes ds bs ++ F') /\
    (StronglySorted entry_le F -> StronglySorted entry_le F') /\ length bs = length ds.
Proof.
  induction ds as [|[k r] ds IH]; intros ix F bs ix' H HT HD E.
  - cbn in E. assert (bs = [] /\ ix' = ix) as [-> ->] by (split; congruence). exists F. auto.
  - cbn in HD. apply Forall_cons_1 in HD as [Tk HD]. cbn [deletes] in E.
    destruct (delete m ix k r) as [[b ix1]|] eqn:E1; [|discriminate]. destruct (deletes m ds ix1) as [[bs' ix2]|] eqn:E2; [|discriminate].
    assert (bs = b :: bs' /\ ix' = ix2) as [-> ->] by (split; congruence).
    destruct (delete_ok T m ix F k r b ix1 H HT Tk E1) as (F1 & H1 & HF).
    assert (HT1 : Forall (of_type T) (keys F1)).
    { destruct b; [|destruct HF as [-> _]; exact HT]. destruct HF as (G1 & G2 & -> & ->). rewrite keys_app in *. apply Forall_app in HT as [HT1 HT2].
      cbn in HT2. apply Forall_cons_1 in HT2 as [_ HT2]. apply Forall_app. auto. }
    destruct (IH ix1 F1 bs' ix2 H1 HT1 HD E2) as (F2 & H2 & P & S & L). exists F2. split; [exact H2|]. split; [|split; [|cbn; congruence]].
    + destruct b; [|destruct HF as [-> _]; exact P]. destruct HF as (G1 & G2 & -> & ->). cbn [said_yes app]. rewrite <- P. symmetry. apply Permutation_middle.
    + intros SF. apply S. destruct b; [|destruct HF as [-> _]; exact SF]. destruct HF as (G1 & G2 & -> & ->). apply sorted_drop_one in SF. exact SF.
Qed.

Lemma even_half m s : m = 2 * s -> 4 <= m -> (m - 1) / 2 = s - 1.
Proof. intros Hs Hm. replace (m - 1) with (1 + (s - 1) * 2) by lia. rewrite Nat.div_add by lia. reflexivity. Qed.

Lemma built m T es : even_order m -> Forall (of_type T) (map fst es) -> exists s bs ix F,
  inserts m es new_index = Some (bs, ix) /\ inv T m s kle ix F /\ scan_full ix = Some F /\ StronglySorted entry_le F /\ Forall (of_type T) (keys F).
Proof.
  intros [Hm [s Hs]] HT. pose proof (even_half m s Hs Hm) as Hd.
  assert (He : (m - 1) / 2 < m - 1 - (s - 1)) by lia.
  assert (HL : (m - 1) / 2 <= s - 1 \/ forall a b, kle a b -> klt a b) by lia.
  destruct (inserts_ok T m (s - 1) kle ltac:(auto) klt_le kle_trans kle_trans ltac:(lia) He HL es new_index [])
    as (bs & ix & F & E & HI & _); auto.
  { apply inv_new; first [exact klt_le|exact kle_trans|auto; lia]. }
  exists (s - 1), bs, ix, F. split; [exact E|]. split; [exact HI|].
  split; [apply (scan_full_ok T m (s - 1) kle); first [exact HI|exact klt_le|exact kle_trans|exact kle_klt_trans|exact klt_kle_trans|eassumption|auto; lia]|].
  assert (X : StronglySorted kle (keys F) /\ Forall (of_type T) (keys F)) by (eapply (inv_sorted T m (s - 1) kle); first [exact klt_le|exact kle_trans|eassumption|auto; lia]).
  destruct X as [X Y]. split; [apply sorted_entries, X|exact Y].
Qed.

(** C39, partial: after any inserts, any run of deletes that does not panic leaves in a full scan
    exactly the entries it held before, less one occurrence of each entry whose delete answered
    true, still sorted.  A delete that answers false changes nothing, and no delete takes another
    entry along.
    Missing: that a delete of an entry that is present answers true; it holds for the first delete
    (next theorem) and not in general (see below). *)
Theorem c39_deletes_partial : forall m T es ds bs ix bs' ix' F,
  even_order m -> Forall (of_type T) (map fst es) -> Forall (of_type T) (map fst ds) ->
  inserts m es new_index = Some (bs, ix) -> scan_full ix = Some F -> deletes m ds ix = Some (bs', ix') ->
  exists F', scan_full ix' = Some F' /\ Permutation F (said_yes ds bs' ++ F') /\ StronglySorted entry_le F' /\ length bs' = length ds.
Proof.
  intros m T es ds bs ix bs' ix' F Hm HT HD E HF ED. destruct (built m T es Hm HT) as (s & bs0 & ix0 & F0 & E0 & HI & S0 & SO & TF).
  rewrite E in E0. assert (ix0 = ix) as -> by congruence. assert (F0 = F) as -> by congruence.
  destruct (deletes_ok T m ds ix F bs' ix' (inv_holding _ _ _ _ _ _ HI) TF HD ED) as (F' & H' & P & SS & L).
  exists F'. split; [apply holding_scan, H'|]. auto.
Qed.
Print Assumptions c39_deletes_partial.

(** C39, partial: on an index built by inserts, a delete does not panic, answers true exactly if the
    entry is there, and then takes exactly one occurrence of it out of the scan. *)
Theorem c39_first_delete_partial : forall m T es bs ix F k r,
  even_order m -> Forall (of_type T) (map fst es) -> of_type T k ->
  inserts m es new_index = Some (bs, ix) -> scan_full ix = Some F ->
  exists b ix', delete m ix k r = Some (b, ix') /\ (b = true <-> In (k, r) F) /\
    exists F', scan_full ix' = Some F' /\ (b = false -> F' = F) /\ (b = true -> exists F1 F2, F = F1 ++ (k, r) :: F2 /\ F' = F1 ++ F2).
Proof.
  intros m T es bs ix F k r Hm HT Tk E HF. destruct (built m T es Hm HT) as (s & bs0 & ix0 & F0 & E0 & HI & S0 & SO & TF).
  rewrite E in E0. assert (ix0 = ix) as -> by congruence. assert (F0 = F) as -> by congruence.
  destruct (delete_answers T m s kle ix F k r ltac:(destruct Hm; lia) HI Tk) as (b & ix' & ED & Hb). exists b, ix'. split; [exact ED|]. split; [rewrite Hb; apply elem_of_list_In|].
  destruct (delete_ok T m ix F k r b ix' (inv_holding _ _ _ _ _ _ HI) TF Tk ED) as (F' & H' & HF'). exists F'. split; [apply holding_scan, H'|].
  destruct b; split; try discriminate; intros _; [exact HF'|apply HF'].
Qed.
Print Assumptions c39_first_delete_partial.

(** Deletes that borrow and merge. *)
Example c39_ex :
  even_order 4 /\
  match inserts 4 (num [5; 3; 5; 9; 5; 1; 5; 7; 8; 6]%Z) new_index with
  | Some (_, ix) =>
      match deletes 4 [(key 9, (3, 0)%N); (key 8, (8, 0)%N); (key 5, (4, 0)%N); (key 2, (0, 0)%N); (key 1, (5, 0)%N)] ix with
      | Some (bs, ix) => (bs, option_map (map fst) (scan_full ix))
      | None => ([], None)
      end
  | None => ([], None)
  end = ([true; true; true; false; true], Some (map key [3; 5; 5; 5; 6; 7]%Z)).
Proof. split; [split; [lia|exists 2; reflexivity]|]. vm_compute. reflexivity. Qed.

Definition upto_n (n : nat) : list entry := num (map Z.of_nat (seq 1 n)).

(** C39, refuted: after enough deletes (here the eighth smallest of thirty keys) the tree loses
    track of its leaves: the entries are still scanned, but deleting one that is present answers
    false and leaves it in place. *)
Theorem c39_missed_refuted : exists es ds k r bs ix bs' ix' F,
  NoDup es /\ inserts 4 es new_index = Some (bs, ix) /\ deletes 4 ds ix = Some (bs', ix') /\ Forall (eq true) bs' /\
  scan_full ix' = Some F /\ In (k, r) F /\ delete 4 ix' k r = Some (false, ix').
Proof.
  exists (upto_n 30), (take 8 (upto_n 30)), (key 20), (19, 0)%N. eexists _, _, _, _, _.
  split; [apply (bool_decide_unpack _); vm_compute; exact I|]. split; [vm_compute; reflexivity|]. split; [vm_compute; reflexivity|].
  split; [repeat constructor|]. split; [vm_compute; reflexivity|]. split; [|vm_compute; reflexivity].
  apply elem_of_list_In. apply (bool_decide_unpack _). vm_compute. exact I.
Qed.
Print Assumptions c39_missed_refuted.

(** C39, refuted: an insert after such deletes puts its key in the wrong place, so that scans are no
    longer sorted and a range scan misses entries. *)
Theorem c39_order_refuted : exists es ds k r bs ix bs' ix' b ix2 F x,
  NoDup es /\ inserts 4 es new_index = Some (bs, ix) /\ deletes 4 ds ix = Some (bs', ix') /\ Forall (eq true) bs' /\
  insert 4 ix' k r = Some (b, ix2) /\ scan_full ix2 = Some F /\ ~ StronglySorted entry_le F /\
  In x F /\ in_range_b (key 10) (key 20) true x = true /\ exists F', scan_range ix2 (key 10) (key 20) true = Some F' /\ ~ In x F'.
Proof.
  exists (upto_n 30), (take 8 (upto_n 30)), (key 40), (40, 0)%N. eexists _, _, _, _, _, _, _, (key 15, (14, 0)%N).
  split; [apply (bool_decide_unpack _); vm_compute; exact I|]. split; [vm_compute; reflexivity|]. split; [vm_compute; reflexivity|].
  split; [repeat constructor|]. split; [vm_compute; reflexivity|]. split; [vm_compute; reflexivity|].
  split; [|split; [|split; [reflexivity|eexists; split; [vm_compute; reflexivity|]]]].
  - intros H. repeat match type of H with
      | StronglySorted _ ((VInt _ 40, _) :: _) => fail 1
      | _ => apply StronglySorted_inv in H as [H _] end.
    apply StronglySorted_inv in H as [_ H]. apply Forall_cons_1 in H as [H _]. apply H. reflexivity.
  - apply elem_of_list_In. apply (bool_decide_unpack _). vm_compute. exact I.
  - intros H. apply elem_of_list_In in H. apply (bool_decide_pack _) in H. vm_compute in H. exact H.
Qed.
Print Assumptions c39_order_refuted.
