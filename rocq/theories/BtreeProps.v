(** * The in-memory B+-tree index: C38 *)
From Coq Require Import ZArith Lia Sorting.Permutation Sorting.Sorted.
From stdpp Require Import list.
From Verif Require Import ExprModel ExecProofs AggModel BtreeModel BtreeSpec BtreeProofs BtreeRunProofs.
Open Scope nat_scope.

Lemma sorted_entries F : StronglySorted kle (keys F) -> StronglySorted entry_le F.
Proof.
  induction F as [|x F IH]; intros S; [constructor|]. cbn in S. apply StronglySorted_inv in S as [S H].
  constructor; [apply IH, S|]. apply Forall_forall. intros y Hy. rewrite Forall_forall in H. apply H.
  apply elem_of_list_In, in_map. apply elem_of_list_In, Hy.
Qed.

(** C38, partial: for every even order (the database uses 4) and every sequence of inserts of keys
    of one type, equal keys included: no insert fails; a full scan returns the accepted entries,
    sorted; every entry handed in is there, and if they are all different each is there exactly
    once; and a range scan returns exactly the entries of the range, in that order.
    Missing: odd orders with equal keys, NULL keys, and pairs handed in twice; see below. *)
Theorem c38_scan_partial : forall m T es,
  even_order m -> Forall (of_type T) (map fst es) ->
  exists bs ix F, inserts m es new_index = Some (bs, ix) /\ length bs = length es /\
    scan_full ix = Some F /\ Permutation F (said_yes es bs) /\ StronglySorted entry_le F /\
    (forall x, In x es -> In x F) /\ (NoDup es -> Permutation F es) /\
    (forall lo hi incl, of_type T lo -> of_type T hi ->
       scan_range ix lo hi incl = Some (List.filter (in_range_b lo hi incl) F)).
Proof.
  intros m T es [Hm [s Hs]] HT.
  assert (Hd : (m - 1) / 2 = s - 1).
  { replace (m - 1) with (1 + (s - 1) * 2) by lia. rewrite Nat.div_add by lia. reflexivity. }
  assert (He : (m - 1) / 2 < m - 1 - (s - 1)) by lia.
  assert (HL : (m - 1) / 2 <= s - 1 \/ forall a b, kle a b -> klt a b) by lia.
  destruct (inserts_ok T m (s - 1) kle ltac:(auto) klt_le kle_trans kle_trans ltac:(lia) He HL es new_index [])
    as (bs & ix & F & E & HI & P & L & Hin & Hall); auto.
  { apply inv_new; first [exact klt_le|exact kle_trans|auto; lia]. }
  cbn [app] in *.
  exists bs, ix, F. split; [exact E|]. split; [exact L|]. split; [apply (scan_full_ok T m (s - 1) kle); first [exact HI|exact klt_le|exact kle_trans|exact kle_klt_trans|exact klt_kle_trans|eassumption|auto; lia]|].
  split; [exact P|]. split; [|split; [|split]].
  - apply sorted_entries. eapply (inv_sorted T m (s - 1) kle); first [exact klt_le|exact kle_trans|eassumption|auto; lia].
  - intros x Hx. apply elem_of_list_In, Hin. right. apply elem_of_list_In, Hx.
  - intros HN. rewrite P. rewrite Hall by exact HN. reflexivity.
  - intros lo hi incl Tlo Thi. eapply (scan_range_ok T m (s - 1) kle); first [exact klt_le|exact kle_trans|eassumption|auto; lia].
Qed.
Print Assumptions c38_scan_partial.

(** C38, partial: the same for every order from 3 on when no two keys are equal. *)
Theorem c38_distinct_partial : forall m T es,
  3 <= m -> Forall (of_type T) (map fst es) -> NoDup (map fst es) ->
  exists bs ix F, inserts m es new_index = Some (bs, ix) /\ bs = map (fun _ => true) es /\
    scan_full ix = Some F /\ Permutation F es /\ StronglySorted entry_le F /\
    (forall lo hi incl, of_type T lo -> of_type T hi ->
       scan_range ix lo hi incl = Some (List.filter (in_range_b lo hi incl) F)).
Proof.
  intros m T es Hm HT HN.
  assert (He : (m - 1) / 2 < m - 1 - 0) by (pose proof (Nat.div_lt (m - 1) 2); lia).
  assert (HL : (m - 1) / 2 <= 0 \/ forall a b, klt a b -> klt a b) by auto.
  destruct (inserts_ok T m 0 klt klt_le ltac:(auto) kle_klt_trans klt_kle_trans Hm He HL es new_index [])
    as (bs & ix & F & E & HI & P & L & Hin & Hall); auto.
  { apply inv_new; first [exact klt_le|exact kle_klt_trans|exact klt_kle_trans|eassumption|auto; lia]. }
  cbn [app] in *.
  assert (HN2 : NoDup es).
  { apply NoDup_ListNoDup. apply NoDup_ListNoDup in HN. apply (NoDup_map_inv fst _ HN). }
  specialize (Hall HN2).
  exists bs, ix, F. split; [exact E|]. split; [|split; [apply (scan_full_ok T m 0 klt); first [exact HI|exact klt_le|exact kle_trans|exact kle_klt_trans|exact klt_kle_trans|eassumption|auto; lia]|split; [|split]]].
  - clear - L Hall. revert bs L Hall. induction es as [|x es IH]; intros [|b bs] L H; cbn in *; try discriminate; [reflexivity|].
    destruct b; [injection H as H; f_equal; apply IH; [lia|exact H]|].
    apply (f_equal length) in H. cbn in H. exfalso.
    assert (Hle : forall l bs, length (said_yes l bs) <= length l).
    { induction l as [|y l IHl]; intros [|[] bs']; cbn; try lia; specialize (IHl bs'); lia. }
    specialize (Hle es bs). lia.
  - rewrite P, Hall. reflexivity.
  - apply sorted_entries. eapply (inv_sorted T m 0 klt); first [exact klt_le|exact kle_klt_trans|exact klt_kle_trans|eassumption|auto; lia].
  - intros lo hi incl Tlo Thi. eapply (scan_range_ok T m 0 klt); first [exact klt_le|exact kle_klt_trans|exact klt_kle_trans|eassumption|auto; lia].
Qed.
Print Assumptions c38_distinct_partial.

Definition key (z : Z) : val := VInt Integer z.
Definition num (zs : list Z) : list entry := imap (fun i z => (key z, (N.of_nat i, 0%N))) zs.

(** Equal keys, four leaves, two levels. *)
Example c38_ex :
  even_order 4 /\ Forall (of_type (TInt Integer)) (map fst (num [5; 3; 5; 9; 5; 1; 5]%Z)) /\ NoDup (num [5; 3; 5; 9; 5; 1; 5]%Z) /\
  match inserts 4 (num [5; 3; 5; 9; 5; 1; 5]%Z) new_index with
  | Some (bs, ix) => (bs, option_map (map fst) (scan_full ix), option_map (map fst) (scan_range ix (key 2) (key 5) true), depth (root ix))
  | None => ([], None, None, 0)
  end = (replicate 7 true, Some (map key [1; 3; 5; 5; 5; 5; 9]%Z), Some (map key [3; 5; 5; 5; 5]%Z), 1).
Proof.
  split; [split; [lia|exists 2; reflexivity]|]. split; [repeat constructor|]. split; [|vm_compute; reflexivity].
  apply (bool_decide_unpack _). vm_compute. exact I.
Qed.

(** A pair handed in twice may be stored twice. *)
Theorem c38_pair_twice_refuted : exists es bs ix F,
  inserts 4 es new_index = Some (bs, ix) /\ scan_full ix = Some F /\ bs = map (fun _ => true) es /\ ~ NoDup F.
Proof.
  exists [(key 5, (1, 0)%N); (key 5, (2, 0)%N); (key 5, (3, 0)%N); (key 5, (4, 0)%N); (key 5, (1, 0)%N)].
  eexists _, _, _. split; [vm_compute; reflexivity|]. split; [vm_compute; reflexivity|]. split; [reflexivity|].
  intros H. apply (bool_decide_pack _) in H. vm_compute in H. exact H.
Qed.
Print Assumptions c38_pair_twice_refuted.

(** With an odd order, equal keys come out of order. *)
Theorem c38_odd_order_refuted : exists m es bs ix F,
  3 <= m /\ Forall (of_type (TInt Integer)) (map fst es) /\ NoDup es /\
  inserts m es new_index = Some (bs, ix) /\ scan_full ix = Some F /\ ~ StronglySorted entry_le F.
Proof.
  exists 5, (num [2; 2; 6; 2; 1; 0; 1; 6]%Z). eexists _, _, _. split; [lia|]. split; [repeat constructor|].
  split; [apply (bool_decide_unpack _); vm_compute; exact I|]. split; [vm_compute; reflexivity|]. split; [vm_compute; reflexivity|].
  intros H. do 5 (apply StronglySorted_inv in H as [H _]). apply StronglySorted_inv in H as [_ H].
  apply Forall_cons_1 in H as [H _]. apply H. reflexivity.
Qed.
Print Assumptions c38_odd_order_refuted.

(** NULL keys break the order, and range scans then miss entries. *)
Theorem c38_null_refuted : exists es bs ix F e,
  inserts 4 es new_index = Some (bs, ix) /\ scan_full ix = Some F /\
  In e F /\ fst e = key 1 /\ scan_range ix (key 0) (key 1) true = Some [].
Proof.
  exists [(key 3, (0, 0)%N); (VNull, (1, 0)%N); (key 4, (2, 0)%N); (key 1, (3, 0)%N)].
  eexists _, _, _, (key 1, (3, 0)%N). split; [vm_compute; reflexivity|]. split; [vm_compute; reflexivity|].
  split; [cbn; auto|]. split; [reflexivity|vm_compute; reflexivity].
Qed.
Print Assumptions c38_null_refuted.
