(** * Index iterators and index scans: C40, C41 *)
From Coq Require Import ZArith Lia Sorting.Permutation Sorting.Sorted.
From stdpp Require Import list.
From Verif Require Import ExprModel ExecProofs AggModel BtreeModel BtreeSpec BtreeProofs BtreeRunProofs BtreeProps IdxModel IdxSpec IdxProofs.
Open Scope nat_scope.

Lemma built_facts m T es bs ix F : even_order m -> Forall (of_type T) (map fst es) -> inserts m es new_index = Some (bs, ix) -> scan_full ix = Some F ->
  Forall (of_type T) (keys F) /\ StronglySorted kle (keys F) /\
  (forall a b incl, of_type T a -> of_type T b -> scan_range ix a b incl = Some (List.filter (in_range_b a b incl) F)).
Proof.
  intros Hm HT E HF. destruct (c38_scan_partial m T es Hm HT) as (bs' & ix' & F' & E' & _ & HF' & P & S & _ & _ & HR).
  assert (ix' = ix) as -> by congruence. assert (F' = F) as -> by congruence. assert (bs' = bs) as -> by congruence. split; [|split; [|exact HR]].
  - apply Forall_forall. intros k Hk. apply elem_of_list_In, in_map_iff in Hk as (x & <- & Hx).
    assert (Hy : In x (said_yes es bs)) by (eapply Permutation_in; eassumption). rewrite Forall_forall in HT. apply HT, elem_of_list_In, in_map.
    clear - Hy. revert bs Hy. induction es as [|e es IH]; intros [|[] bs] Hy; cbn in Hy; try contradiction; [destruct Hy as [->|Hy]; [left; reflexivity|right; eauto]|right; eauto].
  - clear - S. induction F as [|x F IH]; [constructor|]. apply StronglySorted_inv in S as [S H]. constructor; [apply IH, S|].
    apply Forall_forall. intros k Hk. apply elem_of_list_In, in_map_iff in Hk as (y & <- & Hy). rewrite Forall_forall in H. apply H, elem_of_list_In, Hy.
Qed.

(** ** C40 *)

(** C40, partial: an iterator without bounds returns every entry once, in order, and then the end
    for good. *)
Theorem c40_full_partial : forall m T es bs ix F,
  even_order m -> Forall (of_type T) (map fst es) -> inserts m es new_index = Some (bs, ix) -> scan_full ix = Some F ->
  exists it, new_iter ix None None = Some it /\ forall n, calls ix n it = Some (once F n).
Proof.
  intros m T es bs ix F _ _ _ HF. destruct (new_full ix F HF) as (d & lk & E & HL). eexists. split; [exact E|]. apply calls_once, HL.
Qed.
Print Assumptions c40_full_partial.

(** C40, partial: an iterator over a range returns the entries of the range once, in order, and then
    the end for good, if some entry has the upper bound as its key or if the range is empty.
    Missing: all other ranges, where it never ends (see below). *)
Theorem c40_range_partial : forall m T es bs ix F lo hi,
  even_order m -> Forall (of_type T) (map fst es) -> inserts m es new_index = Some (bs, ix) -> scan_full ix = Some F ->
  of_type T lo -> of_type T hi ->
  (exists e, In e F /\ fst e = hi) \/ List.filter (in_range_b lo hi true) F = [] ->
  exists it, new_iter ix (Some lo) (Some hi) = Some it /\ forall n, calls ix n it = Some (once (List.filter (in_range_b lo hi true) F) n).
Proof.
  intros m T es bs ix F lo hi Hm HT E HF Tlo Thi Hhi. destruct (built_facts m T es bs ix F Hm HT E HF) as (F1 & F2 & F3).
  destruct (new_range T ix F lo hi F1 F2 Tlo Thi F3 Hhi) as (d & lk & EN & HL). eexists. split; [exact EN|]. apply calls_once, HL.
Qed.
Print Assumptions c40_range_partial.

(** C40, refuted: an iterator over any other range never ends: every call returns a RID. *)
Theorem c40_endless_refuted : forall m T es bs ix F lo hi e,
  even_order m -> Forall (of_type T) (map fst es) -> inserts m es new_index = Some (bs, ix) -> scan_full ix = Some F ->
  of_type T lo -> of_type T hi ->
  In e F -> in_range_b lo hi true e = true -> (forall e, In e F -> fst e <> hi) ->
  exists it, new_iter ix (Some lo) (Some hi) = Some it /\
    forall n, exists l, calls ix n it = Some l /\ length l = n /\ Forall (fun a => exists r, a = ARid r) l.
Proof.
  intros m T es bs ix F lo hi e Hm HT E HF Tlo Thi He Hr Hn. destruct (built_facts m T es bs ix F Hm HT E HF) as (F1 & F2 & F3).
  destruct (endless_new T ix F lo hi F1 F2 Tlo Thi F3 e He Hr Hn) as (it & EN & HE). exists it. split; [exact EN|].
  intros n. eapply (endless_calls T ix F lo hi); eassumption.
Qed.
Print Assumptions c40_endless_refuted.

(** C40, partial: seeking a key, in an iterator over a range whose upper bound is the key of an
    entry, continues with the entries from that key to the upper bound, and then ends. *)
Definition and_on (ix : index) (n : nat) (o : option (answer * iter)) : option (list answer) :=
  match o with Some (a, it) => option_map (cons a) (calls ix n it) | None => None end.

Theorem c40_seek_partial : forall m T es bs ix F lo hi k,
  even_order m -> Forall (of_type T) (map fst es) -> inserts m es new_index = Some (bs, ix) -> scan_full ix = Some F ->
  of_type T lo -> of_type T hi -> of_type T k -> kle lo hi ->
  (exists e, In e F /\ fst e = hi) ->
  exists it, new_iter ix (Some lo) (Some hi) = Some it /\
    forall n, and_on ix n (seek ix it k) = Some (once (List.filter (in_range_b k hi true) F) (S n)).
Proof.
  intros m T es bs ix F lo hi k Hm HT E HF Tlo Thi Tk Hle Hhi. destruct (built_facts m T es bs ix F Hm HT E HF) as (F1 & F2 & F3).
  destruct (new_range T ix F lo hi F1 F2 Tlo Thi F3 (or_introl Hhi)) as (d & lk & EN & HL). eexists. split; [exact EN|]. intros n.
  set (K := List.filter (in_range_b k hi true) F).
  unfold seek. cbn [i_hi i_lo i_last]. rewrite F3 by assumption. fold K.
  (* the first batch was not empty, and its last key is the upper bound *)
  assert (ELK : lk = Some hi).
  { unfold new_iter, fetch in EN. cbn in EN. rewrite F3 in EN by assumption. set (B := List.filter (in_range_b lo hi true) F) in *.
    assert (HB : exists r, In (hi, r) B).
    { destruct Hhi as ([h r] & He & Hh). cbn in Hh. subst. exists r. apply filter_In. split; [exact He|]. apply in_range_spec. cbn. auto. }
    destruct (last B) as [[x r]|] eqn:EL; [|apply last_None in EL; rewrite EL in HB; destruct HB as [? []]].
    cbn in EN. assert (lk = Some x) as -> by congruence. f_equal. eapply last_filter_key; eassumption. }
  subst lk.
  change (and_on ix n (try_next ix (It K 0 (Some lo) (Some hi) false (Some hi)))) with (calls ix (S n) (It K 0 (Some lo) (Some hi) false (Some hi))).
  apply calls_once. apply spent_range. rewrite F3 by assumption. f_equal. clear. induction F as [|x F' IH]; [reflexivity|]. cbn.
  destruct (in_range_b hi hi false x) eqn:Ex; [|exact IH].
  apply in_range_spec in Ex as [E1 [E2|[E2 _]]]; [|discriminate]. destruct (klt_not_le _ _ E2 E1).
Qed.
Print Assumptions c40_seek_partial.

(** C40, refuted: after a reset an iterator that has returned something returns nothing. *)
Theorem c40_reset_refuted : forall m T es bs ix F e,
  even_order m -> Forall (of_type T) (map fst es) -> inserts m es new_index = Some (bs, ix) -> scan_full ix = Some F -> In e F ->
  exists it it', new_iter ix None None = Some it /\ reset ix it = Some it' /\ forall n, calls ix n it' = Some (replicate n AEnd).
Proof.
  intros m T es bs ix F e _ _ _ HF He. unfold new_iter, fetch. cbn. rewrite HF. destruct (last F) as [[k r]|] eqn:EL; [|apply last_None in EL; subst; destruct He].
  cbn. eexists _, _. split; [reflexivity|]. split; [reflexivity|]. intros n. apply calls_done. cbn. lia.
Qed.
Print Assumptions c40_reset_refuted.

(** Ten entries; a range that ends at a key, a range that does not. *)
Definition ten : option index := match inserts 4 (num [5; 3; 5; 9; 5; 1; 5; 7; 8; 6]%Z) new_index with Some (_, ix) => Some ix | None => None end.
Example c40_ex :
  match ten with
  | Some ix =>
      (match new_iter ix (Some (key 3)) (Some (key 6)) with Some it => calls ix 8 it | None => None end,
       match new_iter ix (Some (key 8)) (Some (key 20)) with Some it => calls ix 5 it | None => None end)
  | None => (None, None)
  end =
  (Some [ARid (1, 0); ARid (0, 0); ARid (2, 0); ARid (4, 0); ARid (6, 0); ARid (9, 0); AEnd; AEnd],
   Some [ARid (8, 0); ARid (3, 0); ARid (3, 0); ARid (3, 0); ARid (3, 0)])%N.
Proof. vm_compute. reflexivity. Qed.

(** ** C41 *)

(** C41, partial: the bounds of an index scan exclude no row that satisfies the conditions, if
    every condition is a conjunction of comparisons of the indexed column with constants of its
    type and of conditions of other kinds, or if there is one condition, an OR of such conjunctions
    that bound the column on both sides. *)
Theorem c41_bounds_partial : forall T preds k rest,
  of_type T k -> key_preds T preds -> satisfies preds (k :: rest) -> covers (bounds preds) k.
Proof. exact bounds_cover. Qed.
Print Assumptions c41_bounds_partial.

Lemma passes_satisfies preds r : (forall e, In e preds -> eval e r <> Err) -> passes preds r = true <-> satisfies preds r.
Proof.
  intros HE. unfold passes, satisfies. rewrite forallb_forall. split; intros H e He; specialize (H e He); specialize (HE e He).
  - destruct (eval e r) as [[|[]|? ?|?|?]|]; try discriminate; [reflexivity|congruence].
  - rewrite H. reflexivity.
Qed.

Lemma rows_filter get (p : row -> bool) (q : entry -> bool) l :
  (forall k rd r, In (k, rd) l -> get rd = Some r -> p r = true -> q (k, rd) = true) -> rows_of get p (List.filter q l) = rows_of get p l.
Proof.
  induction l as [|[k rd] l IH]; intros H; [reflexivity|]. cbn [List.filter rows_of].
  assert (IH' : rows_of get p (List.filter q l) = rows_of get p l) by (apply IH; intros; eapply H; [right|..]; eassumption).
  destruct (q (k, rd)) eqn:EQ; cbn [rows_of]; rewrite IH'; [reflexivity|].
  destruct (get rd) as [r|] eqn:EG; [|reflexivity]. destruct (p r) eqn:EP; [|reflexivity].
  rewrite (H k rd r (or_introl eq_refl) EG EP) in EQ. discriminate.
Qed.

(** C41, partial: an index scan returns exactly the rows of the table that satisfy the conditions,
    each once and in key order, if the conditions are of that kind, the scan has either no bound or
    both, and the upper bound is the key of an entry or no entry lies between the bounds. *)
Theorem c41_scan_partial : forall m T es bs ix F get preds,
  even_order m -> Forall (of_type T) (map fst es) -> inserts m es new_index = Some (bs, ix) -> scan_full ix = Some F ->
  indexed_by get F -> key_preds T preds ->
  (forall rd r e, get rd = Some r -> In e preds -> eval e r <> Err) ->
  match bounds preds with
  | (None, None) => True
  | (Some lo, Some hi) => of_type T lo /\ of_type T hi /\ ((exists e, In e F /\ fst e = hi) \/ forall e, In e F -> in_range_b lo hi true e = false)
  | _ => False
  end ->
  forall out, index_scan ix get preds out <-> out = rows_of get (all_true preds) F.
Proof.
  intros m T es bs ix F get preds Hm HT E HF HG HP HE HB out. destruct (built_facts m T es bs ix F Hm HT E HF) as (F1 & F2 & F3).
  assert (HQ : forall L, rows_of get (passes preds) L = rows_of get (all_true preds) L).
  { induction L as [|[k rd] L IH]; [reflexivity|]. cbn [rows_of]. rewrite IH. destruct (get rd) as [r|] eqn:EG; [|reflexivity].
    assert (Epp : passes preds r = all_true preds r).
    { unfold passes, all_true. specialize (HE rd r). clear - HE EG. induction preds as [|e preds IH]; [reflexivity|]. cbn [forallb].
      rewrite IH by (intros; apply HE; [exact EG|right; assumption]). f_equal. specialize (HE e EG (or_introl eq_refl)). unfold where_pass.
      destruct (eval e r) as [[]|]; congruence. }
    rewrite Epp. reflexivity. }
  destruct (bounds preds) as [[lo|] [hi|]] eqn:EB; try contradiction.
  - destruct HB as (Tlo & Thi & Hhi). assert (Hhi' : (exists e, In e F /\ fst e = hi) \/ List.filter (in_range_b lo hi true) F = []).
    { destruct Hhi as [Hhi|Hhi]; [auto|]. right. clear - Hhi. induction F as [|x F IH]; [reflexivity|]. cbn. rewrite (Hhi x (or_introl eq_refl)). apply IH. intros e He. apply Hhi. right. exact He. }
    destruct (new_range T ix F lo hi F1 F2 Tlo Thi F3 Hhi') as (d & lk & EN & HL).
    rewrite (scan_of ix get preds _ _ _ d lk EN HL (eq_sym EB) out). rewrite HQ.
    rewrite rows_filter; [reflexivity|]. intros k rd r Hin EG EP. destruct (HG rd r EG) as (k' & rest & -> & Hin' & Hu). pose proof (Hu k Hin) as ->.
    assert (Tk : of_type T k'). { rewrite Forall_forall in F1. apply F1. eapply key_in, Hin. }
    assert (HS : satisfies preds (k' :: rest)).
    { intros e He. unfold all_true in EP. rewrite forallb_forall in EP. specialize (EP e He). unfold where_pass in EP. destruct (eval e (k' :: rest)) as [[|[]|? ?|?|?]|]; congruence. }
    destruct (bounds_cover T preds k' rest Tk HP HS) as [C1 C2]. rewrite EB in C1, C2. cbn in C1, C2. apply in_range_spec. cbn. split; [apply C1; reflexivity|].
    destruct (kle_cases _ _ (C2 hi eq_refl)) as [H| ->]; auto.
  - destruct (new_full ix F HF) as (d & lk & EN & HL). rewrite (scan_of ix get preds _ _ _ d lk EN HL (eq_sym EB) out). rewrite HQ. reflexivity.
Qed.
Print Assumptions c41_scan_partial.

(** C41: a scan for one key returns exactly the rows with that key, whatever the index holds. *)
Theorem c41_point_lookup : forall m T es bs ix F get v,
  even_order m -> Forall (of_type T) (map fst es) -> inserts m es new_index = Some (bs, ix) -> scan_full ix = Some F ->
  indexed_by get F -> of_type T v ->
  forall out, index_scan ix get [ECmp Eq (ECol 0) (EConst v)] out <-> out = rows_of get (all_true [ECmp Eq (ECol 0) (EConst v)]) F.
Proof.
  intros m T es bs ix F get v Hm HT E HF HG Tv. destruct (built_facts m T es bs ix F Hm HT E HF) as (F1 & F2 & F3).
  apply (c41_scan_partial m T es bs ix F get); auto.
  - left. repeat constructor. exact Tv.
  - intros rd r e EG [<-|[]]. destruct (HG rd r EG) as (k & rest & -> & Hin & _). cbn [eval bind nth_error].
    assert (Tk : of_type T k). { rewrite Forall_forall in F1. apply F1. eapply key_in, Hin. }
    unfold perform_comparison. unfold of_type in *. rewrite Tk, Tv. unfold tid_eqb. rewrite N.eqb_refl. discriminate.
  - cbn. split; [exact Tv|]. split; [exact Tv|]. destruct (existsb (fun e => in_range_b v v true e) F) eqn:EX.
    + left. apply existsb_exists in EX as (e & He & Hr). exists e. split; [exact He|]. apply in_range_spec in Hr as [H1 [H2|[_ H2]]]; [destruct (klt_not_le _ _ H2 H1)|exact H2].
    + right. intros e He. destruct (in_range_b v v true e) eqn:Er; [|reflexivity]. assert (X : existsb (fun e => in_range_b v v true e) F = true) by (apply existsb_exists; eauto). congruence.
Qed.
Print Assumptions c41_point_lookup.

(** The indexed column, and one more column. *)
Definition table10 (rd : rid) : option row :=
  match nth_error [5; 3; 5; 9; 5; 1; 5; 7; 8; 6]%Z (N.to_nat (fst rd)) with
  | Some z => if N.eqb (snd rd) 0 then Some [key z; key (z * 10)%Z] else None
  | None => None
  end.
Definition c (op : cmpop) (z : Z) : expr := ECmp op (ECol 0) (EConst (key z)).

Example c41_ex :
  (exists F, option_map scan_full ten = Some (Some F) /\ indexed_by table10 F) /\
  key_preds (TInt Integer) [EAnd (c Ge 2) (c Le 6)] /\ bounds [EAnd (c Ge 2) (c Le 6)] = (Some (key 2), Some (key 6)) /\
  key_preds (TInt Integer) [EOr (c Eq 3) (EAnd (c Gt 5) (c Lt 9))] /\ bounds [EOr (c Eq 3) (EAnd (c Gt 5) (c Lt 9))] = (Some (key 3), Some (key 9)).
Proof.
  split; [|split; [|split; [|split]]].
  - eexists. split; [vm_compute; reflexivity|]. intros [p s] r H. unfold table10 in H. cbn [fst snd] in H.
    destruct (N.to_nat p) as [|[|[|[|[|[|[|[|[|[|n]]]]]]]]]] eqn:Ep; cbn [nth_error] in H;
      try (destruct n; discriminate);
      (destruct (N.eqb_spec s 0) as [->|]; [|discriminate]); (assert (Hp : p = N.of_nat (N.to_nat p)) by (rewrite N2Nat.id; reflexivity)); rewrite Ep in Hp; cbn in Hp; subst p;
      (assert (r = r) by reflexivity); injection H as <-; eexists _, _; (split; [reflexivity|]); (split; [cbn; tauto|]);
      intros k' Hk; cbn in Hk; repeat (destruct Hk as [Hk|Hk]; [try discriminate; injection Hk as <-; reflexivity|]); destruct Hk.
  - left. constructor; [|constructor]. apply kc_and; apply kc_cmp; reflexivity.
  - reflexivity.
  - right. eexists. split; [reflexivity|]. apply ka_or; apply ka_conj; try reflexivity; [apply kc_cmp; reflexivity|apply kc_and; apply kc_cmp; reflexivity].
  - reflexivity.
Qed.

(** ** C41, refuted: the conditions that are not covered *)

(** Bounded on one side only: no row is returned at all. *)
Theorem c41_one_sided_refuted : forall ix get v out, index_scan ix get [ECmp Gt (ECol 0) (EConst v)] out <-> out = [].
Proof.
  intros ix get v out. apply (scan_of ix get [ECmp Gt (ECol 0) (EConst v)] [] (Some v) None true None); [reflexivity|apply spent_done|reflexivity].
Qed.
Print Assumptions c41_one_sided_refuted.

(** x > 5 OR x < 3: the bounds are from 5 to 3. *)
Theorem c41_or_refuted : exists ix rd r,
  ten = Some ix /\ table10 rd = Some r /\ where_pass (EOr (c Gt 5) (c Lt 3)) r = true /\
  forall out, index_scan ix table10 [EOr (c Gt 5) (c Lt 3)] out <-> out = [].
Proof.
  eexists _, (3, 0)%N, _. split; [vm_compute; reflexivity|]. split; [reflexivity|]. split; [reflexivity|].
  apply (scan_of _ table10 [EOr (c Gt 5) (c Lt 3)] [] (Some (key 5)) (Some (key 3)) true None); [vm_compute; reflexivity|apply spent_done|reflexivity].
Qed.
Print Assumptions c41_or_refuted.

(** x >= 0 AND (x = 1 OR x = 5): the bounds are from 5 to 1. *)
Theorem c41_and_or_refuted : exists ix rd r,
  let e := EAnd (c Ge 0) (EOr (c Eq 1) (c Eq 5)) in
  ten = Some ix /\ table10 rd = Some r /\ where_pass e r = true /\ forall out, index_scan ix table10 [e] out <-> out = [].
Proof.
  eexists _, (5, 0)%N, _. cbn zeta. split; [vm_compute; reflexivity|]. split; [reflexivity|]. split; [reflexivity|].
  apply (scan_of _ table10 _ [] (Some (key 5)) (Some (key 1)) true None); [vm_compute; reflexivity|apply spent_done|reflexivity].
Qed.
Print Assumptions c41_and_or_refuted.

(** y = 30, with the index on x: the bounds are those of x = 30. *)
Theorem c41_other_column_refuted : exists ix rd r,
  let e := ECmp Eq (ECol 1) (EConst (key 30)) in
  ten = Some ix /\ table10 rd = Some r /\ where_pass e r = true /\ forall out, index_scan ix table10 [e] out <-> out = [].
Proof.
  eexists _, (1, 0)%N, _. cbn zeta. split; [vm_compute; reflexivity|]. split; [reflexivity|]. split; [reflexivity|].
  apply (scan_of _ table10 _ [] (Some (key 30)) (Some (key 30)) true None); [vm_compute; reflexivity|apply spent_done|reflexivity].
Qed.
Print Assumptions c41_other_column_refuted.

(** A range that holds entries but none at its upper bound: the scan never ends. *)
Theorem c41_endless_refuted : forall m T es bs ix F get preds lo hi e,
  even_order m -> Forall (of_type T) (map fst es) -> inserts m es new_index = Some (bs, ix) -> scan_full ix = Some F ->
  bounds preds = (Some lo, Some hi) -> of_type T lo -> of_type T hi ->
  In e F -> in_range_b lo hi true e = true -> (forall e, In e F -> fst e <> hi) ->
  forall out, ~ index_scan ix get preds out.
Proof.
  intros m T es bs ix F get preds lo hi e Hm HT E HF EB Tlo Thi He Hr Hn out (it & EN & H). destruct (built_facts m T es bs ix F Hm HT E HF) as (F1 & F2 & F3).
  rewrite EB in EN. cbn in EN. destruct (endless_new T ix F lo hi F1 F2 Tlo Thi F3 e He Hr Hn) as (it' & EN' & HE). assert (it' = it) as -> by congruence.
  eapply (endless_all T ix F lo hi); eassumption.
Qed.
Print Assumptions c41_endless_refuted.
