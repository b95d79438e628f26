(** * Proofs about index iterators and index scans *)
From Coq Require Import ZArith Lia Sorting.Permutation Sorting.Sorted.
From stdpp Require Import list.
From Verif Require Import ExprModel ExecProofs BtreeModel BtreeSpec BtreeProofs BtreeRunProofs IdxModel IdxSpec.
Open Scope nat_scope.

Definition arid (e : entry) : answer := ARid (snd e).

(** ** Walking through a batch *)
Lemma calls_walk ix L lo hi d lk f : (forall n, calls ix n (It L (length L) lo hi d lk) = Some (f n)) ->
  forall n p, p <= length L -> calls ix n (It L p lo hi d lk) = Some (take n (map arid (drop p L)) ++ f (n - (length L - p))).
Proof.
  intros H. induction n as [|n IH]; intros p Hp.
  - cbn [take app]. specialize (H 0). cbn in H |- *. exact H.
  - destruct (Nat.eq_dec p (length L)) as [->|Hne].
    + rewrite drop_all, Nat.sub_diag, Nat.sub_0_r. cbn [map]. rewrite take_nil. apply H.
    + destruct (lookup_lt_is_Some_2 L p ltac:(lia)) as [[k r] E]. 
      assert (ET : try_next ix (It L p lo hi d lk) = Some (ARid r, It L (S p) lo hi d lk)).
      { unfold try_next. cbn [i_batch i_pos i_done i_lo i_hi i_last]. assert (Hs : (length L <=? p) = false) by (apply Nat.leb_gt; lia). rewrite Hs, andb_false_r. unfold entry in *. rewrite E. reflexivity. }
      cbn [calls]. rewrite ET. rewrite (drop_S _ _ _ E). cbn [map take app]. rewrite IH by lia. cbn [option_map]. unfold arid at 2. cbn [snd]. do 3 f_equal. f_equal. lia.
Qed.

Lemma calls_done ix L p lo hi lk n : length L <= p -> calls ix n (It L p lo hi true lk) = Some (replicate n AEnd).
Proof.
  intros Hp. induction n as [|n IH]; [reflexivity|]. cbn [calls]. unfold try_next. cbn [i_batch i_pos i_done].
  destruct (Nat.leb_spec (length L) p); [|lia]. cbn [andb]. rewrite IH. reflexivity.
Qed.

Lemma once_eq l n : once l n = take n (map arid l) ++ replicate (n - length l) AEnd.
Proof. unfold once, entry in *. rewrite firstn_app, take_replicate, map_length. f_equal. replace ((n - length l) `min` n) with (n - length l) by lia. reflexivity. Qed.

(** Once a batch is spent, the next fetch finds nothing. *)
Definition last_batch (ix : index) (it : iter) : Prop :=
  exists it', try_next ix it = Some (AEnd, it') /\ i_done it' = true /\ length (i_batch it') <= i_pos it'.

Lemma calls_last ix it n : last_batch ix it -> calls ix n it = Some (replicate n AEnd).
Proof.
  intros (it' & E & D & L). destruct n as [|n]; [reflexivity|]. cbn [calls]. rewrite E. destruct it' as [b p lo hi d lk]. cbn in D, L. subst.
  rewrite calls_done by exact L. reflexivity.
Qed.

Lemma calls_once ix L lo hi d lk : last_batch ix (It L (length L) lo hi d lk) -> forall n, calls ix n (It L 0 lo hi d lk) = Some (once L n).
Proof.
  intros H n. rewrite (calls_walk ix L lo hi d lk (fun n => replicate n AEnd)); [|intros; apply calls_last, H|lia].
  rewrite drop_0, Nat.sub_0_r, once_eq. reflexivity.
Qed.

Lemma spent_full ix L d k : last_batch ix (It L (length L) None None d (Some k)).
Proof.
  unfold last_batch, try_next. cbn [i_batch i_pos i_done]. rewrite Nat.leb_refl. destruct d; cbn [andb].
  - eexists. split; [reflexivity|]. cbn. auto.
  - unfold fetch. cbn. eexists. split; [reflexivity|]. cbn. auto.
Qed.
Lemma spent_range ix L lo hi d k : scan_range ix k hi false = Some [] -> last_batch ix (It L (length L) (Some lo) (Some hi) d (Some k)).
Proof.
  intros E. unfold last_batch, try_next. cbn [i_batch i_pos i_done]. rewrite Nat.leb_refl. destruct d; cbn [andb].
  - eexists. split; [reflexivity|]. cbn. auto.
  - unfold fetch. cbn. rewrite E. cbn. eexists. split; [reflexivity|]. cbn. auto.
Qed.
Lemma spent_done ix lo hi lk : last_batch ix (It [] 0 lo hi true lk).
Proof. unfold last_batch, try_next. cbn. eexists. split; [reflexivity|]. cbn. auto. Qed.

(** What a new iterator looks like. *)
Lemma new_full ix F : scan_full ix = Some F -> exists d lk, new_iter ix None None = Some (It F 0 None None d lk) /\ last_batch ix (It F (length F) None None d lk).
Proof.
  intros E. unfold new_iter, fetch. cbn. rewrite E. destruct (last F) as [[k r]|] eqn:EL.
  - cbn. eexists _, _. split; [reflexivity|]. apply spent_full.
  - apply last_None in EL. subst. cbn. eexists _, _. split; [reflexivity|]. apply spent_done.
Qed.

Lemma in_range_spec lo hi incl e : in_range_b lo hi incl e = true <-> kle lo (fst e) /\ (klt (fst e) hi \/ incl = true /\ fst e = hi).
Proof.
  unfold in_range_b, key_le, key_lt. rewrite andb_true_iff. split.
  - intros [H1 H2]. split; [destruct (val_cmp lo (fst e)); congruence|]. destruct (val_cmp (fst e) hi) eqn:E; [right; split; [exact H2|apply val_cmp_eq, E]|auto|discriminate].
  - intros [H1 H2]. split; [destruct (val_cmp lo (fst e)); congruence|]. destruct H2 as [->|[-> ->]]; [reflexivity|]. rewrite val_cmp_refl. reflexivity.
Qed.
Lemma last_in {A} (l : list A) x : last l = Some x -> In x l.
Proof. intros E. apply last_Some in E as [l' ->]. apply in_or_app. right. left. reflexivity. Qed.
Lemma key_in k r (F : list entry) : In (k, r) F -> k ∈ keys F.
Proof. intros H. apply elem_of_list_In. change k with (fst (k, r)). apply in_map, H. Qed.

Lemma last_filter_key (F : list entry) lo hi k r : StronglySorted kle (keys F) ->
  last (List.filter (in_range_b lo hi true) F) = Some (k, r) -> (exists e, In e F /\ fst e = hi) -> k = hi.
Proof.
  intros S EL ([hi' r'] & He & Hh). cbn in Hh. subst hi'.
  pose proof (last_in _ _ EL) as Hk. pose proof Hk as Hk2. apply filter_In in Hk2 as [_ Hk2]. apply in_range_spec in Hk2 as [K1 K2]. cbn in K1, K2.
  assert (K3 : kle k hi) by (destruct K2 as [K2|[_ ->]]; [apply klt_le, K2|apply kle_refl]).
  assert (Hin : In (hi, r') (List.filter (in_range_b lo hi true) F)).
  { apply filter_In. split; [exact He|]. apply in_range_spec. cbn. split; [eapply kle_trans; eassumption|auto]. }
  apply kle_antisym; [exact K3|].
  assert (SF : StronglySorted kle (keys (List.filter (in_range_b lo hi true) F))).
  { clear - S. induction F as [|x F IH]; [constructor|]. cbn in S. apply StronglySorted_inv in S as [S H]. cbn.
    destruct (in_range_b lo hi true x); [|apply IH, S]. cbn. constructor; [apply IH, S|]. apply Forall_forall. intros y Hy. rewrite Forall_forall in H. apply H.
    apply elem_of_list_In in Hy. apply elem_of_list_In. unfold keys in *. apply in_map_iff in Hy as (z & <- & Hz). apply filter_In in Hz as [Hz _]. apply in_map, Hz. }
  apply last_Some in EL as [l' EL]. rewrite EL in Hin, SF. apply in_app_or in Hin as [Hin|[Hin|[]]]; [|assert (k = hi) as -> by congruence; apply kle_refl].
  rewrite keys_app in SF. apply sorted_app in SF as (_ & _ & SF). apply SF; [eapply key_in, Hin|cbn; apply elem_of_list_singleton; reflexivity].
Qed.

Section ranged.
  Context (T : tid) (ix : index) (F : list entry) (lo hi : val).
  Context (HT : Forall (of_type T) (keys F)) (HS : StronglySorted kle (keys F)) (Tlo : of_type T lo) (Thi : of_type T hi).
  Context (HR : forall a b incl, of_type T a -> of_type T b -> scan_range ix a b incl = Some (List.filter (in_range_b a b incl) F)).
  Let B := List.filter (in_range_b lo hi true) F.

  Lemma F_type k r : In (k, r) F -> of_type T k.
  Proof using All. intros H. rewrite Forall_forall in HT. apply HT. eapply key_in, H. Qed.

  Lemma new_range : (exists e, In e F /\ fst e = hi) \/ B = [] ->
    exists d lk, new_iter ix (Some lo) (Some hi) = Some (It B 0 (Some lo) (Some hi) d lk) /\ last_batch ix (It B (length B) (Some lo) (Some hi) d lk).
  Proof using All.
    intros Hhi. unfold new_iter, fetch. cbn. rewrite HR by assumption. fold B. destruct (last B) as [[k r]|] eqn:EL.
    - cbn. eexists _, _. split; [reflexivity|]. apply spent_range.
      destruct Hhi as [Hhi|Hhi]; [|rewrite Hhi in EL; discriminate].
      assert (k = hi) as -> by (eapply last_filter_key; eassumption).
      rewrite HR by assumption. f_equal. clear. induction F as [|x F' IH]; [reflexivity|]. cbn. destruct (in_range_b hi hi false x) eqn:E; [|exact IH].
      apply in_range_spec in E as [E1 [E2|[E2 _]]]; [|discriminate]. destruct (klt_not_le _ _ E2 E1).
    - apply last_None in EL. cbn. rewrite EL. eexists _, _. split; [reflexivity|]. apply spent_done.
  Qed.

  (** The iterator that starts again and again at the last key it has seen. *)
  Definition endless (it : iter) : Prop :=
    exists L p k r, it = It L p (Some lo) (Some hi) false (Some k) /\ In (k, r) F /\ klt k hi.

  Lemma endless_next it : endless it -> exists r it', try_next ix it = Some (ARid r, it') /\ endless it'.
  Proof using All.
    intros (L & p & k & r & -> & Hin & Hk). unfold try_next. cbn [i_batch i_pos i_done i_lo i_hi i_last andb]. destruct (Nat.leb_spec (length L) p) as [Hp|Hp].
    - unfold fetch. cbn. rewrite HR by first [assumption|eapply F_type, Hin]. set (B2 := List.filter (in_range_b k hi false) F).
      assert (Hin2 : In (k, r) B2) by (apply filter_In; split; [exact Hin|apply in_range_spec; split; [apply kle_refl|auto]]).
      destruct (last B2) as [[k2 r2]|] eqn:EL; [|apply last_None in EL; rewrite EL in Hin2; destruct Hin2].
      destruct B2 as [|[k0 r0] B2'] eqn:EB; [destruct Hin2|]. cbn. exists r0. eexists. split; [reflexivity|]. eexists _, _, k2, r2. split; [reflexivity|].
      apply last_in in EL. rewrite <- EB in EL. apply filter_In in EL as [E1 E2]. split; [exact E1|]. apply in_range_spec in E2 as [_ [E2|[E2 _]]]; [exact E2|discriminate].
    - destruct (lookup_lt_is_Some_2 L p Hp) as [[k0 r0] E]. unfold entry in *. rewrite E. exists r0. eexists. split; [reflexivity|]. eexists _, _, k, r. auto.
  Qed.

  Lemma endless_new e : In e F -> in_range_b lo hi true e = true -> (forall e, In e F -> fst e <> hi) ->
    exists it, new_iter ix (Some lo) (Some hi) = Some it /\ endless it.
  Proof using All.
    intros He Hr Hn. unfold new_iter, fetch. cbn. rewrite HR by assumption. fold B.
    assert (Hin : In e B) by (apply filter_In; auto).
    destruct (last B) as [[k r]|] eqn:EL; [|apply last_None in EL; rewrite EL in Hin; destruct Hin].
    cbn. eexists. split; [reflexivity|]. apply last_in in EL. apply filter_In in EL as [E1 E2]. eexists _, _, k, r. split; [reflexivity|]. split; [exact E1|].
    apply in_range_spec in E2 as [_ [E2|[_ E2]]]; [exact E2|]. destruct (Hn _ E1 E2).
  Qed.

  Lemma endless_calls n : forall it, endless it -> exists l, calls ix n it = Some l /\ length l = n /\ Forall (fun a => exists r, a = ARid r) l.
  Proof using All.
    induction n as [|n IH]; intros it E; [exists []; split; [reflexivity|]; split; [reflexivity|constructor]|].
    destruct (endless_next it E) as (r & it' & ET & E'). destruct (IH it' E') as (l & EC & Ll & Fl). exists (ARid r :: l). cbn [calls]. rewrite ET, EC.
    split; [reflexivity|]. split; [cbn; congruence|]. constructor; eauto.
  Qed.

  Lemma endless_scan get preds it o it' : scan_next ix get preds it o it' -> endless it -> o <> None /\ endless it'.
  Proof using All.
    induction 1 as [it it' E|it it' rd r E _ _|it it' it2 rd o E _ _ IH|it it' it2 rd r o E _ _ _ IH]; intros HE;
      destruct (endless_next it HE) as (r' & it3 & E' & HE'); rewrite E' in E; try discriminate.
    - split; [discriminate|]. assert (it' = it3) as -> by congruence. exact HE'.
    - apply IH. assert (it' = it3) as -> by congruence. exact HE'.
    - apply IH. assert (it' = it3) as -> by congruence. exact HE'.
  Qed.
  Lemma endless_all get preds it out : scan_all ix get preds it out -> endless it -> False.
  Proof using All.
    induction 1 as [it it' E|it it' x l E _ IH]; intros HE; destruct (endless_scan _ _ _ _ _ E HE) as [H1 H2]; [congruence|auto].
  Qed.
End ranged.

(** ** Scans *)
Lemma scan_walk ix get preds L lo hi d lk it2 : try_next ix (It L (length L) lo hi d lk) = Some (AEnd, it2) ->
  forall n p, n = length L - p -> p <= length L ->
  match rows_of get (passes preds) (drop p L) with
  | [] => scan_next ix get preds (It L p lo hi d lk) None it2
  | x :: l => exists q, p < q <= length L /\ scan_next ix get preds (It L p lo hi d lk) (Some x) (It L q lo hi d lk) /\ rows_of get (passes preds) (drop q L) = l
  end.
Proof.
  intros HE. induction n as [|n IH]; intros p Hn Hp.
  - assert (p = length L) as -> by lia. rewrite drop_all. cbn. apply sn_end, HE.
  - destruct (lookup_lt_is_Some_2 L p ltac:(lia)) as [[k rd] E]. rewrite (drop_S _ _ _ E). cbn [rows_of].
    assert (ET : try_next ix (It L p lo hi d lk) = Some (ARid rd, It L (S p) lo hi d lk)).
    { unfold try_next. cbn [i_batch i_pos i_done i_lo i_hi i_last]. assert (Hs : (length L <=? p) = false) by (apply Nat.leb_gt; lia). rewrite Hs, andb_false_r. unfold entry in *. rewrite E. reflexivity. }
    specialize (IH (S p) ltac:(lia) ltac:(lia)).
    assert (SK : forall o it', (get rd = None \/ exists r, get rd = Some r /\ passes preds r = false) ->
              scan_next ix get preds (It L (S p) lo hi d lk) o it' -> scan_next ix get preds (It L p lo hi d lk) o it').
    { intros o it' [H|(r & H1 & H2)] HN; [eapply sn_gone; eassumption|eapply sn_skip; eassumption]. }
    destruct (get rd) as [r|] eqn:EG; [destruct (passes preds r) eqn:EP|].
    + exists (S p). split; [lia|]. split; [eapply sn_row; eassumption|reflexivity].
    + destruct (rows_of get (passes preds) (drop (S p) L)); [apply SK; eauto|]. destruct IH as (q & Hq & H1 & H2). exists q. split; [lia|]. split; [apply SK; eauto|exact H2].
    + destruct (rows_of get (passes preds) (drop (S p) L)); [apply SK; eauto|]. destruct IH as (q & Hq & H1 & H2). exists q. split; [lia|]. split; [apply SK; eauto|exact H2].
Qed.

Lemma scan_whole ix get preds L lo hi d lk it2 : try_next ix (It L (length L) lo hi d lk) = Some (AEnd, it2) ->
  forall n p, n = length L - p -> p <= length L -> scan_all ix get preds (It L p lo hi d lk) (rows_of get (passes preds) (drop p L)).
Proof.
  intros HE n. induction (lt_wf n) as [n _ IH]. intros p Hn Hp. pose proof (scan_walk ix get preds L lo hi d lk it2 HE n p Hn Hp) as H.
  destruct (rows_of get (passes preds) (drop p L)) as [|x l] eqn:ER; [eapply sa_end, H|]. destruct H as (q & Hq & H1 & <-).
  eapply sa_row; [exact H1|]. apply (IH (length L - q)); lia.
Qed.

Lemma scan_next_det ix get preds it o it' : scan_next ix get preds it o it' -> forall o2 it2, scan_next ix get preds it o2 it2 -> o = o2 /\ it' = it2.
Proof.
  induction 1 as [it it' E|it it' rd r E G P|it it' it2 rd o E G H IH|it it' it2 rd r o E G P H IH]; intros o3 it3 H3; inversion H3; subst;
    repeat match goal with
    | A : try_next ix it = Some _, B : try_next ix it = Some _ |- _ => rewrite A in B; injection B as B; subst
    | A : get ?x = _, B : get ?x = _ |- _ => rewrite A in B; try discriminate; try (injection B as B; subst)
    | A : passes preds ?x = _, B : passes preds ?x = _ |- _ => rewrite A in B; try discriminate
    end; try discriminate; try (split; reflexivity); auto; try congruence.
Qed.
Lemma scan_all_det ix get preds it l : scan_all ix get preds it l -> forall l2, scan_all ix get preds it l2 -> l = l2.
Proof.
  induction 1 as [it it' E|it it' x l E H IH]; intros l2 H2; inversion H2 as [it3 it3' E3|it3 it3' x3 l3 E3 H3]; subst;
    destruct (scan_next_det _ _ _ _ _ _ E _ _ E3) as [D1 D2]; try discriminate; [reflexivity|].
  assert (x = x3) as -> by congruence. subst. f_equal. apply IH, H3.
Qed.

Lemma scan_of ix get preds L lo hi d lk : new_iter ix lo hi = Some (It L 0 lo hi d lk) -> last_batch ix (It L (length L) lo hi d lk) ->
  (lo, hi) = bounds preds -> forall out, index_scan ix get preds out <-> out = rows_of get (passes preds) L.
Proof.
  intros EN (it2 & E2 & _) EB out. unfold index_scan. rewrite <- EB. cbn [fst snd].
  assert (W : scan_all ix get preds (It L 0 lo hi d lk) (rows_of get (passes preds) L)).
  { rewrite <- (drop_0 L) at 2. eapply scan_whole; [exact E2|reflexivity|lia]. }
  split.
  - intros (it & Ei & H). assert (it = It L 0 lo hi d lk) as -> by congruence. eapply scan_all_det; eassumption.
  - intros ->. eauto.
Qed.

(** ** Bounds *)
Definition admits (r : range) (k : val) : Prop :=
  (forall lo, fst (fst r) = Some lo -> kle lo k) /\ (forall hi, fst (snd r) = Some hi -> kle k hi).

Lemma narrow_admits k l : forall acc, admits acc k -> Forall (fun r => admits r k) l -> admits (narrow acc l) k.
Proof.
  induction l as [|[[s si] [e ei]] l IH]; intros [[s0 si0] [e0 ei0]] HA HF; [exact HA|]. apply Forall_cons_1 in HF as [[HF1 HF2] HF]. destruct HA as [HA1 HA2]. cbn in *.
  apply IH; [|exact HF]. split; cbn.
  - intros lo H. destruct s as [v|]; [|auto]. destruct s0 as [c|]; [|auto]. destruct (val_cmp v c); auto.
  - intros hi H. destruct e as [v|]; [|auto]. destruct e0 as [c|]; [|auto]. destruct (val_cmp v c); auto.
Qed.
Lemma narrow_both l : forall acc, (is_Some (fst (fst acc)) \/ Exists (fun r => is_Some (fst (fst r))) l) -> is_Some (fst (fst (narrow acc l))).
Proof.
  induction l as [|[[s si] [e ei]] l IH]; intros [[s0 si0] [e0 ei0]] H; cbn [narrow].
  - destruct H as [H|H]; [exact H|inversion H].
  - apply IH. destruct H as [[x H]|H].
    + cbn in H. subst. left. destruct s as [v|]; [|cbn; eauto]. destruct (val_cmp v x); cbn; eauto.
    + apply Exists_cons in H as [[x H]|H]; [|auto]. cbn in H. subst. left. destruct s0 as [c|]; [|cbn; eauto]. destruct (val_cmp x c); cbn; eauto.
Qed.
Lemma narrow_both_hi l : forall acc, (is_Some (fst (snd acc)) \/ Exists (fun r => is_Some (fst (snd r))) l) -> is_Some (fst (snd (narrow acc l))).
Proof.
  induction l as [|[[s si] [e ei]] l IH]; intros [[s0 si0] [e0 ei0]] H; cbn [narrow].
  - destruct H as [H|H]; [exact H|inversion H].
  - apply IH. destruct H as [[x H]|H].
    + cbn in H. subst. left. destruct e as [v|]; [|cbn; eauto]. destruct (val_cmp v x); cbn; eauto.
    + apply Exists_cons in H as [[x H]|H]; [|auto]. cbn in H. subst. left. destruct e0 as [c|]; [|cbn; eauto]. destruct (val_cmp x c); cbn; eauto.
Qed.

Lemma cmp_true T op k v rest : of_type T k -> of_type T v -> eval (ECmp op (ECol 0) (EConst v)) (k :: rest) = Ok (VBool true) -> by_order op (val_cmp k v) = true.
Proof.
  intros Tk Tv. cbn [eval bind nth_error]. unfold perform_comparison. unfold of_type in *. rewrite Tk, Tv.
  unfold tid_eqb. rewrite N.eqb_refl. cbn [bind]. rewrite (compare_typed T) by assumption. destruct (by_order op (val_cmp k v)); [reflexivity|discriminate].
Qed.

Lemma and_true a b r : eval (EAnd a b) r = Ok (VBool true) -> eval a r = Ok (VBool true) /\ eval b r = Ok (VBool true).
Proof.
  cbn [eval]. destruct (eval a r) as [x|]; [|discriminate]. destruct (eval b r) as [y|]; [|discriminate]. cbn [bind].
  intros H. assert (E : of_cmpbool (perform_and (as_cmpbool x) (as_cmpbool y)) = VBool true) by congruence. clear H.
  destruct x as [|[]|? ?|?|?], y as [|[]|? ?|?|?]; cbn in E; try discriminate. auto.
Qed.
Lemma or_true a b r : eval (EOr a b) r = Ok (VBool true) -> eval a r = Ok (VBool true) \/ eval b r = Ok (VBool true).
Proof.
  cbn [eval]. destruct (eval a r) as [x|]; [|discriminate]. destruct (eval b r) as [y|]; [|discriminate]. cbn [bind].
  intros H. assert (E : of_cmpbool (perform_or (as_cmpbool x) (as_cmpbool y)) = VBool true) by congruence. clear H.
  destruct x as [|[]|? ?|?|?], y as [|[]|? ?|?|?]; cbn in E; try discriminate; auto.
Qed.

Lemma conj_admits T k rest e : of_type T k -> key_conj T e -> eval e (k :: rest) = Ok (VBool true) -> Forall (fun r => admits r k) (ranges e).
Proof.
  intros Tk. induction 1 as [op v Tv|a b Ha IHa Hb IHb|e He]; intros E.
  - apply (cmp_true T) in E; [|assumption|assumption]. cbn [ranges eval]. unfold admits, key_le.
    destruct op; repeat constructor; cbn; try discriminate; intros w [= <-]; unfold by_order in E;
      (destruct (cmp_cases k v) as [[H1 H2]|[->|[H1 H2]]]; rewrite ?H1, ?H2, ?val_cmp_refl in *; cbn in *; congruence).
  - apply and_true in E as [E1 E2]. cbn [ranges]. constructor; [|constructor]. apply narrow_admits; [split; discriminate|]. apply Forall_app. auto.
  - destruct e; try contradiction; constructor.
Qed.

Lemma conj_lo T e : key_conj T e -> has_lo e = true -> Exists (fun r => is_Some (fst (fst r))) (ranges e).
Proof.
  induction 1 as [op v Tv|a b Ha IHa Hb IHb|e He]; intros E.
  - destruct op; try discriminate; cbn; constructor; cbn; eauto.
  - cbn in E |- *. constructor. apply narrow_both. right. apply Exists_app. apply orb_true_iff in E as [E|E]; auto.
  - destruct e; try contradiction; discriminate.
Qed.
Lemma conj_hi T e : key_conj T e -> has_hi e = true -> Exists (fun r => is_Some (fst (snd r))) (ranges e).
Proof.
  induction 1 as [op v Tv|a b Ha IHa Hb IHb|e He]; intros E.
  - destruct op; try discriminate; cbn; constructor; cbn; eauto.
  - cbn in E |- *. constructor. apply narrow_both_hi. right. apply Exists_app. apply orb_true_iff in E as [E|E]; auto.
  - destruct e; try contradiction; discriminate.
Qed.
Lemma conj_single T e : key_conj T e -> length (ranges e) <= 1.
Proof. destruct 1 as [op v _|a b _ _|e He]; [destruct op; cbn; lia|cbn; lia|destruct e; try contradiction; cbn; lia]. Qed.

(** Both ends are there. *)
Definition closed (r : range) : Prop := is_Some (fst (fst r)) /\ is_Some (fst (snd r)).

Lemma alt_ranges T k rest e : of_type T k -> key_alt T e -> Forall closed (ranges e) /\
  (eval e (k :: rest) = Ok (VBool true) -> Exists (fun r => admits r k) (ranges e)).
Proof.
  intros Tk. induction 1 as [e Hc Hl Hh|a b Ha [IHa1 IHa2] Hb [IHb1 IHb2]].
  - pose proof (conj_lo T e Hc Hl) as L. pose proof (conj_hi T e Hc Hh) as H. pose proof (conj_single T e Hc) as S.
    pose proof (conj_admits T k rest e Tk Hc) as A.
    destruct (ranges e) as [|r [|? ?]]; [inversion L| |cbn in S; lia].
    apply Exists_cons in L as [L|L]; [|inversion L]. apply Exists_cons in H as [H|H]; [|inversion H]. split; [repeat constructor; assumption|].
    intros E. specialize (A E). apply Forall_cons_1 in A as [A _]. constructor. exact A.
  - cbn [ranges]. split; [apply Forall_app; auto|]. intros E. apply Exists_app. apply or_true in E as [E|E]; auto.
Qed.

Lemma widen_covers k l : forall acc, covers acc k -> Forall (fun r => admits r k) l -> covers (widen acc l) k.
Proof.
  induction l as [|[[s si] [e ei]] l IH]; intros [s0 e0] HA HF; [exact HA|]. apply Forall_cons_1 in HF as [[HF1 HF2] HF]. destruct HA as [HA1 HA2]. cbn in *.
  apply IH; [|exact HF]. split; cbn.
  - intros lo H. destruct s0 as [c|], s as [v|]; auto. destruct (val_cmp v c); auto.
  - intros hi H. destruct e0 as [c|], e as [v|]; auto. destruct (val_cmp v c); auto.
Qed.

(** With closed ranges the bounds only grow. *)
Lemma widen_grows k l : forall s0 e0, Forall closed l -> (kle s0 k /\ kle k e0) \/ Exists (fun r => admits r k) l -> covers (widen (Some s0, Some e0) l) k.
Proof.
  induction l as [|[[s si] [e ei]] l IH]; intros s0 e0 HC HA; cbn [widen].
  - destruct HA as [[H1 H2]|HA]; [|inversion HA]. split; cbn; congruence.
  - apply Forall_cons_1 in HC as [[[v Ev] [w Ew]] HC]. cbn in Ev, Ew. subst.
    assert (L1 : exists s1, match val_cmp v s0 with Datatypes.Lt => Some v | _ => Some s0 end = Some s1 /\ kle s1 s0 /\ kle s1 v).
    { destruct (cmp_cases v s0) as [[E _]|[->|[E _]]]; rewrite ?E, ?val_cmp_refl.
      - exists v. split; [reflexivity|]. split; [unfold key_le; congruence|apply kle_refl].
      - exists s0. split; [reflexivity|]. split; apply kle_refl.
      - exists s0. split; [reflexivity|]. split; [apply kle_refl|]. unfold key_le. rewrite val_cmp_antisym, E. discriminate. }
    assert (L2 : exists e1, match val_cmp w e0 with Datatypes.Gt => Some w | _ => Some e0 end = Some e1 /\ kle e0 e1 /\ kle w e1).
    { destruct (cmp_cases w e0) as [[E _]|[->|[E _]]]; rewrite ?E, ?val_cmp_refl.
      - exists e0. split; [reflexivity|]. split; [apply kle_refl|unfold key_le; congruence].
      - exists e0. split; [reflexivity|]. split; apply kle_refl.
      - exists w. split; [reflexivity|]. split; [|apply kle_refl]. unfold key_le. rewrite val_cmp_antisym, E. discriminate. }
    destruct L1 as (s1 & -> & A1 & A2). destruct L2 as (e1 & -> & B1 & B2). apply IH; [exact HC|].
    destruct HA as [[H1 H2]|HA]; [left; split; [apply kle_trans with s0; assumption|apply kle_trans with e0; assumption]|]. apply Exists_cons in HA as [[H1 H2]|HA]; [|auto].
    left. cbn in H1, H2. split; [eapply kle_trans; [exact A2|apply H1; reflexivity]|eapply kle_trans; [apply H2; reflexivity|exact B2]].
Qed.

Lemma bounds_cover T preds k rest : of_type T k -> key_preds T preds -> satisfies preds (k :: rest) -> covers (bounds preds) k.
Proof.
  intros Tk HP HS. unfold bounds. destruct HP as [HP|(e & -> & He)].
  - apply widen_covers; [split; discriminate|]. apply Forall_concat. apply Forall_forall. intros l Hl. apply elem_of_list_In in Hl. apply in_map_iff in Hl as (e & <- & He).
    rewrite Forall_forall in HP. apply (conj_admits T k rest); [exact Tk|apply HP, elem_of_list_In, He|apply HS, He].
  - cbn [map concat]. rewrite app_nil_r. destruct (alt_ranges T k rest e Tk He) as [HC HA]. specialize (HA (HS e (or_introl eq_refl))).
    destruct (ranges e) as [|[[s si] [x xi]] l]; [inversion HA|]. apply Forall_cons_1 in HC as [[[v Ev] [w Ew]] HC]. cbn in Ev, Ew. subst. cbn [widen].
    apply widen_grows; [exact HC|]. apply Exists_cons in HA as [[H1 H2]|HA]; [left; split; [apply H1; reflexivity|apply H2; reflexivity]|auto].
Qed.
