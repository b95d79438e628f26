(** * Proofs: index pages as bytes (C112) *)
From Coq Require Import NArith Lia.
From stdpp Require Import list.
From Verif Require Import Bytes PageModel WrecSpec WrecModel WrecProofs IpSpec IpModel.
Local Open Scope N_scope.

Lemma run_inv {S O} (step : O -> S -> option S) (P : S -> Prop) os s s' :
  (forall o a b, P a -> step o a = Some b -> P b) -> P s -> run step os s = Some s' -> P s'.
Proof.
  intros HS. revert s. induction os as [|o os IH]; intros s HP HR; cbn in HR.
  - injection HR as <-. exact HP.
  - destruct (step o s) as [t|] eqn:E; [|discriminate]. exact (IH t (HS _ _ _ HP E) HR).
Qed.
Lemma run_total {S O} (step : O -> S -> option S) (P : S -> Prop) os s :
  (forall o a, P a -> exists b, step o a = Some b /\ P b) -> P s -> exists s', run step os s = Some s' /\ P s'.
Proof.
  intros HS. revert s. induction os as [|o os IH]; intros s HP; cbn.
  - eauto.
  - destruct (HS o s HP) as (t & -> & Ht). exact (IH t Ht).
Qed.
Lemma le_enc_in_bytes k x : le_enc k x = in_bytes k x.
Proof. revert x. induction k as [|k IH]; intros x; [reflexivity|]. cbn [le_enc in_bytes]. now rewrite IH. Qed.
Lemma in_bytes_length k x : length (in_bytes k x) = k.
Proof. rewrite <- le_enc_in_bytes. apply le_enc_length. Qed.
Lemma framed_length f : length (framed f) = (4 + length f)%nat.
Proof. unfold framed. rewrite app_length, in_bytes_length. reflexivity. Qed.

(* writing *)
Definition st (pre buf : list N) : list N * nat := (pre ++ drop (length pre) buf, length pre).
Lemma put_st bs pre buf : (length pre <= length buf)%nat ->
  put bs (st pre buf) = if (length (pre ++ bs) <=? length buf)%nat then Some (st (pre ++ bs) buf) else None.
Proof.
  intros HL. unfold put, st. rewrite !app_length, drop_length.
  replace (length pre + (length buf - length pre))%nat with (length buf) by lia.
  destruct (length pre + length bs <=? length buf)%nat eqn:E; [|reflexivity].
  do 2 f_equal. rewrite take_app, drop_app_ge, drop_drop by lia.
  replace (length pre + (length pre + length bs - length pre))%nat with (length pre + length bs)%nat by lia.
  rewrite <- app_assoc. reflexivity.
Qed.
Lemma put_framed_st bs pre buf : (length pre <= length buf)%nat ->
  put_framed bs (st pre buf) =
  if (length (pre ++ framed bs) <=? length buf)%nat then Some (st (pre ++ framed bs) buf) else None.
Proof.
  intros HL. unfold put_framed. rewrite put_st by exact HL. rewrite le_enc_in_bytes.
  rewrite !app_length, framed_length, in_bytes_length.
  destruct (length pre + 4 <=? length buf)%nat eqn:E.
  - cbn [mbind option_bind]. rewrite put_st by (rewrite app_length, in_bytes_length; apply Nat.leb_le in E; lia).
    rewrite !app_length, in_bytes_length. unfold framed.
    replace (length pre + 4 + length bs)%nat with (length pre + (4 + length bs))%nat by lia.
    now rewrite app_assoc.
  - cbn [mbind option_bind]. apply Nat.leb_gt in E. destruct (_ <=? _)%nat eqn:E2; [|reflexivity].
    apply Nat.leb_le in E2. lia.
Qed.

(* reading *)
Lemma get_app pre bs rest n : n = length bs -> get n (pre ++ bs ++ rest) (length pre) = Some (bs, length (pre ++ bs)).
Proof.
  intros ->. unfold get. rewrite !app_length.
  destruct (_ <=? _)%nat eqn:E; [|apply Nat.leb_gt in E; lia].
  rewrite drop_app, take_app. reflexivity.
Qed.
Lemma get_0 bs rest n : n = length bs -> get n (bs ++ rest) 0 = Some (bs, length bs).
Proof. exact (get_app [] bs rest n). Qed.
Lemma get_framed_app {A} (d : dec A) pre bs rest x r :
  d bs = Some (x, r) -> N.of_nat (length bs) < 2 ^ 32 ->
  get_framed d (pre ++ framed bs ++ rest) (length pre) = Some (x, length (pre ++ framed bs)).
Proof.
  intros HD HL. unfold get_framed, framed.
  rewrite <- !app_assoc. rewrite get_app by (now rewrite in_bytes_length). cbn [mbind option_bind].
  rewrite (app_assoc pre). rewrite get_app.
  - cbn [mbind option_bind]. rewrite HD. cbn [mbind option_bind]. now rewrite <- app_assoc.
  - rewrite <- le_enc_in_bytes, le_dec_enc by exact HL. now rewrite Nat2N.id.
Qed.

Section Pages.
Context {K V : Type} (cmp : K -> K -> comparison) (kenc : K -> list N) (kdec : dec K) (venc : V -> list N) (vdec : dec V).

(* leaf calls *)
Definition l_ok (p : leaf K V) : Prop :=
  l_size p = N.of_nat (length (l_keys p)) /\ length (l_vals p) = length (l_keys p) /\
  exists t, l_data p = t :: repeat 0 4095.

Lemma l_search_bound fuel ks k low high : (low <= high <= length ks)%nat ->
  exists i, l_search cmp fuel ks k low high = Some i /\ (i <= high)%nat.
Proof.
  revert low high. induction fuel as [|f IH]; intros low high HB; cbn [l_search].
  - exists low. split; [reflexivity|lia].
  - destruct (low <? high)%nat eqn:E; [|exists low; split; [reflexivity|lia]].
    apply Nat.ltb_lt in E.
    assert (HM : (low <= low + (high - low) / 2 < high)%nat).
    { pose proof (Nat.div_lt (high - low) 2 ltac:(lia) ltac:(lia)). lia. }
    set (mid := (low + (high - low) / 2)%nat) in *.
    destruct (lookup_lt_is_Some_2 ks mid ltac:(lia)) as [x ->].
    destruct (cmp k x).
    + exists mid. split; [reflexivity|lia].
    + destruct (IH low mid ltac:(lia)) as (i & -> & Hi). exists i. split; [reflexivity|lia].
    + destruct (IH (mid + 1)%nat high ltac:(lia)) as (i & -> & Hi). exists i. split; [reflexivity|lia].
Qed.
Lemma vset_ok {A} i (x : A) l : (i < length l)%nat -> exists l', vset i x l = Some l' /\ length l' = length l.
Proof. intros HL. unfold vset. apply Nat.ltb_lt in HL. rewrite HL. eexists. split; [reflexivity|apply insert_length]. Qed.
Lemma vinsert_ok {A} i (x : A) l : (i <= length l)%nat -> exists l', vinsert i x l = Some l' /\ length l' = S (length l).
Proof.
  intros HL. unfold vinsert. pose proof HL as HL'. apply Nat.leb_le in HL. rewrite HL. eexists. split; [reflexivity|].
  rewrite app_length, take_length. cbn [length]. rewrite drop_length. lia.
Qed.
Lemma vremove_ok {A} i (l : list A) : (i < length l)%nat -> exists l', vremove i l = Some l' /\ S (length l') = length l.
Proof.
  intros HL. unfold vremove. pose proof HL as HL'. apply Nat.ltb_lt in HL. rewrite HL. eexists. split; [reflexivity|].
  rewrite length_delete by (apply lookup_lt_is_Some_2; exact HL'). lia.
Qed.
Lemma l_insert_ok k v p : l_ok p -> exists p', l_insert cmp k v p = Some p' /\ l_ok p'.
Proof.
  destruct p as [ks vs nx n mx rt d]. intros (HS & HV & HD). cbn in HS, HV, HD. unfold l_insert, l_find. cbn [l_size l_keys l_vals].
  subst n. rewrite Nat2N.id.
  destruct (l_search_bound (S (length ks)) ks k 0 (length ks) ltac:(lia)) as (i & -> & Hi).
  destruct (match ks !! i with Some _ => _ | None => _ end) eqn:E.
  - destruct (ks !! i) as [x|] eqn:EX; [|discriminate]. apply lookup_lt_Some in EX.
    destruct (vset_ok i v vs ltac:(lia)) as (vs' & -> & HL). eexists. split; [reflexivity|].
    split; [reflexivity|]. cbn. split; [lia|exact HD].
  - destruct (vinsert_ok i k ks ltac:(lia)) as (ks' & -> & HL1). destruct (vinsert_ok i v vs ltac:(lia)) as (vs' & -> & HL2).
    eexists. split; [reflexivity|]. split; cbn; [lia|]. split; [lia|exact HD].
Qed.
Lemma lstep_ok o p : l_ok p -> exists p', lstep cmp o p = Some p' /\ l_ok p'.
Proof.
  intros HO. pose proof HO as HO'. destruct p as [ks vs nx n mx rt d]. destruct HO as (HS & HV & HD). cbn in HS, HV, HD.
  unfold lstep. destruct o as [k v|k v|i|i k|i v|x|b|].
  - destruct (mx <=? n); [eauto|apply l_insert_ok; exact HO'].
  - apply l_insert_ok; exact HO'.
  - destruct (n <=? N.of_nat i) eqn:E; [eauto|]. apply N.leb_gt in E.
    destruct (vremove_ok i ks ltac:(lia)) as (ks' & -> & HL1). destruct (vremove_ok i vs ltac:(lia)) as (vs' & -> & HL2).
    eexists. split; [reflexivity|]. split; cbn; [lia|]. split; [lia|exact HD].
  - destruct (N.of_nat i <? n) eqn:E; [|eauto]. apply N.ltb_lt in E.
    destruct (vset_ok i k ks ltac:(lia)) as (ks' & -> & HL). eexists. split; [reflexivity|]. split; cbn; [lia|]. split; [lia|exact HD].
  - destruct (N.of_nat i <? n) eqn:E; [|eauto]. apply N.ltb_lt in E.
    destruct (vset_ok i v vs ltac:(lia)) as (vs' & -> & HL). eexists. split; [reflexivity|]. split; cbn; [lia|]. split; [lia|exact HD].
  - eexists. split; [reflexivity|]. exact HO'.
  - eexists. split; [reflexivity|]. exact HO'.
  - eexists. split; [reflexivity|]. split; [reflexivity|]. split; [reflexivity|]. exists 0. reflexivity.
Qed.
Lemma new_leaf_ok max root : l_ok (new_leaf max root).
Proof. split; [reflexivity|]. split; [reflexivity|]. exists 8. reflexivity. Qed.
Lemma leaf_run_ok max root os : exists p, run (lstep cmp) os (new_leaf max root) = Some p /\ l_ok p.
Proof. apply run_total; [intros o a; apply lstep_ok|apply new_leaf_ok]. Qed.
Lemma leaf_reach max root os p : run (lstep cmp) os (new_leaf max root) = Some p -> l_ok p.
Proof. intros HR. destruct (leaf_run_ok max root os) as (q & HQ & HO). rewrite HR in HQ. injection HQ as <-. exact HO. Qed.

(* leaf bytes *)
Definition content (p : leaf K V) : leaf_content K V := LC (zip (l_keys p) (l_vals p)) (l_next p) (l_max p).
Definition pair_bytes (e : K * V) : list N := framed (kenc e.1) ++ framed (venc e.2).
Lemma leaf_bytes_eq (p : leaf K V) : leaf_bytes kenc venc (oenc u64_enc) (content p) =
  in_bytes 8 (N.of_nat (length (zip (l_keys p) (l_vals p)))) ++ in_bytes 8 (l_max p) ++ framed (oenc u64_enc (l_next p)) ++
  concat (map pair_bytes (zip (l_keys p) (l_vals p))).
Proof. reflexivity. Qed.
Lemma put_pairs_st n i (p : leaf K V) pre buf : length (l_vals p) = length (l_keys p) -> (n + i = length (l_keys p))%nat ->
  (length pre <= length buf)%nat ->
  let all := concat (map pair_bytes (drop i (zip (l_keys p) (l_vals p)))) in
  put_pairs kenc venc n i p (st pre buf) = if (length (pre ++ all) <=? length buf)%nat then Some (st (pre ++ all) buf) else None.
Proof.
  intros HV. revert i pre. induction n as [|n IH]; intros i pre HN HL; cbn [put_pairs].
  - rewrite drop_ge by (rewrite zip_with_length; lia). cbn. rewrite app_nil_r. apply Nat.leb_le in HL. now rewrite HL.
  - destruct (lookup_lt_is_Some_2 (l_keys p) i ltac:(lia)) as [k Hk]. destruct (lookup_lt_is_Some_2 (l_vals p) i ltac:(lia)) as [v Hv].
    rewrite Hk, Hv. cbn [mbind option_bind]. rewrite put_framed_st by exact HL.
    assert (HZ : zip (l_keys p) (l_vals p) !! i = Some (k, v)).
    { rewrite lookup_zip_with, Hk, Hv. reflexivity. }
    rewrite (drop_S _ _ _ HZ). cbn [map concat]. change (pair_bytes (k, v)) with (framed (kenc k) ++ framed (venc v)).
    destruct (length (pre ++ framed (kenc k)) <=? length buf)%nat eqn:E1; cbn [mbind option_bind].
    + apply Nat.leb_le in E1. rewrite put_framed_st by exact E1.
      destruct (length ((pre ++ framed (kenc k)) ++ framed (venc v)) <=? length buf)%nat eqn:E2; cbn [mbind option_bind].
      * apply Nat.leb_le in E2. rewrite IH by (exact E2 || lia). rewrite <- !app_assoc. reflexivity.
      * apply Nat.leb_gt in E2. rewrite !app_length in *. destruct (_ <=? _)%nat eqn:E3; [|reflexivity]. apply Nat.leb_le in E3. lia.
    + apply Nat.leb_gt in E1. rewrite !app_length in *. destruct (_ <=? _)%nat eqn:E3; [|reflexivity]. apply Nat.leb_le in E3. lia.
Qed.
Lemma l_serialize_eq (p : leaf K V) buf : l_ok p ->
  let all := leaf_bytes kenc venc (oenc u64_enc) (content p) in
  l_serialize kenc venc p buf = if (length all <=? length buf)%nat then Some (all ++ drop (length all) buf) else None.
Proof.
  intros (HS & HV & _). rewrite leaf_bytes_eq. unfold l_serialize.
  change (buf, O) with (st [] buf). rewrite (le_enc_in_bytes 8 (l_size p)), (le_enc_in_bytes 8 (l_max p)), put_st by (cbn; lia). rewrite !app_nil_l.
  cbn zeta. assert (HZ : length (zip (l_keys p) (l_vals p)) = length (l_keys p)) by (rewrite zip_with_length; lia).
  rewrite HZ, <- HS. set (a := in_bytes 8 (l_size p)). set (b := in_bytes 8 (l_max p)).
  set (f := oenc u64_enc (l_next p)). set (t := concat (map pair_bytes (zip (l_keys p) (l_vals p)))).
  cbn zeta. destruct (length a <=? length buf)%nat eqn:E1; cbn [mbind option_bind].
  2: { apply Nat.leb_gt in E1. rewrite (proj2 (Nat.leb_gt (length (a ++ b ++ framed f ++ t)) (length buf))) by (rewrite !app_length in *; lia). reflexivity. }
  apply Nat.leb_le in E1. rewrite put_st by exact E1.
  destruct (length (a ++ b) <=? length buf)%nat eqn:E2; cbn [mbind option_bind].
  2: { apply Nat.leb_gt in E2. rewrite (proj2 (Nat.leb_gt (length (a ++ b ++ framed f ++ t)) (length buf))) by (rewrite !app_length in *; lia). reflexivity. }
  apply Nat.leb_le in E2. rewrite put_framed_st by exact E2.
  destruct (length ((a ++ b) ++ framed f) <=? length buf)%nat eqn:E3; cbn [mbind option_bind].
  2: { apply Nat.leb_gt in E3. rewrite (proj2 (Nat.leb_gt (length (a ++ b ++ framed f ++ t)) (length buf))) by (rewrite !app_length in *; lia). reflexivity. }
  apply Nat.leb_le in E3. rewrite put_pairs_st by (exact E3 || lia).
  rewrite drop_0. fold t. rewrite <- !app_assoc.
  destruct (length (a ++ b ++ framed f ++ t) <=? length buf)%nat; [|reflexivity].
  cbn [mbind option_bind]. unfold st. cbn [fst]. now rewrite <- !app_assoc.
Qed.

Context (okk : K -> Prop) (okv : V -> Prop) (HK : reads_back okk kenc kdec) (HVc : reads_back okv venc vdec).
Lemma pairs_long (es : list (K * V)) : (8 * length es <= length (concat (map pair_bytes es)))%nat.
Proof.
  induction es as [|e es IH]; cbn [map concat length]; [lia|]. rewrite app_length.
  change (pair_bytes e) with (framed (kenc e.1) ++ framed (venc e.2)). rewrite app_length, !framed_length. lia.
Qed.
Lemma get_pairs_app (es : list (K * V)) pre rest : Forall (fun e => okk e.1 /\ okv e.2) es ->
  N.of_nat (length (concat (map pair_bytes es))) < 2 ^ 32 ->
  get_pairs kdec vdec (length es) (pre ++ concat (map pair_bytes es) ++ rest) (length pre) = Some (es.*1, es.*2).
Proof.
  revert pre. induction es as [|[k v] es IH]; intros pre HF HL; [reflexivity|].
  apply Forall_cons_1 in HF as [[Hk Hv] HF]. cbn [map concat length get_pairs] in *. change (pair_bytes (k, v)) with (framed (kenc k) ++ framed (venc v)) in *. rewrite !app_length, !framed_length in HL.
  rewrite <- !app_assoc. rewrite (get_framed_app kdec pre (kenc k) _ k []).
  2: { rewrite <- (app_nil_r (kenc k)). apply HK. exact Hk. }
  2: { lia. }
  cbn [mbind option_bind]. rewrite (app_assoc pre). rewrite (get_framed_app vdec _ (venc v) _ v []).
  2: { rewrite <- (app_nil_r (venc v)). apply HVc. exact Hv. }
  2: { lia. }
  cbn [mbind option_bind]. rewrite (app_assoc (pre ++ _)). rewrite IH; [reflexivity|exact HF|lia].
Qed.
Lemma l_deserialize_eq (p q : leaf K V) rest : l_ok p -> l_max p < 2 ^ 64 ->
  (forall n, l_next p = Some n -> n < 2 ^ 64) -> Forall okk (l_keys p) -> Forall okv (l_vals p) ->
  N.of_nat (length (leaf_bytes kenc venc (oenc u64_enc) (content p))) < 2 ^ 32 ->
  l_deserialize kdec vdec q (leaf_bytes kenc venc (oenc u64_enc) (content p) ++ rest) =
  Some (Lf (l_keys p) (l_vals p) (l_next p) (l_size p) (l_max p) (l_root q) (l_data q)).
Proof.
  intros (HS & HV & _) HM HN HKs HVs HL. rewrite leaf_bytes_eq in *.
  assert (HZ : length (zip (l_keys p) (l_vals p)) = length (l_keys p)) by (rewrite zip_with_length; lia).
  rewrite !app_length, !in_bytes_length, framed_length in HL.
  pose proof (pairs_long (zip (l_keys p) (l_vals p))) as HP.
  unfold l_deserialize. rewrite <- !app_assoc.
  set (es := zip (l_keys p) (l_vals p)) in *. set (f := oenc u64_enc (l_next p)) in *.
  set (t := concat (map pair_bytes es)) in *.
  rewrite get_0 by (now rewrite in_bytes_length). cbn [mbind option_bind].
  rewrite (get_app _ (in_bytes 8 (l_max p))) by (now rewrite in_bytes_length). cbn [mbind option_bind].
  rewrite (app_assoc (in_bytes 8 (N.of_nat _))). rewrite (get_framed_app _ _ f _ (l_next p) []).
  2: { rewrite <- (app_nil_r f). unfold f. apply (opt_rt (fun n => n < 2 ^ 64)).
       - intros x r Hx. apply u64_rt. exact Hx.
       - destruct (l_next p); [apply HN; reflexivity|exact I]. }
  2: { lia. }
  cbn [mbind option_bind]. rewrite (app_assoc (_ ++ _) (framed f)).
  rewrite <- !le_enc_in_bytes, !le_dec_enc; [|exact HM|cbn; lia].
  rewrite Nat2N.id. unfold t. rewrite get_pairs_app.
  - cbn [mbind option_bind]. do 2 f_equal; [unfold es; apply fst_zip; lia|unfold es; apply snd_zip; lia|].
    rewrite HZ. symmetry. exact HS.
  - unfold es. apply Forall_forall. intros [k v] He. apply elem_of_zip_l in He as Hk. apply elem_of_zip_r in He as Hv.
    cbn [fst snd]. split; [exact (proj1 (Forall_forall _ _) HKs _ Hk)|exact (proj1 (Forall_forall _ _) HVs _ Hv)].
  - fold t. lia.
Qed.

(* inner calls *)
Definition i_ok (p : inner K) : Prop :=
  i_size p = N.of_nat (length (i_keys p)) /\ i_data p = 7 :: repeat 0 4095.
Lemma i_search_bound fuel ks k left right : (right < length ks)%nat -> (left <= S right)%nat ->
  exists i, i_search cmp fuel ks k left right = Some i /\ (i <= length ks)%nat.
Proof.
  revert left right. induction fuel as [|f IH]; intros left right HR HB; cbn [i_search].
  - exists left. split; [reflexivity|lia].
  - destruct (left <=? right)%nat eqn:E; [|exists left; split; [reflexivity|lia]].
    apply Nat.leb_le in E.
    assert (HM : (left <= left + (right - left) / 2 <= right)%nat).
    { pose proof (Nat.div_le_upper_bound (right - left) 2 (right - left) ltac:(lia) ltac:(lia)). lia. }
    set (mid := (left + (right - left) / 2)%nat) in *.
    destruct (lookup_lt_is_Some_2 ks mid ltac:(lia)) as [x ->].
    destruct (cmp k x).
    + exists mid. split; [reflexivity|lia].
    + destruct (mid =? 0)%nat eqn:E0; [exists O; split; [reflexivity|lia]|]. apply Nat.eqb_neq in E0. apply IH; lia.
    + apply IH; lia.
Qed.
Lemma istep_ok o p : i_ok p -> exists p', istep cmp o p = Some p' /\ i_ok p'.
Proof.
  intros HO. pose proof HO as HO'. destruct p as [ks vs n mx rt d]. destruct HO as (HS & HD). cbn in HS, HD.
  unfold istep. destruct o as [k v|j|a k b|b|k v|k v|k rk rv|].
  - destruct (mx <=? n); [eauto|]. destruct (n =? 0) eqn:E0.
    { apply N.eqb_eq in E0. eexists. split; [reflexivity|]. split; [cbn; rewrite app_length; cbn; lia|exact HD]. }
    apply N.eqb_neq in E0. unfold i_find. cbn [i_keys]. destruct ks as [|x0 ks0] eqn:EK; [cbn in HS; lia|]. rewrite <- EK in *.
    destruct (i_search_bound (S (length ks)) ks k 0 (length ks - 1) ltac:(subst ks; cbn; lia) ltac:(lia)) as (j & -> & Hj).
    destruct (match ks !! j with Some _ => _ | None => _ end).
    + destruct (j + 1 <? length vs)%nat; [|eauto]. eexists. split; [reflexivity|]. split; [exact HS|exact HD].
    + destruct (vinsert_ok j k ks Hj) as (ks' & -> & HL). eexists. split; [reflexivity|]. split; [cbn; lia|exact HD].
  - destruct (length ks <=? j)%nat eqn:E; [eauto|]. apply Nat.leb_gt in E. destruct (length ks =? 1)%nat eqn:E1.
    { eexists. split; [reflexivity|]. split; [reflexivity|exact HD]. }
    eexists. split; [reflexivity|]. split; [|exact HD]. cbn.
    rewrite length_delete by (apply lookup_lt_is_Some_2; exact E). lia.
  - destruct ks, vs; eauto. eexists. split; [reflexivity|]. split; [reflexivity|exact HD].
  - eexists. split; [reflexivity|]. exact HO'.
  - destruct (mx <=? n); [eauto|]. eexists. split; [reflexivity|]. split; [cbn; lia|exact HD].
  - destruct (mx <=? n); [eauto|]. eexists. split; [reflexivity|]. split; [cbn; rewrite app_length; cbn; lia|exact HD].
  - destruct (mx <? _); [eauto|]. eexists. split; [reflexivity|]. split; [reflexivity|exact HD].
  - eexists. split; [reflexivity|]. split; reflexivity.
Qed.
Lemma inner_run_ok max root os : exists p, run (istep cmp) os (new_inner max root) = Some p /\ i_ok p.
Proof. apply run_total; [intros o a; apply istep_ok|split; reflexivity]. Qed.
Lemma inner_reach max root os p : run (istep cmp) os (new_inner max root) = Some p -> i_ok p.
Proof. intros HR. destruct (inner_run_ok max root os) as (q & HQ & HO). rewrite HR in HQ. injection HQ as <-. exact HO. Qed.
Lemma i_serialize_eq (p : inner K) buf : (12 <= length buf)%nat ->
  i_serialize p buf = Some (in_bytes 4 7 ++ in_bytes 4 (i_size p mod 2 ^ 32) ++ in_bytes 4 (i_max p mod 2 ^ 32) ++ drop 12 buf).
Proof.
  intros HL. unfold i_serialize. change (buf, O) with (st [] buf). rewrite !le_enc_in_bytes, put_st by (cbn; lia). rewrite !app_nil_l.
  rewrite in_bytes_length. rewrite (proj2 (Nat.leb_le 4 (length buf))) by lia. cbn [mbind option_bind].
  rewrite put_st by (rewrite in_bytes_length; lia). rewrite app_length, !in_bytes_length.
  rewrite (proj2 (Nat.leb_le (4 + 4) (length buf))) by lia. cbn [mbind option_bind].
  rewrite put_st by (rewrite app_length, !in_bytes_length; lia). rewrite !app_length, !in_bytes_length.
  rewrite (proj2 (Nat.leb_le (4 + 4 + 4) (length buf))) by lia. cbn [mbind option_bind].
  unfold st. cbn [fst]. rewrite !app_length, !in_bytes_length, <- !app_assoc. reflexivity.
Qed.
Lemma i_deserialize_eq (q : inner K) a b c rest : length a = 4%nat -> b < 2 ^ 32 -> c < 2 ^ 32 ->
  i_deserialize q (a ++ in_bytes 4 b ++ in_bytes 4 c ++ rest) = Some (Inn (i_keys q) (i_vals q) b c (i_root q) (i_data q)).
Proof.
  intros HA HB HC. unfold i_deserialize.
  pose proof (get_app a (in_bytes 4 b) (in_bytes 4 c ++ rest) 4 ltac:(now rewrite in_bytes_length)) as E1.
  pose proof (get_app (a ++ in_bytes 4 b) (in_bytes 4 c) rest 4 ltac:(now rewrite in_bytes_length)) as E2.
  rewrite <- app_assoc in E2. rewrite app_length, in_bytes_length, HA in E2. rewrite HA in E1.
  change (4 + 4)%nat with 8%nat in E2. rewrite E1. cbn [mbind option_bind]. rewrite E2. cbn [mbind option_bind].
  rewrite <- !le_enc_in_bytes, !le_dec_enc by assumption. reflexivity.
Qed.
End Pages.

(* the header *)
Definition h_ok (h : header) : Prop := h_data h = 6 :: repeat 0 4095.
Lemma hstep_ok o a b : h_ok a -> hstep o a = Some b -> h_ok b.
Proof.
  intros HO HS. destruct a as [r t k d dt]. unfold h_ok in *. cbn in HO. destruct o; cbn -[N.pow] in HS;
    repeat match goal with H : (if ?c then _ else _) = Some _ |- _ => destruct c end; try discriminate;
    injection HS as <-; try exact HO; reflexivity.
Qed.
Lemma header_reach os h : run hstep os new_header = Some h -> h_ok h.
Proof. intros HR. apply (run_inv hstep h_ok os new_header h); [intros; eapply hstep_ok; eassumption|reflexivity|exact HR]. Qed.
