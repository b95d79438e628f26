(** * Proofs: how results are shown (C114) *)
From Coq Require Import NArith ZArith Ascii String Lia.
From stdpp Require Import list.
From Verif Require Import ShSpec ShModel ShProofs DspSpec DspModel.
Local Open Scope N_scope.

(* numerals *)
Lemma fold_number l a : fold_left (fun a c => 10 * a + (c - 48)) l a = a * 10 ^ N.of_nat (length l) + number l.
Proof.
  unfold number. revert a. induction l as [|c l IH]; intros a; cbn [fold_left length].
  - cbn. lia.
  - rewrite IH, (IH (10 * 0 + (c - 48))). rewrite Nat2N.inj_succ, N.pow_succ_r'. lia.
Qed.
Lemma number_app a b : number (a ++ b) = number a * 10 ^ N.of_nat (length b) + number b.
Proof. unfold number at 1. rewrite fold_left_app. apply fold_number. Qed.
Lemma number_cons c l : number (c :: l) = (c - 48) * 10 ^ N.of_nat (length l) + number l.
Proof. change (c :: l) with ([c] ++ l). rewrite number_app. reflexivity. Qed.
Lemma number_zeros n l : number (repeat 48 n ++ l) = number l.
Proof. induction n as [|n IH]; [reflexivity|]. cbn [repeat app]. rewrite number_cons, IH. lia. Qed.
Lemma number_lt l : Forall digit l -> number l < 10 ^ N.of_nat (length l).
Proof.
  induction 1 as [|c l HC HL IH]; [cbn; lia|]. rewrite number_cons. cbn [length]. rewrite Nat2N.inj_succ, N.pow_succ_r'.
  assert (c - 48 <= 9) by (unfold digit in HC; lia).
  assert ((c - 48) * 10 ^ N.of_nat (length l) <= 9 * 10 ^ N.of_nat (length l)) by (apply N.mul_le_mono_r; assumption). lia.
Qed.
Lemma digit_small r : r < 10 -> digit (48 + r).
Proof. unfold digit. lia. Qed.
Lemma digit_mod n : digit (48 + n mod 10).
Proof. apply digit_small, N.mod_lt. discriminate. Qed.
Lemma size_gt n : n < 10 ^ N.of_nat (N.size_nat n).
Proof.
  apply N.lt_le_trans with (2 ^ N.of_nat (N.size_nat n)).
  - destruct n as [|p]; [reflexivity|]. cbn [N.size_nat]. induction p as [p IH|p IH|]; [| |reflexivity];
      cbn [Pos.size_nat]; rewrite Nat2N.inj_succ, N.pow_succ_r'; lia.
  - apply N.pow_le_mono_l. lia.
Qed.
Lemma dec_spec fuel n acc : n < 10 ^ N.of_nat fuel -> (0 < fuel)%nat ->
  exists s, dec fuel n acc = s ++ acc /\ numeral s n.
Proof.
  revert n acc. induction fuel as [|fuel IH]; intros n acc HF HP; [lia|]. cbn [dec].
  destruct (N.ltb_spec n 10) as [HL|HL].
  - exists [48 + n mod 10]. split; [reflexivity|]. rewrite (N.mod_small n 10 HL). split; [discriminate|].
    split; [repeat constructor; unfold digit; lia|]. split; [unfold number; cbn [fold_left]; lia|].
    intros HH. injection HH as HH. now rewrite HH.
  - rewrite Nat2N.inj_succ, N.pow_succ_r' in HF.
    assert (HD : n / 10 < 10 ^ N.of_nat fuel) by (apply N.div_lt_upper_bound; lia).
    assert (HP' : (0 < fuel)%nat) by (destruct fuel; [cbn in HF; lia|lia]).
    destruct (IH (n / 10) ((48 + n mod 10) :: acc) HD HP') as (s & HE & HN & HDS & HV & HZ).
    exists (s ++ [48 + n mod 10]). split; [rewrite HE, <- app_assoc; reflexivity|]. split; [destruct s; discriminate|].
    split; [apply Forall_app; split; [exact HDS|repeat constructor; apply digit_mod]|]. split.
    + rewrite number_app, HV. cbn [length]. rewrite number_cons. cbn [length number fold_left]. unfold number; cbn [fold_left].
      pose proof (N.div_mod n 10 ltac:(discriminate)) as HM. change (N.of_nat 1) with 1. change (N.of_nat 0) with 0.
      rewrite N.pow_1_r, N.pow_0_r. set (q := n / 10) in *. set (r := n mod 10) in *. lia.
    + intros HH. destruct s as [|c s]; [congruence|]. cbn in HH. injection HH as ->. specialize (HZ eq_refl).
      injection HZ as ->. exfalso. unfold number in HV; cbn in HV.
      assert (1 <= n / 10) by (apply N.div_le_lower_bound; lia). lia.
Qed.
Lemma show_n_numeral n : numeral (show_n n) n.
Proof.
  unfold show_n. destruct (dec_spec (S (N.size_nat n)) n []) as (s & HE & HN).
  - eapply N.lt_le_trans; [apply size_gt|]. apply N.pow_le_mono_r; [discriminate|]. lia.
  - lia.
  - rewrite HE, app_nil_r. exact HN.
Qed.
Lemma show_z_integer z : integer (show_z z) z.
Proof.
  unfold show_z, integer. destruct (Z.ltb_spec z 0) as [HL|HL].
  - right. split; [exact HL|]. eexists. split; [reflexivity|]. apply show_n_numeral.
  - left. split; [exact HL|]. apply show_n_numeral.
Qed.
Lemma numeral_inj s a b : numeral s a -> numeral s b -> a = b.
Proof. intros (_ & _ & <- & _) (_ & _ & HB & _). exact HB. Qed.
Lemma numeral_minus s n : ~ numeral (45 :: s) n.
Proof. intros (_ & HD & _). apply Forall_cons_1 in HD as [HD _]. unfold digit in HD. lia. Qed.
Lemma integer_inj s a b : integer s a -> integer s b -> a = b.
Proof.
  intros [[HA HA']|[HA (t & -> & HA')]] [[HB HB']|[HB (u & HU & HB')]].
  - pose proof (numeral_inj _ _ _ HA' HB'). lia.
  - subst s. now apply numeral_minus in HA'.
  - now apply numeral_minus in HB'.
  - injection HU as <-. pose proof (numeral_inj _ _ _ HA' HB'). lia.
Qed.
Lemma show_02_two z : (0 <= z < 100)%Z -> show_02 z = two z.
Proof.
  intros HZ. unfold show_02, show_z. rewrite (proj2 (Z.ltb_ge z 0)) by lia. unfold show_n, two.
  assert (HN : Z.to_N z < 100) by lia.
  replace (48 + Z.to_N (z / 10)) with (48 + Z.to_N z / 10) by (rewrite Z2N.inj_div by lia; reflexivity).
  replace (48 + Z.to_N (z mod 10)) with (48 + Z.to_N z mod 10) by (rewrite Z2N.inj_mod by lia; reflexivity).
  generalize (Z.to_N z) HN. clear z HZ HN. intros n HN.
  destruct n as [|p]; [reflexivity|].
  do 7 (destruct p as [p|p|]; try reflexivity; try (exfalso; cbn in HN; lia)); exfalso; cbn in HN; lia.
Qed.
Lemma digits_two z : (0 <= z < 100)%Z -> Forall digit (two z).
Proof.
  intros HZ. unfold two.
  assert (0 <= z / 10 < 10)%Z by (split; [apply Z.div_pos; lia|apply Z.div_lt_upper_bound; lia]).
  pose proof (Z.mod_pos_bound z 10 ltac:(lia)). repeat constructor; unfold digit; lia.
Qed.
Lemma two_inj a b : (0 <= a < 100)%Z -> (0 <= b < 100)%Z -> two a = two b -> a = b.
Proof.
  intros HA HB HE. unfold two in HE.
  assert (0 <= a / 10 < 10)%Z by (split; [apply Z.div_pos; lia|apply Z.div_lt_upper_bound; lia]).
  assert (0 <= b / 10 < 10)%Z by (split; [apply Z.div_pos; lia|apply Z.div_lt_upper_bound; lia]).
  pose proof (Z.mod_pos_bound a 10 ltac:(lia)). pose proof (Z.mod_pos_bound b 10 ltac:(lia)).
  pose proof (Z.div_mod a 10 ltac:(lia)). pose proof (Z.div_mod b 10 ltac:(lia)).
  injection HE as HE1 HE2. lia.
Qed.
Lemma clock_inj h m s h' m' s' : (0 <= h < 24)%Z -> (0 <= m < 60)%Z -> (0 <= s < 60)%Z -> (0 <= h' < 24)%Z -> (0 <= m' < 60)%Z ->
  (0 <= s' < 60)%Z -> clock h m s = clock h' m' s' -> h = h' /\ m = m' /\ s = s'.
Proof.
  intros H1 H2 H3 H4 H5 H6 HE. unfold clock, two in HE. cbn [app] in HE. injection HE as E1 E2 E3 E4 E5 E6.
  split; [|split]; apply two_inj; try lia; unfold two; congruence.
Qed.
Lemma is_clock_inj t a b : is_clock t a -> is_clock t b -> a = b.
Proof.
  intros (h & m & s & (H1 & H2 & H3 & ->) & ->) (h' & m' & s' & (H4 & H5 & H6 & ->) & HE).
  destruct (clock_inj _ _ _ _ _ _ H1 H2 H3 H4 H5 H6 HE) as (-> & -> & ->). reflexivity.
Qed.
Lemma is_clock_length t a : is_clock t a -> length t = 8%nat.
Proof. intros (h & m & s & _ & ->). reflexivity. Qed.
Lemma is_clock_head t a : is_clock t a -> exists c l, t = c :: l /\ digit c.
Proof.
  intros (h & m & s & (HH & _) & ->). exists (48 + Z.to_N (h / 10)). eexists. split; [reflexivity|].
  pose proof (digits_two h ltac:(lia)) as HD. now apply Forall_cons_1 in HD as [HD _].
Qed.
Lemma hms r : (0 <= r < 86400)%Z -> is_clock (show_02 (r / 3600) ++ 58 :: show_02 (r mod 3600 / 60) ++ 58 :: show_02 (r mod 60)) r.
Proof.
  intros HR. pose proof (Z.div_mod r 3600 ltac:(lia)). pose proof (Z.mod_pos_bound r 3600 ltac:(lia)).
  pose proof (Z.div_mod (r mod 3600) 60 ltac:(lia)). pose proof (Z.mod_pos_bound (r mod 3600) 60 ltac:(lia)).
  assert (HM : ((r mod 3600) mod 60 = r mod 60)%Z).
  { symmetry. apply (Znumtheory.Zmod_div_mod 60 3600 r); [lia|lia|]. exists 60%Z. reflexivity. }
  rewrite HM in *. assert (0 <= r / 3600 < 24)%Z by (split; [apply Z.div_pos; lia|apply Z.div_lt_upper_bound; lia]).
  assert (0 <= r mod 3600 / 60 < 60)%Z by (split; [apply Z.div_pos; lia|apply Z.div_lt_upper_bound; lia]).
  rewrite !show_02_two by lia. exists (r / 3600)%Z, (r mod 3600 / 60)%Z, (r mod 60)%Z. split; [|reflexivity]. lia.
Qed.

(* decimals *)
Lemma round_even_near a b : (0 <= a)%Z -> (0 < b)%Z -> (0 <= round_even a b /\ 2 * Z.abs (round_even a b * b - a) <= b)%Z.
Proof.
  intros HA HB. unfold round_even. pose proof (Z.div_mod a b ltac:(lia)) as HE. pose proof (Z.mod_pos_bound a b HB) as HM.
  pose proof (Z.div_pos a b HA HB) as HQ. set (q := (a / b)%Z) in *. set (r := (a mod b)%Z) in *. clearbody q r.
  assert (HE' : (q * b - a = - r)%Z) by lia. assert (HE2 : ((q + 1) * b - a = b - r)%Z) by lia.
  destruct (Z.ltb_spec (2 * r) b); [rewrite HE'; lia|]. destruct (Z.ltb_spec b (2 * r)); [rewrite HE2; lia|].
  destruct (Z.even q); [rewrite HE'|rewrite HE2]; lia.
Qed.
Lemma digits_zeros n : Forall digit (repeat 48 n).
Proof. induction n; constructor; [unfold digit; lia|assumption]. Qed.
Definition nearly (s : text) (m : Z) (k p : nat) : Prop :=
  exists i f, Forall digit i /\ i <> [] /\ Forall digit f /\ length f = p /\
    s = (if (m <? 0)%Z then [45] else []) ++ i ++ (match f with [] => [] | _ => 46 :: f end) /\
    (2 * Z.abs (Z.of_N (number (i ++ f)) * 10 ^ Z.of_nat (p - length f) * 2 ^ Z.of_nat k - Z.abs m * 10 ^ Z.of_nat p)
       <= 2 ^ Z.of_nat k)%Z.
Lemma nearly_near s m k p : nearly s m k p -> near s m k p.
Proof. intros (i & f & H1 & H2 & H3 & H4 & H5). exists i, f. split; [exact H1|]. split; [exact H2|]. split; [exact H3|]. split; [lia|exact H5]. Qed.
Lemma nearly_fixed m k p : nearly (fixed m k p) m k p.
Proof.
  unfold fixed. set (b := (2 ^ Z.of_nat k)%Z). set (a := (Z.abs m * 10 ^ Z.of_nat p)%Z).
  assert (HB : (0 < b)%Z) by (apply Z.pow_pos_nonneg; lia).
  assert (HA : (0 <= a)%Z) by (apply Z.mul_nonneg_nonneg; [lia|apply Z.pow_nonneg; lia]).
  destruct (round_even_near a b HA HB) as [HR HN]. set (r := round_even a b) in *.
  destruct (show_n_numeral (Z.to_N r)) as (HNE & HD & HV & _).
  set (s := pad (S p) (show_n (Z.to_N r))).
  assert (HS : Forall digit s) by (apply Forall_app; split; [apply digits_zeros|exact HD]).
  assert (HVS : number s = Z.to_N r) by (unfold s, pad; rewrite number_zeros; exact HV).
  assert (HL : (S p <= length s)%nat).
  { unfold s, pad. rewrite app_length, repeat_length. lia. }
  exists (take (length s - p) s), (drop (length s - p) s). split; [now apply Forall_take|]. split.
  { intros HE. apply (f_equal length) in HE. rewrite take_length in HE. cbn [length] in HE. lia. }
  split; [now apply Forall_drop|]. rewrite drop_length. split; [lia|]. split.
  - f_equal. f_equal. destruct p as [|p].
    + rewrite Nat.sub_0_r, drop_all. reflexivity.
    + destruct (drop (length s - S p) s) eqn:E; [|reflexivity]. apply (f_equal length) in E. rewrite drop_length in E. cbn [length] in E. lia.
  - rewrite take_drop, HVS. replace (p - (length s - (length s - p)))%nat with 0%nat by lia. rewrite Z.mul_1_r, Z2N.id by exact HR. exact HN.
Qed.
Lemma number_all_zero l : Forall (fun c => (c =? 48) = true) l -> number l = 0 /\ l = repeat 48 (length l).
Proof.
  induction 1 as [|c l HC HL [IH1 IH2]]; [split; reflexivity|]. apply N.eqb_eq in HC. subst c. cbn [length repeat]. split.
  - rewrite number_cons, IH1. lia.
  - now rewrite <- IH2.
Qed.
Lemma near_trim s m k p : nearly s m k p -> (0 < p)%nat ->
  near (trim_end (fun c => c =? 46) (trim_end (fun c => c =? 48) s)) m k p.
Proof.
  intros (i & f & HI & HIN & HF & HLF & HS & HV) HP.
  assert (HFN : f <> []) by (intros ->; cbn in HLF; lia).
  assert (HS' : s = (if (m <? 0)%Z then [45] else []) ++ i ++ 46 :: f) by (destruct f; [congruence|exact HS]). clear HS.
  destruct (trim_end_split (fun c => c =? 48) f) as (b & HE & HB & HL). set (f' := trim_end (fun c => c =? 48) f) in *. clearbody f'.
  destruct (number_all_zero b HB) as [HB0 _].
  set (sg := if (m <? 0)%Z then [45] else []) in *.
  assert (HFD : Forall digit f') by (rewrite HE in HF; now apply Forall_app in HF as [HF _]).
  assert (HLEN : length f = (length f' + length b)%nat) by (rewrite HE; apply app_length).
  assert (HNUM : (Z.of_N (number (i ++ f')) * 10 ^ Z.of_nat (p - length f') = Z.of_N (number (i ++ f)) * 10 ^ Z.of_nat (p - length f))%Z).
  { replace (number (i ++ f)) with (number ((i ++ f') ++ b)) by (rewrite HE, <- app_assoc; reflexivity).
    rewrite (number_app (i ++ f') b), HB0, N.add_0_r, N2Z.inj_mul, N2Z.inj_pow.
    replace (p - length f')%nat with (length b + (p - length f))%nat by lia.
    rewrite Nat2Z.inj_add, Z.pow_add_r by lia. rewrite nat_N_Z. change (Z.of_N 10) with 10%Z. lia. }
  assert (HT1 : trim_end (fun c => c =? 48) s = sg ++ i ++ 46 :: f').
  { rewrite HS', HE. replace (sg ++ i ++ 46 :: f' ++ b) with ((sg ++ i ++ 46 :: f') ++ b) by (rewrite <- !app_assoc; reflexivity).
    destruct f' as [|x y _] eqn:E2 using rev_ind.
    - apply (trim_end_all _ _ _ 46); [|reflexivity|exact HB]. rewrite app_assoc. apply last_snoc.
    - apply (trim_end_all _ _ _ x); [|apply HL; apply last_snoc|exact HB].
      replace (sg ++ i ++ 46 :: y ++ [x]) with ((sg ++ i ++ 46 :: y) ++ [x]) by (rewrite <- !app_assoc; reflexivity). apply last_snoc. }
  exists i, f'. split; [exact HI|]. split; [exact HIN|]. split; [exact HFD|]. split; [lia|]. split; [|rewrite HNUM; exact HV].
  rewrite HT1. destruct f' as [|x y _] eqn:E2 using rev_ind.
  - rewrite app_nil_r. destruct i as [|z i' _] using rev_ind; [congruence|].
    replace (sg ++ (i' ++ [z]) ++ [46]) with ((sg ++ i' ++ [z]) ++ [46]) by (rewrite <- !app_assoc; reflexivity).
    apply (trim_end_all _ _ _ z); [rewrite app_assoc; apply last_snoc| |repeat constructor].
    apply Forall_app in HI as [_ HI]. apply Forall_cons_1 in HI as [HI _]. unfold digit in HI. apply N.eqb_neq. lia.
  - destruct (y ++ [x]) as [|q w] eqn:E3; [destruct y; discriminate|]. rewrite <- E3.
    replace (sg ++ i ++ 46 :: y ++ [x]) with ((sg ++ i ++ 46 :: y ++ [x]) ++ []) at 1 by apply app_nil_r.
    apply (trim_end_all _ _ _ x); [| |constructor].
    + replace (sg ++ i ++ 46 :: y ++ [x]) with ((sg ++ i ++ 46 :: y) ++ [x]) by (rewrite <- !app_assoc; reflexivity). apply last_snoc.
    + rewrite <- E3 in HFD. apply Forall_app in HFD as [_ HX]. apply Forall_cons_1 in HX as [HX _]. unfold digit in HX. apply N.eqb_neq. lia.
Qed.
