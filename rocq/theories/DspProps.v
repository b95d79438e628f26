(** * Theorems: how results are shown (C114) *)
From Coq Require Import NArith ZArith Ascii String Lia.
From stdpp Require Import list.
From Verif Require Import ShSpec ShModel ShProofs DspSpec DspModel DspProofs.
Local Open Scope N_scope.

Section value_ind.
  Context (P : value -> Prop) (HS : forall v t, P (Scalar v t)) (HL : forall l t, Forall P l -> P (Seq l t)).
  Fixpoint value_ind' (v : value) : P v :=
    match v with
    | Scalar v t => HS v t
    | Seq l t => HL l t ((fix all (l : list value) : Forall P l :=
                            match l with [] => Forall_nil_2 P | v :: l => Forall_cons_2 P v l (value_ind' v) (all l) end) l)
    end.
End value_ind.

Lemma time_clock z : (0 <= z < 86400)%Z -> is_clock (show_time z) z.
Proof.
  intros HZ. unfold show_time. rewrite (proj2 (Z.leb_le 0 z)), (proj2 (Z.ltb_lt z (24 * 60 * 60))) by lia. cbn [andb]. now apply hms.
Qed.
Lemma nibble_hex n : n < 16 -> nibble n = hex_digit n.
Proof.
  intros HN. destruct n as [|p]; [reflexivity|].
  do 4 (destruct p as [p|p|]; try reflexivity; try (exfalso; cbn in HN; lia)); exfalso; cbn in HN; lia.
Qed.
Lemma bin_hex l : Forall (fun b => b < 256) l ->
  flat_map (fun b => [nibble (b / 16); nibble (b mod 16)]) l = flat_map (fun b => [hex_digit (b / 16); hex_digit (b mod 16)]) l.
Proof.
  induction 1 as [|b l HB HL IH]; [reflexivity|]. cbn [flat_map]. rewrite IH.
  rewrite !nibble_hex; [reflexivity|apply N.mod_lt; discriminate|apply N.div_lt_upper_bound; [discriminate|exact HB]].
Qed.
Lemma interval_shown z : exists d r s c, (Z.abs z = d * 86400 + r /\ 0 <= d)%Z /\ is_clock c r /\ numeral s (Z.to_N d) /\
  show_interval z = (if (z <? 0)%Z then [45] else []) ++ (if (0 <? d)%Z then s ++ txt " days " else []) ++ c.
Proof.
  exists (Z.abs z / 86400)%Z, (Z.abs z mod 86400)%Z, (show_z (Z.abs z / 86400)).
  pose proof (Z.div_mod (Z.abs z) 86400 ltac:(lia)) as HE. pose proof (Z.mod_pos_bound (Z.abs z) 86400 ltac:(lia)) as HB.
  assert (HD : (0 <= Z.abs z / 86400)%Z) by (apply Z.div_pos; lia).
  exists (show_02 (Z.abs z mod 86400 / 3600) ++ 58 :: show_02 (Z.abs z mod 3600 / 60) ++ 58 :: show_02 (Z.abs z mod 60)).
  split; [lia|]. split; [|split].
  - pose proof (hms (Z.abs z mod 86400) HB) as HH.
    replace ((Z.abs z mod 86400) mod 3600)%Z with (Z.abs z mod 3600)%Z in HH
      by (apply (Znumtheory.Zmod_div_mod 3600 86400); [lia|lia|exists 24%Z; reflexivity]).
    replace ((Z.abs z mod 86400) mod 60)%Z with (Z.abs z mod 60)%Z in HH
      by (apply (Znumtheory.Zmod_div_mod 60 86400); [lia|lia|exists 1440%Z; reflexivity]).
    exact HH.
  - destruct (show_z_integer (Z.abs z / 86400)) as [[_ HN]|[HN _]]; [exact HN|lia].
  - reflexivity.
Qed.

(** The values that are shown as they should: not CHAR, not DATE, and no whole decimal outside 64 bits. *)
Definition plainly (v : scalar) (t : tid) : Prop :=
  held v t /\ (t = TChar \/ t = TDate -> v = VNull) /\
  (forall m k, v = VDec m k -> (m mod 2 ^ Z.of_nat k = 0)%Z -> between (-2^63) (m / 2 ^ Z.of_nat k) (2^63)).

Lemma scalar_shown ymd v t : plainly v t -> shows_scalar v t (show_scalar ymd v t).
Proof.
  intros (HH & HT & HD).
  destruct v, t; cbn [held] in HH; try contradiction; cbn [show_scalar];
    lazymatch goal with |- shows_scalar (VDec _ _) _ _ => idtac | |- shows_scalar (VIvl _) _ _ => idtac | _ => try constructor end;
    try apply show_z_integer.
  - destruct (Z.eqb_spec (m mod 2 ^ Z.of_nat k) 0) as [HE|HE].
    + specialize (HD m k eq_refl HE). unfold between in HD. apply (s_whole m k (m / 2 ^ Z.of_nat k)).
      * pose proof (Z.div_mod m (2 ^ Z.of_nat k) ltac:(apply Z.pow_nonzero; lia)). lia.
      * unfold show_dec. rewrite (proj2 (Z.eqb_eq _ _) HE).
        replace (as_i64 (m / 2 ^ Z.of_nat k)) with (m / 2 ^ Z.of_nat k)%Z by (unfold as_i64; lia). apply show_z_integer.
    + apply s_dec; [exact HE|]. unfold show_dec. rewrite (proj2 (Z.eqb_neq _ _) HE). apply near_trim; [apply nearly_fixed|lia].
  - specialize (HT ltac:(auto)). discriminate.
  - specialize (HT ltac:(auto)). discriminate.
  - apply show_n_numeral.
  - specialize (HT ltac:(auto)). discriminate.
  - now apply time_clock.
  - destruct (interval_shown sec) as (d & r & s & c & HE & HC & HN & ->). now apply (s_ivl sec d r s c).
  - unfold show_bin. rewrite bin_hex by exact HH. constructor.
Qed.
Lemma items_commas ymd l : (fix items (first : bool) (l : list value) : text :=
         match l with
         | [] => []
         | v :: l => (if first then [] else txt ", ") ++ show ymd v ++ items false l
         end) true l = commas (map (show ymd) l).
Proof.
  destruct l as [|v l]; [reflexivity|]. cbn [map]. revert v. induction l as [|w l IH]; intros v.
  - cbn. apply app_nil_r.
  - specialize (IH w). cbn in IH |- *. rewrite IH. reflexivity.
Qed.

(** Every value is shown by the text for it, lists included, EXCEPT in CHAR and DATE columns and for whole decimals that do not
    fit 64 bits.  (Missing: those, see below.) *)
Theorem c114_shown_partial ymd v : holds plainly v -> shows v (show ymd v).
Proof.
  induction v as [v t|l t IH] using value_ind'; intros HH; cbn [holds] in HH.
  - now apply scalar_shown.
  - cbn [show shows]. exists (map (show ymd) l). split; [now rewrite items_commas|].
    induction IH as [|v l HV HL IHl]; [exact I|]. destruct HH as [HH HHL]. split; [apply HV; exact HH|]. apply IHl. exact HHL.
Qed.
Print Assumptions c114_shown_partial.
Example c114_shown_partial_ex : let ymd := fun _ => None in
  let v := Seq [Scalar (VInt (-120)) TInt; Scalar VNull TChar; Scalar (VDec 13 2) TDec; Scalar (VIvl (-90061)) TIvl;
                Scalar (VBin [1; 255]) TBin; Seq [Scalar (VTime 3661) TTime; Scalar (VBool true) TBool] TSeq] TSeq in
  holds plainly v /\ show ymd v = txt "[-120, NULL, 3.25, -1 days 01:01:01, \x01ff, [01:01:01, true]]".
Proof.
  split; [|vm_compute; reflexivity]. unfold plainly, between. cbn [holds held].
  repeat match goal with |- _ /\ _ => split | |- True => exact I end;
    try lia; try congruence; try (intros [HH|HH]; discriminate); try (intros ? ? HE; discriminate HE); try (repeat constructor; lia).
  intros ? ? HE. injection HE as <- <-. vm_compute. congruence.
Qed.

Lemma hex_inj a b : a < 16 -> b < 16 -> hex_digit a = hex_digit b -> a = b.
Proof. intros HA HB. unfold hex_digit. destruct (N.ltb_spec a 10), (N.ltb_spec b 10); lia. Qed.
Lemma bin_inj l1 l2 : Forall (fun b => b < 256) l1 -> Forall (fun b => b < 256) l2 ->
  flat_map (fun b => [hex_digit (b / 16); hex_digit (b mod 16)]) l1 = flat_map (fun b => [hex_digit (b / 16); hex_digit (b mod 16)]) l2 -> l1 = l2.
Proof.
  intros H1. revert l2. induction H1 as [|a l1 HA H1 IH]; intros [|b l2] H2 HE; try discriminate; [reflexivity|].
  apply Forall_cons_1 in H2 as [HB H2]. cbn [flat_map app] in HE. injection HE as E1 E2 E3.
  apply hex_inj in E1; [|apply N.div_lt_upper_bound; [discriminate|exact HA]|apply N.div_lt_upper_bound; [discriminate|exact HB]].
  apply hex_inj in E2; [|apply N.mod_lt; discriminate|apply N.mod_lt; discriminate].
  f_equal; [|exact (IH l2 H2 E3)]. rewrite (N.div_mod a 16), (N.div_mod b 16) by discriminate. congruence.
Qed.
Lemma interval_inj x y : show_interval x = show_interval y -> x = y.
Proof.
  intros HE. destruct (interval_shown x) as (d & r & s & c & [HX HD] & HC & HS & E1).
  destruct (interval_shown y) as (d' & r' & s' & c' & [HY HD'] & HC' & HS' & E2). rewrite E1, E2 in HE. clear E1 E2.
  pose proof (is_clock_length _ _ HC) as HL. pose proof (is_clock_length _ _ HC') as HL'.
  assert (HH : forall d s c r, is_clock c r -> numeral s (Z.to_N d) -> exists q w, (if (0 <? d)%Z then s ++ txt " days " else []) ++ c = q :: w /\ digit q).
  { intros d0 s0 c0 r0 HC0 HS0. destruct (0 <? d0)%Z.
    - destruct HS0 as (HN & HDG & _). destruct s0 as [|q s0]; [congruence|]. exists q. eexists. split; [reflexivity|]. now apply Forall_cons_1 in HDG as [HDG _].
    - destruct (is_clock_head _ _ HC0) as (q & w & -> & HQ). exists q, w. split; [reflexivity|exact HQ]. }
  destruct (HH d s c r HC HS) as (q & w & EQ & HQ). destruct (HH d' s' c' r' HC' HS') as (q' & w' & EQ' & HQ').
  assert (HSG : (x <? 0)%Z = (y <? 0)%Z /\
    (if (0 <? d)%Z then s ++ txt " days " else []) ++ c = (if (0 <? d')%Z then s' ++ txt " days " else []) ++ c').
  { destruct (x <? 0)%Z, (y <? 0)%Z; cbn [app] in HE.
    - split; [reflexivity|]. now injection HE.
    - rewrite EQ' in HE. injection HE as <- _. unfold digit in HQ'. lia.
    - rewrite EQ in HE. injection HE as -> _. unfold digit in HQ. lia.
    - split; [reflexivity|exact HE]. }
  destruct HSG as [HSG HB]. apply app_inj_2 in HB as [HP ->]; [|congruence]. pose proof (is_clock_inj _ _ _ HC HC') as <-.
  assert (HDD : d = d').
  { destruct (Z.ltb_spec 0 d), (Z.ltb_spec 0 d').
    - apply app_inj_2 in HP as [-> _]; [|reflexivity]. pose proof (numeral_inj _ _ _ HS HS'). lia.
    - destruct s; discriminate.
    - destruct s'; discriminate.
    - lia. }
  subst d'. assert (HA : Z.abs x = Z.abs y) by lia.
  destruct (Z.ltb_spec x 0), (Z.ltb_spec y 0); try discriminate; lia.
Qed.

(** Two different values of a column are shown by different texts, for whole numbers, Booleans, texts, JSON, UUIDs,
    timestamps, times, intervals and bytes. *)
Theorem c114_distinct ymd t v w :
  In t [TBool; TTiny; TSmall; TInt; TBig; TVarChar; TTs; TTime; TIvl; TBin; TJson; TUuid] ->
  held v t -> held w t -> v <> VNull -> w <> VNull -> show_scalar ymd v t = show_scalar ymd w t -> v = w.
Proof.
  intros HT HV HW HNV HNW HE. cbn [In] in HT.
  repeat (destruct HT as [<-|HT]; [|]); [..|destruct HT];
    destruct v; cbn [held] in HV; try contradiction; try congruence;
    destruct w; cbn [held] in HW; try contradiction; try congruence; cbn [show_scalar] in HE; try congruence.
  - destruct b, b0; try reflexivity; discriminate.
  - f_equal. eapply integer_inj; [apply show_z_integer|]. rewrite HE. apply show_z_integer.
  - f_equal. eapply integer_inj; [apply show_z_integer|]. rewrite HE. apply show_z_integer.
  - f_equal. eapply integer_inj; [apply show_z_integer|]. rewrite HE. apply show_z_integer.
  - f_equal. eapply integer_inj; [apply show_z_integer|]. rewrite HE. apply show_z_integer.
  - f_equal. eapply numeral_inj; [apply show_n_numeral|]. rewrite HE. apply show_n_numeral.
  - f_equal. eapply is_clock_inj; [apply time_clock; exact HV|]. rewrite HE. apply time_clock. exact HW.
  - f_equal. now apply interval_inj.
  - f_equal. unfold show_bin in HE. apply app_inv_head in HE. rewrite !bin_hex in HE by assumption. now apply bin_inj.
Qed.
Print Assumptions c114_distinct.
Example c114_distinct_ex : let ymd := fun _ => None in
  (held (VIvl 86400) TIvl /\ held (VIvl (-86400)) TIvl) /\
  show_scalar ymd (VIvl 86400) TIvl = txt "1 days 00:00:00" /\ show_scalar ymd (VIvl (-86400)) TIvl = txt "-1 days 00:00:00".
Proof. split; [|split; vm_compute; reflexivity]. unfold held, between. lia. Qed.

(** REFUTED: NULL cannot be told from the text 'NULL' of any text-like column. *)
Theorem c114_null_refuted ymd t : In t [TVarChar; TJson; TUuid; TEnum] ->
  exists v, held v t /\ v <> VNull /\ show_scalar ymd v t = show_scalar ymd VNull t.
Proof.
  intros HT. cbn [In] in HT. destruct HT as [<-|[<-|[<-|[<-|[]]]]].
  - exists (VText (txt "NULL")). split; [exact I|split; [discriminate|reflexivity]].
  - exists (VJson (txt "NULL")). split; [exact I|split; [discriminate|reflexivity]].
  - exists (VUuid (txt "NULL")). split; [exact I|split; [discriminate|reflexivity]].
  - exists (VEnum 0 (txt "NULL")). split; [exact I|split; [discriminate|reflexivity]].
Qed.
Print Assumptions c114_null_refuted.
Example c114_null_refuted_ex : show (fun _ => None) (Scalar (VText (txt "NULL")) TVarChar) = show (fun _ => None) (Scalar VNull TVarChar).
Proof. reflexivity. Qed.

Lemma length_bytes s : (length s <= bytes s)%nat.
Proof.
  induction s as [|c s IH]; [reflexivity|]. unfold bytes in *. cbn. assert (1 <= utf8 c)%nat by (unfold utf8; repeat destruct (_ <? _); lia). lia.
Qed.
(** A CHAR text of at most 255 bytes is shown with blanks after it.  (Missing: without them, and longer ones.) *)
Theorem c114_char_partial ymd s v : v = VText s \/ v = VConst s -> (bytes s <= 255)%nat ->
  show_scalar ymd v TChar = s ++ repeat 32 (255 - bytes s).
Proof.
  intros HV HB. pose proof (length_bytes s).
  assert (HE : normalize s = s ++ repeat 32 (255 - bytes s)) by (unfold normalize; now rewrite take_ge by lia).
  destruct HV as [->| ->]; exact HE.
Qed.
Print Assumptions c114_char_partial.
(** REFUTED: whatever the length of the column, CHAR texts are shown with blanks up to 255 bytes, and cut to 255 characters. *)
Theorem c114_char_refuted ymd s :
  ((bytes s < 255)%nat -> show_scalar ymd (VConst s) TChar <> s /\ length (show_scalar ymd (VConst s) TChar) = (255 - bytes s + length s)%nat) /\
  ((255 < length s)%nat -> show_scalar ymd (VConst s) TChar = take 255 s).
Proof.
  pose proof (length_bytes s) as HL. split.
  - intros HB. rewrite (c114_char_partial ymd s (VConst s)) by (auto; lia).
    assert (HLEN : length (s ++ repeat 32 (255 - bytes s)) = (255 - bytes s + length s)%nat) by (rewrite app_length, repeat_length; lia).
    split; [|exact HLEN]. intros HE. rewrite HE in HLEN. lia.
  - intros HS. cbn [show_scalar]. unfold normalize. pose proof (length_bytes (take 255 s)) as HB. rewrite take_length in HB.
    replace (255 - bytes (take 255 s))%nat with 0%nat by lia. apply app_nil_r.
Qed.
Print Assumptions c114_char_refuted.
Example c114_char_refuted_ex : length (show_scalar (fun _ => None) (VConst (txt "abc")) TChar) = 255%nat.
Proof. vm_compute. reflexivity. Qed.

(** Dates from 1970 on are shown as the calendar says.  (Missing: earlier ones.) *)
Theorem c114_date_partial ymd d s : (0 <= d)%Z -> ymd d = Some s -> show_scalar ymd (VDate d) TDate = s.
Proof. intros HD HE. cbn [show_scalar]. unfold show_date. rewrite (proj2 (Z.ltb_ge d 0)) by lia. now rewrite HE. Qed.
Print Assumptions c114_date_partial.
(** REFUTED: no date before 1970-01-01 is shown, whatever the calendar. *)
Theorem c114_date_refuted ymd d : (d < 0)%Z -> exists s, integer s d /\ show_scalar ymd (VDate d) TDate = txt "INVALID_DATE(" ++ s ++ txt ")".
Proof.
  intros HD. exists (show_z d). split; [apply show_z_integer|]. cbn [show_scalar]. unfold show_date. now rewrite (proj2 (Z.ltb_lt d 0)) by lia.
Qed.
Print Assumptions c114_date_refuted.
Example c114_date_refuted_ex : held (VDate (-1)) TDate /\
  show (fun _ => Some (txt "1969-12-31")) (Scalar (VDate (-1)) TDate) = txt "INVALID_DATE(-1)".
Proof. split; [unfold held, between; lia|reflexivity]. Qed.

Lemma round_zero a b : (0 <= a)%Z -> (2 * a < b)%Z -> round_even a b = 0%Z.
Proof.
  intros HA HB. unfold round_even. rewrite Z.div_small, Z.mod_small by lia. now rewrite (proj2 (Z.ltb_lt (2 * a) b)) by lia.
Qed.
(** REFUTED: every whole decimal from 2^63 on is shown as 9223372036854775807, and every decimal that is not 0 but nearer to 0
    than half a millionth is shown as 0 or -0. *)
Theorem c114_decimal_refuted ymd z m k :
  ((2^63 <= z)%Z -> show_scalar ymd (VDec (z * 2 ^ Z.of_nat k) k) TDec = txt "9223372036854775807") /\
  (m <> 0%Z -> (2 * (Z.abs m * 10 ^ 6) < 2 ^ Z.of_nat k)%Z ->
     show_scalar ymd (VDec m k) TDec = if (m <? 0)%Z then txt "-0" else txt "0").
Proof.
  assert (HP : (0 < 2 ^ Z.of_nat k)%Z) by (apply Z.pow_pos_nonneg; lia). split.
  - intros HZ. cbn [show_scalar]. unfold show_dec. rewrite Z.mod_mul, Z.div_mul by lia. cbn [Z.eqb].
    replace (as_i64 z) with (2 ^ 63 - 1)%Z by (unfold as_i64; lia). vm_compute. reflexivity.
  - intros HM HK. cbn [show_scalar]. unfold show_dec.
    assert (HMOD : (m mod 2 ^ Z.of_nat k <> 0)%Z).
    { intros HE. apply Z.mod_divide in HE; [|lia]. destruct HE as [q HE]. assert (q <> 0)%Z by (intros ->; lia).
      assert (2 ^ Z.of_nat k <= Z.abs m)%Z; [|lia]. rewrite HE, Z.abs_mul, (Z.abs_eq (2 ^ Z.of_nat k)) by lia.
      assert (1 <= Z.abs q)%Z by lia. pose proof (Z.mul_le_mono_nonneg_r 1 (Z.abs q) (2 ^ Z.of_nat k) ltac:(lia) ltac:(lia)). lia. }
    rewrite (proj2 (Z.eqb_neq _ _) HMOD). unfold fixed. change (Z.of_nat 6) with 6%Z. rewrite round_zero by lia.
    destruct (m <? 0)%Z; vm_compute; reflexivity.
Qed.
Print Assumptions c114_decimal_refuted.
Example c114_decimal_refuted_ex : let ymd := fun _ => None in
  show_scalar ymd (VDec 100000000000000000000 0) TDec = txt "9223372036854775807" /\ show_scalar ymd (VDec (-1) 30) TDec = txt "-0".
Proof. split; vm_compute; reflexivity. Qed.

(** In a column with a scale [p] a decimal is shown with exactly [p] decimals, at most half a unit of the last one away. *)
Theorem c114_scale ymd m k p : near (show_in ymd (Some p) (Scalar (VDec m k) TDec)) m k p /\
  exists i f, length f = p /\ Forall digit f /\ Forall digit i /\
    show_in ymd (Some p) (Scalar (VDec m k) TDec) = (if (m <? 0)%Z then [45] else []) ++ i ++ match p with O => [] | _ => 46 :: f end.
Proof.
  cbn [show_in]. pose proof (nearly_fixed m k p) as HN. split; [now apply nearly_near|].
  destruct HN as (i & f & HI & _ & HF & HL & HE & _). exists i, f. split; [exact HL|]. split; [exact HF|]. split; [exact HI|].
  rewrite HE. f_equal. f_equal. destruct f, p; try discriminate; reflexivity.
Qed.
Print Assumptions c114_scale.
Example c114_scale_ex : show_in (fun _ => None) (Some 2%nat) (Scalar (VDec (-13) 3) TDec) = txt "-1.62" /\
  show_in (fun _ => None) (Some 2%nat) (Scalar (VDec 3 0) TDec) = txt "3.00".
Proof. split; vm_compute; reflexivity. Qed.

(** REFUTED: a list of one text with a comma in it is shown as the list of two. *)
Theorem c114_list_refuted ymd a b t :
  show ymd (Seq [Scalar (VText (a ++ txt ", " ++ b)) TVarChar] t) =
  show ymd (Seq [Scalar (VText a) TVarChar; Scalar (VText b) TVarChar] t).
Proof. cbn [show show_scalar app]. rewrite !app_nil_r, <- !app_assoc. reflexivity. Qed.
Print Assumptions c114_list_refuted.
Example c114_list_refuted_ex : show (fun _ => None) (Seq [Scalar (VText (txt "x, y")) TVarChar] TSeq) = txt "[x, y]".
Proof. reflexivity. Qed.

(** What is printed, line by line. *)
Definition lines (p : printed) : list (list text + text) := match p with PTable _ rs => map inl rs | PMessage m => [inr m] end.
Definition written (ymd : Z -> option text) (o : wop) : list (list text + text) :=
  match o with WRow schema vals => [inl (cells ymd schema vals)] | WMessage m => [inr m] | WHeader _ => [] end.
Lemma wrun_lines ymd os w : Forall (fun o => forall h, o <> WHeader h) os ->
  flat_map lines (wrun ymd w os) = match table w with Some (_, rs) => map inl rs | None => [] end ++ flat_map (written ymd) os.
Proof.
  intros HF. revert w. induction HF as [|o os HO HF IH]; intros [t h].
  - cbn. unfold print_table. destruct t as [[h' rs]|]; cbn; reflexivity.
  - cbn [wrun]. destruct o as [h'|schema vals|m].
    + now destruct (HO h').
    + cbn [wstep]. unfold ensure_table. destruct t as [[h' rs]|]; cbn [table headers app]; rewrite IH; cbn [table flat_map written app].
      * rewrite map_app, <- app_assoc. reflexivity.
      * reflexivity.
    + cbn [wstep]. rewrite flat_map_app, flat_map_app, IH. unfold print_table. destruct t as [[h' rs]|]; cbn [table flat_map lines app].
      * rewrite app_nil_r, <- app_assoc. reflexivity.
      * reflexivity.
Qed.
Lemma wrun_headers ymd os w h : Forall (fun o => forall h, o <> WHeader h) os -> headers w = h ->
  (forall h' rs, table w = Some (h', rs) -> h' = h) -> forall h' rs, In (PTable h' rs) (wrun ymd w os) -> h' = h.
Proof.
  intros HF. revert w. induction HF as [|o os HO HF IH]; intros [t hd] HH HT h' rs HI; cbn [headers table] in *; subst hd.
  - cbn in HI. unfold print_table in HI. cbn in HI. destruct t as [[h2 r2]|]; [|destruct HI]. destruct HI as [HI|[]]. injection HI as -> ->. exact (HT h' rs eq_refl).
  - cbn [wrun] in HI. destruct o as [h2|schema vals|m].
    + now destruct (HO h2).
    + cbn [wstep] in HI. unfold ensure_table in HI. destruct t as [[h2 r2]|]; cbn [table headers app] in HI;
        (eapply IH; [| |exact HI]; [reflexivity|]); cbn [table]; intros h3 r3 HE; injection HE as <- <-; [exact (HT h2 r2 eq_refl)|reflexivity].
    + cbn [wstep] in HI. apply in_app_or in HI as [HI|HI].
      * unfold print_table in HI. cbn in HI. destruct t as [[h2 r2]|]; cbn in HI.
        -- destruct HI as [HI|[HI|[]]]; [|discriminate]. injection HI as -> ->. exact (HT h' rs eq_refl).
        -- destruct HI as [HI|[]]. discriminate.
      * eapply IH; [| |exact HI]; [reflexivity|]. intros h3 r3 HE. discriminate.
Qed.
(** The shell prints every row of a result and every message, once and in order, and every table under the header given. *)
Theorem c114_table ymd h os : Forall (fun o => forall h, o <> WHeader h) os ->
  flat_map lines (wrun ymd new_writer (WHeader h :: os)) = flat_map (written ymd) os /\
  (forall h' rs, In (PTable h' rs) (wrun ymd new_writer (WHeader h :: os)) -> h' = h) /\
  (forall rows, os = map (fun r => WRow r.1 r.2) rows ->
     wrun ymd new_writer (WHeader h :: os) = [PTable h (map (fun r => cells ymd r.1 r.2) rows)]).
Proof.
  intros HF. cbn [wrun wstep]. unfold ensure_table. cbn [table headers app]. split; [|split].
  - rewrite wrun_lines by exact HF. reflexivity.
  - apply wrun_headers; [exact HF|reflexivity|]. intros h' rs HE. now injection HE.
  - intros rows ->. clear HF.
    assert (HG : forall acc, wrun ymd (Wr (Some (h, acc)) h) (map (fun r => WRow r.1 r.2) rows)
      = [PTable h (acc ++ map (fun r => cells ymd r.1 r.2) rows)]).
    { induction rows as [|r rows IH]; intros acc; cbn [map wrun].
      - rewrite app_nil_r. reflexivity.
      - cbn [wstep]. unfold ensure_table. cbn [table headers app]. rewrite IH, <- app_assoc. reflexivity. }
    apply HG.
Qed.
Print Assumptions c114_table.
(** Each cell of a row shows the value at its place, with the scale of its column. *)
Theorem c114_cells ymd schema vals : length (cells ymd schema vals) = length vals /\
  forall i v, vals !! i = Some v ->
    cells ymd schema vals !! i = Some (match schema !! i with Some c => show_in ymd c v | None => show ymd v end).
Proof.
  unfold cells. split; [apply imap_length|]. intros i v HV. rewrite list_lookup_imap, HV. reflexivity.
Qed.
Print Assumptions c114_cells.
Example c114_table_ex : let ymd := fun _ => None in
  wrun ymd new_writer [WHeader [txt "a"; txt "b"]; WRow [None; Some 1%nat] [Scalar (VInt 1) TInt; Scalar (VDec 1 1) TDec];
                       WMessage (txt "m"); WRow [] [Scalar VNull TInt]]
  = [PTable [txt "a"; txt "b"] [[txt "1"; txt "0.5"]]; PMessage (txt "m"); PTable [txt "a"; txt "b"] [[txt "NULL"]]].
Proof. vm_compute. reflexivity. Qed.
