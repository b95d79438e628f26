(** * Proofs about the calendar arithmetic of CEIL and FLOOR *)
From Coq Require Import ZArith List Bool Ascii String Lia.
From Verif Require Import CalSpec CalModel.
Import ListNotations.
Local Open Scope Z_scope.

(** The specification's leap rule as a boolean. *)
Definition leapb (y : Z) : bool := ((y mod 4 =? 0) && negb (y mod 100 =? 0)) || (y mod 400 =? 0).

Lemma is_leap_leapb y : 0 <= y -> is_leap_year y = leapb y.
Proof.
  intros Hy. unfold is_leap_year, leapb.
  rewrite !Z.rem_mod_nonneg by lia.
  destruct (Z.eqb_spec (y mod 4) 0), (Z.eqb_spec (y mod 100) 0), (Z.eqb_spec (y mod 400) 0);
    try reflexivity; exfalso; Z.to_euclidean_division_equations; lia.
Qed.

Lemma year_len_bounds y : 365 <= year_len y <= 366.
Proof. unfold year_len. destruct (is_leap_year y); lia. Qed.

Lemma year_day_step y : 0 <= y -> year_day (y + 1) = year_day y + year_len y.
Proof.
  intros Hy. unfold year_day, year_len. rewrite is_leap_leapb by lia.
  unfold leapb, leaps_until. replace (y + 1 - 1) with y by lia.
  destruct (Z.eqb_spec (y mod 4) 0), (Z.eqb_spec (y mod 100) 0), (Z.eqb_spec (y mod 400) 0);
    cbn [andb orb negb]; Z.to_euclidean_division_equations; lia.
Qed.

Lemma year_day_1970 : year_day 1970 = 0.
Proof. reflexivity. Qed.

Lemma year_sum n : forall lo, 0 <= lo ->
  sum_from (fun y => year_len y * 86400) lo n = 86400 * (year_day (lo + Z.of_nat n) - year_day lo).
Proof.
  induction n as [|n IH]; intros lo Hlo.
  - cbn [sum_from]. replace (lo + Z.of_nat 0) with lo by lia. lia.
  - cbn [sum_from]. rewrite IH by lia.
    replace (lo + 1 + Z.of_nat n) with (lo + Z.of_nat (S n)) by lia.
    rewrite year_day_step by lia. lia.
Qed.

Lemma year_day_mono a b : 0 <= a -> a <= b -> year_day a <= year_day b.
Proof.
  intros Ha Hab. replace b with (a + Z.of_nat (Z.to_nat (b - a))) by lia.
  generalize (Z.to_nat (b - a)) as n. intros n. clear b Hab.
  induction n as [|n IH].
  - replace (a + Z.of_nat 0) with a by lia. lia.
  - replace (a + Z.of_nat (S n)) with (a + Z.of_nat n + 1) by lia.
    rewrite year_day_step by lia. pose proof (year_len_bounds (a + Z.of_nat n)). lia.
Qed.

(** Days of the year before month [m]. *)
Definition mo (y m : Z) : Z := nth (Z.to_nat (m - 1)) month_table 0 + leap_day y m.

Lemma month_start_mo y m : month_start y m = 86400 * (year_day y + mo y m).
Proof. unfold month_start, mo. lia. Qed.

Lemma mo_1 y : mo y 1 = 0.
Proof. reflexivity. Qed.

Lemma month_cases m : 1 <= m <= 12 ->
  m = 1 \/ m = 2 \/ m = 3 \/ m = 4 \/ m = 5 \/ m = 6 \/ m = 7 \/ m = 8 \/ m = 9 \/ m = 10
  \/ m = 11 \/ m = 12.
Proof. lia. Qed.

Lemma leap_day_eq y m : leap_day y m = if (2 <? m) && leapb y then 1 else 0.
Proof. reflexivity. Qed.

Ltac months H :=
  apply month_cases in H;
  repeat match type of H with _ \/ _ => destruct H as [H|H] end; subst.

Lemma mo_step y m : 0 <= y -> 1 <= m <= 11 -> mo y (m + 1) = mo y m + days_in_month y m.
Proof.
  intros Hy Hm. unfold mo, days_in_month. rewrite !leap_day_eq, is_leap_leapb by lia.
  assert (Hm' : 1 <= m <= 12) by lia.
  months Hm'; try lia; destruct (leapb y); reflexivity.
Qed.

Lemma mo_12 y : 0 <= y -> mo y 12 + 31 = year_len y.
Proof.
  intros Hy. unfold mo, year_len. rewrite leap_day_eq, is_leap_leapb by lia.
  destruct (leapb y); reflexivity.
Qed.

Lemma dim_pos y m : 28 <= days_in_month y m <= 31.
Proof.
  unfold days_in_month. destruct (_ || _ || _ || _); [lia|].
  destruct (m =? 2); [destruct (is_leap_year y)|]; lia.
Qed.

Lemma mo_mono y a b : 0 <= y -> 1 <= a -> a <= b -> b <= 12 -> mo y a <= mo y b.
Proof.
  intros Hy Ha Hab Hb. replace b with (a + Z.of_nat (Z.to_nat (b - a))) in * by lia.
  revert Hb. generalize (Z.to_nat (b - a)) as n. intros n. clear b Hab.
  induction n as [|n IH]; intros Hb.
  - replace (a + Z.of_nat 0) with a by lia. lia.
  - replace (a + Z.of_nat (S n)) with (a + Z.of_nat n + 1) by lia.
    rewrite mo_step by lia. pose proof (dim_pos y (a + Z.of_nat n)).
    specialize (IH ltac:(lia)). lia.
Qed.

Lemma mo_bounds y m : 0 <= y -> 1 <= m <= 12 -> 0 <= mo y m <= year_len y - 31.
Proof.
  intros Hy Hm. pose proof (mo_12 y Hy) as H12.
  pose proof (mo_mono y 1 m Hy ltac:(lia) ltac:(lia) ltac:(lia)) as H1. rewrite mo_1 in H1.
  pose proof (mo_mono y m 12 Hy ltac:(lia) ltac:(lia) ltac:(lia)) as H2. lia.
Qed.

Lemma month_sum y n : forall lo, 0 <= y -> 1 <= lo -> lo + Z.of_nat n <= 12 ->
  sum_from (fun m => days_in_month y m * 86400) lo n = 86400 * (mo y (lo + Z.of_nat n) - mo y lo).
Proof.
  induction n as [|n IH]; intros lo Hy Hlo Hn.
  - cbn [sum_from]. replace (lo + Z.of_nat 0) with lo by lia. lia.
  - cbn [sum_from]. rewrite IH by lia.
    replace (lo + 1 + Z.of_nat n) with (lo + Z.of_nat (S n)) by lia.
    rewrite mo_step by lia. lia.
Qed.

Lemma date_to_timestamp_ok y m : 1970 <= y -> 1 <= m <= 12 ->
  date_to_timestamp y m = month_start y m.
Proof.
  intros Hy Hm. unfold date_to_timestamp.
  rewrite year_sum, month_sum by lia. rewrite year_day_1970, mo_1, month_start_mo.
  replace (1970 + Z.of_nat (Z.to_nat (y - 1970))) with y by lia.
  replace (1 + Z.of_nat (Z.to_nat (m - 1))) with m by lia. lia.
Qed.

Lemma year_loop_ok fuel : forall days y0 d y, 1970 <= y0 -> 0 <= days < Z.of_nat fuel ->
  year_loop fuel days y0 = (d, y) ->
  1970 <= y /\ 0 <= d < year_len y /\ days + year_day y0 = d + year_day y.
Proof.
  induction fuel as [|fuel IH]; intros days y0 d y Hy0 Hd E; [lia|].
  cbn [year_loop] in E. destruct (Z.leb_spec (year_len y0) days).
  - apply IH in E.
    + destruct E as (E1 & E2 & E3). split; [exact E1|]. split; [exact E2|].
      rewrite <- E3. rewrite year_day_step by lia. lia.
    + lia.
    + pose proof (year_len_bounds y0). lia.
  - injection E as <- <-. split; [lia|]. split; [lia|]. lia.
Qed.

Lemma month_loop_ok fuel y : 0 <= y -> forall days m0 d m, 1 <= m0 <= 12 ->
  0 <= days < Z.of_nat fuel -> days + mo y m0 < year_len y ->
  month_loop fuel y days m0 = (d, m) ->
  1 <= m <= 12 /\ 0 <= d < days_in_month y m /\ days + mo y m0 = d + mo y m.
Proof.
  intros Hy. induction fuel as [|fuel IH]; intros days m0 d m Hm0 Hd Hlt E; [lia|].
  cbn [month_loop] in E. destruct (Z.leb_spec (days_in_month y m0) days).
  - assert (m0 <> 12).
    { intros ->. pose proof (mo_12 y Hy). unfold days_in_month in H. cbn in H. lia. }
    pose proof (dim_pos y m0).
    apply IH in E.
    + destruct E as (E1 & E2 & E3). split; [exact E1|]. split; [exact E2|].
      rewrite <- E3. rewrite mo_step by lia. lia.
    + lia.
    + lia.
    + rewrite mo_step by lia. lia.
  - injection E as <- <-. split; [lia|]. split; [lia|]. lia.
Qed.

(** The instant at which the month after month [m] of year [y] begins. *)
Definition next_month (y m : Z) : Z :=
  if m =? 12 then month_start (y + 1) 1 else month_start y (m + 1).

Lemma next_month_eq y m : 1970 <= y -> 1 <= m <= 12 ->
  next_month y m = month_start y m + 86400 * days_in_month y m.
Proof.
  intros Hy Hm. unfold next_month. destruct (Z.eqb_spec m 12) as [->|Hn].
  - rewrite !month_start_mo, mo_1, year_day_step by lia.
    pose proof (mo_12 y ltac:(lia)). assert (E : days_in_month y 12 = 31) by reflexivity. lia.
  - rewrite !month_start_mo, mo_step by lia. lia.
Qed.

Lemma as_i32_small t : 0 <= t < 2 ^ 31 -> as_i32 t = t.
Proof. intros H. unfold as_i32. rewrite Z.mod_small by lia. lia. Qed.

Lemma timestamp_to_date_ok ts y m : 0 <= ts < 2 ^ 31 -> timestamp_to_date ts = (y, m) ->
  1970 <= y /\ 1 <= m <= 12 /\ month_start y m <= ts < next_month y m.
Proof.
  intros Ht E. unfold timestamp_to_date in E. rewrite as_i32_small in E by exact Ht.
  rewrite Z.quot_div_nonneg in E by lia.
  destruct (year_loop _ _ _) as [d yr] eqn:Ey.
  assert (0 <= ts / 86400) by (apply Z.div_pos; lia).
  apply year_loop_ok in Ey as (Ey1 & Ey2 & Ey3); [|lia|lia].
  rewrite year_day_1970 in Ey3.
  destruct (month_loop _ _ _ _) as [d' mn] eqn:Em.
  apply month_loop_ok in Em as (Em1 & Em2 & Em3); [|lia|lia|lia|rewrite mo_1; lia].
  injection E as <- <-. split; [exact Ey1|]. split; [exact Em1|].
  rewrite next_month_eq by lia. rewrite month_start_mo. rewrite mo_1 in Em3.
  pose proof (Z.div_mod ts 86400 ltac:(lia)) as Hdm.
  pose proof (Z.mod_pos_bound ts 86400 ltac:(lia)) as Hmb.
  lia.
Qed.

(** Later months begin later. *)
Lemma month_start_later y m y' m' : 1970 <= y -> 1 <= m <= 12 -> 1970 <= y' -> 1 <= m' <= 12 ->
  (y < y' \/ (y = y' /\ m < m')) -> next_month y m <= month_start y' m'.
Proof.
  intros Hy Hm Hy' Hm' [Hlt|[-> Hlt]].
  - rewrite next_month_eq by lia. rewrite !month_start_mo.
    pose proof (year_day_mono (y + 1) y' ltac:(lia) ltac:(lia)) as Hmono.
    rewrite year_day_step in Hmono by lia.
    pose proof (mo_bounds y m ltac:(lia) Hm). pose proof (mo_bounds y' m' ltac:(lia) Hm').
    pose proof (dim_pos y m). lia.
  - unfold next_month. destruct (Z.eqb_spec m 12); [lia|].
    rewrite !month_start_mo. pose proof (mo_mono y' (m + 1) m' ltac:(lia) ltac:(lia) ltac:(lia) ltac:(lia)).
    lia.
Qed.

Lemma month_start_lt_next y m : 1970 <= y -> 1 <= m <= 12 -> month_start y m < next_month y m.
Proof.
  intros Hy Hm. rewrite next_month_eq by lia. pose proof (dim_pos y m). lia.
Qed.

(** Earlier or equal months begin no later. *)
Lemma month_start_le y m y' m' : 1970 <= y -> 1 <= m <= 12 -> 1970 <= y' -> 1 <= m' <= 12 ->
  ~ (y < y' \/ (y = y' /\ m < m')) -> month_start y' m' <= month_start y m.
Proof.
  intros Hy Hm Hy' Hm' Hn.
  destruct (Z.eq_dec y y') as [->|Hne].
  - destruct (Z.eq_dec m m') as [->|Hne]; [lia|].
    pose proof (month_start_later y' m' y' m ltac:(lia) Hm' ltac:(lia) Hm ltac:(lia)).
    pose proof (month_start_lt_next y' m' Hy' Hm'). lia.
  - pose proof (month_start_later y' m' y m ltac:(lia) Hm' ltac:(lia) Hm ltac:(lia)).
    pose proof (month_start_lt_next y' m' Hy' Hm'). lia.
Qed.

Lemma lex_dec y m y' m' : (y < y' \/ (y = y' /\ m < m')) \/ ~ (y < y' \/ (y = y' /\ m < m')).
Proof. lia. Qed.

Lemma next_month_boundary y m : 1970 <= y -> 1 <= m <= 12 -> boundary UMonth (next_month y m).
Proof.
  intros Hy Hm. cbn [boundary]. unfold next_month. destruct (Z.eqb_spec m 12).
  - exists (y + 1), 1. split; [lia|]. split; [lia|]. reflexivity.
  - exists y, (m + 1). split; [lia|]. split; [lia|]. reflexivity.
Qed.

Lemma floor_month ts y m : 0 <= ts < 2 ^ 31 -> timestamp_to_date ts = (y, m) ->
  is_floor UMonth ts (month_start y m).
Proof.
  intros Ht E. apply timestamp_to_date_ok in E as (Hy & Hm & Hb); [|exact Ht].
  split; [exists y, m; split; [lia|]; split; [lia|reflexivity]|]. split; [lia|].
  intros b (y' & m' & Hy' & Hm' & ->) Hle.
  destruct (lex_dec y m y' m') as [Hl|Hl].
  - pose proof (month_start_later y m y' m' Hy Hm Hy' Hm' Hl). lia.
  - apply month_start_le; assumption.
Qed.

Lemma ceil_month ts y m : 0 <= ts < 2 ^ 31 -> timestamp_to_date ts = (y, m) ->
  ts <> month_start y m -> is_ceil UMonth ts (next_month y m).
Proof.
  intros Ht E Hne. apply timestamp_to_date_ok in E as (Hy & Hm & Hb); [|exact Ht].
  split; [apply next_month_boundary; assumption|]. split; [lia|].
  intros b (y' & m' & Hy' & Hm' & ->) Hle.
  destruct (lex_dec y m y' m') as [Hl|Hl].
  - apply month_start_later; assumption.
  - pose proof (month_start_le y m y' m' Hy Hm Hy' Hm' Hl). lia.
Qed.

Lemma year_bounds ts y m : 0 <= ts < 2 ^ 31 -> timestamp_to_date ts = (y, m) ->
  1970 <= y /\ month_start y 1 <= ts < month_start (y + 1) 1.
Proof.
  intros Ht E. apply timestamp_to_date_ok in E as (Hy & Hm & Hb); [|exact Ht].
  split; [exact Hy|].
  assert (month_start y 1 <= month_start y m) by (apply month_start_le; lia).
  assert (next_month y m <= month_start (y + 1) 1) by (apply month_start_later; lia).
  lia.
Qed.

Lemma year_start_mono a b : 1970 <= a -> a <= b -> month_start a 1 <= month_start b 1.
Proof.
  intros Ha Hab. rewrite !month_start_mo, !mo_1. pose proof (year_day_mono a b ltac:(lia) Hab). lia.
Qed.

Lemma floor_year ts y m : 0 <= ts < 2 ^ 31 -> timestamp_to_date ts = (y, m) ->
  is_floor UYear ts (month_start y 1).
Proof.
  intros Ht E. apply year_bounds in E as (Hy & Hb); [|exact Ht].
  split; [exists y; split; [lia|reflexivity]|]. split; [lia|].
  intros b (y' & Hy' & ->) Hle.
  destruct (Z.le_gt_cases y' y); [apply year_start_mono; lia|].
  pose proof (year_start_mono (y + 1) y' ltac:(lia) ltac:(lia)). lia.
Qed.

Lemma ceil_year ts y m : 0 <= ts < 2 ^ 31 -> timestamp_to_date ts = (y, m) ->
  ts <> month_start y 1 -> is_ceil UYear ts (month_start (y + 1) 1).
Proof.
  intros Ht E Hne. apply year_bounds in E as (Hy & Hb); [|exact Ht].
  split; [exists (y + 1); split; [lia|reflexivity]|]. split; [lia|].
  intros b (y' & Hy' & ->) Hle.
  destruct (Z.le_gt_cases y' y).
  - pose proof (year_start_mono y' y ltac:(lia) ltac:(lia)). lia.
  - apply year_start_mono; lia.
Qed.

Lemma unit_floor n ts : 0 < n -> (ts / n * n) mod n = 0 /\ ts / n * n <= ts /\
  forall b, b mod n = 0 -> b <= ts -> b <= ts / n * n.
Proof.
  intros Hn. split; [apply Z.mod_mul; lia|].
  pose proof (Z.div_mod ts n ltac:(lia)). pose proof (Z.mod_pos_bound ts n Hn).
  split; [nia|]. intros b Hb Hle.
  apply Z.div_exact in Hb; [|lia]. pose proof (Z.div_le_mono b ts n Hn Hle). nia.
Qed.

Lemma unit_ceil n ts : 0 < n -> ts mod n <> 0 ->
  ((ts / n + 1) * n) mod n = 0 /\ ts <= (ts / n + 1) * n /\
  forall b, b mod n = 0 -> ts <= b -> (ts / n + 1) * n <= b.
Proof.
  intros Hn Hne. split; [apply Z.mod_mul; lia|].
  pose proof (Z.div_mod ts n ltac:(lia)). pose proof (Z.mod_pos_bound ts n Hn).
  split; [nia|]. intros b Hb Hle.
  apply Z.div_exact in Hb; [|lia].
  pose proof (Z.div_le_mono ts b n Hn Hle).
  assert (ts / n <> b / n) by nia. nia.
Qed.

Lemma next_le_ceil n ts : 0 < n -> ts < (ts / n + 1) * n.
Proof.
  intros Hn. pose proof (Z.div_mod ts n ltac:(lia)). pose proof (Z.mod_pos_bound ts n Hn). nia.
Qed.

(** ** After 2038 *)

Lemma wrapped_date ts : 2 ^ 31 <= ts < 2 ^ 32 -> timestamp_to_date ts = (1970, 1).
Proof.
  intros Ht. unfold timestamp_to_date.
  assert (E : as_i32 ts = ts - 2 ^ 32).
  { unfold as_i32. replace (ts + 2 ^ 31) with (ts - 2 ^ 31 + 1 * 2 ^ 32) by lia.
    rewrite Z.mod_add by lia. rewrite Z.mod_small by lia. lia. }
  rewrite E.
  assert (Hq : Z.quot (ts - 2 ^ 32) 86400 <= 0).
  { replace (ts - 2 ^ 32) with (- (2 ^ 32 - ts)) by lia. rewrite Z.quot_opp_l by lia.
    pose proof (Z.quot_pos (2 ^ 32 - ts) 86400 ltac:(lia) ltac:(lia)). lia. }
  revert Hq. generalize (Z.quot (ts - 2 ^ 32) 86400) as q. intros q Hq.
  cbn [year_loop]. destruct (Z.leb_spec (year_len 1970) q).
  - pose proof (year_len_bounds 1970). lia.
  - cbn [month_loop]. destruct (Z.leb_spec (days_in_month 1970 1) q); [|reflexivity].
    pose proof (dim_pos 1970 1). lia.
Qed.

(** ** The text of a timestamp *)

Lemma digit_not_dash d : (d < 10)%N -> Ascii.eqb (digit d) "-" = false.
Proof.
  intros Hd.
  assert (H : In d [0; 1; 2; 3; 4; 5; 6; 7; 8; 9]%N).
  { cbn [In]. lia. }
  cbn [In] in H.
  repeat match type of H with _ \/ _ => destruct H as [<-|H] end; try reflexivity. destruct H.
Qed.

Lemma digits_no_dash fuel : forall n acc, has_char "-" acc = false -> has_char "-" (digits fuel n acc) = false.
Proof.
  induction fuel as [|fuel IH]; intros n acc Ha; [exact Ha|]. cbn [digits].
  assert (Hd : has_char "-" (String (digit (n mod 10)) acc) = false).
  { cbn [has_char]. rewrite digit_not_dash by (apply N.mod_lt; discriminate). exact Ha. }
  destruct (n <? 10)%N; [exact Hd|]. apply IH. exact Hd.
Qed.

Lemma u64_text_no_dash t : has_char "-" (u64_text t) = false.
Proof. apply digits_no_dash. reflexivity. Qed.
