(** * C91, C92: rounding timestamps, reading their parts, comparing them *)
From Coq Require Import ZArith List Bool Ascii String Lia.
From Verif Require Import CalSpec CalModel CalProofs.
Import ListNotations.
Local Open Scope Z_scope.

(** The word after TO for each unit of the specification. *)
Definition field_of (u : unit_) : dfield :=
  match u with
  | USecond => DSecond | UMinute => DMinute | UHour => DHour
  | UDay => DDay | UMonth => DMonth | UYear => DYear
  end.

(** ** C91 *)

(** FLOOR(t TO unit) is the last beginning of that unit not after t: for seconds, minutes,
    hours and days whatever the timestamp the clock can represent, for months and years
    up to 2038-01-19 03:14:07.  Missing: months and years afterwards (refuted below). *)
Theorem c91_floor_partial : forall u ts,
  0 <= ts < 2 ^ 63 ->
  (u = UMonth \/ u = UYear -> ts < 2 ^ 31) ->
  exists r, cf_query Floor (KField (field_of u)) (CTs ts) = ROk (CTs r) /\ is_floor u ts r.
Proof.
  intros u ts Ht Hu. unfold cf_query, cf_parse, ceil_floor.
  destruct (Z.leb_spec (2 ^ 63) ts); [lia|].
  destruct u; cbn [field_of round_ts round_unit].
  - exists ts. split; [reflexivity|]. split; [exact I|]. split; [lia|]. intros b _ Hb; exact Hb.
  - exists (ts / 60 * 60). split; [reflexivity|]. apply unit_floor; lia.
  - exists (ts / 3600 * 3600). split; [reflexivity|]. apply unit_floor; lia.
  - exists (ts / 86400 * 86400). split; [reflexivity|]. apply unit_floor; lia.
  - assert (ts < 2 ^ 31) by (apply Hu; left; reflexivity).
    destruct (timestamp_to_date ts) as [y m] eqn:E.
    pose proof (timestamp_to_date_ok ts y m ltac:(lia) E) as (Hy & Hm & _).
    exists (date_to_timestamp y m). split; [reflexivity|].
    rewrite date_to_timestamp_ok by assumption. apply floor_month; [lia|exact E].
  - assert (ts < 2 ^ 31) by (apply Hu; right; reflexivity).
    destruct (timestamp_to_date ts) as [y m] eqn:E.
    pose proof (timestamp_to_date_ok ts y m ltac:(lia) E) as (Hy & Hm & _).
    exists (date_to_timestamp y 1). split; [reflexivity|].
    rewrite date_to_timestamp_ok by lia. apply floor_year with m; [lia|exact E].
Qed.
Print Assumptions c91_floor_partial.

(** 2024-02-29 12:34:56 floors to 2024-02-01. *)
Example c91_floor_ex :
  cf_query Floor (KField DMonth) (CTs 1709210096) = ROk (CTs (month_start 2024 2)) /\
  cf_query Floor (KField DHour) (CTs 1709210096) = ROk (CTs 1709208000).
Proof. split; vm_compute; reflexivity. Qed.

(** CEIL(t TO unit) is the first beginning of that unit not before t, when no unit begins
    at t itself.  Missing: timestamps at which one does, and 2038 (refuted below). *)
Theorem c91_ceil_partial : forall u ts,
  0 <= ts < 2 ^ 63 ->
  (u = UMonth \/ u = UYear -> ts < 2 ^ 31) ->
  u = USecond \/ ~ boundary u ts ->
  exists r, cf_query Ceil (KField (field_of u)) (CTs ts) = ROk (CTs r) /\ is_ceil u ts r.
Proof.
  intros u ts Ht Hu Hb. unfold cf_query, cf_parse, ceil_floor.
  destruct (Z.leb_spec (2 ^ 63) ts); [lia|].
  destruct u; cbn [field_of round_ts round_unit].
  - exists ts. split; [reflexivity|]. split; [exact I|]. split; [lia|]. intros b _ Hb'; exact Hb'.
  - exists ((ts / 60 + 1) * 60). split; [reflexivity|].
    destruct Hb as [Hb|Hb]; [discriminate Hb|]. apply unit_ceil; [lia|exact Hb].
  - exists ((ts / 3600 + 1) * 3600). split; [reflexivity|].
    destruct Hb as [Hb|Hb]; [discriminate Hb|]. apply unit_ceil; [lia|exact Hb].
  - exists ((ts / 86400 + 1) * 86400). split; [reflexivity|].
    destruct Hb as [Hb|Hb]; [discriminate Hb|]. apply unit_ceil; [lia|exact Hb].
  - assert (ts < 2 ^ 31) by (apply Hu; left; reflexivity).
    destruct Hb as [Hb|Hb]; [discriminate Hb|].
    destruct (timestamp_to_date ts) as [y m] eqn:E.
    pose proof (timestamp_to_date_ok ts y m ltac:(lia) E) as (Hy & Hm & _).
    exists (next_month y m). split.
    + unfold next_month. destruct (Z.eqb_spec m 12); rewrite date_to_timestamp_ok by lia; reflexivity.
    + apply ceil_month; [lia|exact E|]. intros ->. apply Hb. exists y, m.
      split; [lia|]. split; [lia|reflexivity].
  - assert (ts < 2 ^ 31) by (apply Hu; right; reflexivity).
    destruct Hb as [Hb|Hb]; [discriminate Hb|].
    destruct (timestamp_to_date ts) as [y m] eqn:E.
    pose proof (timestamp_to_date_ok ts y m ltac:(lia) E) as (Hy & Hm & _).
    exists (month_start (y + 1) 1). split.
    + rewrite date_to_timestamp_ok by lia. reflexivity.
    + apply ceil_year with m; [lia|exact E|]. intros ->. apply Hb. exists y.
      split; [lia|reflexivity].
Qed.
Print Assumptions c91_ceil_partial.

(** 2023-12-15 ceils to 2024-01-01 for both months and years. *)
Example c91_ceil_ex :
  cf_query Ceil (KField DMonth) (CTs 1702598400) = ROk (CTs (month_start 2024 1)) /\
  cf_query Ceil (KField DYear) (CTs 1702598400) = ROk (CTs (month_start 2024 1)) /\
  1702598400 mod 3600 = 0.
Proof. split; [vm_compute; reflexivity|]. split; vm_compute; reflexivity. Qed.

(** CEIL of every timestamp at which a minute, hour, day, month or year begins is the
    beginning of the next one instead of the timestamp itself. *)
Theorem c91_ceil_boundary_refuted : forall u ts,
  u <> USecond -> boundary u ts ->
  0 <= ts < 2 ^ 63 ->
  (u = UMonth \/ u = UYear -> ts < 2 ^ 31) ->
  is_ceil u ts ts /\
  exists r, cf_query Ceil (KField (field_of u)) (CTs ts) = ROk (CTs r) /\ ts < r /\
            ~ is_ceil u ts r.
Proof.
  intros u ts Hs Hb Ht Hu. split.
  { split; [exact Hb|]. split; [lia|]. intros b _ H; exact H. }
  assert (K : exists r, cf_query Ceil (KField (field_of u)) (CTs ts) = ROk (CTs r) /\ ts < r).
  { unfold cf_query, cf_parse, ceil_floor. destruct (Z.leb_spec (2 ^ 63) ts); [lia|].
    destruct u; cbn [field_of round_ts round_unit].
    - contradiction.
    - exists ((ts / 60 + 1) * 60). split; [reflexivity|]. apply next_le_ceil; lia.
    - exists ((ts / 3600 + 1) * 3600). split; [reflexivity|]. apply next_le_ceil; lia.
    - exists ((ts / 86400 + 1) * 86400). split; [reflexivity|]. apply next_le_ceil; lia.
    - assert (ts < 2 ^ 31) by (apply Hu; left; reflexivity).
      destruct (timestamp_to_date ts) as [y m] eqn:E.
      pose proof (timestamp_to_date_ok ts y m ltac:(lia) E) as (Hy & Hm & Hr).
      exists (next_month y m). split; [|lia].
      unfold next_month. destruct (Z.eqb_spec m 12); rewrite date_to_timestamp_ok by lia; reflexivity.
    - assert (ts < 2 ^ 31) by (apply Hu; right; reflexivity).
      destruct (timestamp_to_date ts) as [y m] eqn:E.
      pose proof (year_bounds ts y m ltac:(lia) E) as (Hy & Hr).
      exists (month_start (y + 1) 1). split; [|lia].
      rewrite date_to_timestamp_ok by lia. reflexivity. }
  destruct K as (r & E & Hr). exists r. split; [exact E|]. split; [exact Hr|].
  intros (_ & _ & Hmin). specialize (Hmin ts Hb ltac:(lia)). lia.
Qed.
Print Assumptions c91_ceil_boundary_refuted.

Example c91_ceil_boundary_ex :
  boundary UYear (month_start 2024 1) /\ month_start 2024 1 < 2 ^ 31 /\
  cf_query Ceil (KField DYear) (CTs (month_start 2024 1)) = ROk (CTs (month_start 2025 1)).
Proof.
  split; [exists 2024; split; [lia|reflexivity]|]. split; [reflexivity|]. vm_compute. reflexivity.
Qed.

(** From 2038-01-19 03:14:08 for 68 years, FLOOR TO MONTH and FLOOR TO YEAR answer 1970. *)
Theorem c91_2038_refuted : forall u ts,
  u = UMonth \/ u = UYear -> 2 ^ 31 <= ts < 2 ^ 32 ->
  cf_query Floor (KField (field_of u)) (CTs ts) = ROk (CTs 0) /\ ~ is_floor u ts 0.
Proof.
  intros u ts Hu Ht. split.
  - unfold cf_query, cf_parse, ceil_floor. destruct (Z.leb_spec (2 ^ 63) ts); [lia|].
    destruct Hu as [-> | ->]; cbn [field_of round_ts]; rewrite wrapped_date by exact Ht; reflexivity.
  - intros (_ & _ & Hmax).
    assert (Hb : boundary u (month_start 2038 1)).
    { destruct Hu as [-> | ->].
      - exists 2038, 1. split; [lia|]. split; [lia|reflexivity].
      - exists 2038. split; [lia|reflexivity]. }
    assert (E : month_start 2038 1 = 2145916800) by reflexivity.
    specialize (Hmax _ Hb). rewrite E in Hmax. lia.
Qed.
Print Assumptions c91_2038_refuted.

Example c91_2038_ex : 2 ^ 31 <= month_start 2050 7 < 2 ^ 32 /\
  cf_query Ceil (KField DYear) (CTs (month_start 2050 7)) = ROk (CTs (month_start 1971 1)).
Proof. split; [vm_compute; split; [discriminate|reflexivity]|]. vm_compute. reflexivity. Qed.

(** CEIL(x) and FLOOR(x), without TO and without a scale, are refused for every argument,
    and TO WEEK without a weekday panics. *)
Theorem c91_plain_refuted : forall op v,
  cf_query op KNone v = RErr /\ cf_query op (KWeek None) v = RPanic.
Proof. intros op v. split; reflexivity. Qed.
Print Assumptions c91_plain_refuted.

(** NULL stays NULL, and an integer is its own ceiling and floor at every scale that is
    not negative. *)
Theorem c91_integer_partial : forall op k v,
  (exists f, k = KField f) \/ (exists n, 0 <= n /\ k = KScale n) ->
  v = CNull \/ (exists i, v = CInt i) ->
  cf_query op k v = ROk v.
Proof.
  intros op k v [(f & ->)|(n & _ & ->)] [->|(i & ->)]; reflexivity.
Qed.
Print Assumptions c91_integer_partial.

(** A negative scale asks for tens or hundreds; the integer comes back unchanged. *)
Theorem c91_negative_scale_refuted : forall n i, n < 0 -> i mod 10 ^ (- n) <> 0 ->
  cf_query Floor (KScale n) (CInt i) = ROk (CInt i) /\ i <> i / 10 ^ (- n) * 10 ^ (- n).
Proof.
  intros n i Hn Hi. split; [reflexivity|]. intros E. apply Hi.
  assert (0 < 10 ^ (- n)) by (apply Z.pow_pos_nonneg; lia).
  rewrite E. apply Z.mod_mul. lia.
Qed.
Print Assumptions c91_negative_scale_refuted.

Example c91_negative_scale_ex : 1234 mod 10 ^ (- -2) <> 0 /\
  cf_query Floor (KScale (-2)) (CInt 1234) = ROk (CInt 1234).
Proof. split; [vm_compute; discriminate|reflexivity]. Qed.

(** ** C92 *)

(** EXTRACT of any field from any TIMESTAMP value fails: the value is turned into its
    number of seconds and that number is parsed as a date.  The only thing assumed of the
    date parser is that a text it accepts under "%Y-%m-%d ..." contains a dash. *)
Theorem c92_extract_refuted : forall int_text parse other f t,
  (forall s d, parse s = Some d -> has_char "-" s = true) ->
  extract int_text parse other f (CTs t) = RErr.
Proof.
  intros it parse other f t Hp. unfold extract. cbn [val_text].
  destruct (parse (u64_text t)) as [d|] eqn:E; [|reflexivity].
  apply Hp in E. rewrite u64_text_no_dash in E. discriminate E.
Qed.
Print Assumptions c92_extract_refuted.

(** A parser that reads one date, to show that EXTRACT works on that text. *)
Definition one_date (s : string) : option civil :=
  if String.eqb s "2024-02-29 12:34:56" then Some (mkCivil 2024 2 29 12 34 56) else None.

Example c92_extract_ex :
  (forall s d, one_date s = Some d -> has_char "-" s = true) /\
  extract (fun _ => ""%string) one_date cy XDay (CStr "2024-02-29 12:34:56") = ROk (CInt 29) /\
  extract (fun _ => ""%string) one_date cy XDay (CTs 1709210096) = RErr /\
  u64_text 1709210096 = "1709210096"%string.
Proof.
  split.
  { intros s d. unfold one_date. destruct (String.eqb_spec s "2024-02-29 12:34:56") as [->|Hn].
    - intros _. reflexivity.
    - intros E; discriminate E. }
  split; [reflexivity|]. split; reflexivity.
Qed.

(** On a text that is a date, EXTRACT gives the written component, and QUARTER the number
    of the three-month block that contains the month. *)
Theorem c92_extract_text_partial : forall int_text parse other s d,
  parse s = Some d -> 1 <= cmo d <= 12 ->
  extract int_text parse other XYear (CStr s) = ROk (CInt (cy d)) /\
  extract int_text parse other XMonth (CStr s) = ROk (CInt (cmo d)) /\
  extract int_text parse other XDay (CStr s) = ROk (CInt (cd d)) /\
  extract int_text parse other XHour (CStr s) = ROk (CInt (ch d)) /\
  extract int_text parse other XMinute (CStr s) = ROk (CInt (cmi d)) /\
  extract int_text parse other XSecond (CStr s) = ROk (CInt (cs d)) /\
  exists q, extract int_text parse other XQuarter (CStr s) = ROk (CInt q) /\
            1 <= q <= 4 /\ 3 * (q - 1) < cmo d <= 3 * q.
Proof.
  intros it parse other s d E Hm. unfold extract. cbn [val_text]. rewrite E. cbn [civil_field].
  split; [reflexivity|]. split; [reflexivity|]. split; [reflexivity|]. split; [reflexivity|].
  split; [reflexivity|]. split; [reflexivity|].
  exists ((cmo d - 1) / 3 + 1). split; [reflexivity|].
  generalize dependent (cmo d). intros m Hm. Z.to_euclidean_division_equations. lia.
Qed.
Print Assumptions c92_extract_text_partial.

Example c92_extract_text_ex :
  extract (fun _ => ""%string) one_date cy XQuarter (CStr "2024-02-29 12:34:56") = ROk (CInt 1).
Proof. reflexivity. Qed.

(** AT TIME ZONE fails for every TIMESTAMP value and every zone, although TIMESTAMP is the
    only type it accepts: an RFC 3339 text contains a dash, a number does not. *)
Theorem c92_at_time_zone_refuted : forall (I Zn : Type) int_text
    (zone : string -> option Zn) (parse : string -> option I) show t z,
  (forall s i, parse s = Some i -> has_char "-" s = true) ->
  at_time_zone int_text zone parse show (CTs t) z = RErr.
Proof.
  intros I Zn it zone parse show t z Hp. unfold at_time_zone.
  destruct (zone (val_text it z)) as [zn|]; [|reflexivity]. cbn [val_text].
  destruct (parse (u64_text t)) as [d|] eqn:E; [|reflexivity].
  apply Hp in E. rewrite u64_text_no_dash in E. discriminate E.
Qed.
Print Assumptions c92_at_time_zone_refuted.

Example c92_at_time_zone_ex :
  (forall s d, one_date s = Some d -> has_char "-" s = true) /\
  at_time_zone (fun _ => ""%string) (fun _ => Some tt) one_date (fun _ _ => "ok"%string)
    (CStr "2024-02-29 12:34:56") (CStr "UTC") = ROk (CStr "ok").
Proof. split; [exact (proj1 c92_extract_ex)|reflexivity]. Qed.

(** Two date texts at or after 1970 compare, as timestamps, in the order of the instants
    they denote. *)
Theorem c92_order_partial : forall num secs s1 s2 a b,
  num s1 = None -> num s2 = None -> secs s1 = Some a -> secs s2 = Some b ->
  0 <= a < 2 ^ 63 -> 0 <= b < 2 ^ 63 ->
  exists v1 v2, timestamp_literal num secs s1 = ROk v1 /\ timestamp_literal num secs s2 = ROk v2 /\
                ts_less v1 v2 = Some (a <? b).
Proof.
  intros num secs s1 s2 a b N1 N2 E1 E2 Ha Hb. unfold timestamp_literal.
  rewrite N1, N2, E1, E2. exists (CTs (as_u64 a)), (CTs (as_u64 b)).
  split; [reflexivity|]. split; [reflexivity|]. cbn [ts_less]. unfold as_u64.
  rewrite !Z.mod_small by lia. reflexivity.
Qed.
Print Assumptions c92_order_partial.

(** A date before 1970 compares greater than every date after it. *)
Theorem c92_before_1970_refuted : forall num secs s1 s2 a b,
  num s1 = None -> num s2 = None -> secs s1 = Some a -> secs s2 = Some b ->
  - 2 ^ 63 <= a < 0 -> 0 <= b < 2 ^ 63 ->
  exists v1 v2, timestamp_literal num secs s1 = ROk v1 /\ timestamp_literal num secs s2 = ROk v2 /\
                ts_less v1 v2 = Some false /\ ts_less v2 v1 = Some true /\ a < b.
Proof.
  intros num secs s1 s2 a b N1 N2 E1 E2 Ha Hb. unfold timestamp_literal.
  rewrite N1, N2, E1, E2. exists (CTs (as_u64 a)), (CTs (as_u64 b)).
  split; [reflexivity|]. split; [reflexivity|].
  assert (Ea : as_u64 a = a + 2 ^ 64).
  { unfold as_u64. replace a with (a + 2 ^ 64 + (-1) * 2 ^ 64) at 1 by lia.
    rewrite Z.mod_add by lia. rewrite Z.mod_small by lia. reflexivity. }
  assert (Eb : as_u64 b = b) by (unfold as_u64; rewrite Z.mod_small by lia; reflexivity).
  cbn [ts_less]. rewrite Ea, Eb.
  split; [f_equal; apply Z.ltb_ge; lia|]. split; [f_equal; apply Z.ltb_lt; lia|]. lia.
Qed.
Print Assumptions c92_before_1970_refuted.

Example c92_order_ex :
  let secs s := if String.eqb s "1969-07-20 20:17:40" then Some (-14182940)
                else if String.eqb s "2000-01-01 00:00:00" then Some 946684800 else None in
  let num (_ : string) := @None Z in
  timestamp_literal num secs "1969-07-20 20:17:40" = ROk (CTs 18446744073695368676) /\
  timestamp_literal num secs "2000-01-01 00:00:00" = ROk (CTs 946684800).
Proof. split; vm_compute; reflexivity. Qed.
