(** * CEIL and FLOOR of timestamps, EXTRACT, AT TIME ZONE, timestamp literals

    Models src/sql/execution/expressions/ceil_floor_expression.rs,
    extract_expression.rs, at_timezone_expression.rs, typed_string_expression.rs and
    the parts of src/sql/execution/expression_parser.rs that build them.  Machine
    integers are [Z] with the truncations written out.  Not modelled: DECIMAL
    arguments of CEIL and FLOOR (floating point), error texts. *)
From Coq Require Import ZArith List Bool Ascii String Lia.
Import ListNotations.
Local Open Scope Z_scope.

(** Result of evaluating or building an expression: a value, an error, or a panic. *)
Inductive res (A : Type) := ROk (a : A) | RErr | RPanic.
Arguments ROk {A} _.
Arguments RErr {A}.
Arguments RPanic {A}.

(** types_db/value.rs 11-34, enum Val, restricted: the four integer types are one,
    every type CEIL and FLOOR refuse is [COther]. *)
Inductive cval := CNull | CInt (i : Z) | CTs (t : Z) | CStr (s : string) | COther.

(** ceil_floor_expression.rs 16-20. *)
Inductive cfop := Ceil | Floor.

(** datetime_expression.rs 31-70: the fields CEIL and FLOOR distinguish; [DWeek] is
    Week(_), [DOther] stands for the remaining ones. *)
Inductive dfield := DYear | DMonth | DDay | DHour | DMinute | DSecond | DWeek | DOther.

(** ceil_floor_expression.rs 448-450; Rust's % truncates. *)
Definition is_leap_year (y : Z) : bool :=
  (Z.rem y 4 =? 0) && (negb (Z.rem y 100 =? 0) || (Z.rem y 400 =? 0)).

(** ceil_floor_expression.rs 452-459. *)
Definition days_in_month (y m : Z) : Z :=
  if (m =? 4) || (m =? 6) || (m =? 9) || (m =? 11) then 30
  else if m =? 2 then (if is_leap_year y then 29 else 28)
  else 31.

(** `if is_leap_year(year) { 366 } else { 365 }`, ceil_floor_expression.rs 468-469, 494. *)
Definition year_len (y : Z) : Z := if is_leap_year y then 366 else 365.

(** `x as i32`, ceil_floor_expression.rs 462. *)
Definition as_i32 (x : Z) : Z := (x + 2 ^ 31) mod 2 ^ 32 - 2 ^ 31.

(** `x as u64`, typed_string_expression.rs 63, 116, 127, 144. *)
Definition as_u64 (x : Z) : Z := x mod 2 ^ 64.

(** ceil_floor_expression.rs 468-471, the loop over years.  The fuel is the number of
    days, which is more than the loop can use. *)
Fixpoint year_loop (fuel : nat) (days year : Z) : Z * Z :=
  match fuel with
  | O => (days, year)
  | S f => if year_len year <=? days then year_loop f (days - year_len year) (year + 1)
           else (days, year)
  end.

(** ceil_floor_expression.rs 474-477, the loop over months. *)
Fixpoint month_loop (fuel : nat) (year days month : Z) : Z * Z :=
  match fuel with
  | O => (days, month)
  | S f => if days_in_month year month <=? days
           then month_loop f year (days - days_in_month year month) (month + 1)
           else (days, month)
  end.

(** ceil_floor_expression.rs 461-487, timestamp_to_date: year and month, the only
    components used.  Rust's / truncates. *)
Definition timestamp_to_date (ts : Z) : Z * Z :=
  let secs := as_i32 ts in
  let days := Z.quot secs 86400 in
  let '(d, year) := year_loop (S (Z.to_nat days)) days 1970 in
  let '(_, month) := month_loop (S (Z.to_nat d)) year d 1 in
  (year, month).

(** The sum of [f lo], ..., [f (lo + n - 1)]: the accumulating for loops below. *)
Fixpoint sum_from (f : Z -> Z) (lo : Z) (n : nat) : Z :=
  match n with O => 0 | S n' => f lo + sum_from f (lo + 1) n' end.

(** ceil_floor_expression.rs 489-506, date_to_timestamp, for day 1 at 00:00:00. *)
Definition date_to_timestamp (year month : Z) : Z :=
  sum_from (fun y => year_len y * 86400) 1970 (Z.to_nat (year - 1970))
  + sum_from (fun m => days_in_month year m * 86400) 1 (Z.to_nat (month - 1)).

(** ceil_floor_expression.rs 118-138: minutes, hours and days. *)
Definition round_unit (op : cfop) (n secs : Z) : Z :=
  match op with Ceil => (secs / n + 1) * n | Floor => secs / n * n end.

(** ceil_floor_expression.rs 113-177. *)
Definition round_ts (op : cfop) (f : dfield) (ts : Z) : res Z :=
  match f with
  | DSecond => ROk ts
  | DMinute => ROk (round_unit op 60 ts)
  | DHour => ROk (round_unit op 3600 ts)
  | DDay => ROk (round_unit op 86400 ts)
  | DMonth =>
      let '(year, month) := timestamp_to_date ts in
      ROk (match op with
           | Floor => date_to_timestamp year month
           | Ceil => if month =? 12 then date_to_timestamp (year + 1) 1
                     else date_to_timestamp year (month + 1)
           end)
  | DYear =>
      let '(year, _) := timestamp_to_date ts in
      ROk (match op with
           | Floor => date_to_timestamp year 1
           | Ceil => date_to_timestamp (year + 1) 1
           end)
  | DWeek | DOther => RErr
  end.

(** ceil_floor_expression.rs 68-199, evaluate, on the value of the argument.  The
    addition in line 110 panics when the instant does not fit the clock's i64. *)
Definition ceil_floor (op : cfop) (f : option dfield) (v : cval) : res cval :=
  match v with
  | CNull => ROk CNull
  | CInt i => ROk (CInt i)
  | CTs ts =>
      match f with
      | None => RErr
      | Some f =>
          if 2 ^ 63 <=? ts then RPanic
          else match round_ts op f ts with
               | ROk r => ROk (CTs r)
               | RErr => RErr
               | RPanic => RPanic
               end
      end
  | CStr _ | COther => RErr
  end.

(** What sqlparser hands over for the text between the parentheses: CEIL(x TO f),
    CEIL(x, n), and CEIL(x), which it represents as DateTimeField(NoDateTime). *)
Inductive cf_kind :=
| KField (f : dfield)         (* TO f, f other than WEEK *)
| KWeek (day : option string) (* TO WEEK or TO WEEK(MONDAY) *)
| KScale (n : Z)
| KNone.

(** expression_parser.rs 1069-1132 (CEIL) and 1134-1197 (FLOOR): the field and the
    scale with which the expression is built. *)
Definition cf_parse (k : cf_kind) : res (option dfield * option Z) :=
  match k with
  | KField f => ROk (Some f, None)
  | KWeek (Some _) => ROk (Some DWeek, None)
  | KWeek None => RPanic
  | KScale n => ROk (None, Some n)
  | KNone => RErr
  end.

(** CEIL(...) or FLOOR(...) from its text to its value. *)
Definition cf_query (op : cfop) (k : cf_kind) (v : cval) : res cval :=
  match cf_parse k with
  | ROk (f, _) => ceil_floor op f v
  | RErr => RErr
  | RPanic => RPanic
  end.

(** Decimal digits of a natural number, most significant first: Rust's u64::to_string. *)
Definition digit (d : N) : ascii := ascii_of_N (48 + d).
Fixpoint digits (fuel : nat) (n : N) (acc : string) : string :=
  match fuel with
  | O => acc
  | S f => let acc' := String (digit (N.modulo n 10)) acc in
           if N.ltb n 10 then acc' else digits f (N.div n 10) acc'
  end.
Definition u64_text (t : Z) : string := digits 20 (Z.to_N t) "".

(** types_db/value.rs 2252-2275 with timestamp_type.rs 175-184 and varlen_type.rs: the
    text of a value.  Integers are printed by an unspecified function. *)
Definition val_text (int_text : Z -> string) (v : cval) : string :=
  match v with
  | CNull => "NULL"
  | CInt i => int_text i
  | CTs t => u64_text t
  | CStr s => s
  | COther => "INVALID"
  end.

(** extract_expression.rs 16-29. *)
Inductive xfield := XYear | XMonth | XDay | XHour | XMinute | XSecond | XTimezone
                  | XQuarter | XOtherX.

(** A calendar date and time as chrono's NaiveDateTime gives it. *)
Record civil := mkCivil { cy : Z; cmo : Z; cd : Z; ch : Z; cmi : Z; cs : Z }.

(** extract_expression.rs 57-74; [other] is what chrono computes for the week, the day
    of the week or of the year, and the epoch. *)
Definition civil_field (other : civil -> Z) (f : xfield) (d : civil) : res Z :=
  match f with
  | XYear => ROk (cy d) | XMonth => ROk (cmo d) | XDay => ROk (cd d)
  | XHour => ROk (ch d) | XMinute => ROk (cmi d) | XSecond => ROk (cs d)
  | XQuarter => ROk ((cmo d - 1) / 3 + 1)
  | XOtherX => ROk (other d)
  | XTimezone => RErr
  end.

(** extract_expression.rs 81-91: EXTRACT(f FROM v).  [parse] is
    NaiveDateTime::parse_from_str with the format "%Y-%m-%d %H:%M:%S". *)
Definition extract (int_text : Z -> string) (parse : string -> option civil)
    (other : civil -> Z) (f : xfield) (v : cval) : res cval :=
  match parse (val_text int_text v) with
  | None => RErr
  | Some d => match civil_field other f d with
              | ROk i => ROk (CInt i)
              | RErr => RErr
              | RPanic => RPanic
              end
  end.

(** at_timezone_expression.rs 39-61: v AT TIME ZONE z.  [zone] is Tz::from_str and
    [parse] DateTime::parse_from_rfc3339; the instant is a pair of seconds and offset,
    and [show] renders it in a zone. *)
Definition at_time_zone {I Zn : Type} (int_text : Z -> string) (zone : string -> option Zn)
    (parse : string -> option I) (show : Zn -> I -> string) (v z : cval) : res cval :=
  match zone (val_text int_text z) with
  | None => RErr
  | Some zn => match parse (val_text int_text v) with
               | None => RErr
               | Some i => ROk (CStr (show zn i))
               end
  end.

(** typed_string_expression.rs 103-153, parse_timestamp: TIMESTAMP '...'.  [num] is
    str::parse::<u64>; [secs] the signed seconds since 1970 that the first chrono parser
    accepting the text yields. *)
Definition timestamp_literal (num : string -> option Z) (secs : string -> option Z)
    (s : string) : res cval :=
  match num s with
  | Some n => ROk (CTs n)
  | None => match secs s with
            | Some z => ROk (CTs (as_u64 z))
            | None => RErr
            end
  end.

(** types_db/value.rs 1457-1464: < on two timestamps, compared as u64. *)
Definition ts_less (a b : cval) : option bool :=
  match a, b with
  | CTs x, CTs y => Some (x <? y)
  | _, _ => None
  end.
