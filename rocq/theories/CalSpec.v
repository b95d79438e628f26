(** * What rounding an instant to a calendar unit means

    An instant is a number of seconds since 1970-01-01 00:00:00 UTC, in the proleptic
    Gregorian calendar.  Nothing here refers to the program: the calendar is given by
    the closed formulas of the Gregorian rule and a table of month offsets. *)
From Coq Require Import ZArith List Bool Ascii String Lia.
Import ListNotations.
Local Open Scope Z_scope.

(** Every fourth year, except centuries that are not multiples of 400. *)
Definition leap (y : Z) : Prop := (y mod 4 = 0 /\ y mod 100 <> 0) \/ y mod 400 = 0.

(** How many of the years 1..n are leap years. *)
Definition leaps_until (n : Z) : Z := n / 4 - n / 100 + n / 400.

(** Days from 1970-01-01 to the first of January of [y]. *)
Definition year_day (y : Z) : Z := 365 * (y - 1970) + leaps_until (y - 1) - leaps_until 1969.

(** Days of a common year before the first of month 1..12. *)
Definition month_table : list Z := [0; 31; 59; 90; 120; 151; 181; 212; 243; 273; 304; 334].

Definition leap_day (y m : Z) : Z :=
  if ((2 <? m) && (((y mod 4 =? 0) && negb (y mod 100 =? 0)) || (y mod 400 =? 0)))%bool
  then 1 else 0.

(** The instant at which month [m] of year [y] begins. *)
Definition month_start (y m : Z) : Z :=
  86400 * (year_day y + nth (Z.to_nat (m - 1)) month_table 0 + leap_day y m).

Inductive unit_ := USecond | UMinute | UHour | UDay | UMonth | UYear.

(** [boundary u t]: at [t] a new unit [u] begins. *)
Definition boundary (u : unit_) (t : Z) : Prop :=
  match u with
  | USecond => True
  | UMinute => t mod 60 = 0
  | UHour => t mod 3600 = 0
  | UDay => t mod 86400 = 0
  | UMonth => exists y m, 1970 <= y /\ 1 <= m <= 12 /\ t = month_start y m
  | UYear => exists y, 1970 <= y /\ t = month_start y 1
  end.

(** FLOOR(t TO u): the last beginning of a unit not after [t]. *)
Definition is_floor (u : unit_) (t r : Z) : Prop :=
  boundary u r /\ r <= t /\ forall b, boundary u b -> b <= t -> b <= r.

(** CEIL(t TO u): the first beginning of a unit not before [t]. *)
Definition is_ceil (u : unit_) (t r : Z) : Prop :=
  boundary u r /\ t <= r /\ forall b, boundary u b -> t <= b -> r <= b.

(** The character [c] occurs in [s]. *)
Fixpoint has_char (c : ascii) (s : string) : bool :=
  match s with EmptyString => false | String a r => Ascii.eqb a c || has_char c r end.

(** Some fixed points of the calendar. *)
Example calendar_ex :
  month_start 2000 3 = 951868800 /\ month_start 2024 1 = 1704067200 /\
  month_start 2100 3 = 4107542400 /\ leap 2024 /\ ~ leap 2100.
Proof.
  split; [reflexivity|]. split; [reflexivity|]. split; [reflexivity|].
  split; [left; split; [reflexivity|discriminate]|].
  intros [[_ H]|H]; [apply H; reflexivity|discriminate H].
Qed.
