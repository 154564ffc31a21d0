(** Specification of the calendar, independent of the model's algorithms.

    The calendar is defined by the Gregorian rules for the length of months and by
    counting days one at a time from 0001-01-01. *)
From Verif Require Import Py Iso.

(** A year is a leap year if it is a multiple of 4 but not of 100, or a multiple of 400. *)
Definition leap (y : Z) : bool :=
  ((y mod 4 =? 0) && negb (y mod 100 =? 0)) || (y mod 400 =? 0).
(** Thirty days hath September, ... *)
Definition month_length (is_leap : bool) (m : Z) : Z :=
  if (m =? 4) || (m =? 6) || (m =? 9) || (m =? 11) then 30
  else if m =? 2 then (if is_leap then 29 else 28)
  else 31.

Definition ymd : Type := Z * Z * Z.

(** The day after a given day, for a leap year rule [lp]. *)
Definition next_day (lp : Z -> bool) (x : ymd) : ymd :=
  let '(y, m, d) := x in
  if d <? month_length (lp y) m then (y, m, d + 1)
  else if m <? 12 then (y, m + 1, 1)
  else (y + 1, 1, 1).

(** [counted lp n0 n x]: x is the n-th day when 0001-01-01 is day number n0. *)
Inductive counted (lp : Z -> bool) (n0 : Z) : Z -> ymd -> Prop :=
| counted_first : counted lp n0 n0 (1, 1, 1)
| counted_next n x : counted lp n0 n x -> counted lp n0 (n + 1) (next_day lp x).

(** The n-th day of the Gregorian calendar, 0001-01-01 being day 1. *)
Definition gregorian : Z -> ymd -> Prop := counted leap 1.
(** The Julian calendar: every fourth year is a leap year, and 0001-01-03 in it is
    0001-01-01 in the Gregorian calendar (so its first day is day -1). *)
Definition julian : Z -> ymd -> Prop := counted (fun y => y mod 4 =? 0) (-1).

(** Days of the years 1 to 9999, those the code can represent. *)
Definition valid_ymd (y m d : Z) : Prop :=
  1 <= y <= 9999 /\ 1 <= m <= 12 /\ 1 <= d <= month_length (leap y) m.

(** The Date object with complete precision for a day. *)
Definition of_ymd (y m d : Z) : date :=
  mkDate (y / 100) (Some (y mod 100)) (Some m) None (Some d).

(** Days of the week, 1 is Monday; 0001-01-01 is a Monday. *)
Definition weekday (n : Z) : Z := (n - 1) mod 7 + 1.

(** ISO week dates: day n is in week w of year y if the Thursday of its week (Monday to
    Sunday) is in calendar year y and is the w-th Thursday of that year. *)
Definition iso_week (n y w wd : Z) : Prop :=
  wd = weekday n /\
  (exists m d, gregorian (n - wd + 4) (y, m, d)) /\
  (exists j, gregorian j (y, 1, 1) /\ w = (n - wd + 4 - j) / 7 + 1).

(** The number of days of year y up to and including a day: its ordinal. *)
Definition ordinal (y m d o : Z) : Prop :=
  exists j n, gregorian j (y, 1, 1) /\ gregorian n (y, m, d) /\ o = n - j + 1.

(** Dates of every precision: century, year, month, week and day. *)
Inductive valid_date : date -> Prop :=
| vd_century c : 0 <= c <= 99 -> valid_date (mkDate c None None None None)
| vd_year y : 1 <= y <= 9999 -> valid_date (mkDate (y / 100) (Some (y mod 100)) None None None)
| vd_month y m : 1 <= y <= 9999 -> 1 <= m <= 12 ->
    valid_date (mkDate (y / 100) (Some (y mod 100)) (Some m) None None)
| vd_week y w : 1 <= y <= 9999 -> (exists n wd, iso_week n y w wd) ->
    valid_date (mkDate (y / 100) (Some (y mod 100)) None (Some w) None)
| vd_day y m d : valid_ymd y m d -> valid_date (of_ymd y m d).

(** The chronological position of a date among the dates of its precision *)
Inductive position : date -> precision -> Z -> Prop :=
| pos_century c : position (mkDate c None None None None) PCentury c
| pos_year y : position (mkDate (y / 100) (Some (y mod 100)) None None None) PYear y
| pos_month y m : 1 <= m <= 12 ->
    position (mkDate (y / 100) (Some (y mod 100)) (Some m) None None) PMonth (12 * y + m)
| pos_week y w : 1 <= w <= 53 ->
    position (mkDate (y / 100) (Some (y mod 100)) None (Some w) None) PWeek (53 * y + w)
| pos_day y m d n : valid_ymd y m d -> gregorian n (y, m, d) -> position (of_ymd y m d) PComplete n.

(** Python's cmp on integers *)
Definition sign (a b : Z) : Z := match a ?= b with Lt => -1 | Eq => 0 | Gt => 1 end.

(** *** Times *)

(** Zones: none, UTC, or a direction with an offset of less than 24 hours in minutes. *)
Inductive zone_ok : option Z -> option Z -> Prop :=
| zone_none : zone_ok None None
| zone_utc : zone_ok (Some 0) (Some 0)
| zone_off z o : z = 1 \/ z = -1 -> 0 <= o < 1440 -> zone_ok (Some z) (Some o).

(** Times with hour, minute or second precision; 24 is only allowed for midnight, 60 is a
    leap second. *)
Inductive valid_time : time -> Prop :=
| vt_hour h zd zo : 0 <= h <= 24 -> zone_ok zd zo -> valid_time (mkTime h None None zd zo)
| vt_minute h m zd zo : 0 <= h < 24 /\ 0 <= m < 60 \/ h = 24 /\ m = 0 -> zone_ok zd zo ->
    valid_time (mkTime h (Some m) None zd zo)
| vt_second h m s zd zo : 0 <= h < 24 /\ 0 <= m < 60 /\ 0 <= s <= 60 \/ h = 24 /\ m = 0 /\ s = 0 ->
    zone_ok zd zo -> valid_time (mkTime h (Some m) (Some s) zd zo).

(** Seconds since the start of the day; missing components count as 0. *)
Definition zero_if_none (a : option Z) : Z := match a with Some x => x | None => 0 end.
Definition seconds_of (t : time) : Z :=
  t_hour t * 3600 + zero_if_none (t_minute t) * 60 + zero_if_none (t_second t).
(** Minutes ahead of UTC. *)
Definition zone_of (t : time) : option Z :=
  match t_zdir t, t_zoff t with Some z, Some o => Some (z * o) | _, _ => None end.

(** [local p i]: p shows i seconds since 0000-12-31T00:00:00 on the clock. *)
Definition local (p : timepoint) (i : Z) : Prop :=
  exists y m d n, p_date p = of_ymd y m d /\ valid_ymd y m d /\ gregorian n (y, m, d) /\
    i = 86400 * n + seconds_of (p_time p).
(** [instant p i]: the same in UTC. *)
Definition instant (p : timepoint) (i : Z) : Prop :=
  exists l z, local p l /\ zone_of (p_time p) = Some z /\ i = l - 60 * z.

(** Time points: a day of the years 1..9999 and a valid time. *)
Definition valid_tp (p : timepoint) : Prop :=
  (exists y m d, valid_ymd y m d /\ p_date p = of_ymd y m d) /\ valid_time (p_time p).

(** A plain complete time: no 24:00:00 and no leap second. *)
Definition plain_time (t : time) : Prop :=
  exists h m s zd zo, t = mkTime h (Some m) (Some s) zd zo /\
    0 <= h < 24 /\ 0 <= m < 60 /\ 0 <= s < 60 /\ zone_ok zd zo.

(** Valid durations: a non-empty prefix of years, months, days, hours, minutes and seconds,
    none negative. *)
Definition dur_of (c : list Z) : duration :=
  let g i := nth_error c i in mkDur (g 0%nat) (g 1%nat) (g 2%nat) (g 3%nat) (g 4%nat) (g 5%nat) None.

