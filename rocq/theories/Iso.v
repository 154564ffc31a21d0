(** Model of pyslet/pyslet/iso8601.py: dates, times, time points, durations and the
    parser of their string forms.

    Simplifications: hours, minutes and seconds are integers (the float branches of Time
    and Duration, i.e. fractional last components, are not modelled: the parser model
    stops with [Unmodelled] at a decimal sign and [ndp] is always 0).  Python 2 lets
    [None] be compared with integers ([None] is smaller); [olt] models this. *)
From Verif Require Import Py.

(** *** Comparison of optional integers, as in Python 2: None < any integer. *)
Definition olt (a b : option Z) : bool :=
  match a, b with
  | None, None => false
  | None, Some _ => true
  | Some _, None => false
  | Some x, Some y => x <? y
  end.
Definition oeqb (a b : option Z) : bool :=
  match a, b with
  | None, None => true
  | Some x, Some y => x =? y
  | _, _ => false
  end.
(** [cmp(a,b)] *)
Definition ocmp (a b : option Z) : Z := if olt a b then -1 else if oeqb a b then 0 else 1.
(** [if x:] for an optional integer *)
Definition truthy (a : option Z) : bool :=
  match a with Some x => negb (x =? 0) | None => false end.
Definition is_none {A} (a : option A) : bool := match a with None => true | Some _ => false end.

(** *** iso8601.py 47-49: the tables *)
Definition MONTH_SIZES : list Z := [31;28;31;30;31;30;31;31;30;31;30;31].
Definition MONTH_SIZES_LEAPYEAR : list Z := [31;29;31;30;31;30;31;31;30;31;30;31].
Definition MONTH_OFFSETS : list Z := [0;31;59;90;120;151;181;212;243;273;304;334].

(** iso8601.py 51-64 LeapYear *)
Definition LeapYear (year : Z) : bool :=
  if negb (year mod 4 =? 0) then false
  else if negb (year mod 100 =? 0) then true
  else if negb (year mod 400 =? 0) then false
  else true.

Definition msizes (leap : bool) : list Z := if leap then MONTH_SIZES_LEAPYEAR else MONTH_SIZES.

(** iso8601.py 66-75 DayOfWeek; [month] is in 1..12 at every call (the table is indexed
    with month-1). *)
Definition DayOfWeek (year month day : Z) : Z :=
  let num := year * 365 in
  let num := num + year / 4 + 1 in
  let num := num - (year / 100 + 1) in
  let num := num + year / 400 + 1 in
  let num := if (month <? 3) && LeapYear year then num - 1 else num in
  (num + nth (Z.to_nat (month - 1)) MONTH_OFFSETS 0 + day + 4) mod 7 + 1.

(** iso8601.py 77-87 WeekCount *)
Definition WeekCount (year : Z) : Z :=
  let weekday := DayOfWeek year 1 1 in
  if weekday =? 4 then 53
  else if (weekday =? 3) && LeapYear year then 53
  else 52.

(** iso8601.py 109-120 Truncation *)
Inductive truncation : Set := TNo | TCentury | TDecade | TYear | TMonth | TWeek | THour | TMinute.

(** iso8601.py 123-133 Precision *)
Inductive precision : Set := PCentury | PYear | PMonth | PWeek | PHour | PMinute | PComplete.
Definition precision_eqb (a b : precision) : bool :=
  match a, b with
  | PCentury, PCentury | PYear, PYear | PMonth, PMonth | PWeek, PWeek
  | PHour, PHour | PMinute, PMinute | PComplete, PComplete => true
  | _, _ => false
  end.

(** *** iso8601.py 135-943 class Date.  The century is set in every constructed date. *)
Record date := mkDate {
  d_century : Z;
  d_year : option Z;
  d_month : option Z;
  d_week : option Z;
  d_day : option Z
}.

(** iso8601.py 878-881 Complete *)
Definition Complete (d : date) : bool := negb (is_none (d_day d)).

(** iso8601.py 858-876 LeapYear (method) *)
Definition LeapYear_m (century : Z) (year : option Z) : result bool :=
  match year with
  | None => Err DateTimeError
  | Some y => Ok (if negb (y mod 4 =? 0) then false
                  else if negb (y =? 0) then true
                  else if negb (century mod 4 =? 0) then false
                  else true)
  end.

(** iso8601.py 292-311 _AddCentury, _AddYear, _AddMonth.  The year and the month are set
    at every call. *)
Definition add_century (d : date) : result date :=
  if d_century d >=? 99 then Err ValueError
  else Ok (mkDate (d_century d + 1) (d_year d) (d_month d) (d_week d) (d_day d)).
Definition add_year (d : date) : result date :=
  match d_year d with
  | None => Err TypeError
  | Some y =>
      if y >=? 99 then add_century (mkDate (d_century d) (Some 0) (d_month d) (d_week d) (d_day d))
      else Ok (mkDate (d_century d) (Some (y + 1)) (d_month d) (d_week d) (d_day d))
  end.
Definition add_month (d : date) : result date :=
  match d_month d with
  | None => Err TypeError
  | Some m =>
      if m >=? 12 then add_year (mkDate (d_century d) (d_year d) (Some 1) (d_week d) (d_day d))
      else Ok (mkDate (d_century d) (d_year d) (Some (m + 1)) (d_week d) (d_day d))
  end.

(** iso8601.py 249-290 _SetFromCalendarDay *)
Definition SetFromCalendarDay (century year month day : option Z) (base : option date)
  : result date :=
  match century with
  | Some c => Ok (mkDate c year month None day)
  | None =>
      match base with
      | None => Err DateTimeError
      | Some b =>
          if negb (Complete b) then Err DateTimeError else
          let baseDay := if is_none day then None else d_day b in
          let baseMonth := if is_none day && is_none month then None else d_month b in
          let baseYear := d_year b in
          if is_none year then
            if is_none month then
              if is_none day then Err ValueError
              else
                let d := mkDate (d_century b) baseYear baseMonth None day in
                if olt day baseDay then add_month d else Ok d
            else
              let d := mkDate (d_century b) baseYear month None day in
              if olt month baseMonth || (oeqb month baseMonth && olt day baseDay)
              then add_year d else Ok d
          else
            let d := mkDate (d_century b) year month None day in
            if olt year baseYear ||
               (oeqb year baseYear &&
                (olt month baseMonth || (oeqb month baseMonth && olt day baseDay)))
            then add_century d else Ok d
      end
  end.

(** The loop of iso8601.py 349-355, 458-464, 812-818: subtract month sizes while the day
    exceeds them. *)
Fixpoint month_loop (sizes : list Z) (month day : Z) : Z * Z :=
  match sizes with
  | [] => (month, day)
  | m :: rest => if day >? m then month_loop rest (month + 1) (day - m) else (month, day)
  end.

Definition zsum (l : list Z) : Z := fold_left Z.add l 0.

(** iso8601.py 357-371 GetOrdinalDay *)
Definition GetOrdinalDay (d : date) : result (Z * option Z * option Z) :=
  match d_day d with
  | None =>
      if is_none (d_month d) && is_none (d_week d) then Ok (d_century d, d_year d, None)
      else Err DateTimeError
  | Some day =>
      leap <- LeapYear_m (d_century d) (d_year d) ;;
      match d_month d with
      | None => Err TypeError
      | Some month =>
          Ok (d_century d, d_year d,
              Some (fold_left Z.add (firstn (Z.to_nat (month - 1)) (msizes leap)) day))
      end
  end.

(** iso8601.py 316-355 _SetFromOrdinalDay *)
Definition SetFromOrdinalDay (century year ordinalDay : option Z) (base : option date)
  : result date :=
  match ordinalDay with
  | None => SetFromCalendarDay century year None None base
  | Some od =>
      d <- match century with
           | Some c => Ok (mkDate c year None None (Some od))
           | None =>
               match base with
               | None => Err DateTimeError
               | Some b =>
                   if negb (Complete b) then Err DateTimeError else
                   '(bc, by_, bod) <- GetOrdinalDay b ;;
                   if is_none year then
                     let d := mkDate bc by_ None None (Some od) in
                     if olt (Some od) bod then add_year d else Ok d
                   else
                     let d := mkDate bc year None None (Some od) in
                     if olt year by_ || (oeqb year by_ && olt (Some od) bod)
                     then add_century d else Ok d
               end
           end ;;
      leap <- LeapYear_m (d_century d) (d_year d) ;;
      let '(month, day) := month_loop (msizes leap) 1 od in
      Ok (mkDate (d_century d) (d_year d) (Some month) None (Some day))
  end.

(** iso8601.py 211-240 _SetFromAbsoluteDay *)
Definition SetFromAbsoluteDay (absDay : Z) : result date :=
  let quadCentury := 146097 in
  let century := 36524 in
  let quadYear := 1461 in
  let absDay := absDay - 1 in
  let absYear := 400 * (absDay / quadCentury) in
  let absDay := absDay mod quadCentury in
  let '(absYear, absDay) :=
    if absDay =? quadCentury - 1 then (absYear + 399, 365)
    else
      let absYear := absYear + 100 * (absDay / century) in
      let absDay := absDay mod century in
      let absYear := absYear + 4 * (absDay / quadYear) in
      let absDay := absDay mod quadYear in
      if absDay =? quadYear - 1 then (absYear + 3, 365)
      else (absYear + absDay / 365, absDay mod 365) in
  let absYear := absYear + 1 in
  SetFromOrdinalDay (Some (absYear / 100)) (Some (absYear mod 100)) (Some (absDay + 1)) None.

(** iso8601.py 242-247 GetAbsoluteDay *)
Definition GetAbsoluteDay (d : date) : result Z :=
  if negb (Complete d) then Err DateTimeError
  else match d_year d with
       | None => Err TypeError
       | Some y =>
           let absYear := d_century d * 100 + y - 1 in
           '(_, _, od) <- GetOrdinalDay d ;;
           match od with
           | None => Err TypeError
           | Some o => Ok (absYear / 4 - absYear / 100 + absYear / 400 + absYear * 365 + o)
           end
       end.

(** iso8601.py 480-520 GetWeekDay *)
Definition GetWeekDay (d : date) : result (Z * option Z * option Z * option Z * option Z) :=
  match d_day d with
  | None =>
      if truthy (d_week d) then
        match d_year d with
        | None => Err TypeError
        | Some y => Ok (d_century d, Some (y / 10), Some (y mod 10), d_week d, None)
        end
      else if is_none (d_month d) then
        match d_year d with
        | None => Ok (d_century d, None, None, None, None)
        | Some y => Ok (d_century d, Some (y / 10), Some (y mod 10), None, None)
        end
      else Err DateTimeError
  | Some day =>
      '(century, yr, od) <- GetOrdinalDay d ;;
      match yr, od, d_month d with
      | Some y, Some ordinalDay, Some month =>
          let year := y + century * 100 in
          let yearLength := if LeapYear year then 366 else 365 in
          let weekday := DayOfWeek year month day in
          let thursday := ordinalDay + 4 - weekday in
          let '(year, week) :=
            if thursday <? 1 then (year - 1, WeekCount (year - 1))
            else if thursday >? yearLength then (year + 1, 1)
            else
              let yearBase := 5 - DayOfWeek year 1 4 in
              (year, (ordinalDay - yearBase) / 7 + 1) in
          Ok (year / 100, Some ((year mod 100) / 10), Some (year mod 10), Some week, Some weekday)
      | _, _, _ => Err TypeError
      end
  end.

(** iso8601.py 473-478 _AddWeek *)
Definition add_week (d : date) : result date :=
  match d_week d, d_year d with
  | Some w, Some y =>
      if w >=? WeekCount (d_century d * 100 + y)
      then add_year (mkDate (d_century d) (d_year d) (d_month d) (Some 1) (d_day d))
      else Ok (mkDate (d_century d) (d_year d) (d_month d) (Some (w + 1)) (d_day d))
  | _, _ => Err TypeError
  end.

Definition out_of (lo hi : Z) (a : option Z) : bool :=
  match a with Some x => (x <? lo) || (x >? hi) | None => false end.

(** iso8601.py 434-471: the conversion of a week date with a weekday to calendar form *)
Definition week_to_calendar (d : date) : result date :=
  match d_day d with
  | None => Ok d
  | Some wd =>
      match d_year d, d_week d with
      | Some y, Some week =>
          let year := d_century d * 100 + y in
          if week >? WeekCount year then Err DateTimeError else
          let day := 4 - DayOfWeek year 1 4 + (week - 1) * 7 + wd in
          let '(year, day) :=
            if day <? 1 then
              let year := year - 1 in
              (year, if LeapYear year then day + 366 else day + 365)
            else
              let yearLength := if LeapYear year then 366 else 365 in
              if day >? yearLength then (year + 1, day - yearLength) else (year, day) in
          let '(month, day) := month_loop (msizes (LeapYear year)) 1 day in
          Ok (mkDate (year / 100) (Some (year mod 100)) (Some month) None (Some day))
      | _, _ => Err TypeError
      end
  end.

(** iso8601.py 373-471 _SetFromWeekDay *)
Definition SetFromWeekDay (century decade year week weekday : option Z) (base : option date)
  : result date :=
  if is_none weekday && is_none week then Err DateTimeError
  else if out_of 1 7 weekday then Err DateTimeError
  else if out_of 0 53 week then Err DateTimeError
  else if out_of 0 9 year then Err DateTimeError
  else if out_of 0 9 decade then Err DateTimeError
  else
    d <- match century with
         | Some c =>
             match decade, year with
             | Some dc, Some y => Ok (mkDate c (Some (dc * 10 + y)) None week weekday)
             | _, _ => Err TypeError
             end
         | None =>
             match base with
             | None => Err DateTimeError
             | Some b =>
                 if negb (Complete b) then Err DateTimeError else
                 '(bc, bdec, by_, bw, bwd0) <- GetWeekDay b ;;
                 let bwd := if is_none weekday then None else bwd0 in
                 match bdec, by_ with
                 | Some bdec, Some byear =>
                   match decade with
                   | None =>
                     match year with
                     | None =>
                         let y := Some (bdec * 10 + byear) in
                         match week with
                         | None =>
                             let d := mkDate bc y None bw weekday in
                             if is_none weekday then Err ValueError
                             else if olt weekday bwd then add_week d else Ok d
                         | Some _ =>
                             let d := mkDate bc y None week weekday in
                             if olt week bw || (oeqb week bw && olt weekday bwd)
                             then add_year d else Ok d
                         end
                     | Some y =>
                         if (y <? byear) ||
                            ((y =? byear) && (olt week bw || (oeqb week bw && olt weekday bwd)))
                         then Ok (mkDate bc (Some (y + (bdec + 1) * 10)) None week weekday)
                         else Ok (mkDate bc (Some (y + bdec * 10)) None week weekday)
                     end
                   | Some dc =>
                     match year with
                     | None => Err TypeError
                     | Some y =>
                         let yy := dc * 10 + y in
                         let by2 := byear + bdec * 10 in
                         let d := mkDate bc (Some yy) None week weekday in
                         if (yy <? by2) ||
                            ((yy =? by2) && (olt week bw || (oeqb week bw && olt weekday bwd)))
                         then add_century d else Ok d
                     end
                   end
                 | _, _ => Err TypeError
                 end
             end
         end ;;
    week_to_calendar d.

(** iso8601.py 822-856 _CheckDate *)
Definition CheckDate (d : date) : result date :=
  if (d_century d <? 0) || (d_century d >? 99) then Err DateTimeError
  else match d_year d with
  | None => Ok d
  | Some y =>
      if (y <? 0) || (y >? 99) then Err DateTimeError
      else if (y =? 0) && (d_century d =? 0) then Err DateTimeError
      else
        let year := d_century d * 100 + y in
        if truthy (d_week d) then
          match d_week d with
          | None => Ok d
          | Some w =>
              if (w <? 1) || (w >? WeekCount year) then Err DateTimeError
              else if negb (is_none (d_month d)) then Err DateTimeError
              else Ok d
          end
        else
          match d_month d with
          | None => Ok d
          | Some m =>
              if (m <? 1) || (m >? 12) then Err DateTimeError
              else match d_day d with
              | None => Ok d
              | Some day =>
                  if (day <? 1) || (day >? nth (Z.to_nat (m - 1)) (msizes (LeapYear year)) 0)
                  then Err DateTimeError else Ok d
              end
          end
  end.

(** The keyword arguments of Date.__init__ *)
Record dargs := mkArgs {
  a_century : option Z; a_decade : option Z; a_year : option Z; a_month : option Z;
  a_day : option Z; a_week : option Z; a_weekday : option Z; a_ordinalDay : option Z;
  a_absoluteDay : option Z; a_base : option date
}.

(** iso8601.py 179-209 Date.__init__ with src None *)
Definition Date (a : dargs) : result date :=
  d <- (if truthy (a_absoluteDay a) then
          match a_absoluteDay a with
          | Some n => SetFromAbsoluteDay n
          | None => Err TypeError
          end
        else if truthy (a_decade a) || truthy (a_week a) || truthy (a_weekday a) then
          SetFromWeekDay (a_century a) (a_decade a) (a_year a) (a_week a) (a_weekday a) (a_base a)
        else if truthy (a_ordinalDay a) then
          SetFromOrdinalDay (a_century a) (a_year a) (a_ordinalDay a) (a_base a)
        else if is_none (a_century a) && is_none (a_base a) then
          if negb (is_none (a_year a)) || negb (is_none (a_month a)) || negb (is_none (a_day a))
          then Err DateTimeError
          else Ok (mkDate 0 (Some 1) (Some 1) None (Some 1))
        else
          SetFromCalendarDay (a_century a) (a_year a) (a_month a) (a_day a) (a_base a)) ;;
  CheckDate d.

(** The usual calls of the constructor *)
Definition Date_calendar (century year month day : option Z) (base : option date) : result date :=
  Date (mkArgs century None year month day None None None None base).
Definition Date_ordinal (century year : option Z) (od : option Z) (base : option date) : result date :=
  Date (mkArgs century None year None None None None od None base).
Definition Date_week (century decade year week weekday : option Z) (base : option date) : result date :=
  Date (mkArgs century decade year None None week weekday None None base).
Definition Date_absolute (n : Z) : result date :=
  Date (mkArgs None None None None None None None None (Some n) None).

(** iso8601.py 544-564 Offset *)
Definition Offset (self : date) (centuries years months weeks days : Z) : result date :=
  d <- (if negb (days =? 0) || negb (weeks =? 0) then
          n <- GetAbsoluteDay self ;; Date_absolute (n + (days + 7 * weeks))
        else Ok self) ;;
  if negb (months =? 0) || negb (years =? 0) || negb (centuries =? 0) then
    match d_month d, d_year d with
    | Some dm, Some dy =>
        let month := dm + months in
        let '(years, month) := if month >? 12 then (years + (month - 1) / 12, (month - 1) mod 12 + 1)
                               else (years, month) in
        let year := dy + years in
        let '(centuries, year) := if year >? 99 then (centuries + year / 100, year mod 100)
                                  else (centuries, year) in
        Date_calendar (Some (d_century d + centuries)) (Some year) (Some month) (d_day self) None
    | _, _ => Err TypeError
    end
  else Ok d.

(** iso8601.py 883-904 GetPrecision *)
Definition GetPrecision (d : date) : precision :=
  match d_day d with
  | Some _ => PComplete
  | None =>
      match d_month d with
      | Some _ => PMonth
      | None =>
          match d_year d with
          | None => PCentury
          | Some _ => match d_week d with None => PYear | Some _ => PWeek end
          end
      end
  end.

(** iso8601.py 906-930 __cmp__ *)
Definition date_cmp (self other : date) : result Z :=
  if negb (precision_eqb (GetPrecision self) (GetPrecision other)) then Err ValueError
  else
    let result := ocmp (Some (d_century self)) (Some (d_century other)) in
    if negb (result =? 0) then Ok result else
    let result := ocmp (d_year self) (d_year other) in
    if negb (result =? 0) then Ok result else
    if negb (is_none (d_month self)) then
      let result := ocmp (d_month self) (d_month other) in
      if negb (result =? 0) then Ok result else Ok (ocmp (d_day self) (d_day other))
    else if negb (is_none (d_week self)) then Ok (ocmp (d_week self) (d_week other))
    else Ok result.

(** iso8601.py 773-784 FromJulian; [month] is in 1..12 *)
Definition FromJulian (year month day : Z) : result date :=
  let mSizes := if negb (year mod 4 =? 0) then MONTH_SIZES else MONTH_SIZES_LEAPYEAR in
  let year := year - 1 in
  let day := fold_left Z.add (firstn (Z.to_nat (month - 1)) mSizes) day in
  Date_absolute (year / 4 + year * 365 + day - 2).

(** iso8601.py 786-820 GetJulianDay *)
Definition GetJulianDay (d : date) : result (Z * Z * Z) :=
  let quadYear := 1461 in
  day <- GetAbsoluteDay d ;;
  let day := day + 1 in
  let year := 4 * (day / quadYear) in
  let day := day mod quadYear in
  let '(year, day) := if day =? quadYear - 1 then (year + 3, 365)
                      else (year + day / 365, day mod 365) in
  let year := year + 1 in
  let day := day + 1 in
  let mSizes := if negb (year mod 4 =? 0) then MONTH_SIZES else MONTH_SIZES_LEAPYEAR in
  let '(month, day) := month_loop mSizes 1 day in
  Ok (year, month, day).

(** *** Formatting.  [%02i], [%03i] and [%i] of a non-negative integer. *)
Definition digit (n : Z) : Z := 48 + n.
Fixpoint dec_fuel (fuel : nat) (n : Z) (acc : str) : str :=
  match fuel with
  | O => acc
  | S f => if n <? 10 then digit n :: acc else dec_fuel f (n / 10) (digit (n mod 10) :: acc)
  end.
Definition fmt (n : Z) : str := dec_fuel (S (Z.to_nat (Z.log2 n))) n [].
Definition pad (w : nat) (s : str) : str := repeat 48 (w - length s) ++ s.
Definition fmt2 (n : Z) : str := pad 2 (fmt n).
Definition fmt3 (n : Z) : str := pad 3 (fmt n).
(** [%02i] with a value that may be None raises TypeError *)
Definition ofmt (f : Z -> str) (a : option Z) : result str :=
  match a with Some n => Ok (f n) | None => Err TypeError end.

Definition hy : str := [45].
Definition chW : str := [87].

(** iso8601.py 603-665 GetCalendarString *)
Definition GetCalendarString (d : date) (basic : bool) (t : truncation) : result str :=
  match d_day d with
  | None =>
      match d_month d with
      | None =>
          if truthy (d_week d) then Err DateTimeError
          else match d_year d with
          | None => match t with TNo => Ok (fmt2 (d_century d)) | _ => Err ValueError end
          | Some y =>
              match t with
              | TNo => Ok (fmt2 (d_century d) ++ fmt2 y)
              | TCentury => Ok (hy ++ fmt2 y)
              | _ => Err ValueError
              end
          end
      | Some m =>
          match t with
          | TNo => y <- ofmt fmt2 (d_year d) ;; Ok (fmt2 (d_century d) ++ y ++ hy ++ fmt2 m)
          | TCentury => y <- ofmt fmt2 (d_year d) ;;
                        if basic then Ok (hy ++ y ++ fmt2 m) else Ok (hy ++ y ++ hy ++ fmt2 m)
          | TYear => Ok (hy ++ hy ++ fmt2 m)
          | _ => Err ValueError
          end
      end
  | Some day =>
      match t with
      | TNo => y <- ofmt fmt2 (d_year d) ;; m <- ofmt fmt2 (d_month d) ;;
               if basic then Ok (fmt2 (d_century d) ++ y ++ m ++ fmt2 day)
               else Ok (fmt2 (d_century d) ++ y ++ hy ++ m ++ hy ++ fmt2 day)
      | TCentury => y <- ofmt fmt2 (d_year d) ;; m <- ofmt fmt2 (d_month d) ;;
               if basic then Ok (y ++ m ++ fmt2 day)
               else Ok (y ++ hy ++ m ++ hy ++ fmt2 day)
      | TYear => m <- ofmt fmt2 (d_month d) ;;
               if basic then Ok (hy ++ hy ++ m ++ fmt2 day)
               else Ok (hy ++ hy ++ m ++ hy ++ fmt2 day)
      | TMonth => Ok (hy ++ hy ++ hy ++ fmt2 day)
      | _ => Err ValueError
      end
  end.

(** iso8601.py 667-702 GetOrdinalString *)
Definition GetOrdinalString (d : date) (basic : bool) (t : truncation) : result str :=
  '(century, year, od) <- GetOrdinalDay d ;;
  match od with
  | None => GetCalendarString d basic t
  | Some o =>
      match t with
      | TNo => y <- ofmt fmt2 year ;;
               if basic then Ok (fmt2 century ++ y ++ fmt3 o)
               else Ok (fmt2 century ++ y ++ hy ++ fmt3 o)
      | TCentury => y <- ofmt fmt2 year ;;
               if basic then Ok (y ++ fmt3 o) else Ok (y ++ hy ++ fmt3 o)
      | TYear => Ok (hy ++ fmt3 o)
      | _ => Err ValueError
      end
  end.

(** iso8601.py 704-771 GetWeekString *)
Definition GetWeekString (d : date) (basic : bool) (t : truncation) : result str :=
  '(century, decade, year, week, day) <- GetWeekDay d ;;
  match day with
  | None =>
      match week with
      | None => GetCalendarString d basic t
      | Some w =>
          match t with
          | TNo => dc <- ofmt fmt decade ;; y <- ofmt fmt year ;;
                   if basic then Ok (fmt2 century ++ dc ++ y ++ chW ++ fmt2 w)
                   else Ok (fmt2 century ++ dc ++ y ++ hy ++ chW ++ fmt2 w)
          | TCentury => dc <- ofmt fmt decade ;; y <- ofmt fmt year ;;
                   if basic then Ok (dc ++ y ++ chW ++ fmt2 w)
                   else Ok (dc ++ y ++ hy ++ chW ++ fmt2 w)
          | TDecade => y <- ofmt fmt year ;;
                   if basic then Ok (hy ++ y ++ chW ++ fmt2 w)
                   else Ok (hy ++ y ++ hy ++ chW ++ fmt2 w)
          | TYear => Ok (hy ++ chW ++ fmt2 w)
          | _ => Err ValueError
          end
      end
  | Some wd =>
      match t with
      | TNo => dc <- ofmt fmt decade ;; y <- ofmt fmt year ;; w <- ofmt fmt2 week ;;
               if basic then Ok (fmt2 century ++ dc ++ y ++ chW ++ w ++ fmt wd)
               else Ok (fmt2 century ++ dc ++ y ++ hy ++ chW ++ w ++ hy ++ fmt wd)
      | TCentury => dc <- ofmt fmt decade ;; y <- ofmt fmt year ;; w <- ofmt fmt2 week ;;
               if basic then Ok (dc ++ y ++ chW ++ w ++ fmt wd)
               else Ok (dc ++ y ++ hy ++ chW ++ w ++ hy ++ fmt wd)
      | TDecade => y <- ofmt fmt year ;; w <- ofmt fmt2 week ;;
               if basic then Ok (hy ++ y ++ chW ++ w ++ fmt wd)
               else Ok (hy ++ y ++ hy ++ chW ++ w ++ hy ++ fmt wd)
      | TYear => w <- ofmt fmt2 week ;;
               if basic then Ok (hy ++ chW ++ w ++ fmt wd)
               else Ok (hy ++ chW ++ w ++ hy ++ fmt wd)
      | TWeek => Ok (hy ++ chW ++ hy ++ fmt wd)
      | _ => Err ValueError
      end
  end.

(** *** The parser.  [theChar] is the first character of the remaining text (None at the
    end), NextChar drops it. *)
Definition P (A : Type) := str -> result (A * str).
Definition ret {A} (a : A) : P A := fun s => Ok (a, s).
Definition pbind {A B} (p : P A) (k : A -> P B) : P B :=
  fun s => match p s with Ok (a, s') => k a s' | Err e => Err e end.
Definition pfail {A} (e : exn) : P A := fun _ => Err e.
Definition plift {A} (r : result A) : P A :=
  fun s => match r with Ok a => Ok (a, s) | Err e => Err e end.
Notation "x <== e ;;; k" := (pbind e (fun x => k)) (at level 61, e at next level, right associativity).
Notation "' p <== e ;;; k" := (pbind e (fun p => k))
  (at level 61, p pattern, e at next level, right associativity).

(** rfc2234.py 274-275 IsDIGIT *)
Definition IsDIGIT (c : Z) : bool := (c >=? 48) && (c <=? 57).
Definition if_digit {A} (p q : P A) : P A :=
  fun s => match s with c :: _ => if IsDIGIT c then p s else q s | [] => q s end.
(** [if self.theChar==x: self.NextChar(); p else: q] *)
Definition if_char {A} (x : Z) (p q : P A) : P A :=
  fun s => match s with c :: s' => if c =? x then p s' else q s | [] => q s end.
(** rfc2234.py 368-374 ParseDIGIT *)
Definition ParseDIGIT : P Z :=
  fun s => match s with
           | c :: s' => if IsDIGIT c then Ok (c - 48, s') else Err SyntaxError
           | [] => Err SyntaxError
           end.
(** [v=p.ParseDIGIT(); v=v*10+p.ParseDIGIT()] *)
Definition ParseDIGIT2 : P Z := v <== ParseDIGIT ;;; w <== ParseDIGIT ;;; ret (v * 10 + w).
(** [v=v*10+p.ParseDIGIT()] *)
Definition more (v : Z) : P Z := w <== ParseDIGIT ;;; ret (v * 10 + w).

Definition mkfmt {A} (f : string) (r : result A) : P (A * str) := plift (a <- r ;; Ok (a, lit f)).

(** iso8601.py 2703-2892 ParseDateFormat *)
Definition ParseDateFormat (base : option date) : P (date * str) :=
  if_digit
    (v1 <== ParseDIGIT2 ;;;
     if_digit
       (v2 <== ParseDIGIT2 ;;;
        if_digit
          (v3 <== ParseDIGIT ;;;
           if_digit
             (v3 <== more v3 ;;;
              if_digit
                (v4 <== ParseDIGIT ;;;
                 if_digit
                   (v4 <== more v4 ;;;
                    mkfmt "YYYYMMDD" (Date_calendar (Some v1) (Some v2) (Some v3) (Some v4) base))
                   (mkfmt "YYYYDDD" (Date_ordinal (Some v1) (Some v2) (Some (v3 * 10 + v4)) base)))
                (mkfmt "YYMMDD" (Date_calendar None (Some v1) (Some v2) (Some v3) base)))
             (mkfmt "YYDDD" (Date_ordinal None (Some v1) (Some (v2 * 10 + v3)) base)))
          (if_char 45
            (if_digit
               (v3 <== ParseDIGIT2 ;;;
                if_digit
                  (v3 <== more v3 ;;;
                   mkfmt "YYYY-DDD" (Date_ordinal (Some v1) (Some v2) (Some v3) base))
                  (if_char 45
                     (v4 <== ParseDIGIT2 ;;;
                      mkfmt "YYYY-MM-DD"
                        (Date_calendar (Some v1) (Some v2) (Some v3) (Some v4) base))
                     (mkfmt "YYYY-MM" (Date_calendar (Some v1) (Some v2) (Some v3) None base))))
               (if_char 87
                  (v3 <== ParseDIGIT2 ;;;
                   if_char 45
                     (v4 <== ParseDIGIT ;;;
                      mkfmt "YYYY-Www-D"
                        (Date_week (Some v1) (Some (v2 / 10)) (Some (v2 mod 10)) (Some v3) (Some v4) base))
                     (mkfmt "YYYY-Www"
                        (Date_week (Some v1) (Some (v2 / 10)) (Some (v2 mod 10)) (Some v3) None base)))
                  (pfail SyntaxError)))
            (if_char 87
               (v3 <== ParseDIGIT2 ;;;
                if_digit
                  (v4 <== ParseDIGIT ;;;
                   mkfmt "YYYYWwwD"
                     (Date_week (Some v1) (Some (v2 / 10)) (Some (v2 mod 10)) (Some v3) (Some v4) base))
                  (mkfmt "YYYYWww"
                     (Date_week (Some v1) (Some (v2 / 10)) (Some (v2 mod 10)) (Some v3) None base)))
               (mkfmt "YYYY" (Date_calendar (Some v1) (Some v2) None None base)))))
       (if_char 45
          (if_digit
             (v2 <== ParseDIGIT2 ;;;
              if_digit
                (v2 <== more v2 ;;; mkfmt "YY-DDD" (Date_ordinal None (Some v1) (Some v2) base))
                (if_char 45
                   (v3 <== ParseDIGIT2 ;;;
                    mkfmt "YY-MM-DD" (Date_calendar None (Some v1) (Some v2) (Some v3) base))
                   (pfail SyntaxError)))
             (if_char 87
                (v2 <== ParseDIGIT2 ;;;
                 if_char 45
                   (v3 <== ParseDIGIT ;;;
                    mkfmt "YY-Www-D"
                      (Date_week None (Some (v1 / 10)) (Some (v1 mod 10)) (Some v2) (Some v3) base))
                   (mkfmt "YY-Www"
                      (Date_week None (Some (v1 / 10)) (Some (v1 mod 10)) (Some v2) None base)))
                (pfail SyntaxError)))
          (if_char 87
             (v2 <== ParseDIGIT2 ;;;
              if_digit
                (v3 <== ParseDIGIT ;;;
                 mkfmt "YYWwwD"
                   (Date_week None (Some (v1 / 10)) (Some (v1 mod 10)) (Some v2) (Some v3) base))
                (mkfmt "YYWww"
                   (Date_week None (Some (v1 / 10)) (Some (v1 mod 10)) (Some v2) None base)))
             (mkfmt "YY" (Date_calendar (Some v1) None None None base)))))
    (if_char 45
       (if_digit
          (v1 <== ParseDIGIT ;;;
           if_digit
             (v1 <== more v1 ;;;
              if_digit
                (v2 <== ParseDIGIT ;;;
                 if_digit
                   (v2 <== more v2 ;;;
                    mkfmt "-YYMM" (Date_calendar None (Some v1) (Some v2) None base))
                   (mkfmt "-DDD" (Date_ordinal None None (Some (v1 * 10 + v2)) base)))
                (if_char 45
                   (v2 <== ParseDIGIT2 ;;;
                    mkfmt "-YY-MM" (Date_calendar None (Some v1) (Some v2) None base))
                   (mkfmt "-YY" (Date_calendar None (Some v1) None None base))))
             (if_char 45
                (if_char 87
                   (v2 <== ParseDIGIT2 ;;;
                    if_char 45
                      (v3 <== ParseDIGIT ;;;
                       mkfmt "-Y-Www-D" (Date_week None None (Some v1) (Some v2) (Some v3) base))
                      (mkfmt "-Y-Www" (Date_week None None (Some v1) (Some v2) None base)))
                   (pfail SyntaxError))
                (if_char 87
                   (v2 <== ParseDIGIT2 ;;;
                    if_digit
                      (v3 <== ParseDIGIT ;;;
                       mkfmt "-YWwwD" (Date_week None None (Some v1) (Some v2) (Some v3) base))
                      (mkfmt "-YWww" (Date_week None None (Some v1) (Some v2) None base)))
                   (* falls off the end: the caller unpacks None *)
                   (pfail TypeError))))
          (if_char 45
             (if_digit
                (v1 <== ParseDIGIT2 ;;;
                 if_digit
                   (v2 <== ParseDIGIT2 ;;;
                    mkfmt "--MMDD" (Date_calendar None None (Some v1) (Some v2) base))
                   (if_char 45
                      (v2 <== ParseDIGIT2 ;;;
                       mkfmt "--MM-DD" (Date_calendar None None (Some v1) (Some v2) base))
                      (mkfmt "--MM" (Date_calendar None None (Some v1) None base))))
                (if_char 45
                   (v1 <== ParseDIGIT2 ;;;
                    mkfmt "---DD" (Date_calendar None None None (Some v1) base))
                   (pfail SyntaxError)))
             (if_char 87
                (if_digit
                   (v1 <== ParseDIGIT2 ;;;
                    if_digit
                      (v2 <== ParseDIGIT ;;;
                       mkfmt "-WwwD" (Date_week None None None (Some v1) (Some v2) base))
                      (if_char 45
                         (v2 <== ParseDIGIT ;;;
                          mkfmt "-Www-D" (Date_week None None None (Some v1) (Some v2) base))
                         (mkfmt "-Www" (Date_week None None None (Some v1) None base))))
                   (if_char 45
                      (v1 <== ParseDIGIT ;;;
                       mkfmt "-W-D" (Date_week None None None None (Some v1) base))
                      (pfail SyntaxError)))
                (pfail SyntaxError))))
       (pfail SyntaxError)).

(** iso8601.py 567-587 Date.FromStringFormat, Date.FromString: the parser's position at
    the end is not checked. *)
Definition Date_FromStringFormat (src : str) (base : option date) : result (date * str) :=
  match ParseDateFormat base src with Ok (r, _) => Ok r | Err e => Err e end.
Definition Date_FromString (src : str) (base : option date) : result date :=
  '(d, _) <- Date_FromStringFormat src base ;; Ok d.

(** *** iso8601.py 1026-1753 class Time *)
Record time := mkTime {
  t_hour : Z;
  t_minute : option Z;
  t_second : option Z;
  t_zdir : option Z;
  t_zoff : option Z
}.

(** iso8601.py 1692-1716 _CheckTime *)
Definition CheckTime (t : time) : result time :=
  if match t_zdir t with
     | Some z => (z <? -1) || (z >? 1) ||
                 (negb (z =? 0) && match t_zoff t with None => true | Some o => o >=? 1440 end)
     | None => false
     end then Err DateTimeError
  else if (t_hour t <? 0) || (t_hour t >? 24) then Err DateTimeError
  else if (t_hour t =? 24) &&
          (match t_minute t with Some m => m >? 0 | None => false end ||
           match t_second t with Some s => s >? 0 | None => false end) then Err DateTimeError
  else match t_minute t with
  | None => Ok t
  | Some m =>
      if (m <? 0) || (m >? 59) then Err DateTimeError
      else match t_second t with
      | None => Ok t
      | Some s => if (s <? 0) || (s >=? 61) then Err DateTimeError else Ok t
      end
  end.

(** iso8601.py 1124-1139 _SetFromValues *)
Definition SetFromValues (hour : Z) (minute second zDirection zHour zMinute : option Z)
  : result time :=
  match zDirection with
  | None => Ok (mkTime hour minute second None None)
  | Some z =>
      if z =? 0 then Ok (mkTime hour minute second (Some z) (Some 0))
      else match zHour with
      | None => Err DateTimeError
      | Some zh =>
          match zMinute with
          | None => Ok (mkTime hour minute second (Some z) (Some (zh * 60)))
          | Some zm => Ok (mkTime hour minute second (Some z) (Some (zh * 60 + zm)))
          end
      end
  end.

(** iso8601.py 1074-1100 Time.__init__ with src and totalSeconds None.  With no component
    at all it is 00:00:00 without zone; a missing hour is refused by _CheckTime
    (iso8601.py 1700). *)
Definition Time (hour minute second zDirection zHour zMinute : option Z) : result time :=
  match hour with
  | None =>
      if is_none minute && is_none second then Ok (mkTime 0 (Some 0) (Some 0) None None)
      else Err DateTimeError
  | Some h => t <- SetFromValues h minute second zDirection zHour zMinute ;; CheckTime t
  end.

(** iso8601.py 1637-1645 Complete; 1647-1659 GetPrecision *)
Definition t_Complete (t : time) : bool := negb (is_none (t_minute t)) && negb (is_none (t_second t)).
Definition t_GetPrecision (t : time) : precision :=
  match t_second t with
  | Some _ => PComplete
  | None => match t_minute t with Some _ => PMinute | None => PHour end
  end.

(** iso8601.py 1113-1122 GetTotalSeconds *)
Definition GetTotalSeconds (t : time) : result Z :=
  match t_minute t, t_second t with
  | Some m, Some s =>
      if s =? 60 then Ok (59 + m * 60 + t_hour t * 3600)
      else Ok (s + m * 60 + t_hour t * 3600)
  | _, _ => Err DateTimeError
  end.

(** iso8601.py 1156-1164 GetZoneOffset *)
Definition GetZoneOffset (t : time) : result (option Z) :=
  match t_zdir t with
  | None => Ok None
  | Some z => match t_zoff t with Some o => Ok (Some (z * o)) | None => Err TypeError end
  end.

(** iso8601.py 1166-1181 GetZone3 *)
Definition GetZone3 (t : time) : result (option Z * option Z * option Z) :=
  match t_zdir t with
  | None => Ok (None, None, None)
  | Some z =>
      if z =? 0 then Ok (Some z, Some 0, Some 0)
      else match t_zoff t with
      | None => Err TypeError
      | Some o => Ok (Some z, Some (o / 60), Some (o mod 60))
      end
  end.

(** iso8601.py 1257-1312 Time.Offset (integer arguments) *)
Definition t_Offset (self : time) (hours minutes seconds : Z) : result (time * Z) :=
  '(minutes, second) <-
    (if negb (seconds =? 0) then
       match t_second self with
       | None => Err DateTimeError
       | Some s => let s := s + seconds in Ok (minutes + s / 60, Some (s mod 60))
       end
     else Ok (minutes, t_second self)) ;;
  '(hours, minute) <-
    (if negb (minutes =? 0) then
       match t_minute self with
       | None => Err DateTimeError
       | Some m => let m := m + minutes in Ok (hours + m / 60, Some (m mod 60))
       end
     else Ok (hours, t_minute self)) ;;
  let '(days, hour) :=
    if negb (hours =? 0) then
      let h := t_hour self + hours in (h / 24, h mod 24)
    else (0, t_hour self) in
  '(zd, zh, zm) <- GetZone3 self ;;
  t <- Time (Some hour) minute second zd zh zm ;;
  Ok (t, days).

(** iso8601.py 1104-1111 _SetFromTotalSeconds, through Time(totalSeconds=...) *)
Definition Time_totalSeconds (n : Z) : result time :=
  '(t, overflow) <- t_Offset (mkTime 0 (Some 0) (Some 0) None None) 0 0 n ;;
  if negb (overflow =? 0) then Err DateTimeError
  else Ok (mkTime (t_hour t) (t_minute t) (t_second t) None None).

(** iso8601.py 1205-1255 Extend *)
Definition Extend (self : time) (hour minute second : option Z) : result (time * Z) :=
  if negb (t_Complete self) then Err NameError  (* the message uses an undefined name *)
  else
    '(newHour, newMinute, newSecond, addHour, addMinute) <-
      (match hour with
       | Some h => Ok (h, minute, second, 0, 0)
       | None =>
           let baseSecond := if is_none second then None else t_second self in
           let baseMinute := if is_none second && is_none minute then None else t_minute self in
           let newHour := t_hour self in
           if is_none minute then
             if is_none second then Err ValueError
             else Ok (newHour, baseMinute, second, 0, if olt second baseSecond then 1 else 0)
           else
             Ok (newHour, minute, second,
                 (if olt minute baseMinute || (oeqb minute baseMinute && olt second baseSecond)
                  then 1 else 0), 0)
       end) ;;
    '(zd, zh, zm) <- GetZone3 self ;;
    newTime <- Time (Some newHour) newMinute newSecond zd zh zm ;;
    if negb (addHour =? 0) || negb (addMinute =? 0) then t_Offset newTime addHour addMinute 0
    else Ok (newTime, 0).

(** iso8601.py 1314-1319 WithZone *)
Definition t_WithZone (self : time) (zDirection zHour zMinute : option Z) : result time :=
  Time (Some (t_hour self)) (t_minute self) (t_second self) zDirection zHour zMinute.

(** iso8601.py 1321-1364 ShiftZone *)
Definition t_ShiftZone (self : time) (zDirection zHour zMinute : option Z) : result (time * Z) :=
  match t_zoff self with
  | None => Err DateTimeError
  | Some _ =>
    match zDirection with
    | None => Err DateTimeError
    | Some zd =>
      if negb (zd =? 0) && is_none zHour then Err DateTimeError
      else
        let newOffset := zd * (match zHour with None => 0 | Some h => h end * 60
                               + match zMinute with None => 0 | Some m => m end) in
        zo <- GetZoneOffset self ;;
        match zo with
        | None => Err TypeError
        | Some zo =>
            let zShift := newOffset - zo in
            if is_none (t_second self) && is_none (t_minute self) && negb (zShift mod 60 =? 0)
            then Err DateTimeError
            else
              let '(hour, minute) :=
                match t_minute self with
                | None => (t_hour self, None)
                | Some m =>
                    let minute := m + zShift mod 60 in
                    if minute >? 59 then (t_hour self + 1, Some (minute - 60))
                    else if minute <? 0 then (t_hour self - 1, Some (minute + 60))
                    else (t_hour self, Some minute)
                end in
              let hour := hour + zShift / 60 in
              let '(hour, overflow) :=
                if hour >? 23 then (hour - 24, 1)
                else if hour <? 0 then (hour + 24, -1)
                else (hour, 0) in
              t <- Time (Some hour) minute (t_second self) zDirection zHour zMinute ;;
              Ok (t, overflow)
        end
    end
  end.

(** iso8601.py 1728-1752 Time.__cmp__ *)
Definition time_cmp (self other : time) : result Z :=
  if negb (precision_eqb (t_GetPrecision self) (t_GetPrecision other)) then Err ValueError
  else
    z1 <- GetZoneOffset self ;; z2 <- GetZoneOffset other ;;
    if negb (oeqb z1 z2) then Err ValueError
    else
      let result := ocmp (Some (t_hour self)) (Some (t_hour other)) in
      if negb (result =? 0) then Ok result else
      let result := ocmp (t_minute self) (t_minute other) in
      if negb (result =? 0) then Ok result else
      Ok (ocmp (t_second self) (t_second other)).

(** iso8601.py 1596-1635 GetZoneString; [zc]: zonePrecision is Precision.Complete *)
Definition GetZoneString (t : time) (basic zc : bool) : result str :=
  match t_zdir t with
  | None => Ok []
  | Some z =>
      if z =? 0 then Ok [90]
      else match t_zoff t with
      | None => Err TypeError
      | Some o =>
          let zStr := if z >? 0 then [43] else [45] in
          let hour := o / 60 in
          let minute := o mod 60 in
          if zc || (minute >? 0) then
            if basic then Ok (zStr ++ fmt2 hour ++ fmt2 minute)
            else Ok (zStr ++ fmt2 hour ++ [58] ++ fmt2 minute)
          else Ok (zStr ++ fmt2 hour)
      end
  end.

(** iso8601.py 1455-1594 Time.GetString with ndp=0; for a truncation that is not
    supported with complete precision [stem] is unbound. *)
Definition t_GetString (t : time) (basic : bool) (tr : truncation) (zc : bool) : result str :=
  stem <-
    match t_second t with
    | None =>
        match t_minute t with
        | None => match tr with TNo => Ok (fmt2 (t_hour t)) | _ => Err ValueError end
        | Some m =>
            match tr with
            | TNo => if basic then Ok (fmt2 (t_hour t) ++ fmt2 m)
                     else Ok (fmt2 (t_hour t) ++ [58] ++ fmt2 m)
            | THour => Ok (hy ++ fmt2 m)
            | _ => Err ValueError
            end
        end
    | Some s =>
        match tr with
        | TNo => m <- ofmt fmt2 (t_minute t) ;;
                 if basic then Ok (fmt2 (t_hour t) ++ m ++ fmt2 s)
                 else Ok (fmt2 (t_hour t) ++ [58] ++ m ++ [58] ++ fmt2 s)
        | THour => m <- ofmt fmt2 (t_minute t) ;;
                 if basic then Ok (hy ++ m ++ fmt2 s) else Ok (hy ++ m ++ [58] ++ fmt2 s)
        | TMinute => Ok (hy ++ hy ++ fmt2 s)
        | _ => Err NameError
        end
    end ;;
  match tr with
  | TNo => z <- GetZoneString t basic zc ;; Ok (stem ++ z)
  | _ => Ok stem
  end.

(** iso8601.py 2522-2664: the tables of formats.  Only those without fractions can be
    returned by the model's parser. *)
Definition BasicDateFormats : list str := map lit
  ["YYYYMMDD";"YYYY-MM";"YYYY";"YY";"YYMMDD";"-YYMM";"-YY";"--MMDD";"--MM";"---DD";
   "YYYYDDD";"YYDDD";"-DDD";"YYYYWwwD";"YYYYWww";"YYWwwD";"YYWww";"-YWwwD";"-YWww";
   "-WwwD";"-Www";"-W-D"]%string.
Definition ExtendedDateFormats : list str := map lit
  ["YYYY-MM-DD";"YYYY-MM";"YYYY";"YY";"YY-MM-DD";"-YY-MM";"-YY";"--MM-DD";"--MM";"---DD";
   "YYYY-DDD";"YY-DDD";"-DDD";"YYYY-Www-D";"YYYY-Www";"YY-Www-D";"YY-Www";"-Y-Www-D";
   "-Y-Www";"-Www-D";"-Www";"-W-D"]%string.
Definition BasicTimeFormats : list str := map lit
  ["hhmmss";"hhmm";"hh";"hhmmssZ";"hhmmZ";"hhZ";"hhmmss+hhmm";"hhmm+hhmm";"hh+hhmm";
   "hhmmss+hh";"hhmm+hh";"hh+hh";"-mmss";"-mm";"--ss"]%string.
Definition ExtendedTimeFormats : list str := map lit
  ["hh:mm:ss";"hh:mm";"hh";"hh:mm:ssZ";"hh:mmZ";"hhZ";"hh:mm:ss+hh:mm";"hh:mm+hh:mm";
   "hh+hh:mm";"hh:mm:ss+hh";"hh:mm+hh";"hh+hh";"-mm:ss";"-mm";"--ss"]%string.
Definition in_formats (f : str) (l : list str) : bool := existsb (str_eqb f) l.

(** Decimal signs lead to the float branches, which are not modelled. *)
Definition no_fraction {A} (p : P A) : P A :=
  fun s => match s with
           | c :: _ => if (c =? 46) || (c =? 44) then Err Unmodelled else p s
           | [] => p s
           end.

(** iso8601.py 3250-3277 ParseTimeZoneFormat; called with theChar in "Z+-" *)
Definition ParseTimeZoneFormat : P (option Z * option Z * option Z * str) :=
  if_char 90 (ret (Some 0, Some 0, Some 0, lit "Z"))
    (fun s => match s with
     | c :: s' =>
         if (c =? 43) || (c =? 45) then
           let v1 := if c =? 43 then 1 else -1 in
           (v2 <== ParseDIGIT2 ;;;
            if_digit
              (v3 <== ParseDIGIT2 ;;; ret (Some v1, Some v2, Some v3, lit "+hhmm"))
              (if_char 58
                 (v3 <== ParseDIGIT2 ;;; ret (Some v1, Some v2, Some v3, lit "+hh:mm"))
                 (ret (Some v1, Some v2, None, lit "+hh")))) s'
         else Err NameError
     | [] => Err NameError
     end).

(** iso8601.py 3117-3248 ParseTimeFormat.  [self.theChar in tDesignators] raises TypeError
    at the end of the text. *)
Definition parse_hms : P (option Z * option Z * option Z * str) :=
  v1 <== ParseDIGIT2 ;;;
  if_digit
    (v2 <== ParseDIGIT2 ;;;
     if_digit
       (v3 <== ParseDIGIT2 ;;; no_fraction (ret (Some v1, Some v2, Some v3, lit "hhmmss")))
       (no_fraction (ret (Some v1, Some v2, None, lit "hhmm"))))
    (no_fraction
       (if_char 58
          (v2 <== ParseDIGIT2 ;;;
           if_char 58
             (v3 <== ParseDIGIT2 ;;; no_fraction (ret (Some v1, Some v2, Some v3, lit "hh:mm:ss")))
             (no_fraction (ret (Some v1, Some v2, None, lit "hh:mm"))))
          (ret (Some v1, None, None, lit "hh")))).
Definition parse_truncated_ms : P (option Z * option Z * option Z * str) :=
  if_digit
    (v1 <== ParseDIGIT2 ;;;
     if_digit
       (v2 <== ParseDIGIT2 ;;; no_fraction (ret (None, Some v1, Some v2, lit "-mmss")))
       (no_fraction
          (if_char 58
             (v2 <== ParseDIGIT2 ;;; no_fraction (ret (None, Some v1, Some v2, lit "-mm:ss")))
             (ret (None, Some v1, None, lit "-mm")))))
    (if_char 45
       (v1 <== ParseDIGIT2 ;;; no_fraction (ret (None, None, Some v1, lit "--ss")))
       (pfail SyntaxError)).

Definition ParseTimeFormat (base : option time) (tDesignators : str) : P (time * Z * str) :=
  fun s0 =>
  match s0 with
  | [] => Err TypeError
  | c0 :: s0' =>
    let tDesignator := mem c0 tDesignators in
    (if_digit
       ('(h, m, s, f) <== parse_hms ;;;
        fun rest =>
          match rest with
          | c :: _ =>
              if mem c (lit "Z+-") then
                ('(zd, zh, zm, zf) <== ParseTimeZoneFormat ;;;
                 if negb (in_formats (f ++ zf) BasicTimeFormats
                          || in_formats (f ++ zf) ExtendedTimeFormats)
                 then pfail DateTimeError
                 else plift (t <- Time h m s zd zh zm ;; Ok (t, 0, f ++ zf))) rest
              else match base with
                   | Some b => plift ('(t, o) <- Extend b h m s ;; Ok (t, o, f)) rest
                   | None => plift (t <- Time h m s None None None ;; Ok (t, 0, f)) rest
                   end
          | [] => match base with
                  | Some b => plift ('(t, o) <- Extend b h m s ;; Ok (t, o, f)) rest
                  | None => plift (t <- Time h m s None None None ;; Ok (t, 0, f)) rest
                  end
          end)
       (if_char 45
          (if tDesignator then pfail SyntaxError
           else
             ('(h, m, s, f) <== parse_truncated_ms ;;;
              match base with
              | None => pfail AttributeError
              | Some b => plift ('(t, o) <- Extend b h m s ;; Ok (t, o, f))
              end))
          (pfail SyntaxError))) (if tDesignator then s0' else s0)
  end.

(** iso8601.py 1392-1402, 1428-1441 Time.FromString, Time.FromStringFormat *)
Definition Time_FromStringFormat (src : str) (base : option time) : result (time * Z * str) :=
  match ParseTimeFormat base [84] src with Ok (r, _) => Ok r | Err e => Err e end.
Definition Time_FromString (src : str) (base : option time) : result time :=
  '(t, _, _) <- Time_FromStringFormat src base ;; Ok t.

(** *** iso8601.py 2041-2311 class TimePoint *)
Record timepoint := mkTP { p_date : date; p_time : time }.

(** iso8601.py 2057-2073 __init__ with src None; 2276-2280 _CheckTimePoint *)
Definition TimePoint (d : option date) (t : option time) : result timepoint :=
  let d := match d with Some d => d | None => mkDate 0 (Some 1) (Some 1) None (Some 1) end in
  let t := match t with Some t => t | None => mkTime 0 (Some 0) (Some 0) None None end in
  _ <- CheckDate d ;; _ <- CheckTime t ;;
  if precision_eqb (GetPrecision d) PComplete then Ok (mkTP d t) else Err DateTimeError.

(** iso8601.py 2101-2105 WithZone *)
Definition p_WithZone (self : timepoint) (zDirection zHour zMinute : option Z) : result timepoint :=
  t <- t_WithZone (p_time self) zDirection zHour zMinute ;;
  TimePoint (Some (p_date self)) (Some t).

(** iso8601.py 2107-2115 ShiftZone *)
Definition p_ShiftZone (self : timepoint) (zDirection zHour zMinute : option Z) : result timepoint :=
  '(t, overflow) <- t_ShiftZone (p_time self) zDirection zHour zMinute ;;
  d <- (if negb (overflow =? 0) then Offset (p_date self) 0 0 0 0 overflow else Ok (p_date self)) ;;
  TimePoint (Some d) (Some t).

(** iso8601.py 525-528, 1366-1371: Date/Time.FromStructTime, first six items of a
    struct_time *)
Definition Date_FromStructTime (y mo d : Z) : result date :=
  Date_calendar (Some (y / 100)) (Some (y mod 100)) (Some mo) (Some d) None.
Definition Time_FromStructTime (h mi s : Z) : result time :=
  Time (Some h) (Some mi) (Some s) None None None.

(** iso8601.py 2230-2240 FromUnixTime; gmtime(0) is (1970,1,1,0,0,0,...) *)
Definition FromUnixTime (unixTime : Z) : result timepoint :=
  t0 <- Time_FromStructTime 0 0 0 ;;
  '(t, overflow) <- t_Offset t0 0 0 unixTime ;;
  d0 <- Date_FromStructTime 1970 1 1 ;;
  d <- Offset d0 0 0 0 0 overflow ;;
  TimePoint (Some d) (Some t).

(** iso8601.py 2289-2311 __cmp__ *)
Definition tp_cmp (self other : timepoint) : result Z :=
  if negb (precision_eqb (t_GetPrecision (p_time self)) (t_GetPrecision (p_time other)))
  then Err ValueError
  else
    z1 <- GetZoneOffset (p_time self) ;; z2 <- GetZoneOffset (p_time other) ;;
    other <- (if negb (oeqb z1 z2) then
                if is_none z1 || is_none z2 then Err ValueError
                else
                  '(zd, zh, zm) <- GetZone3 (p_time self) ;;
                  p_ShiftZone other zd zh zm
              else Ok other) ;;
    result <- date_cmp (p_date self) (p_date other) ;;
    if negb (result =? 0) then Ok result else time_cmp (p_time self) (p_time other).

(** iso8601.py 2167-2228 the string forms; [form] selects calendar, ordinal or week *)
Inductive dform : Set := FCalendar | FOrdinal | FWeek.
Definition GetDateString (f : dform) (d : date) (basic : bool) (t : truncation) : result str :=
  match f with
  | FCalendar => GetCalendarString d basic t
  | FOrdinal => GetOrdinalString d basic t
  | FWeek => GetWeekString d basic t
  end.
Definition p_GetString (f : dform) (p : timepoint) (basic : bool) (t : truncation) (zc : bool)
  (tDesignator : str) : result str :=
  ds <- GetDateString f (p_date p) basic t ;;
  ts <- t_GetString (p_time p) basic TNo zc ;;
  Ok (ds ++ tDesignator ++ ts).

(** iso8601.py 2670-2684 ParseTimePointFormat *)
Definition ParseTimePointFormat (base : option date) (tDesignators : str) : P (timepoint * str) :=
  '(d, df) <== ParseDateFormat base ;;;
  if negb (Complete d) then pfail DateTimeError
  else fun s =>
    match s with
    | [] => Err TypeError
    | c :: _ =>
        if negb (mem c tDesignators) then Err DateTimeError
        else
          ('(t, overflow, tf) <== ParseTimeFormat None tDesignators ;;;
           plift (
             d <- (if negb (overflow =? 0) then Offset d 0 0 0 0 overflow else Ok d) ;;
             if negb ((in_formats tf ExtendedTimeFormats && in_formats df ExtendedDateFormats)
                      || (in_formats tf BasicTimeFormats && in_formats df BasicDateFormats))
             then Err DateTimeError
             else tp <- TimePoint (Some d) (Some t) ;; Ok (tp, df ++ [c] ++ tf))) s
    end.

(** iso8601.py 2130-2154 TimePoint.FromString, with a base date *)
Definition TimePoint_FromString (src : str) (base : option date) (tDesignators : str)
  : result timepoint :=
  match ParseTimePointFormat base tDesignators src with Ok (r, _) => Ok (fst r) | Err e => Err e end.

(** *** iso8601.py 2394-2514 class Duration *)
Record duration := mkDur {
  u_years : option Z; u_months : option Z; u_days : option Z;
  u_hours : option Z; u_minutes : option Z; u_seconds : option Z; u_weeks : option Z
}.

(** rfc2234.py 376-384 ParseDIGITRepeat *)
Fixpoint digit_repeat (s : str) (v : option Z) : option Z * str :=
  match s with
  | c :: s' =>
      if IsDIGIT c then
        digit_repeat s' (Some (match v with None => c - 48 | Some v => v * 10 + (c - 48) end))
      else (v, s)
  | [] => (v, s)
  end.
Definition ParseDIGITRepeat : P (option Z) := fun s => Ok (digit_repeat s None).

(** iso8601.py 3434-3450 ParseDurationValue: after a number the next character is tested
    with [in ".,"], a TypeError at the end of the text. *)
Definition ParseDurationValue : P (option Z) :=
  v <== ParseDIGITRepeat ;;;
  match v with
  | None => ret None
  | Some n =>
      fun s => match s with
               | [] => Err TypeError
               | c :: _ => if (c =? 46) || (c =? 44) then Err Unmodelled else Ok (Some n, s)
               end
  end.

(** One component of ParseDuration: [if value is not None and self.theChar==x] *)
Definition component (x : Z) (value : option Z) (next : P (option Z))
  : P (option Z * option Z * bool) :=
  fun s =>
  match value, s with
  | Some n, c :: s' =>
      if c =? x then (v <== next ;;; ret (Some n, v, true)) s'
      else Ok ((None, value, false), s)
  | _, _ => Ok ((None, value, false), s)
  end.

(** iso8601.py 3528-3534: missing higher order components default to 0 *)
Fixpoint fill (rvalues : list (option Z)) (def : option Z) : list (option Z) :=
  match rvalues with
  | [] => []
  | None :: r => def :: fill r def
  | Some v :: r => Some v :: fill r (Some 0)
  end.

(** iso8601.py 3452-3540 ParseDuration (integers only) *)
Definition ParseDuration : P duration :=
  if_char 80
    (value <== ParseDurationValue ;;;
     fun s =>
     match value, s with
     | Some n, 87 :: s' => Ok (mkDur None None None None None None (Some n), s')
     | _, _ =>
       ('(y, value, b1) <== component 89 value ParseDurationValue ;;;
        '(mo, value, b2) <== component 77 value ParseDurationValue ;;;
        '(d, value, b3) <== component 68 value (ret None) ;;;
        if negb (is_none value) then pfail DateTimeError
        else
        '(h, mi, se, value, anyT, hasT) <==
          if_char 84
            (value <== ParseDurationValue ;;;
             '(h, value, c1) <== component 72 value ParseDurationValue ;;;
             '(mi, value, c2) <== component 77 value ParseDurationValue ;;;
             '(se, value, c3) <== component 83 value (ret None) ;;;
             ret (h, mi, se, value, c1 || c2 || c3, true))
            (ret (None, None, None, value, false, false)) ;;;
        if negb (is_none value) then pfail DateTimeError
        else if negb (b1 || b2 || b3 || hasT) then pfail DateTimeError
        else if hasT && negb anyT then pfail DateTimeError
        else
          match rev (fill [se; mi; h; d; mo; y] None) with
          | [y; mo; d; h; mi; se] => ret (mkDur y mo d h mi se None)
          | _ => pfail TypeError
          end) s
     end)
    (pfail DateTimeError).

Definition Duration_FromString (s : str) : result duration :=
  match ParseDuration s with Ok (d, _) => Ok d | Err e => Err e end.

(** iso8601.py 2447-2491 Duration.GetString with ndp=0; returns None for a duration in
    weeks. *)
Fixpoint strip_none (rc : list (option Z)) : result (list (option Z)) :=
  match rc with
  | [] => Err IndexError
  | None :: r => strip_none r
  | _ => Ok rc
  end.
Fixpoint strip_zeros (c : list (option Z)) : list (option Z) :=
  match c with
  | [] => []
  | [x] => [x]
  | Some v :: r => if v =? 0 then None :: strip_zeros r else c
  | None :: _ => c
  end.
Definition fmt_component (p : option Z * Z) : str :=
  match fst p with None => [] | Some v => fmt v ++ [snd p] end.
Definition Duration_GetString (d : duration) (truncateZeros : bool) : result (option str) :=
  match u_weeks d with
  | Some _ => Ok None
  | None =>
      rc <- strip_none [u_seconds d; u_minutes d; u_hours d; u_days d; u_months d; u_years d] ;;
      let c := rev rc in
      let c := if truncateZeros then strip_zeros c else c in
      let parts := map fmt_component (combine c (lit "YMDHMS")) in
      let datePart := List.concat (firstn 3 parts) in
      let timePart := List.concat (skipn 3 parts) in
      Ok (Some (match timePart with
                | [] => lit "P" ++ datePart
                | _ => lit "P" ++ datePart ++ lit "T" ++ timePart
                end))
  end.
