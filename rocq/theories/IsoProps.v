(** Property theorems for ISO 8601 dates, times and durations (C14 to C25, C67 to C69). *)
From Verif Require Import Py Iso IsoSpec IsoProofs IsoProofs2 IsoProofs3 IsoProofs4 IsoProofs5 IsoProofs6.
Ltac Zify.zify_convert_to_euclidean_division_equations_flag ::= constr:(true).

Lemma greg_ex y m d : valid_ymd y m d -> gregorian (absn y m d) (y, m, d).
Proof. apply gregorian_valid. Qed.
Lemma inst_ex y m d t i z : valid_ymd y m d -> zone_of t = Some z ->
  i = 86400 * absn y m d + seconds_of t - 60 * z -> instant (mkTP (of_ymd y m d) t) i.
Proof.
  intros Hv Hz ->. eexists. exists z. split; [apply local_intro, Hv|]. split; [exact Hz|reflexivity].
Qed.
Ltac inst V := first [eapply (inst_ex _ _ _ _ _ _ V); [reflexivity|vm_compute; reflexivity]
                     |eapply (inst_ex _ _ _ _ _ _ V); reflexivity].
Ltac ymd := split; [lia|split; [lia|vm_compute; intuition discriminate]].

(** C14: dates and absolute days are inverse to each other, and the absolute day counts
    the days of the calendar. *)
Theorem C14_absolute_day : forall y m d n, valid_ymd y m d -> gregorian n (y, m, d) ->
  GetAbsoluteDay (of_ymd y m d) = Ok n /\ Date_absolute n = Ok (of_ymd y m d) /\ 1 <= n <= 3652059.
Proof.
  exact (fun y m d n Hv Hg => match c14_from y m d n Hv Hg with
    conj A B => conj A (conj B (c14_day_range y m d n Hv Hg)) end).
Qed.
Print Assumptions C14_absolute_day.
Theorem C14_every_day_number : forall n, 1 <= n <= 3652059 ->
  exists y m d, valid_ymd y m d /\ gregorian n (y, m, d) /\ Date_absolute n = Ok (of_ymd y m d).
Proof. exact c14_to. Qed.
Print Assumptions C14_every_day_number.
(** Other numbers are rejected, but 0 is taken for "no argument". *)
Theorem C14_out_of_range_partial : forall n, ~ 1 <= n <= 3652059 -> n <> 0 ->
  Date_absolute n = Err DateTimeError.
Proof. exact Date_absolute_out. Qed.
Print Assumptions C14_out_of_range_partial.
Theorem C14_out_of_range_refuted : exists n, ~ 1 <= n <= 3652059 /\
  Date_absolute n = Ok (of_ymd 1 1 1).
Proof. exists 0. split; [lia|reflexivity]. Qed.
Print Assumptions C14_out_of_range_refuted.
Example C14_ex : valid_ymd 2000 2 29 /\ gregorian 730179 (2000, 2, 29) /\
  Date_absolute 730179 = Ok (of_ymd 2000 2 29).
Proof. split; [ymd|]. split; [apply (greg_ex 2000 2 29); ymd|vm_compute; reflexivity]. Qed.

(** C15: the next day of the calendar is the date of the next number. *)
Theorem C15_next_day : forall y m d y' m' d' n,
  valid_ymd y m d -> next_day leap (y, m, d) = (y', m', d') -> y' <= 9999 ->
  GetAbsoluteDay (of_ymd y m d) = Ok n ->
  Date_absolute (n + 1) = Ok (of_ymd y' m' d') /\
  GetAbsoluteDay (of_ymd y' m' d') = Ok (n + 1) /\
  Offset (of_ymd y m d) 0 0 0 0 1 = Ok (of_ymd y' m' d') /\
  Offset (of_ymd y' m' d') 0 0 0 0 (-1) = Ok (of_ymd y m d).
Proof. exact c15. Qed.
Print Assumptions C15_next_day.
Example C15_ex : valid_ymd 1900 2 28 /\ next_day leap (1900, 2, 28) = (1900, 3, 1) /\
  Offset (of_ymd 1900 2 28) 0 0 0 0 1 = Ok (of_ymd 1900 3 1) /\
  next_day leap (1999, 12, 31) = (2000, 1, 1).
Proof. split; [ymd|]. repeat (split; [vm_compute; reflexivity|]). vm_compute; reflexivity. Qed.

(** C16: ordinal dates round-trip; an ordinal day that the year does not have is
    rejected, except 0. *)
Theorem C16_ordinal_round_trip : forall y m d, valid_ymd y m d ->
  exists o, ordinal y m d o /\ 1 <= o <= (if leap y then 366 else 365) /\
  GetOrdinalDay (of_ymd y m d) = Ok (y / 100, Some (y mod 100), Some o) /\
  forall base, Date_ordinal (Some (y / 100)) (Some (y mod 100)) (Some o) base = Ok (of_ymd y m d).
Proof.
  exact (fun y m d Hv => match c16_ordinal_exists y m d Hv with
    ex_intro _ o (conj Ho Hr) => ex_intro _ o (conj Ho (conj Hr (c16_to y m d o Hv Ho))) end).
Qed.
Print Assumptions C16_ordinal_round_trip.
Theorem C16_out_of_range_partial : forall y o base,
  1 <= y <= 9999 -> o <> 0 -> ~ 1 <= o <= (if leap y then 366 else 365) ->
  Date_ordinal (Some (y / 100)) (Some (y mod 100)) (Some o) base = Err DateTimeError.
Proof. exact c16_out. Qed.
Print Assumptions C16_out_of_range_partial.
Theorem C16_out_of_range_refuted : exists s d,
  s = lit "1969-000" /\ Date_FromString s None = Ok d /\ d_day d = None.
Proof. do 2 eexists. split; [reflexivity|]. split; vm_compute; reflexivity. Qed.
Print Assumptions C16_out_of_range_refuted.
Example C16_ex : valid_ymd 2000 3 1 /\ ordinal 2000 3 1 61 /\
  Date_ordinal (Some 20) (Some 0) (Some 61) None = Ok (of_ymd 2000 3 1) /\
  Date_ordinal (Some 19) (Some 99) (Some 366) None = Err DateTimeError.
Proof.
  assert (valid_ymd 2000 3 1) as H by ymd. split; [exact H|].
  split; [apply ordinal_spec; [lia|apply H|reflexivity]|]. split; vm_compute; reflexivity.
Qed.

(** C17: week dates. *)
Theorem C17_week_round_trip : forall y m d n, valid_ymd y m d -> gregorian n (y, m, d) ->
  exists Y w wd, iso_week n Y w wd /\ 1 <= wd <= 7 /\ 1 <= w <= 53 /\ 1 <= Y <= 9999 /\
    GetWeekDay (of_ymd y m d) = Ok (Y / 100, Some (Y mod 100 / 10), Some (Y mod 10), Some w, Some wd) /\
    forall base, Date_week (Some (Y / 100)) (Some (Y mod 100 / 10)) (Some (Y mod 10)) (Some w) (Some wd) base
                 = Ok (of_ymd y m d).
Proof. exact c17. Qed.
Print Assumptions C17_week_round_trip.
Theorem C17_week_dates_accepted : forall n Y w wd y m d base,
  valid_ymd y m d -> gregorian n (y, m, d) -> 1 <= Y -> iso_week n Y w wd ->
  Date_week (Some (Y / 100)) (Some (Y mod 100 / 10)) (Some (Y mod 10)) (Some w) (Some wd) base
  = Ok (of_ymd y m d).
Proof. exact c17_all. Qed.
Print Assumptions C17_week_dates_accepted.
Theorem C17_fourth_of_january : forall y, 1 <= y <= 9999 -> exists wd,
  GetWeekDay (of_ymd y 1 4) = Ok (y / 100, Some (y mod 100 / 10), Some (y mod 10), Some 1, Some wd).
Proof. exact c17_jan4. Qed.
Print Assumptions C17_fourth_of_january.
Example C17_ex : valid_ymd 2010 1 3 /\ gregorian 733775 (2010, 1, 3) /\
  GetWeekDay (of_ymd 2010 1 3) = Ok (20, Some 0, Some 9, Some 53, Some 7).
Proof. split; [ymd|]. split; [apply (greg_ex 2010 1 3); ymd|vm_compute; reflexivity]. Qed.

(** C18 *)
Theorem C18_day_of_week : forall y m d n, valid_ymd y m d -> gregorian n (y, m, d) ->
  DayOfWeek y m d = weekday n.
Proof. exact c18. Qed.
Print Assumptions C18_day_of_week.
Example C18_ex : gregorian 719163 (1970, 1, 1) /\ weekday 719163 = 4.
Proof. split; [apply (greg_ex 1970 1 1); ymd|reflexivity]. Qed.

(** C19: comparison at equal precision is the comparison of positions in time, so it is a
    total order; and dates of different precision are not compared. *)
Theorem C19_date_cmp : forall a b p ka kb, position a p ka -> position b p kb ->
  date_cmp a b = Ok (sign ka kb).
Proof. exact c19. Qed.
Print Assumptions C19_date_cmp.
Theorem C19_different_precision : forall a b p q ka kb, position a p ka -> position b q kb -> p <> q ->
  date_cmp a b = Err ValueError.
Proof.
  intros a b p q ka kb Ha Hb Hpq.
  destruct Ha as [c | y | y m Hm | y w Hw | y m d n Hv Hg]; inversion Hb; subst; try congruence; reflexivity.
Qed.
Print Assumptions C19_different_precision.
Example C19_ex : position (of_ymd 1999 12 31) PComplete 730119 /\ position (of_ymd 2000 1 1) PComplete 730120.
Proof.
  split; (constructor; [ymd|]); [apply (greg_ex 1999 12 31)|apply (greg_ex 2000 1 1)]; ymd.
Qed.

(** C20: date strings.  ISO 8601 has no calendar format for weeks and no ordinal or week
    format for months; these raise DateTimeError.  All others are read back. *)
Definition format_exists (f : dform) (d : date) : Prop :=
  match f with
  | FCalendar => d_week d = None
  | FOrdinal => d_week d = None /\ (d_month d <> None -> d_day d <> None)
  | FWeek => d_month d <> None -> d_day d <> None
  end.
Theorem C20_date_strings : forall f d basic base, valid_date d -> format_exists f d ->
  exists s, GetDateString f d basic TNo = Ok s /\ Date_FromString s base = Ok d.
Proof. exact c20. Qed.
Print Assumptions C20_date_strings.
Theorem C20_no_format : forall f d basic, valid_date d -> ~ format_exists f d ->
  GetDateString f d basic TNo = Err DateTimeError.
Proof. exact c20_no_format. Qed.
Print Assumptions C20_no_format.
Example C20_ex : valid_date (of_ymd 1985 4 12) /\
  GetDateString FCalendar (of_ymd 1985 4 12) false TNo = Ok (lit "1985-04-12") /\
  GetDateString FOrdinal (of_ymd 1985 4 12) true TNo = Ok (lit "1985102") /\
  GetDateString FWeek (of_ymd 1985 4 12) false TNo = Ok (lit "1985-W15-5") /\
  valid_date (mkDate 19 (Some 85) None (Some 15) None) /\
  GetDateString FWeek (mkDate 19 (Some 85) None (Some 15) None) true TNo = Ok (lit "1985W15").
Proof.
  split; [constructor; ymd|]. repeat (split; [vm_compute; reflexivity|]).
  split; [|vm_compute; reflexivity].
  apply (vd_week 1985 15); [lia|]. exists 724743, 5. apply week_of_iso; [lia|lia|].
  split; [vm_compute; intuition discriminate|]. split; [lia|vm_compute; reflexivity].
Qed.

(** C21: the Julian calendar. *)
Theorem C21_julian_round_trip : forall y m d n, valid_ymd y m d -> gregorian n (y, m, d) ->
  exists jy jm jd, julian n (jy, jm, jd) /\ GetJulianDay (of_ymd y m d) = Ok (jy, jm, jd) /\
    FromJulian jy jm jd = Ok (of_ymd y m d).
Proof. exact c21_to. Qed.
Print Assumptions C21_julian_round_trip.
Theorem C21_from_julian : forall n jy jm jd y m d,
  julian n (jy, jm, jd) -> gregorian n (y, m, d) -> y <= 9999 ->
  FromJulian jy jm jd = Ok (of_ymd y m d) /\ GetJulianDay (of_ymd y m d) = Ok (jy, jm, jd).
Proof. exact c21_from. Qed.
Print Assumptions C21_from_julian.
(** Outside the range of the property: two Julian days with the same Gregorian date, the
    first is before the supported range. *)
Theorem C21_before_range_refuted : exists d, FromJulian 1 1 2 = Ok d /\ FromJulian 1 1 3 = Ok d.
Proof. eexists. split; vm_compute; reflexivity. Qed.
Print Assumptions C21_before_range_refuted.
Example C21_ex : valid_ymd 1752 9 14 /\ GetJulianDay (of_ymd 1752 9 14) = Ok (1752, 9, 3) /\
  FromJulian 1752 9 3 = Ok (of_ymd 1752 9 14).
Proof. split; [ymd|]. split; vm_compute; reflexivity. Qed.

(** C22: offsets of times, in hours, minutes and seconds of any sign.  Whenever Offset
    returns, the result is exact, and it always returns unless the time is 24:00:00. *)
Theorem C22_offset_exact : forall t h m s t' days,
  valid_time t -> t_Offset t h m s = Ok (t', days) ->
  valid_time t' /\ t_zdir t' = t_zdir t /\ t_zoff t' = t_zoff t /\
  (t_minute t = None <-> t_minute t' = None) /\ (t_second t = None <-> t_second t' = None) /\
  seconds_of t' + 86400 * days = seconds_of t + (3600 * h + 60 * m + s).
Proof.
  exact (fun t h m s t' days Hv E => match t_Offset_exact t h m s t' days Hv E with
    conj A (conj (conj B1 B2) (conj C (conj D F))) => conj A (conj C (conj D (conj B1 (conj B2 F)))) end).
Qed.
Print Assumptions C22_offset_exact.
Theorem C22_offset_total_partial : forall t h m s, valid_time t -> t_hour t < 24 ->
  (s = 0 \/ t_second t <> None) -> (s = 0 /\ m = 0 \/ t_minute t <> None) ->
  exists t' days, t_Offset t h m s = Ok (t', days).
Proof. exact t_Offset_total. Qed.
Print Assumptions C22_offset_total_partial.
Theorem C22_offset_total_refuted : exists t, valid_time t /\ t_second t <> None /\
  t_Offset t 0 0 5 = Err DateTimeError.
Proof.
  exists (mkTime 24 (Some 0) (Some 0) None None). split; [constructor; [lia|constructor]|].
  split; [discriminate|vm_compute; reflexivity].
Qed.
Print Assumptions C22_offset_total_refuted.
Example C22_ex : let t := mkTime 20 (Some 17) (Some 40) (Some (-1)) (Some 300) in
  valid_time t /\ t_Offset t 0 0 (-86400 - 73060) = Ok (mkTime 0 (Some 0) (Some 0) (Some (-1)) (Some 300), -1).
Proof. split; [constructor; [lia|constructor; lia]|vm_compute; reflexivity]. Qed.

(** C23: shifting to another zone.  The result denotes the same instant and has the
    requested zone, if the local time there is not before 0001-01-01T00:00:00. *)
Theorem C23_shift_zone_partial : forall p zd zh zm p' i,
  valid_tp p -> p_ShiftZone p (Some zd) zh zm = Ok p' -> instant p i ->
  86400 <= i + 60 * (zd * (zero_if_none zh * 60 + zero_if_none zm)) ->
  t_second (p_time p) <> Some 60 ->
  instant p' i /\
  zone_of (p_time p') = Some (zd * (zero_if_none zh * 60 + zero_if_none zm)).
Proof.
  intros p zd zh zm p' i Hv E Hi Hl Hs.
  destruct (p_ShiftZone_exact p _ zh zm p' Hv E) as (d & z0 & i' & l' & [= <-] & Hz0 & Hi' & -> & Hz' & H).
  assert (i' = i) as ->.
  { destruct Hi as (l1 & z1 & L1 & Z1 & ->). destruct Hi' as (l2 & z2 & L2 & Z2 & ->).
    rewrite (local_fun _ _ _ L1 L2). congruence. }
  split; [apply H; auto|exact Hz'].
Qed.
Print Assumptions C23_shift_zone_partial.
Theorem C23_shift_zone_total : forall p d zh zm i z0,
  valid_tp p -> t_minute (p_time p) <> None -> instant p i -> zone_of (p_time p) = Some z0 ->
  d = 0 \/ (d = 1 \/ d = -1) /\ zh <> None /\ 0 <= zero_if_none zh * 60 + zero_if_none zm < 1440 ->
  Z.abs (d * (zero_if_none zh * 60 + zero_if_none zm) - z0) <= 1440 ->
  86400 <= i + 60 * (d * (zero_if_none zh * 60 + zero_if_none zm)) < 86400 * 3652060 ->
  t_second (p_time p) <> Some 60 ->
  exists p', p_ShiftZone p (Some d) zh zm = Ok p' /\ valid_tp p'.
Proof.
  intros p d zh zm i z0 A B C D E F G H.
  destruct (p_ShiftZone_total p d zh zm i z0 A B C D E F G H) as (p' & E1 & E2 & _). eauto.
Qed.
Print Assumptions C23_shift_zone_total.
Theorem C23_shift_zone_refuted : exists p p' i i',
  valid_tp p /\ instant p i /\ p_ShiftZone p (Some 0) (Some 0) (Some 0) = Ok p' /\
  instant p' i' /\ i' = i + 86400.
Proof.
  exists (mkTP (of_ymd 1 1 1) (mkTime 0 (Some 0) (Some 0) (Some 1) (Some 60))),
         (mkTP (of_ymd 1 1 1) (mkTime 23 (Some 0) (Some 0) (Some 0) (Some 0))), 82800, 169200.
  assert (valid_ymd 1 1 1) as V by ymd.
  split. { split; [exists 1, 1, 1; auto|]. constructor; [lia|constructor; lia]. }
  split; [inst V|].
  split; [vm_compute; reflexivity|].
  split; [inst V|reflexivity].
Qed.
Print Assumptions C23_shift_zone_refuted.
Example C23_ex :
  let p := mkTP (of_ymd 1999 12 31) (mkTime 23 (Some 30) (Some 15) (Some (-1)) (Some 300)) in
  valid_tp p /\ (exists i, instant p i /\ 86400 <= i) /\
  p_ShiftZone p (Some 1) (Some 5) (Some 30)
  = Ok (mkTP (of_ymd 2000 1 1) (mkTime 10 (Some 0) (Some 15) (Some 1) (Some 330))).
Proof.
  cbv zeta. assert (valid_ymd 1999 12 31) as V by ymd.
  split. { split; [exists 1999, 12, 31; auto|]. constructor; [lia|constructor; lia]. }
  split. { eexists. split; [eapply (inst_ex _ _ _ _ _ _ V); reflexivity|].
           vm_compute; discriminate. }
  vm_compute; reflexivity.
Qed.

(** C24: comparison of complete time points with zones is the comparison of instants, for
    zones that differ by at most 24 hours, when the second operand's local time in the
    first one's zone is a supported day, and when neither is 24:00:00 or a leap second. *)
Definition comparable (a b : timepoint) (ia ib : Z) : Prop :=
  exists za zb, valid_tp a /\ valid_tp b /\ plain_time (p_time a) /\ plain_time (p_time b) /\
    instant a ia /\ instant b ib /\ zone_of (p_time a) = Some za /\ zone_of (p_time b) = Some zb /\
    Z.abs (za - zb) <= 1440 /\ 86400 <= ib + 60 * za < 86400 * 3652060.
Theorem C24_timepoint_cmp_partial : forall a b ia ib, comparable a b ia ib ->
  tp_cmp a b = Ok (sign ia ib).
Proof.
  intros a b ia ib (za & zb & A & B & C & D & E & F & G & H & I & J).
  rewrite <- sign_sgn3. exact (tp_cmp_spec a b ia ib za zb A B C D E F G H I J).
Qed.
Print Assumptions C24_timepoint_cmp_partial.
Theorem C24_order_partial : forall a b c ia ib ic,
  comparable a b ia ib -> comparable b a ib ia -> comparable b c ib ic -> comparable a c ia ic ->
  (exists r, tp_cmp a b = Ok r /\ tp_cmp b a = Ok (- r)) /\
  (forall r, tp_cmp a b = Ok r -> tp_cmp b c = Ok r -> tp_cmp a c = Ok r).
Proof.
  intros a b c ia ib ic H1 H2 H3 H4.
  rewrite (C24_timepoint_cmp_partial _ _ _ _ H1), (C24_timepoint_cmp_partial _ _ _ _ H2),
    (C24_timepoint_cmp_partial _ _ _ _ H3), (C24_timepoint_cmp_partial _ _ _ _ H4).
  rewrite <- !sign_sgn3. unfold sgn3. split.
  - eexists. split; [reflexivity|]. f_equal.
    destruct (ib <? ia) eqn:A; destruct (ib =? ia) eqn:B; destruct (ia <? ib) eqn:C; destruct (ia =? ib) eqn:D;
      try reflexivity; exfalso; lia.
  - intros r [= <-] [= E]. f_equal.
    destruct (ib <? ic) eqn:A; destruct (ib =? ic) eqn:B; destruct (ia <? ib) eqn:C; destruct (ia =? ib) eqn:D;
      destruct (ia <? ic) eqn:F; destruct (ia =? ic) eqn:G; try reflexivity; try discriminate; exfalso; lia.
Qed.
Print Assumptions C24_order_partial.
(** Without the conditions on the times: not antisymmetric. *)
Theorem C24_timepoint_cmp_refuted : exists a b i,
  valid_tp a /\ valid_tp b /\ instant a i /\ instant b i /\ tp_cmp a b = Ok (-1) /\ tp_cmp b a = Ok 0.
Proof.
  exists (mkTP (of_ymd 2000 1 1) (mkTime 24 (Some 0) (Some 0) (Some 0) (Some 0))),
         (mkTP (of_ymd 2000 1 2) (mkTime 1 (Some 0) (Some 0) (Some 1) (Some 60))),
         (86400 * 730121).
  assert (valid_ymd 2000 1 1) as V by ymd. assert (valid_ymd 2000 1 2) as V2 by ymd.
  split. { split; [exists 2000, 1, 1; auto|]. constructor; [lia|constructor]. }
  split. { split; [exists 2000, 1, 2; auto|]. constructor; [lia|constructor; lia]. }
  split; [inst V|].
  split; [inst V2|].
  split; vm_compute; reflexivity.
Qed.
Print Assumptions C24_timepoint_cmp_refuted.
(** Zones further apart than 24 hours: an exception. *)
Theorem C24_far_zones_refuted : exists a b ia ib,
  valid_tp a /\ valid_tp b /\ instant a ia /\ instant b ib /\
  plain_time (p_time a) /\ plain_time (p_time b) /\ tp_cmp a b = Err DateTimeError.
Proof.
  exists (mkTP (of_ymd 2000 1 1) (mkTime 12 (Some 0) (Some 0) (Some 1) (Some 840))),
         (mkTP (of_ymd 2000 1 1) (mkTime 23 (Some 0) (Some 0) (Some (-1)) (Some 720))).
  assert (valid_ymd 2000 1 1) as V by ymd.
  do 2 eexists.
  split. { split; [exists 2000, 1, 1; auto|]. constructor; [lia|constructor; lia]. }
  split. { split; [exists 2000, 1, 1; auto|]. constructor; [lia|constructor; lia]. }
  split; [eapply (inst_ex _ _ _ _ _ _ V); [reflexivity|reflexivity]|].
  split; [eapply (inst_ex _ _ _ _ _ _ V); [reflexivity|reflexivity]|].
  split. { do 5 eexists. split; [reflexivity|]. repeat (split; [lia|]). constructor; lia. }
  split. { do 5 eexists. split; [reflexivity|]. repeat (split; [lia|]). constructor; lia. }
  vm_compute; reflexivity.
Qed.
Print Assumptions C24_far_zones_refuted.
Example C24_ex : exists a b ia ib, comparable a b ia ib /\ comparable b a ib ia /\ ia < ib.
Proof.
  exists (mkTP (of_ymd 1999 12 31) (mkTime 18 (Some 0) (Some 0) (Some (-1)) (Some 300))),
         (mkTP (of_ymd 2000 1 1) (mkTime 0 (Some 0) (Some 1) (Some 1) (Some 60))),
         (86400 * 730119 + 18 * 3600 + 5 * 3600), (86400 * 730120 + 1 - 3600).
  assert (valid_ymd 1999 12 31) as V by ymd. assert (valid_ymd 2000 1 1) as V2 by ymd.
  assert (forall h m s zd zo, 0 <= h < 24 -> 0 <= m < 60 -> 0 <= s < 60 -> zone_ok zd zo ->
    plain_time (mkTime h (Some m) (Some s) zd zo)) as PT.
  { intros. do 5 eexists. split; [reflexivity|]. auto. }
  assert (zone_ok (Some (-1)) (Some 300)) as Z1 by (constructor; lia).
  assert (zone_ok (Some 1) (Some 60)) as Z2 by (constructor; lia).
  assert (forall y m d t, valid_ymd y m d -> plain_time t -> valid_tp (mkTP (of_ymd y m d) t)) as VT.
  { intros y m d t Hv Ht. split; [eauto 6|apply plain_valid, Ht]. }
  split; [|split; [|lia]].
  - exists (-300), 60. split; [apply VT; [exact V|apply PT; lia || assumption]|].
    split; [apply VT; [exact V2|apply PT; lia || assumption]|].
    split; [apply PT; lia || assumption|]. split; [apply PT; lia || assumption|].
    split; [inst V|].
    split; [inst V2|].
    split; [reflexivity|]. split; [reflexivity|]. split; [lia|]. lia.
  - exists 60, (-300). split; [apply VT; [exact V2|apply PT; lia || assumption]|].
    split; [apply VT; [exact V|apply PT; lia || assumption]|].
    split; [apply PT; lia || assumption|]. split; [apply PT; lia || assumption|].
    split; [inst V2|].
    split; [inst V|].
    split; [reflexivity|]. split; [reflexivity|]. split; [lia|]. lia.
Qed.

(** C25: FromUnixTime(n) shows the time n seconds after 1970-01-01T00:00:00 (day 719163) on
    its clock and has no zone; 719163 is the number of 1970-01-01. *)
Theorem C25_unix_time : gregorian 719163 (1970, 1, 1) /\
  forall n, -62135596800 <= n <= 253402300799 ->
  exists p, FromUnixTime n = Ok p /\ valid_tp p /\ plain_time (p_time p) /\
    zone_of (p_time p) = None /\ local p (86400 * 719163 + n).
Proof.
  split; [apply (greg_ex 1970 1 1); ymd|].
  intros n Hn. destruct (FromUnixTime_spec n Hn) as (p & A & B & C & D & E). eauto 10.
Qed.
Print Assumptions C25_unix_time.
Example C25_ex : FromUnixTime 951825599
  = Ok (mkTP (of_ymd 2000 2 29) (mkTime 11 (Some 59) (Some 59) None None)).
Proof. vm_compute. reflexivity. Qed.

(** C67: time strings, basic or extended, with the zone in full or only in hours where
    that is enough, are read back exactly. *)
Theorem C67_time_strings : forall t basic zc, valid_time t ->
  exists s, t_GetString t basic TNo zc = Ok s /\ Time_FromString s None = Ok t.
Proof. exact Time_string_round. Qed.
Print Assumptions C67_time_strings.
Example C67_ex : let t := mkTime 20 (Some 17) (Some 40) (Some (-1)) (Some 330) in
  valid_time t /\ t_GetString t false TNo false = Ok (lit "20:17:40-05:30").
Proof. split; [constructor; [lia|constructor; lia]|vm_compute; reflexivity]. Qed.

(** C68: time point strings in the three date forms are read back exactly. *)
Theorem C68_timepoint_strings : forall form p basic zc base, valid_tp p ->
  exists s, p_GetString form p basic TNo zc (lit "T") = Ok s /\
    TimePoint_FromString s base (lit "T") = Ok p.
Proof. exact TimePoint_string_round. Qed.
Print Assumptions C68_timepoint_strings.
Example C68_ex : let p := mkTP (of_ymd 1969 7 20) (mkTime 20 (Some 17) (Some 40) (Some 0) (Some 0)) in
  valid_tp p /\ p_GetString FWeek p true TNo true (lit "T") = Ok (lit "1969W297T201740Z").
Proof.
  split; [split; [exists 1969, 7, 20; split; [ymd|reflexivity]|constructor; [lia|constructor]]|vm_compute; reflexivity].
Qed.

(** C69: duration strings.  [dur_of c] has the components of c as years, months, days,
    hours, minutes and seconds as far as c goes. *)
Theorem C69_duration_strings_partial : forall c truncateZeros,
  (1 <= length c <= 6)%nat -> Forall (fun n => 0 <= n) c ->
  exists s, Duration_GetString (dur_of c) truncateZeros = Ok (Some s) /\
    Duration_FromString s = Ok (dur_of c).
Proof. exact Duration_string_round. Qed.
Print Assumptions C69_duration_strings_partial.
(** Durations in weeks can be read but have no string. *)
Theorem C69_duration_strings_refuted : exists d, Duration_FromString (lit "P6W") = Ok d /\
  Duration_GetString d false = Ok None.
Proof. eexists. split; vm_compute; reflexivity. Qed.
Print Assumptions C69_duration_strings_refuted.
Example C69_ex : Duration_GetString (dur_of [0; 0; 12; 0; 5]) true = Ok (Some (lit "P12DT0H5M")) /\
  Duration_FromString (lit "P12DT0H5M") = Ok (dur_of [0; 0; 12; 0; 5]).
Proof. split; vm_compute; reflexivity. Qed.
