(** The property theorems in the vocabulary of the specification. *)
From Verif Require Import Py Iso IsoSpec IsoProofs IsoProofs2 IsoProofs3 IsoProofs4 IsoProofs5.
Ltac Zify.zify_convert_to_euclidean_division_equations_flag ::= constr:(true).

Lemma sign_sgn3 a b : sgn3 a b = sign a b.
Proof.
  unfold sgn3, sign. destruct (a ?= b) eqn:E.
  - apply Z.compare_eq in E. subst. rewrite Z.ltb_irrefl, Z.eqb_refl. reflexivity.
  - change (a < b) in E. replace (a <? b) with true by lia. reflexivity.
  - apply Z.compare_gt_iff in E. replace (a <? b) with false by lia. replace (a =? b) with false by lia. reflexivity.
Qed.

(** C14 *)
Lemma c14_from y m d n : valid_ymd y m d -> gregorian n (y, m, d) ->
  GetAbsoluteDay (of_ymd y m d) = Ok n /\ Date_absolute n = Ok (of_ymd y m d).
Proof.
  intros Hv Hg. apply gregorian_iff in Hg as (_ & _ & <-).
  split; [apply GetAbsoluteDay_ymd|apply Date_absolute_ymd, Hv].
Qed.
Lemma c14_to n : 1 <= n <= 3652059 ->
  exists y m d, valid_ymd y m d /\ gregorian n (y, m, d) /\ Date_absolute n = Ok (of_ymd y m d).
Proof.
  intros Hn. destruct (Date_absolute_spec n Hn) as (y & m & d & Hv & <- & E).
  exists y, m, d. split; [exact Hv|]. split; [apply gregorian_valid, Hv|exact E].
Qed.
Lemma c14_day_range y m d n : valid_ymd y m d -> gregorian n (y, m, d) -> 1 <= n <= 3652059.
Proof. intros (Hy & Hv) Hg. apply gregorian_iff in Hg as (_ & _ & <-). apply (absn_range y m d Hv), Hy. Qed.

(** C15 *)
Lemma c15 y m d y' m' d' n : valid_ymd y m d -> next_day leap (y, m, d) = (y', m', d') -> y' <= 9999 ->
  GetAbsoluteDay (of_ymd y m d) = Ok n ->
  Date_absolute (n + 1) = Ok (of_ymd y' m' d') /\
  GetAbsoluteDay (of_ymd y' m' d') = Ok (n + 1) /\
  Offset (of_ymd y m d) 0 0 0 0 1 = Ok (of_ymd y' m' d') /\
  Offset (of_ymd y' m' d') 0 0 0 0 (-1) = Ok (of_ymd y m d).
Proof.
  intros Hv En Hy' Ha. pose proof Hv as (Hy & Hvm). rewrite GetAbsoluteDay_ymd in Ha. injection Ha as <-.
  pose proof (absn_next y m d Hvm) as Hx. rewrite En in Hx. destruct Hx as (Hv' & E & Hle).
  assert (valid_ymd y' m' d') as HV' by (split; [lia|exact Hv']).
  rewrite !GetAbsoluteDay_ymd. rewrite !Offset_days by (assumption || lia).
  replace (absn y' m' d' + -1) with (absn y m d) by lia.
  rewrite <- E. rewrite !Date_absolute_ymd by assumption. auto.
Qed.

(** C16 *)
Lemma c16_to y m d o : valid_ymd y m d -> ordinal y m d o ->
  GetOrdinalDay (of_ymd y m d) = Ok (y / 100, Some (y mod 100), Some o) /\
  forall base, Date_ordinal (Some (y / 100)) (Some (y mod 100)) (Some o) base = Ok (of_ymd y m d).
Proof.
  intros Hv Ho. apply ordinal_spec in Ho; [|apply Hv|apply Hv]. subst o.
  split; [apply GetOrdinalDay_ymd|]. intros base. apply Date_ordinal_ymd, Hv.
Qed.
Lemma c16_ordinal_exists y m d : valid_ymd y m d -> exists o, ordinal y m d o /\ 1 <= o <= (if leap y then 366 else 365).
Proof.
  intros Hv. exists (dbm (leap y) m + d). split; [apply ordinal_spec; [apply Hv|apply Hv|reflexivity]|].
  destruct Hv as (_ & Hm & Hd). pose proof (dbm_range _ _ _ Hm Hd). destruct (leap y); lia.
Qed.
Lemma c16_out y o base : 1 <= y <= 9999 -> o <> 0 -> ~ 1 <= o <= (if leap y then 366 else 365) ->
  Date_ordinal (Some (y / 100)) (Some (y mod 100)) (Some o) base = Err DateTimeError.
Proof. intros Hy H0 Ho. apply Date_ordinal_out; try assumption. Qed.

(** C17 *)
Lemma thursday_pos n wd : 1 <= n -> wd = weekday n -> 1 <= n - wd + 4.
Proof. unfold weekday. lia. Qed.
Lemma c17 y m d n : valid_ymd y m d -> gregorian n (y, m, d) ->
  exists Y w wd, iso_week n Y w wd /\ 1 <= wd <= 7 /\ 1 <= w <= 53 /\ 1 <= Y <= 9999 /\
    GetWeekDay (of_ymd y m d) = Ok (Y / 100, Some (Y mod 100 / 10), Some (Y mod 10), Some w, Some wd) /\
    forall base, Date_week (Some (Y / 100)) (Some (Y mod 100 / 10)) (Some (Y mod 10)) (Some w) (Some wd) base
                 = Ok (of_ymd y m d).
Proof.
  intros Hv Hg. apply gregorian_iff in Hg as (_ & _ & <-).
  destruct (GetWeekDay_ymd y m d (proj2 Hv)) as (Y & w & wd & HW & E).
  pose proof (week_year_range y m d Y w wd Hv HW) as HY. pose proof (WeekCount_range Y) as Hwc.
  exists Y, w, wd.
  pose proof (absn_pos y m d (proj1 (proj1 Hv)) (proj2 Hv)) as Hp.
  assert (wd = weekday (absn y m d)) as Ewd.
  { destruct HW as (Hw & Hd & En). pose proof (mon1_range Y). unfold weekday. lia. }
  split; [apply week_of_iso; [apply thursday_pos; assumption|lia|exact HW]|].
  split; [apply HW|]. split; [destruct HW; lia|]. split; [exact HY|]. split; [exact E|].
  intros base. apply Date_week_ymd; assumption.
Qed.
(** Every week-date whose day is a supported day is accepted *)
Lemma c17_all n Y w wd y m d base : valid_ymd y m d -> gregorian n (y, m, d) -> 1 <= Y -> iso_week n Y w wd ->
  Date_week (Some (Y / 100)) (Some (Y mod 100 / 10)) (Some (Y mod 10)) (Some w) (Some wd) base = Ok (of_ymd y m d).
Proof.
  intros Hv Hg HY HW. apply gregorian_iff in Hg as (_ & _ & <-). apply Date_week_ymd; [exact Hv|].
  pose proof (absn_pos y m d (proj1 (proj1 Hv)) (proj2 Hv)) as Hp.
  apply week_of_iso in HW; [exact HW|apply thursday_pos; [exact Hp|apply HW]|exact HY].
Qed.
(** The fourth of January is always in week 1 *)
Lemma c17_jan4 y : 1 <= y <= 9999 -> exists wd,
  GetWeekDay (of_ymd y 1 4) = Ok (y / 100, Some (y mod 100 / 10), Some (y mod 10), Some 1, Some wd).
Proof.
  intros Hy. assert (vmd y 1 4) as Hv by (split; [lia|unfold month_length; cbn; lia]).
  destruct (GetWeekDay_ymd y 1 4 Hv) as (Y & w & wd & HW & E).
  assert (week_of (absn y 1 4) y 1 (weekday (absn y 1 4))) as HW2.
  { pose proof (WeekCount_range y). unfold week_of. split; [lia|].
    split; [unfold weekday; lia|]. unfold mon1, absn. rewrite dbm1. replace (dby y + 0 + 4) with (dby y + 4) by lia. lia. }
  destruct (week_unique _ _ _ _ _ _ _ HW HW2) as (-> & -> & ->). eauto.
Qed.

(** C18 *)
Lemma c18 y m d n : valid_ymd y m d -> gregorian n (y, m, d) -> DayOfWeek y m d = weekday n.
Proof.
  intros Hv Hg. apply gregorian_iff in Hg as (_ & _ & <-). apply DayOfWeek_spec. apply Hv.
Qed.

(** C19 *)
Lemma c19 a b p ka kb : position a p ka -> position b p kb -> date_cmp a b = Ok (sign ka kb).
Proof.
  intros Ha Hb. rewrite <- sign_sgn3. unfold sgn3.
  destruct Ha as [c | y | y m Hm | y w Hw | y m d n Hv Hg]; inversion Hb; subst.
  - unfold date_cmp. cbn [GetPrecision d_day d_month d_year d_week precision_eqb negb d_century is_none].
    unfold ocmp; cbn [olt oeqb]. destruct (c <? kb) eqn:A; destruct (c =? kb) eqn:B; reflexivity.
  - unfold date_cmp. cbn [GetPrecision d_day d_month d_year d_week precision_eqb negb d_century is_none truthy].
    unfold ocmp; cbn [olt oeqb].
    destruct (y / 100 <? kb / 100) eqn:A; destruct (y / 100 =? kb / 100) eqn:B;
    destruct (y mod 100 <? kb mod 100) eqn:C; destruct (y mod 100 =? kb mod 100) eqn:D;
    destruct (y <? kb) eqn:E; destruct (y =? kb) eqn:F; try reflexivity; exfalso; lia.
  - unfold date_cmp. cbn [GetPrecision d_day d_month d_year d_week precision_eqb negb d_century is_none truthy].
    unfold ocmp; cbn [olt oeqb].
    destruct (y / 100 <? y0 / 100) eqn:A; destruct (y / 100 =? y0 / 100) eqn:B;
    destruct (y mod 100 <? y0 mod 100) eqn:C; destruct (y mod 100 =? y0 mod 100) eqn:D;
    destruct (m <? m0) eqn:G; destruct (m =? m0) eqn:HH;
    destruct (12 * y + m <? 12 * y0 + m0) eqn:E; destruct (12 * y + m =? 12 * y0 + m0) eqn:F; try reflexivity; exfalso; lia.
  - assert (forall y w, 1 <= w <= 53 -> GetPrecision (mkDate (y / 100) (Some (y mod 100)) None (Some w) None) = PWeek) as GP.
    { intros y1 w1 Hw1. unfold GetPrecision. cbn [d_day d_month d_year d_week truthy].
      replace (negb (w1 =? 0)) with true by lia. reflexivity. }
    unfold date_cmp. rewrite !GP by assumption. cbn [precision_eqb].
    cbn [d_day d_month d_year d_week precision_eqb negb d_century is_none truthy].
    unfold ocmp; cbn [olt oeqb].
    destruct (y / 100 <? y0 / 100) eqn:A; destruct (y / 100 =? y0 / 100) eqn:B;
    destruct (y mod 100 <? y0 mod 100) eqn:C; destruct (y mod 100 =? y0 mod 100) eqn:D;
    destruct (w <? w0) eqn:G; destruct (w =? w0) eqn:HH;
    destruct (53 * y + w <? 53 * y0 + w0) eqn:E; destruct (53 * y + w =? 53 * y0 + w0) eqn:F; try reflexivity; exfalso; lia.
  - match goal with H : gregorian kb _ |- _ => apply gregorian_iff in H as (_ & _ & <-) end.
    apply gregorian_iff in Hg as (_ & _ & <-). rewrite date_cmp_ymd by assumption. reflexivity.
Qed.

(** C20 *)
Lemma c20 f d basic base : valid_date d ->
  match f with FCalendar => d_week d = None
             | FOrdinal => d_week d = None /\ (d_month d <> None -> d_day d <> None)
             | FWeek => d_month d <> None -> d_day d <> None end ->
  exists s, GetDateString f d basic TNo = Ok s /\ Date_FromString s base = Ok d.
Proof.
  intros Hv Hf. destruct f.
  - destruct (GetCalendarString_round d basic base Hv Hf) as (s & E & H).
    exists s. split; [exact E|apply parses_FromString, H].
  - destruct (GetOrdinalString_round d basic base Hv (proj1 Hf) (proj2 Hf)) as (s & E & H).
    exists s. split; [exact E|apply parses_FromString, H].
  - destruct (GetWeekString_round d basic base Hv Hf) as (s & E & H).
    exists s. split; [exact E|apply parses_FromString, H].
Qed.
(** Otherwise the format does not exist and the error says so. *)
Lemma c20_no_format f d basic : valid_date d ->
  ~ match f with FCalendar => d_week d = None
             | FOrdinal => d_week d = None /\ (d_month d <> None -> d_day d <> None)
             | FWeek => d_month d <> None -> d_day d <> None end ->
  GetDateString f d basic TNo = Err DateTimeError.
Proof.
  intros Hv Hf. destruct Hv as [c Hr | y Hy | y m Hy Hm | y w Hy Hw2 | y m dd Hd]; destruct f; cbn in Hf |- *;
    try (exfalso; apply Hf; clear Hf; try reflexivity; try split; try reflexivity; congruence).
  - reflexivity.
  - reflexivity.
  - pose proof (week_count y w (proj1 Hy) Hw2). unfold GetCalendarString; cbn [d_day d_month d_week truthy].
    replace (negb (w =? 0)) with true by lia. reflexivity.
  - reflexivity.
Qed.

(** C21 *)
Lemma counted_lb lp n0 n x : counted lp n0 n x -> n0 <= n.
Proof. intros H; induction H; lia. Qed.
Lemma counted_fun lp n0 n x x' : counted lp n0 n x -> counted lp n0 n x' -> x = x'.
Proof.
  intros H. revert x'. induction H as [|n x H IH]; intros x' H'.
  - remember n0 as k eqn:Ek in H' at 2. destruct H' as [|n' y H2]; [reflexivity|].
    apply counted_lb in H2. lia.
  - remember (n + 1) as k eqn:Ek. destruct H' as [|n' y H2].
    + apply counted_lb in H. lia.
    + assert (n' = n) as -> by lia. rewrite (IH y H2). reflexivity.
Qed.

Lemma c21_to y m d n : valid_ymd y m d -> gregorian n (y, m, d) ->
  exists jy jm jd, julian n (jy, jm, jd) /\ GetJulianDay (of_ymd y m d) = Ok (jy, jm, jd) /\
    FromJulian jy jm jd = Ok (of_ymd y m d).
Proof.
  intros Hv Hg. apply gregorian_iff in Hg as (_ & _ & <-).
  destruct (GetJulianDay_spec _ _ (GetAbsoluteDay_ymd y m d)) as (jy & jm & jd & Hj & E & EG).
  exists jy, jm, jd. pose proof (absn_pos y m d (proj1 (proj1 Hv)) (proj2 Hv)) as Hp.
  assert (1 <= jy) as Hjy.
  { destruct Hj as [Hm Hd]. pose proof (dbm_range _ _ _ Hm Hd) as Hr. unfold jabsn, jdby in E.
    destruct (Z_le_dec 1 jy); [assumption|]. exfalso.
    assert (dbm (jleap jy) jm + jd <= 366) by (destruct (jleap jy); lia). lia. }
  split; [apply julian_iff; auto|]. split; [exact EG|].
  rewrite FromJulian_spec by apply Hj. rewrite E. apply Date_absolute_ymd, Hv.
Qed.
Lemma c21_from n jy jm jd y m d : julian n (jy, jm, jd) -> gregorian n (y, m, d) -> y <= 9999 ->
  FromJulian jy jm jd = Ok (of_ymd y m d) /\ GetJulianDay (of_ymd y m d) = Ok (jy, jm, jd).
Proof.
  intros Hj Hg Hy. pose proof Hg as Hg'. apply gregorian_iff in Hg' as (H1 & Hv & En).
  assert (valid_ymd y m d) as HV by (split; [lia|exact Hv]).
  destruct (c21_to y m d n HV Hg) as (jy2 & jm2 & jd2 & Hj2 & E1 & E2).
  assert ((jy, jm, jd) = (jy2, jm2, jd2)) as [= -> -> ->]; [|auto].
  eapply counted_fun; eassumption.
Qed.
