(** Proofs about time and time point strings. *)
From Verif Require Import Py Iso IsoSpec IsoProofs IsoProofs2 IsoProofs3.
Ltac Zify.zify_convert_to_euclidean_division_equations_flag ::= constr:(true).

Definition zstart (r : str) : Prop :=
  r = [] \/ exists c s, r = c :: s /\ (c = 90 \/ c = 43 \/ c = 45).

Lemma if_digit_z {A} (p q : P A) r : zstart r -> if_digit p q r = q r.
Proof. intros [-> | (c & s & -> & [-> | [-> | ->]])]; reflexivity. Qed.
Lemma if_char_z {A} (p q : P A) r : zstart r -> if_char 58 p q r = q r.
Proof. intros [-> | (c & s & -> & [-> | [-> | ->]])]; reflexivity. Qed.
Lemma no_fraction_z {A} (p : P A) r : zstart r -> no_fraction p r = p r.
Proof. intros [-> | (c & s & -> & [-> | [-> | ->]])]; reflexivity. Qed.
Lemma if_digit_colon {A} (p q : P A) s : if_digit p q (58 :: s) = q (58 :: s). Proof. reflexivity. Qed.
Lemma if_char_colon {A} (p q : P A) s : if_char 58 p q (58 :: s) = p s. Proof. reflexivity. Qed.
Lemma no_fraction_colon {A} (p : P A) s : no_fraction p (58 :: s) = p (58 :: s). Proof. reflexivity. Qed.

Ltac tstep := first
  [ rewrite if_digit_yes by lia | rewrite if_digit_z by assumption | rewrite if_char_z by assumption
  | rewrite no_fraction_z by assumption | rewrite if_digit_colon | rewrite if_char_colon | rewrite no_fraction_colon
  | rewrite if_char_no by lia
  | erewrite pbind_ok by (apply ParseDIGIT2_ok; lia) ].

Definition stem (t : time) (basic : bool) : str :=
  match t_minute t, t_second t with
  | Some m, Some s => if basic then fmt2 (t_hour t) ++ fmt2 m ++ fmt2 s
                      else fmt2 (t_hour t) ++ [58] ++ fmt2 m ++ [58] ++ fmt2 s
  | Some m, None => if basic then fmt2 (t_hour t) ++ fmt2 m else fmt2 (t_hour t) ++ [58] ++ fmt2 m
  | _, _ => fmt2 (t_hour t)
  end.
Definition stem_format (t : time) (basic : bool) : str :=
  match t_minute t, t_second t with
  | Some m, Some s => if basic then lit "hhmmss" else lit "hh:mm:ss"
  | Some m, None => if basic then lit "hhmm" else lit "hh:mm"
  | _, _ => lit "hh"
  end.

Lemma time_ranges t : valid_time t ->
  0 <= t_hour t <= 24 /\ match t_minute t with Some m => 0 <= m <= 59 | None => True end /\
  match t_second t with Some s => 0 <= s <= 60 | None => True end /\ (t_minute t = None -> t_second t = None).
Proof. intros []; cbn; repeat split; try congruence; lia. Qed.

Lemma GetString_stem t basic zc : valid_time t ->
  t_GetString t basic TNo zc = (z <- GetZoneString t basic zc ;; Ok (stem t basic ++ z)).
Proof. intros []; destruct basic; reflexivity. Qed.

Lemma parse_hms_stem t basic r : valid_time t -> zstart r ->
  parse_hms (stem t basic ++ r) = Ok (Some (t_hour t), t_minute t, t_second t, stem_format t basic, r).
Proof.
  intros Hv Hr. destruct (time_ranges t Hv) as (Hh & Hm & Hs & Hn).
  unfold stem, stem_format, parse_hms. destruct (t_minute t) as [m|].
  - destruct (t_second t) as [s|]; destruct basic; rewrite !fmt2_spec by lia; cbn [app]; repeat tstep;
      unfold ret; rewrite !d2 by lia; reflexivity.
  - rewrite Hn by reflexivity. rewrite fmt2_spec by lia. cbn [app]. repeat tstep. unfold ret.
    rewrite d2 by lia. reflexivity.
Qed.

Lemma stem_cons t basic : valid_time t -> exists a s, 0 <= a <= 9 /\ stem t basic = (48 + a) :: s.
Proof.
  intros Hv. destruct (time_ranges t Hv) as (Hh & Hm & Hs & Hn). unfold stem. exists (t_hour t / 10).
  destruct (t_minute t) as [m|]; [destruct (t_second t) as [s|]|]; try destruct basic;
    rewrite (fmt2_spec (t_hour t)) by lia; eexists; (split; [lia|]); cbn [app]; reflexivity.
Qed.

Lemma stem_head t basic : valid_time t -> exists a s, 0 <= a <= 9 /\ forall r, stem t basic ++ r = (48 + a) :: s ++ r.
Proof.
  intros Hv. destruct (stem_cons t basic Hv) as (a & s & Ha & E). exists a, s. split; [exact Ha|].
  intros r. rewrite E. reflexivity.
Qed.

(** The zone string and its parse *)
Lemma zone_round t basic zc : valid_time t ->
  exists r zd zh zm zf, GetZoneString t basic zc = Ok r /\ zstart r /\
    (r = [] /\ t_zdir t = None /\ t_zoff t = None \/
     exists c s, r = c :: s /\ mem c (lit "Z+-") = true /\ ParseTimeZoneFormat r = Ok (zd, zh, zm, zf, []) /\
       (forall h m s, SetFromValues h m s zd zh zm = Ok (mkTime h m s (t_zdir t) (t_zoff t))) /\
       (zf = lit "Z" \/ zf = lit "+hh" \/ zf = if basic then lit "+hhmm" else lit "+hh:mm")).
Proof.
  intros Hv. pose proof (valid_zone t Hv) as Hz. unfold GetZoneString.
  destruct Hz as [| |z o Hz Ho].
  - exists [], None, None, None, []. split; [reflexivity|]. split; [left; reflexivity|]. left; auto.
  - exists [90], (Some 0), (Some 0), (Some 0), (lit "Z"). split; [reflexivity|].
    split; [right; exists 90, []; auto|]. right. exists 90, [].
    do 3 (split; [vm_compute; reflexivity|]). split; [reflexivity|left; reflexivity].
  - replace (z =? 0) with false by lia.
    assert (exists cz, (if z >? 0 then [43] else [45]) = [cz] /\ (cz = 43 \/ cz = 45) /\
       mem cz (lit "Z+-") = true /\
       (cz =? 90) = false /\ ((cz =? 43) || (cz =? 45)) = true /\ (if cz =? 43 then 1 else -1) = z)
      as (cz & -> & Hcz & Hmem & Hc90 & Hc2 & Hc3).
    { destruct Hz as [-> | ->]; eexists; (split; [reflexivity|]); auto 10. }
    cbv zeta. destruct (zc || (o mod 60 >? 0)) eqn:Ezc.
    + destruct basic.
      * exists ([cz] ++ fmt2 (o / 60) ++ fmt2 (o mod 60)), (Some z), (Some (o / 60)), (Some (o mod 60)), (lit "+hhmm").
        split; [reflexivity|]. split; [right; exists cz; eexists; split; [reflexivity|lia]|].
        right. exists cz; eexists. split; [reflexivity|]. split; [exact Hmem|].
        rewrite !fmt2_spec by lia. cbn [app]. split.
        { unfold ParseTimeZoneFormat, if_char at 1. rewrite Hc90, Hc2, Hc3. cbv zeta. repeat tstep.
          unfold ret. rewrite !d2 by lia. reflexivity. }
        split; [|auto]. intros h m s. unfold SetFromValues. replace (z =? 0) with false by lia.
        do 3 f_equal. lia.
      * exists ([cz] ++ fmt2 (o / 60) ++ [58] ++ fmt2 (o mod 60)), (Some z), (Some (o / 60)), (Some (o mod 60)), (lit "+hh:mm").
        split; [reflexivity|]. split; [right; exists cz; eexists; split; [reflexivity|lia]|].
        right. exists cz; eexists. split; [reflexivity|]. split; [exact Hmem|].
        rewrite !fmt2_spec by lia. cbn [app]. split.
        { unfold ParseTimeZoneFormat, if_char at 1. rewrite Hc90, Hc2, Hc3. cbv zeta. repeat tstep.
          unfold ret. rewrite !d2 by lia. reflexivity. }
        split; [|auto]. intros h m s. unfold SetFromValues. replace (z =? 0) with false by lia.
        do 3 f_equal. lia.
    + exists ([cz] ++ fmt2 (o / 60)), (Some z), (Some (o / 60)), None, (lit "+hh").
      split; [reflexivity|]. split; [right; exists cz; eexists; split; [reflexivity|lia]|].
      right. exists cz; eexists. split; [reflexivity|]. split; [exact Hmem|].
      rewrite !fmt2_spec by lia. cbn [app]. split.
      { unfold ParseTimeZoneFormat, if_char at 1. rewrite Hc90, Hc2, Hc3. cbv zeta.
        assert (zstart []) by (left; reflexivity). repeat tstep.
        unfold ret. rewrite !d2 by lia. reflexivity. }
      split; [|auto]. intros h m s. unfold SetFromValues. replace (z =? 0) with false by lia.
      destruct zc; [discriminate|]. cbn [orb] in Ezc. do 3 f_equal. lia.
Qed.

(** The parser after an optional designator *)
Lemma time_parse t basic zc tds c0 : valid_time t -> mem c0 tds = true ->
  exists s f, t_GetString t basic TNo zc = Ok s /\
    ParseTimeFormat None tds (c0 :: s) = Ok (t, 0, f, []) /\
    (tds = [84] -> ParseTimeFormat None tds s = Ok (t, 0, f, [])) /\
    in_formats f (if basic then BasicTimeFormats else ExtendedTimeFormats) = true.
Proof.
  intros Hv Hc0. rewrite GetString_stem by exact Hv.
  destruct (zone_round t basic zc Hv) as (r & zd & zh & zm & zf & -> & Hr & Hcase). cbn [bind].
  destruct (stem_head t basic Hv) as (a & st & Ha & Est).
  pose proof (CheckTime_valid t Hv) as Hck.
  assert (forall (b : bool) (s0' : str), exists f : str,
     (if_digit
       ('(h, m, s, f) <== parse_hms ;;;
        fun rest =>
          match rest with
          | c :: _ =>
              if mem c (lit "Z+-") then
                ('(zd, zh, zm, zf) <== ParseTimeZoneFormat ;;;
                 if negb (in_formats (f ++ zf) BasicTimeFormats
                          || in_formats (f ++ zf) ExtendedTimeFormats)
                 then pfail DateTimeError
                 else plift (t <- Time h m s zd zh zm ;; Ok (t, 0, f ++ zf))) rest
              else plift (t <- Time h m s None None None ;; Ok (t, 0, f)) rest
          | [] => plift (t <- Time h m s None None None ;; Ok (t, 0, f)) rest
          end)
       (if_char 45
          (if b then pfail SyntaxError
           else
             ('(h, m, s, f) <== parse_truncated_ms ;;;
              (pfail AttributeError : P (time * Z * str))))
          (pfail SyntaxError))) (if (b : bool) then stem t basic ++ r else s0') = Ok (t, 0, f, []) /\
      in_formats f (if basic then BasicTimeFormats else ExtendedTimeFormats) = true \/ b = false) as HP.
  { intros [] s0'; [|exists []; right; reflexivity].
    assert (exists f', f' = stem_format t basic) as [f' Ef'] by eauto.
    assert (forall (p q : P (time * Z * str)), if_digit p q (stem t basic ++ r) = p (stem t basic ++ r)) as Hd.
    { intros p q. rewrite Est. apply if_digit_yes, Ha. }
    rewrite Hd.
    assert (Hsf : (forall z, z = lit "Z" \/ z = lit "+hh" \/ z = (if basic then lit "+hhmm" else lit "+hh:mm") ->
        in_formats (stem_format t basic ++ z) (if basic then BasicTimeFormats else ExtendedTimeFormats) = true) /\
        in_formats (stem_format t basic) (if basic then BasicTimeFormats else ExtendedTimeFormats) = true).
    { clear. unfold stem_format.
      destruct (t_minute t); [destruct (t_second t)|]; destruct basic; split; try (vm_compute; reflexivity);
        intros ? [-> | [-> | ->]]; vm_compute; reflexivity. }
    destruct Hcase as [(-> & Hzd & Hzo) | (c & s & -> & Hmem & Hpz & Hsv & Hzf)].
    - exists (stem_format t basic). left. split; [|apply Hsf].
      rewrite (pbind_ok _ _ _ _ _ (parse_hms_stem t basic [] Hv Hr)). unfold plift, Time.
      cbn [SetFromValues bind].
      replace (mkTime (t_hour t) (t_minute t) (t_second t) None None) with t
        by (destruct t; cbn in *; subst; reflexivity).
      rewrite Hck. reflexivity.
    - exists (stem_format t basic ++ zf). left. split; [|apply Hsf, Hzf].
      rewrite (pbind_ok _ _ _ _ _ (parse_hms_stem t basic (c :: s) Hv Hr)). rewrite Hmem.
      rewrite (pbind_ok _ _ _ _ _ Hpz).
      assert (in_formats (stem_format t basic ++ zf) BasicTimeFormats || in_formats (stem_format t basic ++ zf) ExtendedTimeFormats = true) as ->.
      { pose proof (proj1 Hsf zf Hzf) as Hx. destruct basic; rewrite Hx; [reflexivity|apply orb_true_r]. }
      cbn [negb]. unfold plift, Time. rewrite Hsv. cbn [bind].
      replace (mkTime (t_hour t) (t_minute t) (t_second t) (t_zdir t) (t_zoff t)) with t by (destruct t; reflexivity).
      rewrite Hck. reflexivity. }
  destruct (HP true []) as (f & [[E Ef] | Hx]); [|discriminate].
  eexists. exists f. split; [reflexivity|].
  split; [unfold ParseTimeFormat; rewrite Hc0; exact E|].
  split; [|exact Ef]. intros ->.
  pose proof (if_digit_yes (A := time * Z * str)) as Hd.
  rewrite Est in E |- *. unfold ParseTimeFormat.
  assert (mem (48 + a) [84] = false) as ->.
  { unfold mem, existsb. replace (48 + a =? 84) with false by lia. reflexivity. }
  rewrite Hd in E |- * by assumption. exact E.
Qed.

Lemma Time_string_round t basic zc : valid_time t ->
  exists s, t_GetString t basic TNo zc = Ok s /\ Time_FromString s None = Ok t.
Proof.
  intros Hv. destruct (time_parse t basic zc [84] 84 Hv eq_refl) as (s & f & E & _ & E2 & _).
  exists s. split; [exact E|]. unfold Time_FromString, Time_FromStringFormat. rewrite E2 by reflexivity. reflexivity.
Qed.

(** Dates in front of other text.  The parser stops at the designator. *)
Definition tpstop (r : str) : Prop := exists c s, r = c :: s /\ IsDIGIT c = false /\ c <> 45 /\ c <> 87.
Lemma if_digit_stop {A} (p q : P A) r : tpstop r -> if_digit p q r = q r.
Proof. intros (c & s & -> & H & _). unfold if_digit. rewrite H. reflexivity. Qed.
Lemma if_char_stop45 {A} (p q : P A) r : tpstop r -> if_char 45 p q r = q r.
Proof. intros (c & s & -> & _ & H & _). unfold if_char. replace (c =? 45) with false by lia. reflexivity. Qed.
Lemma if_char_stop87 {A} (p q : P A) r : tpstop r -> if_char 87 p q r = q r.
Proof. intros (c & s & -> & _ & _ & H). unfold if_char. replace (c =? 87) with false by lia. reflexivity. Qed.

Ltac dstep := first
  [ rewrite if_digit_yes by lia | rewrite if_digit_hy | rewrite if_digit_W
  | rewrite if_char_hy | rewrite if_char_W | rewrite if_char_45_87 | rewrite if_char_87_45
  | rewrite if_digit_stop by assumption | rewrite if_char_stop45 by assumption | rewrite if_char_stop87 by assumption
  | rewrite if_char_no by lia
  | erewrite pbind_ok by (apply ParseDIGIT2_ok; lia)
  | erewrite pbind_ok by (apply ParseDIGIT_ok; lia)
  | erewrite pbind_ok by (apply more_ok; lia) ].
Ltac dparse := unfold ParseDateFormat; repeat dstep.

Lemma date_prefix form y m d basic base r : valid_ymd y m d -> tpstop r ->
  exists s f, GetDateString form (of_ymd y m d) basic TNo = Ok s /\
    ParseDateFormat base (s ++ r) = Ok (of_ymd y m d, f, r) /\
    in_formats f (if basic then BasicDateFormats else ExtendedDateFormats) = true.
Proof.
  intros Hy Hr. pose proof (CheckDate_ymd y m d Hy) as Hc. pose proof (month_length_le (leap y) m).
  unfold GetDateString. destruct form.
  - unfold GetCalendarString. cbn [of_ymd d_century d_year d_month d_week d_day ofmt bind].
    pose proof Hy as (Hyr & Hm & Hd).
    destruct basic; do 2 eexists; (split; [reflexivity|]); rewrite !fmt2_spec by lia; cbn [app hy].
    + split; [dparse; apply mkfmt_ok; rewrite !d2 by lia; exact Hc|]. vm_compute; reflexivity.
    + split; [dparse; apply mkfmt_ok; rewrite !d2 by lia; exact Hc|]. vm_compute; reflexivity.
  - unfold GetOrdinalString. rewrite GetOrdinalDay_ymd. cbn [bind ofmt].
    pose proof (ord_range y m d (proj2 Hy)) as Ho.
    pose proof (Date_ordinal_ymd y m d base Hy) as HD. destruct Hy as (Hyr & _).
    set (o := dbm (leap y) m + d) in *.
    destruct basic; do 2 eexists; (split; [reflexivity|]); rewrite !fmt2_spec, fmt3_spec by lia; cbn [app hy].
    + split; [dparse; apply mkfmt_ok; rewrite !d2 by lia;
        replace ((o / 100 * 10 + o / 10 mod 10) * 10 + o mod 10) with o by lia; exact HD|]. vm_compute; reflexivity.
    + split; [dparse; apply mkfmt_ok; rewrite !d2 by lia;
        replace ((o / 100 * 10 + o / 10 mod 10) * 10 + o mod 10) with o by lia; exact HD|]. vm_compute; reflexivity.
  - unfold GetWeekString. destruct (GetWeekDay_ymd y m d (proj2 Hy)) as (Y & w & wd & HW & ->). cbn [bind ofmt].
    pose proof (Date_week_ymd y m d Y w wd base Hy HW) as HD.
    pose proof (week_year_range y m d Y w wd Hy HW). destruct HW as (Hw & Hwd & _).
    pose proof (WeekCount_range Y).
    replace (Y mod 10) with (Y mod 100 mod 10) in HD |- * by lia.
    destruct basic; do 2 eexists; (split; [reflexivity|]); rewrite !fmt2_spec, !fmt_1 by lia; cbn [app hy chW].
    + split; [dparse; apply mkfmt_ok; rewrite !d2 by lia; exact HD|]. vm_compute; reflexivity.
    + split; [dparse; apply mkfmt_ok; rewrite !d2 by lia; exact HD|]. vm_compute; reflexivity.
Qed.

Lemma TimePoint_string_round form p basic zc base : valid_tp p ->
  exists s, p_GetString form p basic TNo zc [84] = Ok s /\ TimePoint_FromString s base [84] = Ok p.
Proof.
  intros [(y & m & d & Hy & Ed) Ht]. unfold p_GetString.
  destruct (time_parse (p_time p) basic zc [84] 84 Ht eq_refl) as (ts & tf & Ets & Ep & _ & Htf).
  assert (tpstop (84 :: ts)) as Hr by (exists 84, ts; split; [reflexivity|]; split; [reflexivity|lia]).
  destruct (date_prefix form y m d basic base (84 :: ts) Hy Hr) as (ds & df & Eds & Epd & Hdf).
  rewrite Ed, Eds. cbn [bind]. rewrite Ets. cbn [bind]. eexists. split; [reflexivity|].
  unfold TimePoint_FromString, ParseTimePointFormat. cbn [app].
  rewrite (pbind_ok _ _ _ _ _ Epd). change (Complete (of_ymd y m d)) with true. cbn [negb].
  change (mem 84 [84]) with true. cbn [negb].
  rewrite (pbind_ok _ _ _ _ _ Ep). unfold plift. cbn [Z.eqb negb bind].
  change (0 =? 0) with true. cbn [negb bind].
  assert (in_formats tf ExtendedTimeFormats && in_formats df ExtendedDateFormats
       || in_formats tf BasicTimeFormats && in_formats df BasicDateFormats = true) as ->.
  { destruct basic; rewrite Htf, Hdf; [apply orb_true_r|reflexivity]. }
  cbn [negb]. rewrite TimePoint_ok by (assumption || apply CheckTime_valid, Ht). cbn [bind fst].
  f_equal. destruct p; cbn in *; congruence.
Qed.
