(** Proofs about date strings. *)
From Verif Require Import Py Iso IsoSpec IsoProofs.
Ltac Zify.zify_convert_to_euclidean_division_equations_flag ::= constr:(true).

Lemma dec_fuel_S f n acc :
  dec_fuel (S f) n acc = if n <? 10 then digit n :: acc else dec_fuel f (n / 10) (digit (n mod 10) :: acc).
Proof. reflexivity. Qed.

Lemma fmt_1 n : 0 <= n <= 9 -> fmt n = [48 + n].
Proof. intros H. unfold fmt. rewrite dec_fuel_S. replace (n <? 10) with true by lia. reflexivity. Qed.

Lemma fmt_2 n : 10 <= n <= 99 -> fmt n = [48 + n / 10; 48 + n mod 10].
Proof.
  intros H. unfold fmt. rewrite dec_fuel_S. replace (n <? 10) with false by lia.
  assert (2 <= Z.log2 n) by (apply Z.log2_le_pow2; lia).
  destruct (Z.to_nat (Z.log2 n)) as [|k] eqn:E; [lia|].
  rewrite dec_fuel_S. replace (n / 10 <? 10) with true by lia. reflexivity.
Qed.

Lemma fmt_3 n : 100 <= n <= 999 -> fmt n = [48 + n / 100; 48 + n / 10 mod 10; 48 + n mod 10].
Proof.
  intros H. unfold fmt. rewrite dec_fuel_S. replace (n <? 10) with false by lia.
  assert (2 <= Z.log2 n) by (apply Z.log2_le_pow2; lia).
  destruct (Z.to_nat (Z.log2 n)) as [|[|k]] eqn:E; [lia|lia|].
  rewrite dec_fuel_S. replace (n / 10 <? 10) with false by lia.
  rewrite dec_fuel_S. replace (n / 10 / 10 <? 10) with true by lia. unfold digit.
  replace (n / 10 / 10) with (n / 100) by lia. reflexivity.
Qed.

Lemma fmt2_spec n : 0 <= n <= 99 -> fmt2 n = [48 + n / 10; 48 + n mod 10].
Proof.
  intros H. unfold fmt2, pad. destruct (n <? 10) eqn:E.
  - rewrite fmt_1 by lia. cbn [length Nat.sub repeat app]. replace (n / 10) with 0 by lia.
    replace (n mod 10) with n by lia. reflexivity.
  - rewrite fmt_2 by lia. reflexivity.
Qed.

Lemma fmt3_spec n : 0 <= n <= 999 -> fmt3 n = [48 + n / 100; 48 + n / 10 mod 10; 48 + n mod 10].
Proof.
  intros H. unfold fmt3, pad. destruct (n <? 10) eqn:E.
  - rewrite fmt_1 by lia. cbn [length Nat.sub repeat app]. replace (n / 100) with 0 by lia.
    replace (n / 10 mod 10) with 0 by lia. replace (n mod 10) with n by lia. reflexivity.
  - destruct (n <? 100) eqn:E2.
    + rewrite fmt_2 by lia. cbn [length Nat.sub repeat app]. replace (n / 100) with 0 by lia.
      replace (n / 10 mod 10) with (n / 10) by lia. reflexivity.
    + rewrite fmt_3 by lia. reflexivity.
Qed.

(** Parsing steps *)
Lemma ParseDIGIT_ok a s : 0 <= a <= 9 -> ParseDIGIT ((48 + a) :: s) = Ok (a, s).
Proof.
  intros H. unfold ParseDIGIT, IsDIGIT. replace ((48 + a >=? 48) && (48 + a <=? 57)) with true by lia.
  do 2 f_equal. lia.
Qed.

Lemma ParseDIGIT2_ok a b s : 0 <= a <= 9 -> 0 <= b <= 9 ->
  ParseDIGIT2 ((48 + a) :: (48 + b) :: s) = Ok (a * 10 + b, s).
Proof.
  intros Ha Hb. unfold ParseDIGIT2, pbind. rewrite ParseDIGIT_ok by assumption. rewrite ParseDIGIT_ok by assumption.
  reflexivity.
Qed.

Lemma more_ok v a s : 0 <= a <= 9 -> more v ((48 + a) :: s) = Ok (v * 10 + a, s).
Proof. intros Ha. unfold more, pbind. rewrite ParseDIGIT_ok by assumption. reflexivity. Qed.

Lemma if_digit_yes {A} (p q : P A) a s : 0 <= a <= 9 -> if_digit p q ((48 + a) :: s) = p ((48 + a) :: s).
Proof.
  intros H. unfold if_digit, IsDIGIT. replace ((48 + a >=? 48) && (48 + a <=? 57)) with true by lia. reflexivity.
Qed.
Lemma if_char_no {A} (p q : P A) x a s : 0 <= a <= 9 -> x < 48 \/ 57 < x ->
  if_char x p q ((48 + a) :: s) = q ((48 + a) :: s).
Proof. intros H Hx. unfold if_char. replace (48 + a =? x) with false by lia. reflexivity. Qed.

Lemma pbind_ok {A B} (p : P A) (k : A -> P B) s a s' : p s = Ok (a, s') -> pbind p k s = k a s'.
Proof. intros E. unfold pbind. rewrite E. reflexivity. Qed.
Lemma if_digit_nil {A} (p q : P A) : if_digit p q [] = q []. Proof. reflexivity. Qed.
Lemma if_digit_hy {A} (p q : P A) s : if_digit p q (45 :: s) = q (45 :: s). Proof. reflexivity. Qed.
Lemma if_digit_W {A} (p q : P A) s : if_digit p q (87 :: s) = q (87 :: s). Proof. reflexivity. Qed.
Lemma if_char_nil {A} (p q : P A) x : if_char x p q [] = q []. Proof. reflexivity. Qed.
Lemma if_char_hy {A} (p q : P A) s : if_char 45 p q (45 :: s) = p s. Proof. reflexivity. Qed.
Lemma if_char_W {A} (p q : P A) s : if_char 87 p q (87 :: s) = p s. Proof. reflexivity. Qed.
Lemma if_char_45_87 {A} (p q : P A) s : if_char 45 p q (87 :: s) = q (87 :: s). Proof. reflexivity. Qed.
Lemma if_char_87_45 {A} (p q : P A) s : if_char 87 p q (45 :: s) = q (45 :: s). Proof. reflexivity. Qed.
Lemma mkfmt_ok {A} f (r : result A) a s : r = Ok a -> mkfmt f r s = Ok (a, lit f, s).
Proof. intros ->. reflexivity. Qed.

Ltac pstep := first
  [ rewrite if_digit_yes by lia | rewrite if_digit_nil | rewrite if_digit_hy | rewrite if_digit_W
  | rewrite if_char_nil | rewrite if_char_hy | rewrite if_char_W | rewrite if_char_45_87 | rewrite if_char_87_45
  | rewrite if_char_no by lia
  | erewrite pbind_ok by (apply ParseDIGIT2_ok; lia)
  | erewrite pbind_ok by (apply ParseDIGIT_ok; lia)
  | erewrite pbind_ok by (apply more_ok; lia) ].
Ltac parse := unfold ParseDateFormat; repeat pstep.

(** A parser result with its format *)
Definition parses (base : option date) (s : str) (d : date) : Prop :=
  exists f, ParseDateFormat base s = Ok (d, f, []).

Lemma parses_FromString base s d : parses base s d -> Date_FromString s base = Ok d.
Proof. intros [f E]. unfold Date_FromString, Date_FromStringFormat. rewrite E. reflexivity. Qed.

Ltac fin := eexists; parse; apply mkfmt_ok.

Lemma Date_calendar_some c yr mo dy base : Date_calendar (Some c) yr mo dy base = CheckDate (mkDate c yr mo None dy).
Proof. reflexivity. Qed.

Lemma week_count y w : 1 <= y -> (exists n wd, iso_week n y w wd) -> 1 <= w <= WeekCount y.
Proof.
  intros Hy (n & wd & H). assert (1 <= n - wd + 4).
  { destruct H as (_ & (m & d & Hg) & _). apply gregorian_iff in Hg as (Hy' & Hv & <-).
    apply absn_pos; assumption. }
  apply week_of_iso in H; [apply H|assumption|assumption].
Qed.

Lemma CheckDate_valid d : valid_date d -> CheckDate d = Ok d.
Proof.
  intros H. destruct H as [c Hc | y Hy | y m Hy Hm | y w Hy Hw0 | y m dd Hv].
  - unfold CheckDate; cbn [d_century d_year]. replace ((c <? 0) || (c >? 99)) with false by lia. reflexivity.
  - unfold CheckDate; cbn [d_century d_year d_week d_month d_day truthy].
    replace ((y / 100 <? 0) || (y / 100 >? 99)) with false by lia.
    replace ((y mod 100 <? 0) || (y mod 100 >? 99)) with false by lia.
    replace ((y mod 100 =? 0) && (y / 100 =? 0)) with false by lia. reflexivity.
  - unfold CheckDate; cbn [d_century d_year d_week d_month d_day truthy].
    replace ((y / 100 <? 0) || (y / 100 >? 99)) with false by lia.
    replace ((y mod 100 <? 0) || (y mod 100 >? 99)) with false by lia.
    replace ((y mod 100 =? 0) && (y / 100 =? 0)) with false by lia.
    replace ((m <? 1) || (m >? 12)) with false by lia. reflexivity.
  - pose proof (week_count y w (proj1 Hy) Hw0) as Hw.
    unfold CheckDate; cbn [d_century d_year d_week d_month d_day truthy is_none negb].
    replace ((y / 100 <? 0) || (y / 100 >? 99)) with false by lia.
    replace ((y mod 100 <? 0) || (y mod 100 >? 99)) with false by lia.
    replace ((y mod 100 =? 0) && (y / 100 =? 0)) with false by lia.
    replace (y / 100 * 100 + y mod 100) with y by lia.
    replace (negb (w =? 0)) with true by lia.
    replace ((w <? 1) || (w >? WeekCount y)) with false by lia. reflexivity.
  - apply CheckDate_ymd, Hv.
Qed.

Lemma d2 n : 0 <= n <= 99 -> n / 10 * 10 + n mod 10 = n.
Proof. lia. Qed.

Lemma month_length_le lp m : month_length lp m <= 31.
Proof.
  unfold month_length. repeat match goal with |- context [if ?c then _ else _] => destruct c end; lia.
Qed.

Lemma GetCalendarString_round d basic base : valid_date d -> d_week d = None ->
  exists s, GetCalendarString d basic TNo = Ok s /\ parses base s d.
Proof.
  intros Hv Hw. pose proof (CheckDate_valid d Hv) as Hc. unfold GetCalendarString, parses.
  destruct Hv as [c Hr | y Hy | y m Hy Hm | y w Hy Hw2 | y m dd (Hy & Hm & Hd)].
  - eexists. split; [reflexivity|]. cbn [d_century]. rewrite fmt2_spec by lia. fin.
    rewrite d2 by lia. exact Hc.
  - eexists. split; [reflexivity|]. cbn [d_century]. rewrite !fmt2_spec by lia. cbn [app]. fin.
    rewrite !d2 by lia. exact Hc.
  - eexists. split; [reflexivity|]. cbn [d_century]. rewrite !fmt2_spec by lia. cbn [app hy]. fin.
    rewrite !d2 by lia. exact Hc.
  - discriminate.
  - pose proof (month_length_le (leap y) m).
    cbn [of_ymd d_century d_year d_month d_week d_day ofmt bind]. destruct basic.
    + eexists. split; [reflexivity|]. rewrite !fmt2_spec by lia. cbn [app]. fin.
      rewrite !d2 by lia. exact Hc.
    + eexists. split; [reflexivity|]. rewrite !fmt2_spec by lia. cbn [app hy]. fin.
      rewrite !d2 by lia. exact Hc.
Qed.

Lemma ord_range y m d : vmd y m d -> 1 <= dbm (leap y) m + d <= 366.
Proof.
  intros [Hm Hd]. destruct (leap y);
  assert (m = 1 \/ m = 2 \/ m = 3 \/ m = 4 \/ m = 5 \/ m = 6 \/ m = 7 \/ m = 8 \/ m = 9 \/ m = 10 \/ m = 11 \/ m = 12) as HH by lia;
  repeat (destruct HH as [-> | HH]); try subst m; cbv [month_length] in Hd; cbn in Hd;
  match goal with |- context [dbm ?b ?k] => let v := eval vm_compute in (dbm b k) in change (dbm b k) with v end; lia.
Qed.

Lemma GetOrdinalString_round d basic base : valid_date d -> d_week d = None ->
  (d_month d <> None -> d_day d <> None) ->
  exists s, GetOrdinalString d basic TNo = Ok s /\ parses base s d.
Proof.
  intros Hv Hw Hmd. unfold GetOrdinalString.
  assert (d_day d = None \/ exists y m dd, valid_ymd y m dd /\ d = of_ymd y m dd) as [Hn | (y & m & dd & Hy & ->)].
  { destruct Hv; auto. right. eauto. }
  - unfold GetOrdinalDay. rewrite Hn.
    assert (d_month d = None) as -> by (destruct (d_month d); [exfalso; apply Hmd; congruence|reflexivity]).
    rewrite Hw. cbn [is_none andb bind]. apply GetCalendarString_round; assumption.
  - rewrite GetOrdinalDay_ymd. cbn [bind ofmt]. pose proof (ord_range y m dd (proj2 Hy)) as Ho.
    pose proof (Date_ordinal_ymd y m dd base Hy) as HD. destruct Hy as (Hy & _).
    set (o := dbm (leap y) m + dd) in *. unfold parses. destruct basic.
    + eexists. split; [reflexivity|]. rewrite !fmt2_spec, fmt3_spec by lia. cbn [app]. fin.
      rewrite !d2 by lia. replace ((o / 100 * 10 + o / 10 mod 10) * 10 + o mod 10) with o by lia. exact HD.
    + eexists. split; [reflexivity|]. rewrite !fmt2_spec, fmt3_spec by lia. cbn [app hy]. fin.
      rewrite !d2 by lia. replace ((o / 100 * 10 + o / 10 mod 10) * 10 + o mod 10) with o by lia. exact HD.
Qed.

(** Week years of the supported days are 1..9999. *)
Lemma mon1_mono a b : a <= b -> mon1 a <= mon1 b.
Proof.
  intros H. replace b with (a + Z.of_nat (Z.to_nat (b - a))) by lia.
  induction (Z.to_nat (b - a)) as [|k IH]; [replace (a + Z.of_nat 0) with a by lia; lia|].
  replace (a + Z.of_nat (S k)) with (a + Z.of_nat k + 1) by lia. rewrite mon1_succ.
  pose proof (WeekCount_range (a + Z.of_nat k)). lia.
Qed.

Lemma week_year_range y m d Y w wd : valid_ymd y m d -> week_of (absn y m d) Y w wd -> 1 <= Y <= 9999.
Proof.
  intros (Hy & Hv) (Hw & Hwd & E). apply (absn_range y m d Hv) in Hy.
  assert (mon1 1 = 1) as M1 by reflexivity. assert (mon1 10000 = 3652062) as M2 by reflexivity.
  split.
  - destruct (Z_le_dec 1 Y) as [|Hn]; [assumption|]. exfalso.
    pose proof (mon1_mono (Y + 1) 1 ltac:(lia)). rewrite mon1_succ in *. lia.
  - destruct (Z_le_dec Y 9999) as [|Hn]; [assumption|]. exfalso.
    pose proof (mon1_mono 10000 Y ltac:(lia)). lia.
Qed.

Lemma GetWeekString_round d basic base : valid_date d -> (d_month d <> None -> d_day d <> None) ->
  exists s, GetWeekString d basic TNo = Ok s /\ parses base s d.
Proof.
  intros Hv Hmd. unfold GetWeekString, parses. pose proof (CheckDate_valid d Hv) as Hc.
  destruct Hv as [c Hr | y Hy | y m Hy Hm | y w Hy Hw2 | y m dd Hy].
  - apply (GetCalendarString_round _ basic base (vd_century c Hr) eq_refl).
  - apply (GetCalendarString_round _ basic base (vd_year y Hy) eq_refl).
  - exfalso. apply Hmd; [discriminate|reflexivity].
  - pose proof (week_count y w (proj1 Hy) Hw2) as Hw3. unfold GetWeekDay. cbn [d_day d_week d_year truthy d_century].
    replace (negb (w =? 0)) with true by lia. cbn [bind ofmt].
    pose proof (WeekCount_range y).
    assert (Date_week (Some (y / 100)) (Some (y mod 100 / 10)) (Some (y mod 100 mod 10)) (Some w) None base
      = Ok (mkDate (y / 100) (Some (y mod 100)) None (Some w) None)) as HD.
    { unfold Date_week, Date; cbn [a_absoluteDay a_decade a_week a_weekday a_ordinalDay a_century a_year a_base truthy].
      replace (negb (w =? 0)) with true by lia. rewrite orb_true_r. cbn [orb].
      unfold SetFromWeekDay. cbn [is_none andb out_of].
      replace ((w <? 0) || (w >? 53)) with false by lia.
      replace ((y mod 100 mod 10 <? 0) || (y mod 100 mod 10 >? 9)) with false by lia.
      replace ((y mod 100 / 10 <? 0) || (y mod 100 / 10 >? 9)) with false by lia.
      cbn [bind week_to_calendar d_day]. replace (y mod 100 / 10 * 10 + y mod 100 mod 10) with (y mod 100) by lia.
      exact Hc. }
    destruct basic.
    + eexists. split; [reflexivity|]. rewrite !fmt2_spec, !fmt_1 by lia. cbn [app chW]. fin.
      rewrite !d2 by lia. exact HD.
    + eexists. split; [reflexivity|]. rewrite !fmt2_spec, !fmt_1 by lia. cbn [app chW hy]. fin.
      rewrite !d2 by lia. exact HD.
  - destruct (GetWeekDay_ymd y m dd (proj2 Hy)) as (Y & w & wd & HW & ->). cbn [bind ofmt].
    pose proof (Date_week_ymd y m dd Y w wd base Hy HW) as HD.
    pose proof (week_year_range y m dd Y w wd Hy HW). destruct HW as (Hw & Hwd & _).
    pose proof (WeekCount_range Y).
    replace (Y mod 10) with (Y mod 100 mod 10) in HD |- * by lia.
    destruct basic.
    + eexists. split; [reflexivity|]. rewrite !fmt2_spec, !fmt_1 by lia. cbn [app chW]. fin.
      rewrite !d2 by lia. exact HD.
    + eexists. split; [reflexivity|]. rewrite !fmt2_spec, !fmt_1 by lia. cbn [app chW hy]. fin.
      rewrite !d2 by lia. exact HD.
Qed.
