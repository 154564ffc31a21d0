(** Proofs about dates: absolute days, ordinals, weeks, the Julian calendar. *)
From Verif Require Import Py Iso IsoSpec.
Ltac Zify.zify_convert_to_euclidean_division_equations_flag ::= constr:(true).

(** *** The closed form of the day count *)
Definition dby (y : Z) : Z := (y - 1) * 365 + (y - 1) / 4 - (y - 1) / 100 + (y - 1) / 400.
Definition ylen (y : Z) : Z := if leap y then 366 else 365.
Definition dbm (lp : bool) (m : Z) : Z := fold_left Z.add (firstn (Z.to_nat (m - 1)) (msizes lp)) 0.
Definition absn (y m d : Z) : Z := dby y + dbm (leap y) m + d.

Lemma LeapYear_leap y : LeapYear y = leap y.
Proof.
  unfold LeapYear, leap.
  destruct (y mod 4 =? 0) eqn:E4; destruct (y mod 100 =? 0) eqn:E100;
    destruct (y mod 400 =? 0) eqn:E400; cbn; try reflexivity; lia.
Qed.

Lemma LeapYear_m_leap y : LeapYear_m (y / 100) (Some (y mod 100)) = Ok (leap y).
Proof.
  unfold LeapYear_m. f_equal. unfold leap.
  destruct (y mod 4 =? 0) eqn:E4; destruct (y mod 100 =? 0) eqn:E100;
    destruct (y mod 400 =? 0) eqn:E400;
    destruct ((y mod 100) mod 4 =? 0) eqn:F4; destruct ((y / 100) mod 4 =? 0) eqn:F5;
    cbn; try reflexivity; lia.
Qed.

Lemma dby_succ y : dby (y + 1) = dby y + ylen y.
Proof.
  unfold dby, ylen, leap.
  destruct (y mod 4 =? 0) eqn:E4; destruct (y mod 100 =? 0) eqn:E100;
    destruct (y mod 400 =? 0) eqn:E400; cbn; lia.
Qed.

Lemma ylen_pos y : 365 <= ylen y <= 366.
Proof. unfold ylen; destruct (leap y); lia. Qed.

Lemma dby_mono_nat k y : dby y <= dby (y + Z.of_nat k).
Proof.
  induction k as [|k IH].
  - rewrite Z.add_0_r. lia.
  - replace (y + Z.of_nat (S k)) with ((y + Z.of_nat k) + 1) by lia.
    rewrite dby_succ. pose proof (ylen_pos (y + Z.of_nat k)). lia.
Qed.

Lemma dby_lt y y' : y < y' -> dby y + ylen y <= dby y'.
Proof.
  intros H. rewrite <- dby_succ.
  replace y' with ((y + 1) + Z.of_nat (Z.to_nat (y' - y - 1))) by lia. apply dby_mono_nat.
Qed.

Lemma year_unique y o y' o' : 1 <= o <= ylen y -> 1 <= o' <= ylen y' ->
  dby y + o = dby y' + o' -> y = y' /\ o = o'.
Proof.
  intros Ho Ho' H.
  destruct (Z.lt_trichotomy y y') as [L | [E | L]].
  - pose proof (dby_lt _ _ L). lia.
  - subst. split; [reflexivity|lia].
  - pose proof (dby_lt _ _ L). lia.
Qed.

Ltac months m H :=
  assert (m = 1 \/ m = 2 \/ m = 3 \/ m = 4 \/ m = 5 \/ m = 6 \/ m = 7 \/ m = 8 \/ m = 9
          \/ m = 10 \/ m = 11 \/ m = 12) as H by lia;
  repeat (destruct H as [H | H]); subst m.

Ltac consts :=
  repeat match goal with
  | |- context [dbm ?b ?k] => let v := eval vm_compute in (dbm b k) in change (dbm b k) with v
  | |- context [month_length ?b ?k] =>
      let v := eval vm_compute in (month_length b k) in change (month_length b k) with v
  | H : context [dbm ?b ?k] |- _ =>
      let v := eval vm_compute in (dbm b k) in change (dbm b k) with v in H
  | H : context [month_length ?b ?k] |- _ =>
      let v := eval vm_compute in (month_length b k) in change (month_length b k) with v in H
  end.

Lemma month_length_table lp m : 1 <= m <= 12 ->
  nth (Z.to_nat (m - 1)) (msizes lp) 0 = month_length lp m.
Proof. intros Hm. months m H; destruct lp; reflexivity. Qed.

Lemma month_length_pos lp m : 28 <= month_length lp m <= 31.
Proof. unfold month_length. destruct lp; repeat destruct (_ =? _); cbn; lia. Qed.

Lemma dbm_range lp m d : 1 <= m <= 12 -> 1 <= d <= month_length lp m ->
  1 <= dbm lp m + d <= (if lp then 366 else 365).
Proof. intros Hm Hd. months m H; destruct lp; consts; lia. Qed.

Lemma dbm_succ lp m : 1 <= m < 12 -> dbm lp (m + 1) = dbm lp m + month_length lp m.
Proof.
  intros Hm. assert (1 <= m <= 12) as Hm' by lia.
  months m H; destruct lp; try reflexivity; lia.
Qed.

Lemma dbm_last lp : dbm lp 12 + 31 = if lp then 366 else 365.
Proof. destruct lp; reflexivity. Qed.

Lemma fold_add_acc l a : fold_left Z.add l a = fold_left Z.add l 0 + a.
Proof.
  revert a. induction l as [|x l IH]; intros a; cbn [fold_left]; [lia|].
  rewrite IH, (IH (0 + x)). lia.
Qed.

Lemma month_loop_at sizes j k d : (j < length sizes)%nat -> Forall (fun x => 0 <= x) sizes ->
  1 <= d <= nth j sizes 0 ->
  month_loop sizes k (fold_left Z.add (firstn j sizes) 0 + d) = (k + Z.of_nat j, d).
Proof.
  revert sizes k. induction j as [|j IH]; intros [|x sizes] k Hj Hp Hd; cbn [length] in Hj; try lia.
  - cbn [firstn fold_left nth] in *. cbn [month_loop].
    destruct (0 + d >? x) eqn:E; [lia|]. f_equal; lia.
  - cbn [nth] in Hd. inversion Hp as [|? ? Hx Hp']; subst.
    cbn [firstn fold_left month_loop]. rewrite fold_add_acc.
    assert (0 <= fold_left Z.add (firstn j sizes) 0) as Hpos.
    { clear -Hp'. revert j. induction sizes as [|y l IHl]; intros [|j]; cbn [firstn fold_left]; try lia.
      inversion Hp'; subst. specialize (IHl H2 j). rewrite fold_add_acc. lia. }
    destruct (fold_left Z.add (firstn j sizes) 0 + (0 + x) + d >? x) eqn:E; [|lia].
    replace (fold_left Z.add (firstn j sizes) 0 + (0 + x) + d - x)
      with (fold_left Z.add (firstn j sizes) 0 + d) by lia.
    rewrite IH by (lia || assumption). f_equal. lia.
Qed.

Lemma msizes_nonneg lp : Forall (fun x => 0 <= x) (msizes lp).
Proof. destruct lp; repeat constructor; lia. Qed.

Lemma month_loop_inv lp m d : 1 <= m <= 12 -> 1 <= d <= month_length lp m ->
  month_loop (msizes lp) 1 (dbm lp m + d) = (m, d).
Proof.
  intros Hm Hd. unfold dbm. rewrite month_loop_at.
  - f_equal. lia.
  - destruct lp; cbn [msizes MONTH_SIZES MONTH_SIZES_LEAPYEAR length]; lia.
  - apply msizes_nonneg.
  - rewrite month_length_table by assumption. exact Hd.
Qed.

Lemma month_loop_spec (lp : bool) (o : Z) : 1 <= o <= (if lp then 366 else 365) ->
  exists m d, month_loop (msizes lp) 1 o = (m, d) /\ 1 <= m <= 12 /\
    1 <= d <= month_length lp m /\ dbm lp m + d = o.
Proof.
  intros Ho.
  assert (exists m d, 1 <= m <= 12 /\ 1 <= d <= month_length lp m /\ dbm lp m + d = o) as (m & d & Hm & Hd & E).
  { clear -Ho.
    assert (exists m, 1 <= m <= 12 /\ dbm lp m < o <= dbm lp m + month_length lp m) as (m & Hm & Hb).
    { destruct lp.
      - destruct (Z_le_dec o 31); [exists (1 : Z); consts; lia|].
        destruct (Z_le_dec o 60); [exists (2 : Z); consts; lia|].
        destruct (Z_le_dec o 91); [exists (3 : Z); consts; lia|].
        destruct (Z_le_dec o 121); [exists (4 : Z); consts; lia|].
        destruct (Z_le_dec o 152); [exists (5 : Z); consts; lia|].
        destruct (Z_le_dec o 182); [exists (6 : Z); consts; lia|].
        destruct (Z_le_dec o 213); [exists (7 : Z); consts; lia|].
        destruct (Z_le_dec o 244); [exists (8 : Z); consts; lia|].
        destruct (Z_le_dec o 274); [exists (9 : Z); consts; lia|].
        destruct (Z_le_dec o 305); [exists (10 : Z); consts; lia|].
        destruct (Z_le_dec o 335); [exists (11 : Z); consts; lia|].
        exists (12 : Z); consts; lia.
      - destruct (Z_le_dec o 31); [exists (1 : Z); consts; lia|].
        destruct (Z_le_dec o 59); [exists (2 : Z); consts; lia|].
        destruct (Z_le_dec o 90); [exists (3 : Z); consts; lia|].
        destruct (Z_le_dec o 120); [exists (4 : Z); consts; lia|].
        destruct (Z_le_dec o 151); [exists (5 : Z); consts; lia|].
        destruct (Z_le_dec o 181); [exists (6 : Z); consts; lia|].
        destruct (Z_le_dec o 212); [exists (7 : Z); consts; lia|].
        destruct (Z_le_dec o 243); [exists (8 : Z); consts; lia|].
        destruct (Z_le_dec o 273); [exists (9 : Z); consts; lia|].
        destruct (Z_le_dec o 304); [exists (10 : Z); consts; lia|].
        destruct (Z_le_dec o 334); [exists (11 : Z); consts; lia|].
        exists (12 : Z); consts; lia. }
    exists m, (o - dbm lp m). lia. }
  exists m, d. subst o. rewrite month_loop_inv by assumption. auto.
Qed.

Lemma month_unique lp m d m' d' : 1 <= m <= 12 -> 1 <= d <= month_length lp m ->
  1 <= m' <= 12 -> 1 <= d' <= month_length lp m' -> dbm lp m + d = dbm lp m' + d' ->
  m = m' /\ d = d'.
Proof.
  intros Hm Hd Hm' Hd' E.
  pose proof (month_loop_inv lp m d Hm Hd) as H1. pose proof (month_loop_inv lp m' d' Hm' Hd') as H2.
  rewrite E, H2 in H1. injection H1. auto.
Qed.

Lemma absn_unique y m d y' m' d' :
  1 <= m <= 12 -> 1 <= d <= month_length (leap y) m ->
  1 <= m' <= 12 -> 1 <= d' <= month_length (leap y') m' ->
  absn y m d = absn y' m' d' -> y = y' /\ m = m' /\ d = d'.
Proof.
  intros Hm Hd Hm' Hd' E. unfold absn in E.
  pose proof (dbm_range _ _ _ Hm Hd). pose proof (dbm_range _ _ _ Hm' Hd').
  destruct (year_unique y (dbm (leap y) m + d) y' (dbm (leap y') m' + d')) as [-> E2];
    [unfold ylen; lia | unfold ylen; lia | lia |].
  destruct (month_unique (leap y') m d m' d') as [-> ->]; auto.
Qed.

(** *** The count of days *)
Definition vmd (y m d : Z) : Prop := 1 <= m <= 12 /\ 1 <= d <= month_length (leap y) m.

Lemma absn_next y m d : vmd y m d ->
  let '(y', m', d') := next_day leap (y, m, d) in vmd y' m' d' /\ absn y' m' d' = absn y m d + 1 /\ y <= y'.
Proof.
  intros [Hm Hd]. unfold next_day.
  destruct (d <? month_length (leap y) m) eqn:E1.
  - repeat split; unfold absn; lia.
  - destruct (m <? 12) eqn:E2.
    + pose proof (month_length_pos (leap y) (m + 1)).
      repeat split; try lia. unfold absn. rewrite dbm_succ by lia. lia.
    + assert (m = 12) by lia. subst m.
      split; [split; [lia|]; pose proof (month_length_pos (leap (y + 1)) 1); lia|].
      split; [|lia].
      unfold absn. rewrite dby_succ.
      replace (dbm (leap (y + 1)) 1) with 0 by (destruct (leap (y + 1)); reflexivity).
      assert (month_length (leap y) 12 = 31) by reflexivity.
      pose proof (dbm_last (leap y)). unfold ylen. destruct (leap y); lia.
Qed.

Lemma gregorian_sound n x : gregorian n x ->
  let '(y, m, d) := x in 1 <= y /\ vmd y m d /\ absn y m d = n.
Proof.
  induction 1 as [|n [[y m] d] H IH].
  - repeat split; try lia.
    pose proof (month_length_pos (leap 1) 1). lia.
  - destruct IH as (Hy & Hv & Hn).
    pose proof (absn_next y m d Hv) as H2.
    destruct (next_day leap (y, m, d)) as [[y' m'] d'].
    destruct H2 as (? & ? & ?). repeat split; try lia; apply H0.
Qed.

Lemma gregorian_exists k : exists x, gregorian (1 + Z.of_nat k) x.
Proof.
  induction k as [|k [x Hx]].
  - exists (1, 1, 1). apply counted_first.
  - exists (next_day leap x). replace (1 + Z.of_nat (S k)) with ((1 + Z.of_nat k) + 1) by lia.
    apply counted_next, Hx.
Qed.

Lemma absn_pos y m d : 1 <= y -> vmd y m d -> 1 <= absn y m d.
Proof.
  intros Hy [Hm Hd]. unfold absn. pose proof (dbm_range _ _ _ Hm Hd).
  assert (0 <= dby y) by (unfold dby; lia). lia.
Qed.

Lemma gregorian_iff n y m d : gregorian n (y, m, d) <-> 1 <= y /\ vmd y m d /\ absn y m d = n.
Proof.
  split; [apply (gregorian_sound n (y, m, d))|].
  intros (Hy & Hv & <-).
  destruct (gregorian_exists (Z.to_nat (absn y m d - 1))) as [[[y' m'] d'] Hx].
  pose proof (absn_pos y m d Hy Hv).
  replace (1 + Z.of_nat (Z.to_nat (absn y m d - 1))) with (absn y m d) in Hx by lia.
  pose proof (gregorian_sound _ _ Hx) as (Hy' & [Hm' Hd'] & E). destruct Hv as [Hm Hd].
  destruct (absn_unique y' m' d' y m d) as (-> & -> & ->); auto.
Qed.

(** *** GetOrdinalDay and GetAbsoluteDay *)
Lemma GetOrdinalDay_ymd y m d :
  GetOrdinalDay (of_ymd y m d) = Ok (y / 100, Some (y mod 100), Some (dbm (leap y) m + d)).
Proof.
  unfold GetOrdinalDay, of_ymd; cbn [d_day d_century d_year d_month].
  rewrite LeapYear_m_leap. cbn [bind]. rewrite fold_add_acc. reflexivity.
Qed.

Lemma GetAbsoluteDay_ymd y m d : GetAbsoluteDay (of_ymd y m d) = Ok (absn y m d).
Proof.
  unfold GetAbsoluteDay. change (Complete (of_ymd y m d)) with true. cbn [negb].
  rewrite GetOrdinalDay_ymd. cbn [of_ymd d_year d_century bind].
  f_equal. unfold absn, dby.
  replace (y / 100 * 100 + y mod 100 - 1) with (y - 1) by lia. lia.
Qed.

Lemma CheckDate_ymd y m d : valid_ymd y m d -> CheckDate (of_ymd y m d) = Ok (of_ymd y m d).
Proof.
  intros (Hy & Hm & Hd). unfold CheckDate, of_ymd; cbn [d_century d_year d_week d_month d_day truthy].
  destruct ((y / 100 <? 0) || (y / 100 >? 99)) eqn:E1; [lia|].
  destruct ((y mod 100 <? 0) || (y mod 100 >? 99)) eqn:E2; [lia|].
  destruct ((y mod 100 =? 0) && (y / 100 =? 0)) eqn:E3; [lia|].
  destruct ((m <? 1) || (m >? 12)) eqn:E4; [lia|].
  replace (y / 100 * 100 + y mod 100) with y by lia.
  rewrite LeapYear_leap, month_length_table by lia.
  destruct ((d <? 1) || (d >? month_length (leap y) m)) eqn:E5; [lia|]. reflexivity.
Qed.

(** A complete date accepted by the check is a valid day. *)
Lemma CheckDate_complete d d' : CheckDate d = Ok d' -> Complete d = true -> d_week d = None ->
  d_month d <> None -> d_year d <> None ->
  d' = d /\ exists y m dd, d = of_ymd y m dd /\ valid_ymd y m dd.
Proof.
  destruct d as [c yr mo wk dy]. unfold CheckDate, Complete; cbn [d_century d_year d_week d_month d_day].
  intros H Hc -> Hm Hy. cbn [truthy] in H.
  destruct dy as [dd|]; [|discriminate].
  destruct mo as [m|]; [|congruence]. destruct yr as [y|]; [|congruence].
  destruct ((c <? 0) || (c >? 99)) eqn:E1; [discriminate|].
  destruct ((y <? 0) || (y >? 99)) eqn:E2; [discriminate|].
  destruct ((y =? 0) && (c =? 0)) eqn:E3; [discriminate|].
  destruct ((m <? 1) || (m >? 12)) eqn:E4; [discriminate|].
  rewrite LeapYear_leap, month_length_table in H by lia.
  destruct ((dd <? 1) || (dd >? month_length (leap (c * 100 + y)) m)) eqn:E5; [discriminate|].
  injection H as <-. split; [reflexivity|].
  exists (c * 100 + y), m, dd. split.
  - unfold of_ymd. replace ((c * 100 + y) / 100) with c by lia.
    replace ((c * 100 + y) mod 100) with y by lia. reflexivity.
  - unfold valid_ymd. lia.
Qed.

(** *** SetFromOrdinalDay *)
Lemma SetFromOrdinalDay_ymd y m d base : vmd y m d ->
  SetFromOrdinalDay (Some (y / 100)) (Some (y mod 100)) (Some (dbm (leap y) m + d)) base
  = Ok (of_ymd y m d).
Proof.
  intros [Hm Hd]. unfold SetFromOrdinalDay. cbn [bind d_century d_year].
  rewrite LeapYear_m_leap. cbn [bind]. rewrite month_loop_inv by assumption. reflexivity.
Qed.

(** *** SetFromAbsoluteDay *)
Lemma abs_split n :
  exists y o, 1 <= o <= ylen y /\ dby y + o = n /\
    SetFromAbsoluteDay n = SetFromOrdinalDay (Some (y / 100)) (Some (y mod 100)) (Some o) None.
Proof.
  unfold SetFromAbsoluteDay.
  set (q := (n - 1) / 146097). set (r := (n - 1) mod 146097).
  assert (n - 1 = 146097 * q + r /\ 0 <= r < 146097) as [Hq Hr] by (subst q r; lia).
  clearbody q r.
  destruct (r =? 146097 - 1) eqn:E1.
  - exists (400 * q + 399 + 1), (365 + 1). split; [|split; [|reflexivity]].
    + unfold ylen. replace (leap (400 * q + 399 + 1)) with true; [lia|].
      symmetry. unfold leap.
      replace ((400 * q + 399 + 1) mod 400) with 0 by lia. rewrite orb_true_r. reflexivity.
    + unfold dby. replace (400 * q + 399 + 1 - 1) with (400 * q + 399) by lia.
      replace ((400 * q + 399) / 4) with (100 * q + 99) by lia.
      replace ((400 * q + 399) / 100) with (4 * q + 3) by lia.
      replace ((400 * q + 399) / 400) with q by lia. lia.
  - set (c := r / 36524). set (r2 := r mod 36524).
    assert (r = 36524 * c + r2 /\ 0 <= r2 < 36524 /\ 0 <= c <= 3) as (Hc & Hr2 & Hcr)
      by (subst c r2; lia).
    clearbody c r2.
    set (k := r2 / 1461). set (r3 := r2 mod 1461).
    assert (r2 = 1461 * k + r3 /\ 0 <= r3 < 1461 /\ 0 <= k <= 24) as (Hk & Hr3 & Hkr)
      by (subst k r3; lia).
    clearbody k r3.
    destruct (r3 =? 1461 - 1) eqn:E2.
    + exists (400 * q + 100 * c + 4 * k + 3 + 1), (365 + 1). split; [|split; [|reflexivity]].
      * unfold ylen. assert (k <= 23) by lia.
        replace (leap (400 * q + 100 * c + 4 * k + 3 + 1)) with true; [lia|].
        symmetry. unfold leap.
        replace ((400 * q + 100 * c + 4 * k + 3 + 1) mod 4) with 0 by lia.
        destruct ((400 * q + 100 * c + 4 * k + 3 + 1) mod 100 =? 0) eqn:E; [lia|]. reflexivity.
      * unfold dby.
        replace (400 * q + 100 * c + 4 * k + 3 + 1 - 1) with (400 * q + 100 * c + 4 * k + 3) by lia.
        replace ((400 * q + 100 * c + 4 * k + 3) / 4) with (100 * q + 25 * c + k) by lia.
        replace ((400 * q + 100 * c + 4 * k + 3) / 100) with (4 * q + c) by lia.
        replace ((400 * q + 100 * c + 4 * k + 3) / 400) with q by lia. lia.
    + set (j := r3 / 365). set (r4 := r3 mod 365).
      assert (r3 = 365 * j + r4 /\ 0 <= r4 < 365 /\ 0 <= j <= 3) as (Hj & Hr4 & Hjr)
        by (subst j r4; lia).
      clearbody j r4.
      exists (400 * q + 100 * c + 4 * k + j + 1), (r4 + 1). split; [|split; [|reflexivity]].
      * pose proof (ylen_pos (400 * q + 100 * c + 4 * k + j + 1)). lia.
      * unfold dby.
        replace (400 * q + 100 * c + 4 * k + j + 1 - 1) with (400 * q + 100 * c + 4 * k + j) by lia.
        replace ((400 * q + 100 * c + 4 * k + j) / 4) with (100 * q + 25 * c + k) by lia.
        replace ((400 * q + 100 * c + 4 * k + j) / 100) with (4 * q + c) by lia.
        replace ((400 * q + 100 * c + 4 * k + j) / 400) with q by lia. lia.
Qed.

Lemma ymd_exists n : exists y m d, vmd y m d /\ absn y m d = n.
Proof.
  destruct (abs_split n) as (y & o & Ho & E & _). unfold ylen in Ho.
  destruct (month_loop_spec (leap y) o Ho) as (m & d & _ & Hm & Hd & E2).
  exists y, m, d. split; [split; assumption|]. unfold absn. lia.
Qed.

Lemma SetFromAbsoluteDay_absn y m d : vmd y m d -> SetFromAbsoluteDay (absn y m d) = Ok (of_ymd y m d).
Proof.
  intros Hv. destruct (abs_split (absn y m d)) as (y' & o & Ho & E & ->).
  pose proof Hv as [Hm Hd]. pose proof (dbm_range _ _ _ Hm Hd) as Hr.
  destruct (year_unique y' o y (dbm (leap y) m + d)) as [-> ->];
    [exact Ho | unfold ylen; exact Hr | unfold absn in E; lia |].
  apply SetFromOrdinalDay_ymd; assumption.
Qed.

Lemma Date_absolute_ymd y m d : valid_ymd y m d -> Date_absolute (absn y m d) = Ok (of_ymd y m d).
Proof.
  intros (Hy & Hv). unfold Date_absolute, Date; cbn [a_absoluteDay].
  pose proof (absn_pos y m d (proj1 Hy) Hv).
  replace (truthy (Some (absn y m d))) with true by (cbn [truthy]; lia).
  rewrite SetFromAbsoluteDay_absn by exact Hv. cbn [bind].
  apply CheckDate_ymd. split; assumption.
Qed.

Lemma absn_range y m d : vmd y m d -> (1 <= y <= 9999 <-> 1 <= absn y m d <= 3652059).
Proof.
  intros [Hm Hd]. pose proof (dbm_range _ _ _ Hm Hd) as Hr. unfold absn.
  split; intros H.
  - split; [assert (0 <= dby y) by (unfold dby; lia); lia|].
    destruct (Z_lt_dec y 9999) as [L|L].
    + pose proof (dby_lt y 9999 L) as L2. unfold ylen in L2.
      assert (dby 9999 = 3651694) by reflexivity. lia.
    + assert (y = 9999) by lia. subst y.
      assert (dby 9999 = 3651694) by reflexivity.
      assert (leap 9999 = false) as Hl by reflexivity. rewrite Hl in *. lia.
  - split.
    + destruct (Z_lt_dec y 1) as [L|L]; [|lia].
      pose proof (dby_lt y 1 L) as L2. unfold ylen in L2. assert (dby 1 = 0) by reflexivity. lia.
    + destruct (Z_lt_dec 9999 y) as [L|L]; [|lia].
      pose proof (dby_lt 9999 y L) as L2. assert (ylen 9999 = 365) as Hl by reflexivity.
      assert (dby 9999 = 3651694) by reflexivity. lia.
Qed.

Lemma Date_absolute_spec n : 1 <= n <= 3652059 ->
  exists y m d, valid_ymd y m d /\ absn y m d = n /\ Date_absolute n = Ok (of_ymd y m d).
Proof.
  intros Hn. destruct (ymd_exists n) as (y & m & d & Hv & E). subst n.
  apply (absn_range y m d Hv) in Hn.
  exists y, m, d. assert (valid_ymd y m d) by (split; assumption).
  split; [assumption|]. split; [reflexivity|]. apply Date_absolute_ymd; assumption.
Qed.

(** Outside the range the constructor fails, except that day 0 is taken as no argument. *)
Lemma Date_absolute_out n : ~ 1 <= n <= 3652059 -> n <> 0 -> Date_absolute n = Err DateTimeError.
Proof.
  intros Hn H0. destruct (ymd_exists n) as (y & m & d & Hv & E).
  unfold Date_absolute, Date; cbn [a_absoluteDay].
  replace (truthy (Some n)) with true by (cbn [truthy]; lia).
  rewrite <- E. rewrite SetFromAbsoluteDay_absn by exact Hv. cbn [bind].
  rewrite <- E in Hn. rewrite <- (absn_range y m d Hv) in Hn.
  unfold CheckDate, of_ymd; cbn [d_century d_year].
  destruct ((y / 100 <? 0) || (y / 100 >? 99)) eqn:E1; [reflexivity|].
  destruct ((y mod 100 <? 0) || (y mod 100 >? 99)) eqn:E2; [reflexivity|].
  destruct ((y mod 100 =? 0) && (y / 100 =? 0)) eqn:E3; [reflexivity|]. lia.
Qed.

(** *** Ordinal dates *)
Lemma Date_ordinal_ymd y m d base : valid_ymd y m d ->
  Date_ordinal (Some (y / 100)) (Some (y mod 100)) (Some (dbm (leap y) m + d)) base = Ok (of_ymd y m d).
Proof.
  intros (Hy & Hv). unfold Date_ordinal, Date; cbn [a_absoluteDay a_decade a_week a_weekday
    a_ordinalDay a_century a_year a_base truthy orb].
  pose proof (dbm_range _ _ _ (proj1 Hv) (proj2 Hv)).
  replace (negb (dbm (leap y) m + d =? 0)) with true by lia.
  rewrite SetFromOrdinalDay_ymd by exact Hv. cbn [bind]. apply CheckDate_ymd. split; assumption.
Qed.

Lemma ordinal_spec y m d o : 1 <= y -> vmd y m d -> (ordinal y m d o <-> o = dbm (leap y) m + d).
Proof.
  intros Hy Hv. unfold ordinal. split.
  - intros (j & n & Hj & Hn & ->).
    apply gregorian_iff in Hj as (_ & _ & <-). apply gregorian_iff in Hn as (_ & _ & <-).
    unfold absn. replace (dbm (leap y) 1) with 0 by (destruct (leap y); reflexivity). lia.
  - intros ->. exists (absn y 1 1), (absn y m d).
    pose proof (month_length_pos (leap y) 1).
    split; [apply gregorian_iff; repeat split; lia|].
    split; [apply gregorian_iff; repeat split; try lia; apply Hv|].
    unfold absn. replace (dbm (leap y) 1) with 0 by (destruct (leap y); reflexivity). lia.
Qed.

Lemma month_loop_over (lp : bool) (o : Z) : (if lp then 366 else 365) < o ->
  exists d, month_loop (msizes lp) 1 o = (13, d).
Proof.
  intros H. unfold msizes. destruct lp;
  cbn [MONTH_SIZES MONTH_SIZES_LEAPYEAR month_loop];
  repeat match goal with
  | |- context [if ?c then _ else _] => let E := fresh in destruct c eqn:E; [|lia]
  end; eexists; reflexivity.
Qed.

Lemma Date_ordinal_out y o base : 1 <= y <= 9999 -> o <> 0 -> ~ 1 <= o <= ylen y ->
  Date_ordinal (Some (y / 100)) (Some (y mod 100)) (Some o) base = Err DateTimeError.
Proof.
  intros Hy H0 Ho. unfold Date_ordinal, Date; cbn [a_absoluteDay a_decade a_week a_weekday
    a_ordinalDay a_century a_year a_base truthy orb].
  replace (negb (o =? 0)) with true by lia.
  unfold SetFromOrdinalDay. cbn [bind d_century d_year]. rewrite LeapYear_m_leap. cbn [bind].
  assert (exists mm dd, month_loop (msizes (leap y)) 1 o = (mm, dd) /\ (mm = 13 \/ mm = 1 /\ dd < 1)) as
    (mm & dd & E & Hmd).
  { destruct (Z_lt_dec o 1) as [L|L].
    - exists 1, o. split; [|right; lia]. unfold msizes.
      destruct (leap y); cbn [MONTH_SIZES MONTH_SIZES_LEAPYEAR month_loop];
        (destruct (o >? 31) eqn:E; [lia|reflexivity]).
    - destruct (month_loop_over (leap y) o) as [dd E]; [unfold ylen in Ho; lia|].
      exists 13, dd. auto. }
  rewrite E. cbn [bind]. unfold CheckDate; cbn [d_century d_year d_week d_month d_day truthy].
  destruct ((y / 100 <? 0) || (y / 100 >? 99)) eqn:E1; [reflexivity|].
  destruct ((y mod 100 <? 0) || (y mod 100 >? 99)) eqn:E2; [reflexivity|].
  destruct ((y mod 100 =? 0) && (y / 100 =? 0)) eqn:E3; [reflexivity|].
  destruct Hmd as [-> | [-> Hdd]]; [reflexivity|].
  cbn [Z.ltb Z.gtb Z.compare Pos.compare Pos.compare_cont orb].
  replace (dd <? 1) with true by lia. reflexivity.
Qed.

(** *** Day of week *)
Lemma nth_offsets m : 1 <= m <= 12 ->
  nth (Z.to_nat (m - 1)) MONTH_OFFSETS 0 = dbm false m.
Proof. intros Hm. months m H; reflexivity. Qed.
Lemma dbm_leap m : 1 <= m <= 12 -> dbm true m = dbm false m + (if m <? 3 then 0 else 1).
Proof. intros Hm. months m H; reflexivity. Qed.

Lemma DayOfWeek_spec y m d : 1 <= m <= 12 -> DayOfWeek y m d = weekday (absn y m d).
Proof.
  intros Hm. unfold DayOfWeek, weekday. rewrite nth_offsets by assumption.
  rewrite LeapYear_leap. f_equal.
  assert (dby y + 366 + (if leap y then 1 else 0) = y * 365 + y / 4 + 1 - (y / 100 + 1) + y / 400 + 1)
    as Hn.
  { unfold dby, leap. destruct (y mod 4 =? 0) eqn:E4; destruct (y mod 100 =? 0) eqn:E100;
    destruct (y mod 400 =? 0) eqn:E400; cbn [andb orb negb]; lia. }
  unfold absn.
  destruct (leap y) eqn:El.
  - rewrite dbm_leap by assumption. rewrite andb_true_r.
    destruct (m <? 3) eqn:E3; lia.
  - rewrite andb_false_r. lia.
Qed.

Lemma DayOfWeek_range y m d : 1 <= m <= 12 -> 1 <= DayOfWeek y m d <= 7.
Proof. intros. rewrite DayOfWeek_spec by assumption. unfold weekday. lia. Qed.

(** *** Week dates *)
Lemma dbm1 lp : dbm lp 1 = 0.
Proof. destruct lp; reflexivity. Qed.

(** The day number of 1 January of year y. *)
Definition jan1 (y : Z) : Z := dby y + 1.
(** Thursday-based closed form: number of weeks. *)
Lemma WeekCount_spec y :
  WeekCount y = if (weekday (jan1 y) =? 4) || ((weekday (jan1 y) =? 3) && leap y) then 53 else 52.
Proof.
  unfold WeekCount. rewrite DayOfWeek_spec by lia. unfold absn. rewrite dbm1.
  replace (dby y + 0 + 1) with (jan1 y) by (unfold jan1; lia). rewrite LeapYear_leap.
  destruct (weekday (jan1 y) =? 4); [reflexivity|].
  destruct (weekday (jan1 y) =? 3); destruct (leap y); reflexivity.
Qed.

(** The Monday of week 1 of year y. *)
Definition mon1 (y : Z) : Z := dby y + 4 - (weekday (dby y + 4) - 1).

Lemma mon1_range y : dby y - 2 <= mon1 y <= dby y + 4 /\ (mon1 y - 1) mod 7 = 0.
Proof. unfold mon1, weekday. lia. Qed.

Lemma mon1_succ y : mon1 (y + 1) = mon1 y + 7 * WeekCount y.
Proof.
  rewrite WeekCount_spec. pose proof (mon1_range y). pose proof (mon1_range (y + 1)).
  rewrite dby_succ in *. unfold ylen in *. unfold jan1, weekday.
  destruct (leap y);
  destruct ((dby y + 1 - 1) mod 7 + 1 =? 4) eqn:E4; destruct ((dby y + 1 - 1) mod 7 + 1 =? 3) eqn:E3;
    cbn [orb andb]; lia.
Qed.

(** Week coordinates of a day number. *)
Definition week_of (n y w wd : Z) : Prop :=
  1 <= w <= WeekCount y /\ 1 <= wd <= 7 /\ n = mon1 y + 7 * (w - 1) + (wd - 1).

Lemma GetWeekDay_ymd y m d : vmd y m d ->
  exists Y w wd, week_of (absn y m d) Y w wd /\
    GetWeekDay (of_ymd y m d)
    = Ok (Y / 100, Some ((Y mod 100) / 10), Some (Y mod 10), Some w, Some wd).
Proof.
  intros [Hm Hd].
  unfold GetWeekDay. cbn [of_ymd d_day]. fold (of_ymd y m d). rewrite GetOrdinalDay_ymd.
  cbn [bind d_month of_ymd].
  replace (y mod 100 + y / 100 * 100) with y by lia.
  rewrite LeapYear_leap, !DayOfWeek_spec by lia.
  pose proof (dbm_range _ _ _ Hm Hd) as Hr.
  set (o := dbm (leap y) m + d) in *.
  assert (absn y m d = dby y + o) as E by (unfold absn; subst o; lia). rewrite E.
  set (wd := weekday (dby y + o)).
  assert (1 <= wd <= 7 /\ (dby y + o - wd) mod 7 = 0) as [Hwd Hmod] by (subst wd; unfold weekday; lia).
  unfold absn. rewrite dbm1. replace (dby y + 0 + 4) with (dby y + 4) by lia.
  pose proof (mon1_range y) as [Hmr Hmm].
  assert (5 - weekday (dby y + 4) = mon1 y - dby y) as Hb by (unfold mon1; lia).
  rewrite Hb.
  destruct (o + 4 - wd <? 1) eqn:E1.
  - exists (y - 1), (WeekCount (y - 1)), wd. split; [|reflexivity].
    pose proof (mon1_succ (y - 1)) as Hs. replace (y - 1 + 1) with y in Hs by lia.
    assert (52 <= WeekCount (y - 1)) by (rewrite WeekCount_spec; destruct (_ || _); lia).
    split; [lia|]. split; [lia|].
    (* the Monday of this week is mon1 y - 7 *)
    assert (dby y + o - (wd - 1) = mon1 y - 7) by lia. lia.
  - destruct (o + 4 - wd >? (if leap y then 366 else 365)) eqn:E2.
    + exists (y + 1), 1, wd. split; [|reflexivity].
      pose proof (mon1_range (y + 1)) as [Hmr2 Hmm2]. rewrite dby_succ in Hmr2. unfold ylen in Hmr2.
      assert (52 <= WeekCount (y + 1)) by (rewrite WeekCount_spec; destruct (_ || _); lia).
      split; [lia|]. split; [lia|].
      assert (dby y + o - (wd - 1) = mon1 (y + 1)) by (destruct (leap y); lia). lia.
    + exists y, ((o - (mon1 y - dby y)) / 7 + 1), wd. split; [|reflexivity].
      pose proof (mon1_succ y) as Hs. pose proof (mon1_range (y + 1)) as [Hmr2 Hmm2].
      rewrite dby_succ in Hmr2. unfold ylen in Hmr2.
      assert (exists k, dby y + o - (wd - 1) = mon1 y + 7 * k) as [k Hk]
        by (exists ((dby y + o - (wd - 1) - mon1 y) / 7); lia).
      assert ((o - (mon1 y - dby y)) / 7 = k) as -> by lia.
      split; [|split; [lia|lia]].
      split; [lia|].
      assert (mon1 y + 7 * k < mon1 (y + 1)) by (destruct (leap y); lia). lia.
Qed.

Lemma week_unique n y w wd y' w' wd' : week_of n y w wd -> week_of n y' w' wd' ->
  y = y' /\ w = w' /\ wd = wd'.
Proof.
  intros (Hw & Hd & E) (Hw' & Hd' & E').
  assert (forall k a, mon1 a <= mon1 (a + Z.of_nat k)) as Mono.
  { induction k as [|k IH]; intros a; [rewrite Z.add_0_r; lia|].
    replace (a + Z.of_nat (S k)) with ((a + Z.of_nat k) + 1) by lia. rewrite mon1_succ.
    assert (52 <= WeekCount (a + Z.of_nat k)) by (rewrite WeekCount_spec; destruct (_ || _); lia).
    specialize (IH a). lia. }
  assert (forall a b, a < b -> mon1 (a + 1) <= mon1 b) as Mono2.
  { intros a b L. specialize (Mono (Z.to_nat (b - (a + 1))) (a + 1)).
    replace (a + 1 + Z.of_nat (Z.to_nat (b - (a + 1)))) with b in Mono by lia. exact Mono. }
  pose proof (mon1_range y). pose proof (mon1_range y').
  destruct (Z.lt_trichotomy y y') as [L | [-> | L]].
  - specialize (Mono2 _ _ L). rewrite mon1_succ in Mono2. lia.
  - lia.
  - specialize (Mono2 _ _ L). rewrite mon1_succ in Mono2. lia.
Qed.

(** week_of is the ISO definition. *)
Lemma week_of_iso n y w wd : 1 <= n - wd + 4 -> 1 <= y ->
  (week_of n y w wd <-> iso_week n y w wd).
Proof.
  intros Hn Hy. unfold iso_week, week_of.
  pose proof (mon1_range y) as [Hmr Hmm]. pose proof (mon1_range (y + 1)) as [Hmr2 Hmm2].
  pose proof (mon1_succ y) as Hs. rewrite dby_succ in Hmr2.
  assert (gregorian (dby y + 1) (y, 1, 1)) as HJ.
  { apply gregorian_iff. split; [lia|]. split.
    - split; [lia|]. pose proof (month_length_pos (leap y) 1). lia.
    - unfold absn. rewrite dbm1. lia. }
  assert (forall j, gregorian j (y, 1, 1) -> j = dby y + 1) as HJu.
  { intros j Hj. apply gregorian_iff in Hj as (_ & _ & <-). unfold absn. rewrite dbm1. lia. }
  split.
  - intros (Hw & Hd & E).
    split; [unfold weekday; lia|]. split.
    + assert (1 <= n - wd + 4 - dby y <= ylen y) as Ho.
      { assert (dby (y+1) = dby y + ylen y) by apply dby_succ. lia. }
      unfold ylen in Ho.
      destruct (month_loop_spec (leap y) _ Ho) as (m & d & _ & Hm & Hdd & Eo).
      exists m, d. apply gregorian_iff. split; [lia|]. split; [split; assumption|].
      unfold absn. lia.
    + exists (dby y + 1). split; [exact HJ|].
      assert (w - 1 = (n - wd + 4 - (dby y + 1)) / 7); lia.
  - intros (-> & (m & d & HT) & j & Hj & ->). apply HJu in Hj. subst j.
    apply gregorian_iff in HT as (_ & [Hm Hd] & E).
    pose proof (dbm_range _ _ _ Hm Hd) as Hr. unfold absn in E.
    set (T := n - weekday n + 4) in *. assert ((T - 4) mod 7 = 0) by (subst T; unfold weekday; lia).
    assert (n = T - 4 + weekday n) by (subst T; lia).
    assert (1 <= weekday n <= 7) by (unfold weekday; lia).
    clearbody T. unfold ylen in *.
    assert (exists k, T - 3 = mon1 y + 7 * k) as [k Hk] by (exists ((T - 3 - mon1 y) / 7); lia).
    assert ((T - (dby y + 1)) / 7 = k) as -> by lia.
    split; [|split; [lia|lia]].
    split; [lia|]. destruct (leap y); lia.
Qed.

(** *** Setting from week dates *)
Lemma week_to_calendar_ymd y m d Y w wd : vmd y m d -> week_of (absn y m d) Y w wd ->
  week_to_calendar (mkDate (Y / 100) (Some (Y mod 100)) None (Some w) (Some wd)) = Ok (of_ymd y m d).
Proof.
  intros [Hm Hd] (Hw & Hwd & E). unfold week_to_calendar; cbn [d_day d_year d_week d_century].
  replace (Y / 100 * 100 + Y mod 100) with Y by lia.
  destruct (w >? WeekCount Y) eqn:E1; [lia|].
  assert (4 - DayOfWeek Y 1 4 + (w - 1) * 7 + wd = absn y m d - dby Y) as ED.
  { rewrite DayOfWeek_spec by lia. unfold absn at 1. rewrite dbm1.
    replace (dby Y + 0 + 4) with (dby Y + 4) by lia. unfold mon1 in E. lia. }
  rewrite ED.
  pose proof (dbm_range _ _ _ Hm Hd) as Hr.
  pose proof (mon1_range Y) as [Hmr _]. pose proof (mon1_range (Y + 1)) as [Hmr2 _].
  pose proof (mon1_succ Y) as Hs. rewrite dby_succ in Hmr2.
  assert (forall YY oo, 1 <= oo <= ylen YY -> dby YY + oo = absn y m d ->
    YY = y /\ oo = dbm (leap y) m + d) as U.
  { intros YY oo Hoo Eoo. apply year_unique; [exact Hoo | unfold ylen; exact Hr | unfold absn in Eoo; lia]. }
  rewrite !LeapYear_leap. fold (ylen Y).
  destruct (absn y m d - dby Y <? 1) eqn:E2.
  - pose proof (dby_succ (Y - 1)) as Hd1. replace (Y - 1 + 1) with Y in Hd1 by lia.
    pose proof (ylen_pos (Y - 1)).
    replace (if leap (Y - 1) then absn y m d - dby Y + 366 else absn y m d - dby Y + 365)
      with (absn y m d - dby Y + ylen (Y - 1)) by (unfold ylen; destruct (leap (Y - 1)); lia).
    destruct (U (Y - 1) (absn y m d - dby Y + ylen (Y - 1))) as [E3 E4]; [lia|lia|].
    rewrite E4, E3, LeapYear_leap, month_loop_inv by assumption. reflexivity.
  - destruct (absn y m d - dby Y >? ylen Y) eqn:E3.
    + pose proof (dby_succ Y) as Hd1. pose proof (ylen_pos (Y + 1)). pose proof (ylen_pos Y).
      destruct (U (Y + 1) (absn y m d - dby Y - ylen Y)) as [E4 E5]; [lia|lia|].
      rewrite E5, E4, LeapYear_leap, month_loop_inv by assumption. reflexivity.
    + destruct (U Y (absn y m d - dby Y)) as [E4 E5]; [lia|lia|].
      rewrite E5, E4, LeapYear_leap, month_loop_inv by assumption. reflexivity.
Qed.

Lemma WeekCount_range y : 52 <= WeekCount y <= 53.
Proof. rewrite WeekCount_spec; destruct (_ || _); lia. Qed.

(** Any week date whose day falls in a representable year is accepted. *)
Lemma Date_week_ymd y m d Y w wd base : valid_ymd y m d -> week_of (absn y m d) Y w wd ->
  Date_week (Some (Y / 100)) (Some ((Y mod 100) / 10)) (Some (Y mod 10)) (Some w) (Some wd) base
  = Ok (of_ymd y m d).
Proof.
  intros (Hy & Hv) HW. pose proof HW as (Hw & Hwd & E). pose proof (WeekCount_range Y).
  unfold Date_week, Date; cbn [a_absoluteDay a_decade a_week a_weekday a_ordinalDay a_century a_year a_base].
  cbn [truthy].
  replace (negb (w =? 0)) with true by lia. rewrite orb_true_r. cbn [orb].
  unfold SetFromWeekDay. cbn [is_none andb out_of].
  destruct ((wd <? 1) || (wd >? 7)) eqn:E1; [lia|].
  destruct ((w <? 0) || (w >? 53)) eqn:E2; [lia|].
  destruct ((Y mod 10 <? 0) || (Y mod 10 >? 9)) eqn:E3; [lia|].
  destruct ((Y mod 100 / 10 <? 0) || (Y mod 100 / 10 >? 9)) eqn:E4; [lia|].
  cbn [bind].
  replace (Y mod 100 / 10 * 10 + Y mod 10) with (Y mod 100) by lia.
  rewrite (week_to_calendar_ymd y m d) by assumption. cbn [bind]. apply CheckDate_ymd. split; assumption.
Qed.

(** *** Comparison *)
Lemma date_cmp_ymd y m d y' m' d' : valid_ymd y m d -> valid_ymd y' m' d' ->
  date_cmp (of_ymd y m d) (of_ymd y' m' d')
  = Ok (if absn y m d <? absn y' m' d' then -1 else if absn y m d =? absn y' m' d' then 0 else 1).
Proof.
  intros (Hy & Hm & Hd) (Hy' & Hm' & Hd').
  unfold date_cmp. change (precision_eqb _ _) with true. cbn [negb of_ymd d_century d_year d_month d_day is_none].
  unfold ocmp; cbn [olt oeqb].
  pose proof (dbm_range _ _ _ Hm Hd) as Hr. pose proof (dbm_range _ _ _ Hm' Hd') as Hr'.
  assert (y < y' -> absn y m d < absn y' m' d') as L1.
  { intros L. pose proof (dby_lt _ _ L). unfold absn, ylen in *. lia. }
  assert (y' < y -> absn y' m' d' < absn y m d) as L2.
  { intros L. pose proof (dby_lt _ _ L). unfold absn, ylen in *. lia. }
  assert (y = y' -> m < m' -> absn y m d < absn y' m' d') as L3.
  { intros -> L. unfold absn. clear -L Hm Hd Hm' Hd'.
    months m H; months m' H'; try lia; destruct (leap y'); consts; lia. }
  assert (y = y' -> m' < m -> absn y' m' d' < absn y m d) as L4.
  { intros -> L. unfold absn. clear -L Hm Hd Hm' Hd'.
    months m H; months m' H'; try lia; destruct (leap y'); consts; lia. }
  assert (y = y' -> m = m' -> absn y m d - absn y' m' d' = d - d') as L5.
  { intros -> ->. unfold absn. lia. }
  destruct (y / 100 <? y' / 100) eqn:A1; cbn [Z.eqb negb]; [f_equal; destruct (absn y m d <? _) eqn:X; lia|].
  destruct (y / 100 =? y' / 100) eqn:A2; cbn [Z.eqb negb];
    [|f_equal; destruct (absn y m d <? _) eqn:X; [lia|]; destruct (absn y m d =? _) eqn:X2; lia].
  destruct (y mod 100 <? y' mod 100) eqn:A3; cbn [Z.eqb negb]; [f_equal; destruct (absn y m d <? _) eqn:X; lia|].
  destruct (y mod 100 =? y' mod 100) eqn:A4; cbn [Z.eqb negb];
    [|f_equal; destruct (absn y m d <? _) eqn:X; [lia|]; destruct (absn y m d =? _) eqn:X2; lia].
  assert (y = y') as Ey by lia. specialize (L3 Ey). specialize (L4 Ey). specialize (L5 Ey).
  destruct (m <? m') eqn:A5; cbn [Z.eqb negb]; [f_equal; destruct (absn y m d <? _) eqn:X; lia|].
  destruct (m =? m') eqn:A6; cbn [Z.eqb negb];
    [|f_equal; destruct (absn y m d <? _) eqn:X; [lia|]; destruct (absn y m d =? _) eqn:X2; lia].
  f_equal.
  destruct (d <? d') eqn:A7; destruct (d =? d') eqn:A8; destruct (absn y m d <? absn y' m' d') eqn:X;
    destruct (absn y m d =? absn y' m' d') eqn:X2; lia.
Qed.

(** *** The Julian calendar *)
Definition jleap (y : Z) : bool := y mod 4 =? 0.
Definition jdby (y : Z) : Z := (y - 1) * 365 + (y - 1) / 4 - 2.
Definition jabsn (y m d : Z) : Z := jdby y + dbm (jleap y) m + d.
Definition jvmd (y m d : Z) : Prop := 1 <= m <= 12 /\ 1 <= d <= month_length (jleap y) m.
Definition jylen (y : Z) : Z := if jleap y then 366 else 365.

Lemma jdby_succ y : jdby (y + 1) = jdby y + jylen y.
Proof. unfold jdby, jylen, jleap. destruct (y mod 4 =? 0) eqn:E; lia. Qed.

Lemma jdby_lt y y' : y < y' -> jdby y + jylen y <= jdby y'.
Proof.
  intros H. rewrite <- jdby_succ.
  assert (forall k a, jdby a <= jdby (a + Z.of_nat k)) as M.
  { induction k as [|k IH]; intros a; [rewrite Z.add_0_r; lia|].
    replace (a + Z.of_nat (S k)) with ((a + Z.of_nat k) + 1) by lia. rewrite jdby_succ.
    assert (0 <= jylen (a + Z.of_nat k)) by (unfold jylen; destruct (jleap _); lia).
    specialize (IH a). lia. }
  specialize (M (Z.to_nat (y' - y - 1)) (y + 1)).
  replace (y + 1 + Z.of_nat (Z.to_nat (y' - y - 1))) with y' in M by lia. exact M.
Qed.

Lemma jabsn_unique y m d y' m' d' : jvmd y m d -> jvmd y' m' d' -> jabsn y m d = jabsn y' m' d' ->
  y = y' /\ m = m' /\ d = d'.
Proof.
  intros [Hm Hd] [Hm' Hd'] E. unfold jabsn in E.
  pose proof (dbm_range _ _ _ Hm Hd). pose proof (dbm_range _ _ _ Hm' Hd').
  assert (y = y') as ->.
  { destruct (Z.lt_trichotomy y y') as [L | [-> | L]]; [|reflexivity|];
      pose proof (jdby_lt _ _ L) as L2; unfold jylen in L2; lia. }
  destruct (month_unique (jleap y') m d m' d') as [-> ->]; auto. lia.
Qed.

Lemma jabsn_next y m d : jvmd y m d ->
  let '(y', m', d') := next_day jleap (y, m, d) in jvmd y' m' d' /\ jabsn y' m' d' = jabsn y m d + 1 /\ y <= y'.
Proof.
  intros [Hm Hd]. unfold next_day.
  destruct (d <? month_length (jleap y) m) eqn:E1.
  - repeat split; unfold jabsn; lia.
  - destruct (m <? 12) eqn:E2.
    + pose proof (month_length_pos (jleap y) (m + 1)).
      repeat split; try lia. unfold jabsn. rewrite dbm_succ by lia. lia.
    + assert (m = 12) by lia. subst m.
      split; [split; [lia|]; pose proof (month_length_pos (jleap (y + 1)) 1); lia|].
      split; [|lia].
      unfold jabsn. rewrite jdby_succ, dbm1.
      assert (month_length (jleap y) 12 = 31) by reflexivity.
      pose proof (dbm_last (jleap y)). unfold jylen. destruct (jleap y); lia.
Qed.

Lemma julian_sound n x : julian n x ->
  let '(y, m, d) := x in 1 <= y /\ jvmd y m d /\ jabsn y m d = n.
Proof.
  induction 1 as [|n [[y m] d] H IH].
  - repeat split; try lia. pose proof (month_length_pos (jleap 1) 1). lia.
  - destruct IH as (Hy & Hv & Hn).
    pose proof (jabsn_next y m d Hv) as H2. change (fun y0 : Z => y0 mod 4 =? 0) with jleap.
    destruct (next_day jleap (y, m, d)) as [[y' m'] d'].
    destruct H2 as (? & ? & ?). repeat split; try lia; apply H0.
Qed.

Lemma julian_exists k : exists x, julian (-1 + Z.of_nat k) x.
Proof.
  induction k as [|k [x Hx]].
  - exists (1, 1, 1). apply counted_first.
  - exists (next_day jleap x). replace (-1 + Z.of_nat (S k)) with ((-1 + Z.of_nat k) + 1) by lia.
    apply (counted_next jleap), Hx.
Qed.

Lemma julian_iff n y m d : julian n (y, m, d) <-> 1 <= y /\ jvmd y m d /\ jabsn y m d = n.
Proof.
  split; [apply (julian_sound n (y, m, d))|].
  intros (Hy & Hv & <-).
  assert (-1 <= jabsn y m d).
  { destruct Hv as [Hm Hd]. pose proof (dbm_range _ _ _ Hm Hd). unfold jabsn, jdby. lia. }
  destruct (julian_exists (Z.to_nat (jabsn y m d + 1))) as [[[y' m'] d'] Hx].
  replace (-1 + Z.of_nat (Z.to_nat (jabsn y m d + 1))) with (jabsn y m d) in Hx by lia.
  pose proof (julian_sound _ _ Hx) as (Hy' & Hv' & E).
  destruct (jabsn_unique y' m' d' y m d) as (-> & -> & ->); auto.
Qed.

Lemma jmsizes y : (if negb (y mod 4 =? 0) then MONTH_SIZES else MONTH_SIZES_LEAPYEAR) = msizes (jleap y).
Proof. unfold msizes, jleap. destruct (y mod 4 =? 0); reflexivity. Qed.

Lemma GetJulianDay_spec dt n : GetAbsoluteDay dt = Ok n ->
  exists y m d, jvmd y m d /\ jabsn y m d = n /\ GetJulianDay dt = Ok (y, m, d).
Proof.
  intros H. unfold GetJulianDay. rewrite H. cbn [bind].
  set (k := (n + 1) / 1461). set (r := (n + 1) mod 1461).
  assert (n + 1 = 1461 * k + r /\ 0 <= r < 1461) as [Hk Hr] by (subst k r; lia).
  clearbody k r.
  assert (exists Y o, (if r =? 1461 - 1 then (4 * k + 3, 365) else (4 * k + r / 365, r mod 365))
    = (Y, o) /\ 0 <= o < jylen (Y + 1) /\ jdby (Y + 1) + (o + 1) = n) as (Y & o & E & Ho & En).
  { destruct (r =? 1461 - 1) eqn:E1.
    - exists (4 * k + 3), 365. split; [reflexivity|].
      unfold jylen, jleap, jdby. destruct ((4 * k + 3 + 1) mod 4 =? 0) eqn:E2; lia.
    - exists (4 * k + r / 365), (r mod 365). split; [reflexivity|].
      set (j := r / 365). set (r4 := r mod 365).
      assert (r = 365 * j + r4 /\ 0 <= r4 < 365 /\ 0 <= j <= 3) as (Hj & Hr4 & Hjr)
        by (subst j r4; lia).
      clearbody j r4.
      assert (365 <= jylen (4 * k + j + 1)) by (unfold jylen; destruct (jleap _); lia).
      unfold jdby. lia. }
  rewrite E. rewrite jmsizes.
  destruct (month_loop_spec (jleap (Y + 1)) (o + 1)) as (m & d & Eml & Hm & Hd & Es);
    [unfold jylen in Ho; lia|].
  rewrite Eml. exists (Y + 1), m, d. split; [split; assumption|]. split; [|reflexivity].
  unfold jabsn. lia.
Qed.

Lemma FromJulian_spec y m d : 1 <= m <= 12 -> FromJulian y m d = Date_absolute (jabsn y m d).
Proof.
  intros Hm. unfold FromJulian. rewrite jmsizes, fold_add_acc. f_equal.
  unfold jabsn, jdby, dbm. lia.
Qed.
