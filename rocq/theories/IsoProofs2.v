(** Proofs about times, time zones and time points. *)
From Verif Require Import Py Iso IsoSpec IsoProofs.
Ltac Zify.zify_convert_to_euclidean_division_equations_flag ::= constr:(true).

Lemma zone_offset_ok t : zone_ok (t_zdir t) (t_zoff t) -> GetZoneOffset t = Ok (zone_of t).
Proof.
  unfold GetZoneOffset, zone_of. intros H. destruct H; reflexivity.
Qed.

Lemma SetFromValues_zone3 h m s t : zone_ok (t_zdir t) (t_zoff t) ->
  exists zd zh zm, GetZone3 t = Ok (zd, zh, zm) /\
    SetFromValues h m s zd zh zm = Ok (mkTime h m s (t_zdir t) (t_zoff t)) /\
    (zd = None -> t_zdir t = None) /\
    (forall z, zd = Some z -> t_zdir t = Some z /\
       zone_of t = Some (z * (zero_if_none zh * 60 + zero_if_none zm)) /\
       (z = 0 \/ exists h, zh = Some h)).
Proof.
  unfold GetZone3, zone_of. intros H. destruct H as [| |z o Hz Ho].
  - exists None, None, None. repeat split; congruence.
  - exists (Some 0), (Some 0), (Some 0). repeat split; try congruence; injection H as <-; auto.
  - exists (Some z), (Some (o / 60)), (Some (o mod 60)).
    assert (z =? 0 = false) as E by lia. rewrite E.
    split; [reflexivity|]. split; [unfold SetFromValues; rewrite E; do 4 f_equal; lia|].
    split; [congruence|]. intros ? [= <-]. split; [reflexivity|]. cbn [zero_if_none].
    split; [do 2 f_equal; lia|]. right; eexists; reflexivity.
Qed.

Lemma CheckTime_valid t : valid_time t -> CheckTime t = Ok t.
Proof.
  intros H. unfold CheckTime.
  assert (forall h m s zd zo, zone_ok zd zo -> match t_zdir (mkTime h m s zd zo) with
     | Some z => (z <? -1) || (z >? 1) ||
                 (negb (z =? 0) && match t_zoff (mkTime h m s zd zo) with None => true | Some o => o >=? 1440 end)
     | None => false end = false) as Z1.
  { intros h m s zd zo Hz. destruct Hz; cbn [t_zdir t_zoff]; lia. }
  destruct H as [h zd zo Hh Hz | h m zd zo Hh Hz | h m s zd zo Hh Hz]; rewrite Z1 by assumption;
    cbn [t_hour t_minute t_second].
  - destruct ((h <? 0) || (h >? 24)) eqn:E1; [lia|]. rewrite andb_false_r. reflexivity.
  - destruct ((h <? 0) || (h >? 24)) eqn:E1; [lia|].
    destruct ((h =? 24) && ((m >? 0) || false)) eqn:E2; [lia|].
    destruct ((m <? 0) || (m >? 59)) eqn:E3; [lia|]. reflexivity.
  - destruct ((h <? 0) || (h >? 24)) eqn:E1; [lia|].
    destruct ((h =? 24) && ((m >? 0) || (s >? 0))) eqn:E2; [lia|].
    destruct ((m <? 0) || (m >? 59)) eqn:E3; [lia|].
    destruct ((s <? 0) || (s >=? 61)) eqn:E4; [lia|]. reflexivity.
Qed.

(** A time accepted by the check is valid, if its zone fields are consistent and it has
    no seconds without minutes. *)
Lemma CheckTime_inv t t' : CheckTime t = Ok t' ->
  (t_zdir t = None /\ t_zoff t = None \/ t_zdir t = Some 0 /\ t_zoff t = Some 0 \/
   exists z o, t_zdir t = Some z /\ z <> 0 /\ t_zoff t = Some o /\ 0 <= o) ->
  (t_minute t = None -> t_second t = None) ->
  t' = t /\ valid_time t.
Proof.
  destruct t as [h m s zd zo]. unfold CheckTime. cbn [t_zdir t_zoff t_minute t_second t_hour].
  intros H Hz Hms.
  assert (zone_ok zd zo /\ exists b : bool, b = false /\
    (if b then Err DateTimeError else
     if (h <? 0) || (h >? 24) then Err DateTimeError else
     if (h =? 24) && (match m with Some m0 => m0 >? 0 | None => false end ||
        match s with Some s0 => s0 >? 0 | None => false end) then Err DateTimeError else
     match m with
     | Some m0 => if (m0 <? 0) || (m0 >? 59) then Err DateTimeError else
         match s with
         | Some s0 => if (s0 <? 0) || (s0 >=? 61) then Err DateTimeError
                      else Ok (mkTime h m s zd zo)
         | None => Ok (mkTime h m s zd zo) end
     | None => Ok (mkTime h m s zd zo) end) = Ok t') as (Hzo & b & Hb & H').
  { destruct Hz as [[-> ->] | [[-> ->] | (z & o & -> & Hz0 & -> & Ho)]].
    - split; [constructor|]. exists false. split; [reflexivity|exact H].
    - split; [constructor|]. exists false. split; [reflexivity|exact H].
    - destruct ((z <? -1) || (z >? 1) || negb (z =? 0) && (o >=? 1440)) eqn:E; [discriminate|].
      split; [constructor; lia|]. exists false. split; [reflexivity|exact H]. }
  clear H. subst b.
  destruct ((h <? 0) || (h >? 24)) eqn:E1; [discriminate|].
  destruct m as [m|].
  - destruct s as [s|].
    + destruct ((h =? 24) && ((m >? 0) || (s >? 0))) eqn:E2; [discriminate|].
      destruct ((m <? 0) || (m >? 59)) eqn:E3; [discriminate|].
      destruct ((s <? 0) || (s >=? 61)) eqn:E4; [discriminate|]. injection H' as <-.
      split; [reflexivity|]. constructor; [lia|assumption].
    + destruct ((h =? 24) && ((m >? 0) || false)) eqn:E2; [discriminate|].
      destruct ((m <? 0) || (m >? 59)) eqn:E3; [discriminate|]. injection H' as <-.
      split; [reflexivity|]. constructor; [lia|assumption].
  - rewrite (Hms eq_refl) in *. rewrite andb_false_r in H'. injection H' as <-.
    split; [reflexivity|]. constructor; [lia|assumption].
Qed.

Lemma valid_zone t : valid_time t -> zone_ok (t_zdir t) (t_zoff t).
Proof. intros []; assumption. Qed.

(** Conditions on the zone for CheckTime_inv *)
Lemma zone_ok_cond zd zo : zone_ok zd zo ->
  (zd = None /\ zo = None \/ zd = Some 0 /\ zo = Some 0 \/
   exists z o, zd = Some z /\ z <> 0 /\ zo = Some o /\ 0 <= o).
Proof.
  intros []; auto. right; right. exists z, o. repeat split; lia.
Qed.

(** *** Offset *)
Definition same_precision (t t' : time) : Prop :=
  (t_minute t = None <-> t_minute t' = None) /\ (t_second t = None <-> t_second t' = None).

Lemma t_Offset_exact t h m s t' days : valid_time t -> t_Offset t h m s = Ok (t', days) ->
  valid_time t' /\ same_precision t t' /\ t_zdir t' = t_zdir t /\ t_zoff t' = t_zoff t /\
  seconds_of t' + 86400 * days = seconds_of t + (3600 * h + 60 * m + s).
Proof.
  intros Hv. pose proof (valid_zone t Hv) as Hz. unfold t_Offset.
  (* seconds *)
  set (r1 := if negb (s =? 0) then _ else _).
  assert (r1 = Err DateTimeError \/
    exists m1 s1, r1 = Ok (m1, s1) /\ (t_second t = None <-> s1 = None) /\
      60 * m1 + zero_if_none s1 = 60 * m + s + zero_if_none (t_second t)) as Hr1.
  { subst r1. destruct (negb (s =? 0)) eqn:E.
    - destruct (t_second t) as [x|]; [right|left; reflexivity].
      exists (m + (x + s) / 60), (Some ((x + s) mod 60)). split; [reflexivity|].
      split; [split; congruence|]. cbn [zero_if_none]. lia.
    - right. exists m, (t_second t). split; [reflexivity|]. split; [tauto|]. lia. }
  clearbody r1. destruct Hr1 as [-> | (m1 & s1 & -> & Hs1 & E1)]; [discriminate|]. cbn [bind].
  set (r2 := if negb (m1 =? 0) then _ else _).
  assert (r2 = Err DateTimeError \/
    exists h2 m2, r2 = Ok (h2, m2) /\ (t_minute t = None <-> m2 = None) /\
      60 * h2 + zero_if_none m2 = 60 * h + m1 + zero_if_none (t_minute t)) as Hr2.
  { subst r2. destruct (negb (m1 =? 0)) eqn:E.
    - destruct (t_minute t) as [x|]; [right|left; reflexivity].
      exists (h + (x + m1) / 60), (Some ((x + m1) mod 60)). split; [reflexivity|].
      split; [split; congruence|]. cbn [zero_if_none]. lia.
    - right. exists h, (t_minute t). split; [reflexivity|]. split; [tauto|]. lia. }
  clearbody r2. destruct Hr2 as [-> | (h2 & m2 & -> & Hm2 & E2)]; [discriminate|]. cbn [bind].
  set (r3 := if negb (h2 =? 0) then _ else _).
  assert (exists d3 h3, r3 = (d3, h3) /\ 24 * d3 + h3 = t_hour t + h2) as (d3 & h3 & -> & E3).
  { subst r3. destruct (negb (h2 =? 0)) eqn:E.
    - exists ((t_hour t + h2) / 24), ((t_hour t + h2) mod 24). split; [reflexivity|lia].
    - exists 0, (t_hour t). split; [reflexivity|lia]. }
  destruct (SetFromValues_zone3 h3 m2 s1 t Hz) as (zd & zh & zm & -> & Esv & _).
  cbn [bind Time]. rewrite Esv. cbn [bind].
  destruct (CheckTime (mkTime h3 m2 s1 (t_zdir t) (t_zoff t))) as [tt|] eqn:Ec; [|discriminate].
  cbn [bind]. intros [= <- <-].
  apply CheckTime_inv in Ec as [-> Hv'].
  - split; [exact Hv'|]. split; [split; cbn; assumption|]. split; [reflexivity|]. split; [reflexivity|].
    unfold seconds_of. cbn [t_hour t_minute t_second]. lia.
  - cbn [t_zdir t_zoff]. apply zone_ok_cond, Hz.
  - cbn [t_minute t_second]. intros Hn. apply Hs1. apply Hm2 in Hn. clear -Hn Hv. destruct Hv; cbn in *; congruence.
Qed.

Lemma t_Offset_total t h m s : valid_time t -> t_hour t < 24 ->
  (s = 0 \/ t_second t <> None) -> (s = 0 /\ m = 0 \/ t_minute t <> None) ->
  exists t' days, t_Offset t h m s = Ok (t', days).
Proof.
  intros Hv Hh Hs Hm. pose proof (valid_zone t Hv) as Hz. unfold t_Offset.
  assert (forall a b c, zone_ok (t_zdir t) (t_zoff t) -> valid_time (mkTime a b c (t_zdir t) (t_zoff t)) ->
    exists x, ('(zd, zh, zm) <- GetZone3 t ;; Time (Some a) b c zd zh zm) = Ok x) as HT.
  { intros a b c _ Hv'. destruct (SetFromValues_zone3 a b c t Hz) as (zd & zh & zm & -> & Esv & _).
    cbn [bind Time]. rewrite Esv. cbn [bind]. rewrite CheckTime_valid by assumption. eexists; reflexivity. }
  destruct Hv as [hh zd zo Hhh Hzz | hh mm zd zo Hhh Hzz | hh mm ss zd zo Hhh Hzz];
    cbn [t_hour t_minute t_second t_zdir t_zoff] in *.
  - assert (s = 0 /\ m = 0) as [-> ->] by (destruct Hm as [Hm|Hm]; [exact Hm|congruence]).
    cbn [Z.eqb negb bind].
    destruct (negb (h =? 0)) eqn:E.
    + destruct (HT ((hh + h) mod 24) None None Hz) as [x Hx]; [constructor; [lia|assumption]|].
      destruct (GetZone3 _) as [[[? ?] ?]|]; [|discriminate]. cbn [bind] in *. rewrite Hx. cbn [bind].
      do 2 eexists; reflexivity.
    + destruct (HT hh None None Hz) as [x Hx]; [constructor; [lia|assumption]|].
      destruct (GetZone3 _) as [[[? ?] ?]|]; [|discriminate]. cbn [bind] in *. rewrite Hx. cbn [bind].
      do 2 eexists; reflexivity.
  - assert (s = 0) as -> by (destruct Hs as [Hs|Hs]; [exact Hs|congruence]).
    cbn [Z.eqb negb bind].
    set (r2 := if negb (m =? 0) then _ else _).
    assert (exists h2 m2, r2 = Ok (h2, Some m2) /\ 0 <= m2 < 60) as (h2 & m2 & -> & Hm2).
    { subst r2. destruct (negb (m =? 0)); do 2 eexists; (split; [reflexivity|lia]). }
    cbn [bind].
    set (r3 := if negb (h2 =? 0) then _ else _).
    assert (exists d3 h3, r3 = (d3, h3) /\ 0 <= h3 < 24) as (d3 & h3 & -> & Hh3).
    { subst r3. destruct (negb (h2 =? 0)); do 2 eexists; (split; [reflexivity|lia]). }
    destruct (HT h3 (Some m2) None Hz) as [x Hx]; [constructor; [lia|assumption]|].
    destruct (GetZone3 _) as [[[? ?] ?]|]; [|discriminate]. cbn [bind] in *. rewrite Hx. cbn [bind].
    do 2 eexists; reflexivity.
  - set (r1 := if negb (s =? 0) then _ else _).
    assert (exists m1 s1, r1 = Ok (m1, Some s1) /\ 0 <= s1 <= 60) as (m1 & s1 & -> & Hs1).
    { subst r1. destruct (negb (s =? 0)); do 2 eexists; (split; [reflexivity|lia]). }
    cbn [bind].
    set (r2 := if negb (m1 =? 0) then _ else _).
    assert (exists h2 m2, r2 = Ok (h2, Some m2) /\ 0 <= m2 < 60) as (h2 & m2 & -> & Hm2).
    { subst r2. destruct (negb (m1 =? 0)); do 2 eexists; (split; [reflexivity|lia]). }
    cbn [bind].
    set (r3 := if negb (h2 =? 0) then _ else _).
    assert (exists d3 h3, r3 = (d3, h3) /\ 0 <= h3 < 24) as (d3 & h3 & -> & Hh3).
    { subst r3. destruct (negb (h2 =? 0)); do 2 eexists; (split; [reflexivity|lia]). }
    destruct (HT h3 (Some m2) (Some s1) Hz) as [x Hx]; [constructor; [lia|assumption]|].
    destruct (GetZone3 _) as [[[? ?] ?]|]; [|discriminate]. cbn [bind] in *. rewrite Hx. cbn [bind].
    do 2 eexists; reflexivity.
Qed.

(** *** ShiftZone of a time *)
Lemma t_ShiftZone_exact t zd zh zm t' ov : valid_time t -> t_ShiftZone t zd zh zm = Ok (t', ov) ->
  exists z0 d z1, zone_of t = Some z0 /\ zd = Some d /\
    z1 = d * (zero_if_none zh * 60 + zero_if_none zm) /\
    zone_of t' = Some z1 /\ same_precision t t' /\
    seconds_of t' + 86400 * ov = seconds_of t + 60 * (z1 - z0) /\ (ov = -1 \/ ov = 0 \/ ov = 1) /\
    t_second t' = t_second t /\ CheckTime t' = Ok t' /\ (ov = -1 -> t_hour t' < 24).
Proof.
  intros Hv. pose proof (valid_zone t Hv) as Hz. unfold t_ShiftZone.
  rewrite zone_offset_ok by exact Hz.
  destruct (t_zoff t) as [zo|] eqn:Ezo; [|discriminate].
  destruct zd as [d|]; [|discriminate].
  destruct (negb (d =? 0) && is_none zh) eqn:Ed; [discriminate|].
  cbn [bind].
  destruct (zone_of t) as [z0|] eqn:Ez0; [|discriminate].
  fold (zero_if_none zh) (zero_if_none zm).
  set (z1 := d * (zero_if_none zh * 60 + zero_if_none zm)).
  destruct (is_none (t_second t) && is_none (t_minute t) && negb ((z1 - z0) mod 60 =? 0)) eqn:Ep; [discriminate|].
  set (r := match t_minute t with Some m => _ | None => _ end).
  assert (exists h2 m2, r = (h2, m2) /\ (t_minute t = None <-> m2 = None) /\
     (h2 + (z1 - z0) / 60) * 60 + zero_if_none m2 = t_hour t * 60 + zero_if_none (t_minute t) + (z1 - z0)) as
    (h2 & m2 & -> & Hm2 & E2).
  { subst r. destruct (t_minute t) as [m|] eqn:Em.
    - destruct (m + (z1 - z0) mod 60 >? 59) eqn:E1.
      + do 2 eexists. split; [reflexivity|]. split; [split; congruence|]. cbn [zero_if_none]. lia.
      + destruct (m + (z1 - z0) mod 60 <? 0) eqn:E3.
        * do 2 eexists. split; [reflexivity|]. split; [split; congruence|]. cbn [zero_if_none]. lia.
        * do 2 eexists. split; [reflexivity|]. split; [split; congruence|]. cbn [zero_if_none]. lia.
    - do 2 eexists. split; [reflexivity|]. split; [tauto|]. cbn [zero_if_none].
      assert (t_second t = None) as Es by (clear -Hv Em; destruct Hv; cbn in *; congruence).
      rewrite Es in Ep. cbn [is_none andb] in Ep. lia. }
  set (r4 := if h2 + (z1 - z0) / 60 >? 23 then _ else _).
  assert (exists h3 o3, r4 = (h3, o3) /\ h3 + 24 * o3 = h2 + (z1 - z0) / 60 /\ (o3 = -1 \/ o3 = 0 \/ o3 = 1) /\ (o3 = -1 -> h3 < 24)) as
    (h3 & o3 & -> & E4 & Hov & Hh24).
  { subst r4. destruct (_ >? 23) eqn:E23; [do 2 eexists; split; [reflexivity|lia]|].
    destruct (_ <? 0) eqn:E0; do 2 eexists; (split; [reflexivity|lia]). }
  cbn [Time].
  assert (SetFromValues h3 m2 (t_second t) (Some d) zh zm
    = Ok (mkTime h3 m2 (t_second t) (Some d)
            (Some (if d =? 0 then 0 else zero_if_none zh * 60 + zero_if_none zm)))) as Esv.
  { unfold SetFromValues. destruct (d =? 0) eqn:E0; [reflexivity|].
    destruct zh as [zh|]; [|cbn in Ed; congruence].
    destruct zm as [zm|]; cbn [zero_if_none]; [reflexivity|]. do 3 f_equal. lia. }
  rewrite Esv. cbn [bind].
  destruct (CheckTime (mkTime h3 m2 (t_second t) (Some d) _)) as [tt|] eqn:Ec; [|discriminate].
  cbn [bind]. intros [= <- <-].
  assert (tt = mkTime h3 m2 (t_second t) (Some d)
            (Some (if d =? 0 then 0 else zero_if_none zh * 60 + zero_if_none zm))) as ->.
  { clear -Ec. unfold CheckTime in Ec.
    repeat match type of Ec with context [if ?c then _ else _] => destruct c; try discriminate end;
    repeat match type of Ec with context [match ?c with Some _ => _ | None => _ end] => destruct c; try discriminate end;
    repeat match type of Ec with context [if ?c then _ else _] => destruct c; try discriminate end;
    congruence. }
  exists z0, d, z1. split; [reflexivity|]. split; [reflexivity|]. split; [reflexivity|].
  split.
  { unfold zone_of; cbn [t_zdir t_zoff]. f_equal. subst z1. destruct (d =? 0) eqn:E0; lia. }
  split; [split; cbn [t_minute t_second]; tauto|].
  split; [unfold seconds_of; cbn [t_hour t_minute t_second]; lia|].
  split; [exact Hov|]. split; [reflexivity|]. split; [exact Ec|exact Hh24].
Qed.

Definition zone_args_ok (d : Z) (zh zm : option Z) : Prop :=
  d = 0 \/ (d = 1 \/ d = -1) /\ zh <> None /\ 0 <= zero_if_none zh * 60 + zero_if_none zm < 1440.

Lemma t_ShiftZone_total t d zh zm z0 : valid_time t -> t_minute t <> None -> zone_of t = Some z0 ->
  zone_args_ok d zh zm ->
  Z.abs (d * (zero_if_none zh * 60 + zero_if_none zm) - z0) <= 1440 ->
  (t_hour t < 24 \/ t_hour t = 24) ->
  exists t' ov, t_ShiftZone t (Some d) zh zm = Ok (t', ov) /\ valid_time t' /\
    (Z.abs (d * (zero_if_none zh * 60 + zero_if_none zm) - z0) <= 1440 -> t_hour t < 24 -> t_hour t' < 24).
Proof.
  intros Hv Hmn Ez0 Hza Hab _. pose proof (valid_zone t Hv) as Hz. unfold t_ShiftZone.
  rewrite zone_offset_ok by exact Hz. rewrite Ez0.
  assert (exists o, t_zoff t = Some o) as [o ->].
  { clear -Hz Ez0. unfold zone_of in Ez0. destruct Hz; try discriminate; eexists; reflexivity. }
  assert (negb (d =? 0) && is_none zh = false) as ->.
  { destruct Hza as [-> | (Hd & Hzh & _)]; [reflexivity|]. destruct zh; [|congruence].
    cbn [is_none]. rewrite andb_false_r. reflexivity. }
  cbn [bind]. fold (zero_if_none zh) (zero_if_none zm).
  set (z1 := d * (zero_if_none zh * 60 + zero_if_none zm)) in *.
  destruct (t_minute t) as [m|] eqn:Em; [|congruence]. cbn [is_none].
  rewrite andb_false_r. cbn [andb].
  set (sh := z1 - z0) in *.
  assert (exists h2 m2, (if m + sh mod 60 >? 59 then (t_hour t + 1, Some (m + sh mod 60 - 60))
      else if m + sh mod 60 <? 0 then (t_hour t - 1, Some (m + sh mod 60 + 60))
      else (t_hour t, Some (m + sh mod 60))) = (h2, Some m2) /\ 0 <= m2 < 60 /\
      (h2 + sh / 60) * 60 + m2 = t_hour t * 60 + m + sh /\
      0 <= t_hour t * 60 + m <= 1440 /\ (t_hour t * 60 + m = 1440 -> zero_if_none (t_second t) = 0) /\
      (t_hour t < 24 -> t_hour t * 60 + m < 1440) /\
      match t_second t with Some s => 0 <= s <= 60 | None => True end)
    as (h2 & m2 & E & Hm2 & E2 & Hr & Hs0 & Hlt & Hs).
  { assert (0 <= m < 60 /\ 0 <= t_hour t * 60 + m <= 1440 /\ (t_hour t * 60 + m = 1440 -> zero_if_none (t_second t) = 0) /\
      (t_hour t < 24 -> t_hour t * 60 + m < 1440) /\
      match t_second t with Some s => 0 <= s <= 60 | None => True end) as (Hmr & Hrest).
    { clear -Hv Em. destruct Hv; cbn in *; injection Em as <- || discriminate Em; repeat split; lia. }
    destruct (m + sh mod 60 >? 59) eqn:E1;
      [do 2 eexists; split; [reflexivity|]; split; [lia|]; split; [lia|exact Hrest]|].
    destruct (m + sh mod 60 <? 0) eqn:E3;
      do 2 eexists; (split; [reflexivity|]; split; [lia|]; split; [lia|exact Hrest]). }
  rewrite E. clear E.
  assert (exists h3 o3, (if h2 + sh / 60 >? 23 then (h2 + sh / 60 - 24, 1)
      else if h2 + sh / 60 <? 0 then (h2 + sh / 60 + 24, -1) else (h2 + sh / 60, 0)) = (h3, o3) /\
      (0 <= h3 < 24 \/ h3 = 24 /\ m2 = 0 /\ zero_if_none (t_second t) = 0) /\ (t_hour t < 24 -> h3 < 24))
    as (h3 & o3 & E & Hh3 & Hh4).
  { destruct (h2 + sh / 60 >? 23) eqn:E1; [do 2 eexists; split; [reflexivity|lia]|].
    destruct (h2 + sh / 60 <? 0) eqn:E3; do 2 eexists; (split; [reflexivity|lia]). }
  rewrite E. cbn [Time].
  assert (SetFromValues h3 (Some m2) (t_second t) (Some d) zh zm
    = Ok (mkTime h3 (Some m2) (t_second t) (Some d)
            (Some (if d =? 0 then 0 else zero_if_none zh * 60 + zero_if_none zm)))) as Esv.
  { unfold SetFromValues. destruct (d =? 0) eqn:E0; [reflexivity|].
    destruct Hza as [-> | (Hd & Hzh & _)]; [discriminate|].
    destruct zh as [zh|]; [|congruence].
    destruct zm as [zm|]; cbn [zero_if_none]; [reflexivity|]. do 3 f_equal. lia. }
  rewrite Esv. cbn [bind].
  assert (valid_time (mkTime h3 (Some m2) (t_second t) (Some d)
            (Some (if d =? 0 then 0 else zero_if_none zh * 60 + zero_if_none zm)))) as Hv'.
  { assert (zone_ok (Some d) (Some (if d =? 0 then 0 else zero_if_none zh * 60 + zero_if_none zm))) as Hzo.
    { destruct Hza as [-> | (Hd & Hzh & Hr2)]; [constructor|].
      destruct (d =? 0) eqn:E0; [lia|]. constructor; [lia|exact Hr2]. }
    destruct (t_second t) as [s|]; cbn [zero_if_none] in *; constructor; try assumption; lia. }
  rewrite CheckTime_valid by exact Hv'. cbn [bind].
  do 2 eexists. split; [reflexivity|]. split; [exact Hv'|]. cbn [t_hour]. auto.
Qed.

(** *** Date.Offset by days *)
Lemma Offset_days y m d k : valid_ymd y m d -> k <> 0 ->
  Offset (of_ymd y m d) 0 0 0 0 k = Date_absolute (absn y m d + k).
Proof.
  intros Hv Hk. unfold Offset. rewrite GetAbsoluteDay_ymd.
  replace (negb (k =? 0)) with true by lia. cbn [orb bind].
  replace (absn y m d + (k + 7 * 0)) with (absn y m d + k) by lia.
  destruct (Date_absolute _); reflexivity.
Qed.

Lemma gregorian_valid y m d : valid_ymd y m d -> gregorian (absn y m d) (y, m, d).
Proof. intros (Hy & Hv). apply gregorian_iff. repeat split; try lia; apply Hv. Qed.

Lemma of_ymd_inj y m d y' m' d' : valid_ymd y m d -> valid_ymd y' m' d' ->
  of_ymd y m d = of_ymd y' m' d' -> y = y' /\ m = m' /\ d = d'.
Proof.
  intros (Hy & _) (Hy' & _) [= E1 E2 -> ->]. split; [lia|auto].
Qed.

Lemma local_intro y m d t : valid_ymd y m d -> local (mkTP (of_ymd y m d) t) (86400 * absn y m d + seconds_of t).
Proof.
  intros Hv. exists y, m, d, (absn y m d). split; [reflexivity|]. split; [exact Hv|].
  split; [apply gregorian_valid, Hv|reflexivity].
Qed.

Lemma local_fun p i i' : local p i -> local p i' -> i = i'.
Proof.
  intros (y & m & d & n & E & Hv & Hg & ->) (y' & m' & d' & n' & E' & Hv' & Hg' & ->).
  rewrite E in E'. apply of_ymd_inj in E' as (-> & -> & ->); try assumption.
  apply gregorian_iff in Hg as (_ & _ & <-). apply gregorian_iff in Hg' as (_ & _ & <-). reflexivity.
Qed.

Lemma TimePoint_ok y m d t : valid_ymd y m d -> CheckTime t = Ok t ->
  TimePoint (Some (of_ymd y m d)) (Some t) = Ok (mkTP (of_ymd y m d) t).
Proof.
  intros Hv Ht. unfold TimePoint. rewrite CheckDate_ymd by exact Hv. rewrite Ht. reflexivity.
Qed.

(** Shifting a time point: exactness. *)
Lemma p_ShiftZone_exact p zd zh zm p' : valid_tp p -> p_ShiftZone p zd zh zm = Ok p' ->
  exists d z0 i l', zd = Some d /\ zone_of (p_time p) = Some z0 /\ instant p i /\
    l' = i + 60 * (d * (zero_if_none zh * 60 + zero_if_none zm)) /\
    zone_of (p_time p') = Some (d * (zero_if_none zh * 60 + zero_if_none zm)) /\
    (86400 <= l' -> t_second (p_time p) <> Some 60 \/ 86400 < l' -> instant p' i).
Proof.
  intros [(y & m & dd & Hv & Ed) Ht]. unfold p_ShiftZone.
  destruct (t_ShiftZone (p_time p) zd zh zm) as [[t' ov]|] eqn:Es; [|discriminate]. cbn [bind].
  apply t_ShiftZone_exact in Es as (z0 & d & z1 & Ez0 & -> & Ez1 & Ez' & Hp & E & Hov & Hsec & Hck & Hh24); [|exact Ht].
  destruct p as [pd pt]. cbn [p_date p_time] in *. subst pd.
  intros H.
  exists d, z0, (86400 * absn y m dd + seconds_of pt - 60 * z0), (86400 * absn y m dd + seconds_of pt - 60 * z0 + 60 * z1).
  split; [reflexivity|]. split; [exact Ez0|].
  split. { exists (86400 * absn y m dd + seconds_of pt), z0. split; [apply local_intro, Hv|]. split; [exact Ez0|lia]. }
  split; [congruence|]. rewrite <- Ez1.
  assert (p_time p' = t') as Ept.
  { destruct (if negb (ov =? 0) then Offset (of_ymd y m dd) 0 0 0 0 ov else Ok (of_ymd y m dd)) as [nd|]; [|discriminate].
    cbn [bind] in H. unfold TimePoint in H. destruct (CheckDate nd); [|discriminate]. rewrite Hck in H.
    cbn [bind] in H. destruct (precision_eqb _ _); [|discriminate]. injection H as <-. reflexivity. }
  rewrite Ept. split; [exact Ez'|].
  intros Hl Hleap.
  destruct (negb (ov =? 0)) eqn:Eov.
  - rewrite Offset_days in H by (assumption || lia).
    assert (0 <= seconds_of t' <= 86400 /\ (seconds_of t' = 86400 -> t_hour t' = 24 \/ t_second t' = Some 60)) as Hsec2.
    { assert (CheckTime t' = Ok t') as Hc by exact Hck. clear -Hc Ht Hp Hsec.
      destruct t' as [h mm ss a b]. unfold CheckTime in Hc. cbn [t_zdir t_zoff t_hour t_minute t_second] in *.
      unfold seconds_of; cbn [t_hour t_minute t_second].
      destruct (match a with Some _ => _ | None => _ end); [discriminate|].
      destruct ((h <? 0) || (h >? 24)) eqn:E1; [discriminate|].
      destruct Hp as [Hp1 Hp2].
      assert (mm = None -> ss = None) as Hms.
      { cbn [t_minute t_second] in *. intros Hn. apply Hp2. apply Hp1 in Hn. clear -Hn Ht. destruct Ht; cbn in *; congruence. }
      assert (match ss with Some s => 0 <= s <= 60 | None => True end) as Hss.
      { subst ss. clear -Ht. destruct Ht; cbn; lia. }
      assert (forall s, ss = Some s -> h = 24 -> s = 0).
      { intros s -> ->. cbn [Z.eqb] in Hc. change (24 =? 24) with true in Hc. cbn [andb] in Hc.
        destruct (match mm with Some m0 => m0 >? 0 | None => false end || (s >? 0)) eqn:E2; [discriminate|]. lia. }
      destruct mm as [mm|]; [|rewrite Hms by reflexivity; cbn [zero_if_none]; split; [lia|left; lia]].
      cbn [zero_if_none].
      destruct ((h =? 24) && ((mm >? 0) || match ss with Some s => s >? 0 | None => false end)) eqn:E2; [discriminate|].
      destruct ((mm <? 0) || (mm >? 59)) eqn:E3; [discriminate|].
      destruct ss as [s|]; cbn [zero_if_none].
      - specialize (H s eq_refl). split; [lia|]. intros Hx. destruct (Z.eq_dec s 60) as [->|]; [right; reflexivity|left; lia].
      - split; [lia|left; lia]. }
    (* the new day number is positive *)
    assert (1 <= absn y m dd + ov) as Hpos.
    { assert (86400 * (absn y m dd + ov) = 86400 * absn y m dd + seconds_of pt + 60 * (z1 - z0) - seconds_of t') by lia.
      pose proof (absn_pos y m dd (proj1 (proj1 Hv)) (proj2 Hv)). destruct Hov as [Hov|Hov]; [|lia].
      assert (seconds_of t' = 86400 -> 86400 < 86400 * absn y m dd + seconds_of pt + 60 * (z1 - z0)); [|lia].
      intros Hx. destruct Hleap as [Hleap|Hleap]; [|lia]. destruct (proj2 Hsec2 Hx) as [Hx2|Hx2]; [|congruence].
      specialize (Hh24 Hov). lia. }
    destruct (Z_le_dec (absn y m dd + ov) 3652059) as [Hle|Hgt].
    + destruct (Date_absolute_spec (absn y m dd + ov)) as (y2 & m2 & d2 & Hv2 & E2 & HD); [lia|].
      rewrite HD in H. cbn [bind] in H. rewrite TimePoint_ok in H by assumption. injection H as <-.
      exists (86400 * absn y2 m2 d2 + seconds_of t'), z1. split; [apply local_intro, Hv2|].
      split; [exact Ez'|]. lia.
    + rewrite Date_absolute_out in H by lia. discriminate.
  - cbn [bind] in H. rewrite TimePoint_ok in H by assumption. injection H as <-.
    exists (86400 * absn y m dd + seconds_of t'), z1. split; [apply local_intro, Hv|].
    split; [exact Ez'|]. lia.
Qed.

(** Totality of the shift. *)
Lemma p_ShiftZone_total p d zh zm i z0 : valid_tp p -> t_minute (p_time p) <> None ->
  instant p i -> zone_of (p_time p) = Some z0 -> zone_args_ok d zh zm ->
  Z.abs (d * (zero_if_none zh * 60 + zero_if_none zm) - z0) <= 1440 ->
  86400 <= i + 60 * (d * (zero_if_none zh * 60 + zero_if_none zm)) < 86400 * 3652060 ->
  t_second (p_time p) <> Some 60 ->
  exists p', p_ShiftZone p (Some d) zh zm = Ok p' /\ valid_tp p' /\
    (t_hour (p_time p) < 24 -> t_hour (p_time p') < 24).
Proof.
  intros [(y & m & dd & Hv & Ed) Ht] Hm Hi Ez0 Hza Hab Hl Hleap.
  destruct (t_ShiftZone_total (p_time p) d zh zm z0 Ht Hm Ez0 Hza Hab) as (t' & ov & Es & Hvt & Hh).
  { clear -Ht. destruct Ht; cbn; lia. }
  unfold p_ShiftZone. rewrite Es. cbn [bind]. pose proof Es as Es'.
  apply t_ShiftZone_exact in Es' as (z0' & d' & z1 & Ez0' & Ed' & Ez1 & Ez' & Hp & E & Hov & Hsec & Hck & Hh24); [|exact Ht].
  injection Ed' as <-. rewrite Ez0 in Ez0'. injection Ez0' as <-. rewrite <- Ez1 in *.
  assert (i = 86400 * absn y m dd + seconds_of (p_time p) - 60 * z0) as Ei.
  { destruct Hi as (l & z & Hloc & Ez & ->). rewrite Ez0 in Ez. injection Ez as <-.
    destruct p as [pd pt]. cbn [p_date p_time] in *. subst pd.
    rewrite (local_fun _ _ _ Hloc (local_intro y m dd pt Hv)). reflexivity. }
  assert (0 <= seconds_of t' <= 86400 /\ (t_hour t' < 24 -> seconds_of t' < 86400)) as Hsr.
  { clear -Hvt Hsec Hleap. rewrite <- Hsec in Hleap.
    destruct Hvt as [| |h m s zd zo Hr Hz]; unfold seconds_of; cbn [t_hour t_minute t_second zero_if_none] in *; try lia.
    assert (s <> 60) by congruence. lia. }
  pose proof (absn_pos y m dd (proj1 (proj1 Hv)) (proj2 Hv)) as Hap.
  rewrite Ed.
  destruct (negb (ov =? 0)) eqn:Eov.
  - rewrite Offset_days by (assumption || lia).
    assert (86400 * (absn y m dd + ov) = i + 60 * z1 - seconds_of t') by lia.
    destruct (Date_absolute_spec (absn y m dd + ov)) as (y2 & m2 & d2 & Hv2 & E2 & HD); [lia|].
    rewrite HD. cbn [bind]. rewrite TimePoint_ok by assumption.
    eexists. split; [reflexivity|]. split; [|auto].
    split; [exists y2, m2, d2; auto|exact Hvt].
  - cbn [bind]. rewrite TimePoint_ok by assumption.
    eexists. split; [reflexivity|]. split; [|auto]. split; [exists y, m, dd; auto|exact Hvt].
Qed.

(** *** Comparison *)
Definition sgn3 (a b : Z) : Z := if a <? b then -1 else if a =? b then 0 else 1.

Lemma sgn3_shift a b a' b' k : a' = a + k -> b' = b + k -> sgn3 a b = sgn3 a' b'.
Proof.
  intros -> ->. unfold sgn3.
  destruct (a <? b) eqn:A; destruct (a =? b) eqn:B; destruct (a + k <? b + k) eqn:C;
    destruct (a + k =? b + k) eqn:D; try reflexivity; exfalso; lia.
Qed.

Lemma time_cmp_spec t t' h m s h' m' s' zd zo zd' zo' :
  t = mkTime h (Some m) (Some s) zd zo -> t' = mkTime h' (Some m') (Some s') zd' zo' ->
  zone_ok zd zo -> zone_ok zd' zo' -> zone_of t = zone_of t' ->
  0 <= m < 60 -> 0 <= s < 60 -> 0 <= m' < 60 -> 0 <= s' < 60 ->
  time_cmp t t' = Ok (sgn3 (seconds_of t) (seconds_of t')).
Proof.
  intros -> -> Hz Hz' Ez Hm Hs Hm' Hs'. unfold time_cmp.
  change (precision_eqb _ _) with true. cbn [negb].
  rewrite !zone_offset_ok by (cbn; assumption). cbn [bind]. rewrite Ez.
  replace (oeqb _ _) with true; [|symmetry; destruct (zone_of (mkTime h' _ _ _ _)); cbn; [apply Z.eqb_refl|reflexivity]].
  cbn [negb t_hour t_minute t_second]. unfold seconds_of, sgn3; cbn [t_hour t_minute t_second zero_if_none].
  unfold ocmp; cbn [olt oeqb].
  destruct (h <? h') eqn:A1; destruct (h =? h') eqn:A2; destruct (m <? m') eqn:A3;
  destruct (m =? m') eqn:A4; destruct (s <? s') eqn:A5; destruct (s =? s') eqn:A6;
  destruct (h * 3600 + m * 60 + s <? _) eqn:X; destruct (h * 3600 + m * 60 + s =? h' * 3600 + m' * 60 + s') eqn:X2;
  try reflexivity; exfalso; lia.
Qed.

Lemma plain_valid t : plain_time t -> valid_time t.
Proof. intros (h & m & s & zd & zo & -> & Hh & Hm & Hs & Hz). constructor; [lia|exact Hz]. Qed.

Lemma plain_seconds t : plain_time t -> 0 <= seconds_of t < 86400.
Proof. intros (h & m & s & zd & zo & -> & Hh & Hm & Hs & Hz). unfold seconds_of; cbn. lia. Qed.

Lemma cmp_same_zone y m d y' m' d' t t' :
  valid_ymd y m d -> valid_ymd y' m' d' -> plain_time t -> plain_time t' -> zone_of t = zone_of t' ->
  (result <- date_cmp (of_ymd y m d) (of_ymd y' m' d') ;;
   if negb (result =? 0) then Ok result else time_cmp t t')
  = Ok (sgn3 (86400 * absn y m d + seconds_of t) (86400 * absn y' m' d' + seconds_of t')).
Proof.
  intros Hv Hv' Ht Ht' Ez.
  pose proof (plain_seconds t Ht). pose proof (plain_seconds t' Ht').
  rewrite date_cmp_ymd by assumption. cbn [bind].
  destruct Ht as (h & mm & s & zd & zo & Et & Hh & Hm & Hs & Hz).
  destruct Ht' as (h' & mm' & s' & zd' & zo' & Et' & Hh' & Hm' & Hs' & Hz').
  rewrite (time_cmp_spec t t' h mm s h' mm' s' zd zo zd' zo') by assumption.
  unfold sgn3.
  destruct (absn y m d <? absn y' m' d') eqn:A1; destruct (absn y m d =? absn y' m' d') eqn:A2;
  destruct (seconds_of t <? seconds_of t') eqn:X; destruct (seconds_of t =? seconds_of t') eqn:X2;
  destruct (86400 * absn y m d + seconds_of t <? _) eqn:Y; destruct (86400 * absn y m d + seconds_of t =? 86400 * absn y' m' d' + seconds_of t') eqn:Y2;
  try reflexivity; exfalso; lia.
Qed.

Lemma zone3_of t z0 : zone_ok (t_zdir t) (t_zoff t) -> zone_of t = Some z0 ->
  exists d zh zm, GetZone3 t = Ok (Some d, zh, zm) /\ zone_args_ok d zh zm /\
    z0 = d * (zero_if_none zh * 60 + zero_if_none zm).
Proof.
  unfold GetZone3, zone_of, zone_args_ok. intros H. destruct H as [| |z o Hz Ho]; intros [= <-].
  - exists 0, (Some 0), (Some 0). cbn. auto.
  - exists z, (Some (o / 60)), (Some (o mod 60)).
    assert (z =? 0 = false) as E by lia. rewrite E. split; [reflexivity|]. cbn [zero_if_none].
    split; [right; repeat split; try lia; congruence|]. f_equal. lia.
Qed.

Lemma plain_precision t : plain_time t -> t_GetPrecision t = PComplete.
Proof. intros (h & m & s & zd & zo & -> & _). reflexivity. Qed.

Lemma tp_cmp_spec a b ia ib za zb :
  valid_tp a -> valid_tp b -> plain_time (p_time a) -> plain_time (p_time b) ->
  instant a ia -> instant b ib -> zone_of (p_time a) = Some za -> zone_of (p_time b) = Some zb ->
  Z.abs (za - zb) <= 1440 -> 86400 <= ib + 60 * za < 86400 * 3652060 ->
  tp_cmp a b = Ok (sgn3 ia ib).
Proof.
  intros Hva Hvb Hpa Hpb Hia Hib Eza Ezb Hab Hl. unfold tp_cmp.
  rewrite !plain_precision by assumption. cbn [precision_eqb negb].
  pose proof (valid_zone _ (plain_valid _ Hpa)) as Hzoa. pose proof (valid_zone _ (plain_valid _ Hpb)) as Hzob.
  rewrite !zone_offset_ok by assumption. cbn [bind]. rewrite Eza, Ezb. cbn [oeqb is_none orb].
  pose proof Hva as [(ya & ma & da & Hya & Eda) _]. pose proof Hvb as [(yb & mb & db & Hyb & Edb) _].
  assert (ia = 86400 * absn ya ma da + seconds_of (p_time a) - 60 * za) as Eia.
  { destruct Hia as (l & z & Hloc & Ez & ->). rewrite Eza in Ez. injection Ez as <-.
    destruct a as [pd pt]. cbn [p_date p_time] in *. subst pd.
    rewrite (local_fun _ _ _ Hloc (local_intro ya ma da pt Hya)). reflexivity. }
  assert (ib = 86400 * absn yb mb db + seconds_of (p_time b) - 60 * zb) as Eib.
  { destruct Hib as (l & z & Hloc & Ez & ->). rewrite Ezb in Ez. injection Ez as <-.
    destruct b as [pd pt]. cbn [p_date p_time] in *. subst pd.
    rewrite (local_fun _ _ _ Hloc (local_intro yb mb db pt Hyb)). reflexivity. }
  destruct (za =? zb) eqn:Ezz; cbn [negb bind].
  - assert (za = zb) by lia. subst zb. rewrite Eda, Edb. rewrite cmp_same_zone by (assumption || congruence).
    f_equal. apply sgn3_shift with (k := - 60 * za); lia.
  - destruct (zone3_of (p_time a) za Hzoa Eza) as (d & zh & zm & -> & Hza & Ez). cbn [bind].
    assert (t_minute (p_time b) <> None) as Hmn by (destruct Hpb as (? & ? & ? & ? & ? & -> & _); discriminate).
    destruct (p_ShiftZone_total b d zh zm ib zb) as (b' & Esh & Hvb' & Hh'); try assumption;
      [rewrite <- Ez; lia | rewrite <- Ez; lia |
       destruct Hpb as (? & ? & ? & ? & ? & -> & ? & ? & ? & ?); cbn; intros [=]; lia |].
    rewrite Esh. cbn [bind].
    pose proof (p_ShiftZone_exact b _ _ _ _ Hvb Esh) as (d1 & z1 & i1 & l1 & Ed1 & Ez1 & Hi1 & El1 & Ezb' & Hinst).
    injection Ed1 as <-. rewrite <- Ez in *.
    assert (i1 = ib) as ->.
    { destruct Hi1 as (l & z & Hloc & Ezz1 & ->). destruct Hib as (l2 & z2 & Hloc2 & Ezz2 & ->).
      rewrite (local_fun _ _ _ Hloc Hloc2). rewrite Ezz1 in Ezz2. injection Ezz2 as ->. reflexivity. }
    assert (instant b' ib) as Hib'.
    { apply Hinst; [lia|]. left. destruct Hpb as (? & ? & ? & ? & ? & -> & ? & ? & ? & ?); cbn; intros [=]; lia. }
    assert (plain_time (p_time b')) as Hpb'.
    { unfold p_ShiftZone in Esh.
      destruct (t_ShiftZone (p_time b) (Some d) zh zm) as [[t' ov]|] eqn:Es; [|discriminate]. cbn [bind] in Esh.
      pose proof Es as Es2.
      apply t_ShiftZone_exact in Es2 as (q0 & q1 & q2 & _ & _ & _ & _ & Hp & _ & _ & Hsec & Hck & _); [|apply plain_valid, Hpb].
      assert (p_time b' = t') as Ept.
      { destruct (if negb (ov =? 0) then Offset (p_date b) 0 0 0 0 ov else Ok (p_date b)) as [nd|]; [|discriminate].
        cbn [bind] in Esh. unfold TimePoint in Esh. destruct (CheckDate nd); [|discriminate]. rewrite Hck in Esh.
        cbn [bind] in Esh. destruct (precision_eqb _ _); [|discriminate]. injection Esh as <-. reflexivity. }
      rewrite Ept in *. destruct Hvb' as [_ Hvt]. rewrite Ept in Hvt.
      destruct Hpb as (h & mm & s & zd & zo & Etb & Hh & Hm & Hs & Hz). rewrite Etb in *.
      cbn [t_second t_hour] in *. specialize (Hh' ltac:(lia)).
      destruct Hp as [Hp1 Hp2]. cbn [t_minute t_second] in *.
      destruct Hvt as [? ? ? ? ? | ? ? ? ? ? ? | h2 m2 s2 zd2 zo2 Hr2 Hz2]; cbn [t_minute t_second t_hour] in *.
      - discriminate.
      - discriminate.
      - injection Hsec as ->. exists h2, m2, s, zd2, zo2. repeat split; try lia; assumption. }
    pose proof Hvb' as [(y2 & m2 & d2 & Hy2 & Ed2) _].
    assert (ib = 86400 * absn y2 m2 d2 + seconds_of (p_time b') - 60 * za) as Eib'.
    { destruct Hib' as (l & z & Hloc & Ez2 & ->). rewrite Ezb' in Ez2. injection Ez2 as <-.
      destruct b' as [pd pt]. cbn [p_date p_time] in *. subst pd.
      rewrite (local_fun _ _ _ Hloc (local_intro y2 m2 d2 pt Hy2)). reflexivity. }
    rewrite Eda, Ed2. rewrite cmp_same_zone by (assumption || congruence).
    f_equal. apply sgn3_shift with (k := - 60 * za); lia.
Qed.

(** *** Unix time *)
Lemma FromUnixTime_spec n : -62135596800 <= n <= 253402300799 ->
  exists p, FromUnixTime n = Ok p /\ plain_time (p_time p) /\ zone_of (p_time p) = None /\ valid_tp p /\
    local p (86400 * 719163 + n).
Proof.
  intros Hn. unfold FromUnixTime.
  change (Time_FromStructTime 0 0 0) with (Ok (mkTime 0 (Some 0) (Some 0) None None)). cbn [bind].
  assert (valid_time (mkTime 0 (Some 0) (Some 0) None None)) as Hv0 by (constructor; [lia|constructor]).
  destruct (t_Offset_total (mkTime 0 (Some 0) (Some 0) None None) 0 0 n Hv0) as (t & days & Eo);
    [cbn; lia | right; discriminate | right; discriminate |].
  rewrite Eo. cbn [bind].
  assert (plain_time t /\ zone_of t = None) as [Hpl Hzn].
  { clear -Eo. unfold t_Offset in Eo. cbn [t_second t_minute t_hour] in Eo.
    destruct (negb (n =? 0)) eqn:E1; cbn [bind] in Eo.
    - set (m1 := 0 + (0 + n) / 60) in *. set (s1 := (0 + n) mod 60) in *.
      assert (0 <= s1 < 60) by (subst s1; lia).
      assert (exists h2 m2, (if negb (m1 =? 0) then Ok (0 + (0 + m1) / 60, Some ((0 + m1) mod 60))
         else Ok (0, Some 0)) = Ok (h2, Some m2) /\ 0 <= m2 < 60) as (h2 & m2 & E2 & Hm2).
      { destruct (negb (m1 =? 0)); do 2 eexists; (split; [reflexivity|lia]). }
      rewrite E2 in Eo. cbn [bind] in Eo.
      assert (exists d3 h3, (if negb (h2 =? 0) then ((0 + h2) / 24, (0 + h2) mod 24) else (0, 0)) = (d3, h3) /\ 0 <= h3 < 24)
        as (d3 & h3 & E3 & Hh3).
      { destruct (negb (h2 =? 0)); do 2 eexists; (split; [reflexivity|lia]). }
      rewrite E3 in Eo. cbn [GetZone3 t_zdir bind Time SetFromValues] in Eo.
      rewrite CheckTime_valid in Eo by (constructor; [lia|constructor]). cbn [bind] in Eo.
      injection Eo as <- <-. split; [|reflexivity].
      exists h3, m2, s1, None, None. repeat split; try lia. constructor.
    - cbn in Eo. injection Eo as <- <-. split; [|reflexivity].
      exists 0, 0, 0, None, None. repeat split; try lia. constructor. }
  apply t_Offset_exact in Eo as (Hvt & _ & _ & _ & E); [|exact Hv0].
  unfold seconds_of at 2 in E. cbn [t_hour t_minute t_second zero_if_none] in E.
  pose proof (plain_seconds t Hpl).
  assert (valid_ymd 1970 1 1) as Hy0 by (repeat split; cbn; lia).
  change (Date_FromStructTime 1970 1 1) with (Ok (of_ymd 1970 1 1)). cbn [bind].
  assert (absn 1970 1 1 = 719163) as Ea by reflexivity.
  assert (exists y m d, valid_ymd y m d /\ absn y m d = 719163 + days /\
     Offset (of_ymd 1970 1 1) 0 0 0 0 days = Ok (of_ymd y m d)) as (y & m & d & Hv & Ed & EO).
  { destruct (Z.eq_dec days 0) as [-> | Hd].
    - exists 1970, 1, 1. split; [exact Hy0|]. split; [lia|]. reflexivity.
    - rewrite Offset_days by assumption. rewrite Ea.
      destruct (Date_absolute_spec (719163 + days)) as (y & m & d & Hv & E2 & HD); [lia|].
      exists y, m, d. auto. }
  rewrite EO. cbn [bind]. rewrite TimePoint_ok by (assumption || apply CheckTime_valid, Hvt).
  eexists. split; [reflexivity|]. split; [exact Hpl|]. split; [exact Hzn|].
  split; [split; [exists y, m, d; auto|exact Hvt]|].
  pose proof (local_intro y m d t Hv) as Hloc.
  replace (86400 * 719163 + n) with (86400 * absn y m d + seconds_of t) by lia. exact Hloc.
Qed.
