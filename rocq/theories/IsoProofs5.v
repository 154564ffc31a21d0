(** Proofs about duration strings. *)
From Verif Require Import Py Iso IsoSpec IsoProofs IsoProofs3.

(** The decimal digits of any natural number read back. *)
Lemma dec_fuel_app f : forall n acc, dec_fuel f n acc = dec_fuel f n [] ++ acc.
Proof.
  induction f as [|f IH]; intros n acc; cbn [dec_fuel]; [reflexivity|].
  destruct (n <? 10); [reflexivity|]. rewrite IH, (IH _ [_]), <- app_assoc. reflexivity.
Qed.

Lemma digit_repeat_step x r v : 0 <= x <= 9 ->
  digit_repeat (digit x :: r) v = digit_repeat r (Some (match v with Some v => v * 10 + x | None => x end)).
Proof.
  intros Hx. cbn [digit_repeat]. unfold digit, IsDIGIT.
  replace ((48 + x >=? 48) && (48 + x <=? 57)) with true by lia.
  do 2 f_equal. destruct v; lia.
Qed.

Lemma digit_repeat_dec f : forall n v, 0 <= n < 2 ^ Z.of_nat f -> f <> O ->
  exists k, forall r, digit_repeat (dec_fuel f n [] ++ r) v
    = digit_repeat r (Some (match v with Some v => v * k + n | None => n end)).
Proof.
  induction f as [|f IH]; intros n v Hn Hf; [congruence|].
  cbn [dec_fuel]. destruct (n <? 10) eqn:E.
  - exists 10. intros r. cbn [app]. apply digit_repeat_step. lia.
  - pose proof (Z.div_mod n 10 ltac:(lia)). pose proof (Z.mod_pos_bound n 10 ltac:(lia)).
    assert (0 <= n / 10 < 2 ^ Z.of_nat f) as Hn'.
    { rewrite Nat2Z.inj_succ, Z.pow_succ_r in Hn by lia. lia. }
    destruct f as [|f]; [change (2 ^ Z.of_nat 0) with 1 in Hn'; lia|].
    destruct (IH (n / 10) v Hn' ltac:(congruence)) as (k & G).
    exists (k * 10). intros r. rewrite dec_fuel_app, <- app_assoc, G. cbn [app].
    rewrite digit_repeat_step by lia. do 2 f_equal. destruct v; lia.
Qed.

Lemma digit_repeat_fmt n c r : 0 <= n -> IsDIGIT c = false ->
  digit_repeat (fmt n ++ c :: r) None = (Some n, c :: r).
Proof.
  intros Hn Hc. unfold fmt.
  destruct (digit_repeat_dec (S (Z.to_nat (Z.log2 n))) n None) as (k & G).
  - split; [lia|]. rewrite Nat2Z.inj_succ, Z2Nat.id by apply Z.log2_nonneg.
    destruct (Z.eq_dec n 0) as [->|]; [reflexivity|]. apply Z.log2_spec. lia.
  - congruence.
  - rewrite G. cbn [digit_repeat]. rewrite Hc. reflexivity.
Qed.

Lemma value_fmt n c r : 0 <= n -> IsDIGIT c = false -> ((c =? 46) || (c =? 44)) = false ->
  ParseDurationValue (fmt n ++ c :: r) = Ok (Some n, c :: r).
Proof.
  intros Hn Hc Hc2. unfold ParseDurationValue, pbind, ParseDIGITRepeat.
  rewrite digit_repeat_fmt by assumption. rewrite Hc2. reflexivity.
Qed.

(** Text that does not start with a digit, '.' or ','. *)
Definition stopc (c : Z) : Prop := IsDIGIT c = false /\ (c =? 46) || (c =? 44) = false.
Definition stops (r : str) : Prop := match r with [] => True | c :: _ => stopc c end.

Lemma value_none r : stops r -> ParseDurationValue r = Ok (None, r).
Proof.
  unfold ParseDurationValue, pbind, ParseDIGITRepeat. destruct r as [|c r]; cbn [digit_repeat stops]; [reflexivity|].
  intros [-> _]. reflexivity.
Qed.

(** The text of a list of components *)
Definition ctext (l : list (option Z * Z)) : str := List.concat (map fmt_component l).
(** What ParseDurationValue finds in it *)
Fixpoint hv (l : list (option Z * Z)) (tail : str) : option Z * str :=
  match l with
  | [] => (None, tail)
  | (None, _) :: l => hv l tail
  | (Some n, x) :: l => (Some n, x :: ctext l ++ tail)
  end.
Definition okc (p : option Z * Z) : Prop := stopc (snd p) /\ match fst p with Some n => 0 <= n | None => True end.

Lemma value_list l tail : Forall okc l -> stops tail -> ParseDurationValue (ctext l ++ tail) = Ok (hv l tail).
Proof.
  intros Hl Ht. induction Hl as [|[[n|] x] l [Hx Hn] Hl IH]; cbn [ctext map List.concat hv fmt_component fst snd app] in *.
  - apply value_none, Ht.
  - rewrite <- !app_assoc. cbn [app]. apply value_fmt; [exact Hn|apply Hx|apply Hx].
  - exact IH.
Qed.

Lemma hv_letter l tail n s : hv l tail = (Some n, s) -> exists p s', In p l /\ s = snd p :: s'.
Proof.
  induction l as [|[[m|] x] l IH]; cbn [hv]; [discriminate| |].
  - intros [= <- <-]. exists (Some m, x). eexists. split; [left; reflexivity|reflexivity].
  - intros E. destruct (IH E) as (p & s' & Hp & Es). exists p, s'. split; [right; exact Hp|exact Es].
Qed.

Lemma component_list a x l tail : Forall okc l -> stops tail -> ~ In x (map snd l) ->
  component x (fst (hv ((a, x) :: l) tail)) ParseDurationValue (snd (hv ((a, x) :: l) tail))
  = Ok (a, fst (hv l tail), negb (is_none a), snd (hv l tail)).
Proof.
  intros Hl Ht Hx. destruct a as [n|]; cbn [hv fst snd is_none negb].
  - cbn [component]. rewrite Z.eqb_refl. unfold pbind, ret. rewrite value_list by assumption.
    destruct (hv l tail); reflexivity.
  - destruct (hv l tail) as [[n|] s] eqn:E; cbn [fst snd component].
    + destruct (hv_letter _ _ _ _ E) as (p & s' & Hp & ->).
      replace (snd p =? x) with false; [reflexivity|].
      symmetry. apply Z.eqb_neq. intros <-. apply Hx, in_map, Hp.
    + reflexivity.
Qed.

Lemma component_last a x tail :
  component x (fst (hv [(a, x)] tail)) (ret None) (snd (hv [(a, x)] tail))
  = Ok (a, None, negb (is_none a), tail).
Proof.
  destruct a as [n|]; cbn [hv fst snd is_none negb ctext map List.concat app].
  - cbn [component]. rewrite Z.eqb_refl. reflexivity.
  - reflexivity.
Qed.

Definition dpart (y mo d : option Z) : str := ctext [(y, 89); (mo, 77); (d, 68)].
Definition tpart (h mi se : option Z) : str := ctext [(h, 72); (mi, 77); (se, 83)].
Definition dstr (y mo d h mi se : option Z) : str :=
  match tpart h mi se with
  | [] => 80 :: dpart y mo d
  | _ => 80 :: dpart y mo d ++ 84 :: tpart h mi se
  end.
Definition nonneg (a : option Z) : Prop := match a with Some n => 0 <= n | None => True end.

Lemma fmt_nonempty n : exists a s, fmt n = a :: s.
Proof.
  unfold fmt. rewrite dec_fuel_S. destruct (n <? 10); [do 2 eexists; reflexivity|].
  rewrite dec_fuel_app. destruct (dec_fuel _ _ []); do 2 eexists; reflexivity.
Qed.

Lemma tpart_nil h mi se : tpart h mi se = [] -> h = None /\ mi = None /\ se = None.
Proof.
  unfold tpart, ctext. cbn [map List.concat]. unfold fmt_component; cbn [fst snd].
  destruct h as [h|]; [destruct (fmt_nonempty h) as (? & ? & ->); discriminate|].
  destruct mi as [h|]; [destruct (fmt_nonempty h) as (? & ? & ->); discriminate|].
  destruct se as [h|]; [destruct (fmt_nonempty h) as (? & ? & ->); discriminate|]. auto.
Qed.

Lemma stopc_of c : IsDIGIT c = false -> (c =? 46) || (c =? 44) = false -> stopc c.
Proof. split; assumption. Qed.

Definition all_none (l : list (option Z)) : bool := forallb is_none l.

Lemma not_week {A} (p : option Z * str) (f : Z -> str -> A) (g : A) :
  (forall n s, p <> (Some n, 87 :: s)) ->
  match fst p, snd p with Some n, 87 :: s' => f n s' | _, _ => g end = g.
Proof.
  destruct p as [[n|] s]; cbn [fst snd]; [|reflexivity]. intros H.
  destruct s as [|c s]; [reflexivity|].
  destruct c as [|c|c]; try reflexivity.
  do 7 (destruct c as [c|c|]; try reflexivity).
  exfalso. apply (H n s). reflexivity.
Qed.

Lemma ParseDuration_dstr y mo d h mi se :
  Forall nonneg [y; mo; d; h; mi; se] -> all_none [y; mo; d; h; mi; se] = false ->
  ParseDuration (dstr y mo d h mi se)
  = match rev (fill [se; mi; h; d; mo; y] None) with
    | [y; mo; d; h; mi; se] => Ok (mkDur y mo d h mi se None, [])
    | _ => Err TypeError end.
Proof.
  intros Hn Ha.
  assert (nonneg y /\ nonneg mo /\ nonneg d /\ nonneg h /\ nonneg mi /\ nonneg se) as (Hy & Hmo & Hd & Hh & Hmi & Hse).
  { repeat match goal with H : Forall _ (_ :: _) |- _ => inversion H; clear H; subst end. auto 10. }
  clear Hn.
  assert (exists tail, dstr y mo d h mi se = 80 :: dpart y mo d ++ tail /\
     (tail = [] /\ h = None /\ mi = None /\ se = None \/
      tail = 84 :: tpart h mi se /\ negb (is_none h) || negb (is_none mi) || negb (is_none se) = true)) as (tail & -> & Htail).
  { unfold dstr. destruct (tpart h mi se) as [|c0 t0] eqn:Et.
    - exists []. split; [rewrite app_nil_r; reflexivity|]. left. split; [reflexivity|apply tpart_nil, Et].
    - exists (84 :: c0 :: t0). split; [reflexivity|]. right. split; [reflexivity|].
      destruct h; [reflexivity|]. destruct mi; [reflexivity|]. destruct se; [reflexivity|]. discriminate. }
  assert (stops tail) as Hst.
  { destruct Htail as [(-> & _) | (-> & _)]; [exact I|split; reflexivity]. }
  unfold ParseDuration. change (if_char 80 ?p ?q (80 :: ?s)) with (p s).
  assert (Forall okc [(y, 89); (mo, 77); (d, 68)]) as Hl1.
  { repeat constructor; cbn; assumption || reflexivity. }
  assert (Forall okc [(mo, 77); (d, 68)]) as Hl2 by (inversion Hl1; assumption).
  assert (Forall okc [(d, 68)]) as Hl3 by (inversion Hl2; assumption).
  rewrite (pbind_ok _ _ _ (fst (hv [(y, 89); (mo, 77); (d, 68)] tail)) (snd (hv [(y, 89); (mo, 77); (d, 68)] tail)))
    by (unfold dpart; rewrite value_list by assumption; destruct (hv _ _); reflexivity).
  match goal with |- match fst ?p with _ => _ end = _ =>
    refine (eq_trans (not_week p (fun n s' => Ok (mkDur None None None None None None (Some n), s')) _ _) _) end.
  1:{ intros n s E. destruct (hv_letter _ _ _ _ E) as (p & s' & Hp & Es). injection Es as Es _.
      cbn [In] in Hp. destruct Hp as [<- | [<- | [<- | []]]]; cbn in Es; discriminate. }
  erewrite pbind_ok by (apply component_list; [assumption|assumption|cbn; lia]); cbv beta iota.
  erewrite pbind_ok by (apply component_list; [assumption|assumption|cbn; lia]); cbv beta iota.
  erewrite pbind_ok by (apply component_last); cbv beta iota.
  cbn [is_none negb].
  destruct Htail as [(-> & -> & -> & ->) | (-> & Hany)].
  - rewrite (pbind_ok _ _ _ (None, None, None, None, false, false) []) by reflexivity.
    cbn [is_none negb orb andb].
    assert (negb (is_none y) || negb (is_none mo) || negb (is_none d) || false = true) as ->.
    { cbn [all_none forallb] in Ha. destruct y, mo, d; try reflexivity. discriminate. }
    cbn [negb]. destruct (rev _) as [|? [|? [|? [|? [|? [|? [|]]]]]]]; reflexivity.
  - erewrite pbind_ok.
    2:{ change (if_char 84 ?p ?q (84 :: ?s)) with (p s).
        assert (Forall okc [(h, 72); (mi, 77); (se, 83)]) as Hm1.
        { repeat constructor; cbn; assumption || reflexivity. }
        assert (Forall okc [(mi, 77); (se, 83)]) as Hm2 by (inversion Hm1; assumption).
        assert (Forall okc [(se, 83)]) as Hm3 by (inversion Hm2; assumption).
        assert (stops []) as Hs0 by exact I.
        rewrite (pbind_ok _ _ _ (fst (hv [(h, 72); (mi, 77); (se, 83)] [])) (snd (hv [(h, 72); (mi, 77); (se, 83)] []))).
        2:{ unfold tpart. rewrite <- (app_nil_r (ctext _)). rewrite value_list by assumption. destruct (hv _ _); reflexivity. }
        erewrite pbind_ok by (apply component_list; [assumption|assumption|cbn; lia]); cbv beta iota.
        erewrite pbind_ok by (apply component_list; [assumption|assumption|cbn; lia]); cbv beta iota.
        erewrite pbind_ok by (apply component_last); cbv beta iota.
        unfold ret. reflexivity. }
    cbn [is_none negb]. rewrite Hany, !orb_true_r. cbn [negb andb].
    destruct (rev _) as [|? [|? [|? [|? [|? [|? [|]]]]]]]; reflexivity.
Qed.

(** *** GetString *)
Definition padded (c : list (option Z)) (i : nat) : option Z := nth i c None.

Lemma GetString_dstr c : (length c <= 6)%nat ->
  (let parts := map fmt_component (combine c (lit "YMDHMS")) in
   let datePart := List.concat (firstn 3 parts) in
   let timePart := List.concat (skipn 3 parts) in
   match timePart with
   | [] => lit "P" ++ datePart
   | _ => lit "P" ++ datePart ++ lit "T" ++ timePart
   end) = dstr (padded c 0) (padded c 1) (padded c 2) (padded c 3) (padded c 4) (padded c 5).
Proof.
  intros Hl. change (lit "YMDHMS") with [89; 77; 68; 72; 77; 83]. change (lit "P") with [80]. change (lit "T") with [84].
  unfold dstr, dpart, tpart, ctext, padded.
  destruct c as [|c1 [|c2 [|c3 [|c4 [|c5 [|c6 [|]]]]]]]; cbn [length] in Hl; try lia;
    cbn [combine map firstn skipn List.concat nth fmt_component fst snd app];
    rewrite ?app_nil_r; try reflexivity.
Qed.

Lemma Duration_string_round c tz : (1 <= length c <= 6)%nat -> Forall (fun n => 0 <= n) c ->
  exists s, Duration_GetString (dur_of c) tz = Ok (Some s) /\ Duration_FromString s = Ok (dur_of c).
Proof.
  intros Hl Hc. unfold Duration_GetString. change (u_weeks (dur_of c)) with (@None Z). cbv iota.
  assert (strip_none [u_seconds (dur_of c); u_minutes (dur_of c); u_hours (dur_of c); u_days (dur_of c);
     u_months (dur_of c); u_years (dur_of c)] = Ok (rev (map Some c))) as E.
  { destruct c as [|c1 [|c2 [|c3 [|c4 [|c5 [|c6 [|]]]]]]]; cbn [length] in Hl; try lia; reflexivity. }
  rewrite E. cbn [bind]. rewrite rev_involutive.
  set (c' := if tz then strip_zeros (map Some c) else map Some c).
  (* c' has the same length, its last component is present, missing ones are zeros *)
  assert (length c' = length c /\
    (forall i, nth_error c i = None -> nth i c' None = None) /\
    (forall i x, nth_error c i = Some x -> nth i c' None = Some x \/ nth i c' None = None /\ x = 0) /\
    (forall i, nth i c' None = None -> (S i < length c)%nat -> forall j, (j < i)%nat -> nth j c' None = None) /\
    nth (length c - 1) c' None <> None) as (Hlen & Hout & Hin & Hlead & Hlast).
  { assert (forall l : list Z, l <> [] -> length (strip_zeros (map Some l)) = length l /\
      (forall i x, nth_error l i = Some x -> nth i (strip_zeros (map Some l)) None = Some x \/ nth i (strip_zeros (map Some l)) None = None /\ x = 0) /\
      (forall i, nth i (strip_zeros (map Some l)) None = None -> (S i < length l)%nat -> forall j, (j < i)%nat -> nth j (strip_zeros (map Some l)) None = None) /\
      nth (length l - 1) (strip_zeros (map Some l)) None <> None) as G.
    { induction l as [|a l IH]; intros Hne; [congruence|].
      destruct l as [|b l].
      - cbn [map strip_zeros length]. split; [reflexivity|]. split; [|split].
        + intros [|i] x; cbn [nth nth_error]; [intros [= ->]; auto|destruct i; discriminate].
        + intros i _ Hi. cbn in Hi. lia.
        + cbn. discriminate.
      - specialize (IH ltac:(discriminate)). destruct IH as (I1 & I2 & I3 & I4).
        change (strip_zeros (map Some (a :: b :: l))) with
          (if a =? 0 then None :: strip_zeros (map Some (b :: l)) else map Some (a :: b :: l)).
        destruct (a =? 0) eqn:Ea.
        + cbn [length]. split; [cbn [length] in *; lia|]. split; [|split].
          * intros [|i] x; cbn [nth nth_error]; [intros [= <-]; right; split; [reflexivity|lia]|apply I2].
          * intros [|i] Hi Hlt [|j] Hj; try lia; cbn [nth] in *; [reflexivity|].
            apply (I3 i); [exact Hi|cbn [length] in *; lia|lia].
          * cbn [length] in *. replace (S (S (length l)) - 1)%nat with (S (S (length l) - 1)) by lia. exact I4.
        + split; [rewrite map_length; reflexivity|]. split; [|split].
          * intros i x Hx. left. clear -Hx. revert i Hx. induction (a :: b :: l) as [|z r IHr]; intros [|i]; cbn; try discriminate.
            -- congruence.
            -- apply IHr.
          * intros i Hi Hlt. exfalso.
            assert (nth_error (a :: b :: l) i <> None) as Hx by (apply nth_error_Some; lia).
            clear -Hi Hx. revert i Hi Hx. induction (a :: b :: l) as [|z r IHr]; intros [|i]; cbn; try congruence. apply IHr.
          * assert (nth_error (a :: b :: l) (length (a :: b :: l) - 1) <> None) as Hx by (apply nth_error_Some; cbn; lia).
            revert Hx. generalize (length (a :: b :: l) - 1)%nat. clear. 
            induction (a :: b :: l) as [|z r IHr]; intros [|i]; cbn; try congruence. apply IHr. }
    assert (forall l : list Z, l <> [] -> length (map Some l) = length l /\
      (forall i x, nth_error l i = Some x -> nth i (map Some l) None = Some x) /\
      (forall i, nth i (map Some l) None = None -> (length l <= i)%nat) ) as G2.
    { intros l _. split; [apply map_length|]. split.
      - induction l as [|z r IHr]; intros [|i] x; cbn; try discriminate; [congruence|apply IHr].
      - induction l as [|z r IHr]; intros [|i]; cbn; try discriminate; try lia. intros Hx. specialize (IHr i Hx). lia. }
    assert (c <> []) as Hne by (intros ->; cbn in Hl; lia).
    assert (length c' = length c) as HL.
    { subst c'. destruct tz; [apply (G c Hne)|apply (G2 c Hne)]. }
    split; [exact HL|]. split.
    { intros i Hi. apply nth_overflow. rewrite HL. apply nth_error_None, Hi. }
    subst c'. destruct tz.
    - apply (G c Hne).
    - destruct (G2 c Hne) as (_ & F1 & F2). split; [intros i x Hx; left; apply F1, Hx|]. split.
      + intros i Hi Hlt. apply F2 in Hi. lia.
      + intros Hx. apply F2 in Hx. lia. }
  eexists. split; [reflexivity|].
  rewrite GetString_dstr by lia. unfold Duration_FromString.
  clearbody c'. clear E.
  destruct c as [|c1 [|c2 [|c3 [|c4 [|c5 [|c6 [|]]]]]]]; cbn [length] in Hl; try lia;
  repeat match goal with H : Forall _ (_ :: _) |- _ => inversion H; clear H; subst end;
  destruct c' as [|e1 [|e2 [|e3 [|e4 [|e5 [|e6 [|]]]]]]]; cbn [length] in Hlen; try lia; unfold padded; cbn [nth];
  (try pose proof (Hin 0%nat _ eq_refl) as N0; try pose proof (Hin 1%nat _ eq_refl) as N1;
   try pose proof (Hin 2%nat _ eq_refl) as N2; try pose proof (Hin 3%nat _ eq_refl) as N3;
   try pose proof (Hin 4%nat _ eq_refl) as N4; try pose proof (Hin 5%nat _ eq_refl) as N5);
  cbn [nth] in *; cbn [length Nat.sub nth] in Hlast;
  (rewrite ParseDuration_dstr;
   [ | repeat constructor; cbn; repeat match goal with H : ?e = Some _ \/ ?e = None /\ _ |- _ => destruct H as [-> | [-> _]] end; cbn; auto
     | clear Hlead; repeat match goal with H : ?e = Some _ \/ ?e = None /\ _ |- _ => destruct H as [-> | [-> _]] end; cbn; congruence || reflexivity ]);
  clear Hlead Hin Hout;
  repeat match goal with H : ?e = Some _ \/ ?e = None /\ _ |- _ => destruct H as [-> | [-> ->]] end; try congruence; reflexivity.
Qed.
