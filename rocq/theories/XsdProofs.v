(** Proofs about Xsd.v. *)
From Verif Require Import Py Iso Dec XmlUtils Xsd XsdSpec.
Ltac Zify.zify_convert_to_euclidean_division_equations_flag ::= constr:(true).

Lemma is_digit_dec c : is_digit c = true <-> is_dec c.
Proof. unfold is_digit, is_dec. lia. Qed.
Lemma forallb_dec s : forallb is_digit s = true <-> Forall is_dec s.
Proof.
  rewrite forallb_forall, Forall_forall. split; intros H x Hx; apply is_digit_dec, H, Hx.
Qed.

(** *** Integers *)
Lemma int_digits10_ok s n : int_digits10 s = Ok n <-> s <> [] /\ Forall is_dec s /\ n = dval s.
Proof.
  unfold int_digits10. destruct s as [|c s].
  - split; [discriminate|]. intros (H & _). congruence.
  - destruct (forallb is_digit (c :: s)) eqn:E.
    + apply forallb_dec in E. split; [intros [= <-]|intros (_ & _ & ->)]; auto. split; [discriminate|]. auto.
    + split; [discriminate|]. intros (_ & H & _). apply forallb_dec in H. congruence.
Qed.

Lemma int_of_ok s n : int_of s = Ok n <-> lex_integer s n.
Proof.
  unfold int_of, lex_integer. split.
  - destruct s as [|c t]; [discriminate|]. destruct (c =? 43) eqn:E1; [|destruct (c =? 45) eqn:E2].
    + intros H. apply int_digits10_ok in H as (H1 & H2 & ->). exists [43], 1, t. replace c with 43 by lia.
      split; [reflexivity|]. split; [constructor|]. split; [exact H1|]. split; [exact H2|lia].
    + destruct (int_digits10 t) as [v|] eqn:V; [|discriminate]. cbn [bind]. intros [= <-].
      apply int_digits10_ok in V as (H1 & H2 & ->). exists [45], (-1), t. replace c with 45 by lia.
      split; [reflexivity|]. split; [constructor|]. split; [exact H1|]. split; [exact H2|lia].
    + intros H. apply int_digits10_ok in H as (H1 & H2 & ->). exists [], 1, (c :: t).
      split; [reflexivity|]. split; [constructor|]. split; [exact H1|]. split; [exact H2|lia].
  - intros (sg & g & ds & -> & L & N & D & ->).
    assert (forall d, d = dval ds -> int_digits10 ds = Ok d) as I by (intros d ->; apply int_digits10_ok; auto).
    destruct L; cbn [app].
    + destruct ds as [|c t]; [congruence|]. inversion_clear D as [|? ? Dc Dt]. unfold is_dec in Dc.
      replace (c =? 43) with false by lia. replace (c =? 45) with false by lia. apply I. lia.
    + change (43 =? 43) with true. cbv iota. apply I. lia.
    + change (45 =? 43) with false. change (45 =? 45) with true. cbv iota. rewrite (I _ eq_refl). cbn [bind]. f_equal.
Qed.

Lemma int_of_err s e : int_of s = Err e -> e = ValueError.
Proof.
  assert (forall t e', int_digits10 t = Err e' -> e' = ValueError) as I.
  { intros t e'. unfold int_digits10. destruct t; [congruence|]. destruct (forallb _ _); congruence. }
  unfold int_of. destruct s as [|c t]; [congruence|]. destruct (c =? 43); [apply I|]. destruct (c =? 45); [|apply I].
  destruct (int_digits10 t) eqn:E; cbn [bind]; [discriminate|]. intros [= <-]. eapply I, E.
Qed.

Lemma integer_scan_digits s : Forall is_dec s -> integer_scan true s = true.
Proof.
  induction 1 as [|c s Hc Hs IH]; [reflexivity|]. cbn [integer_scan]. unfold is_dec in Hc.
  replace ((c =? 43) || (c =? 45)) with false by lia. replace ((c <? 48) || (c >? 57)) with false by lia. exact IH.
Qed.
Lemma integer_scan_lex s n : lex_integer s n -> integer_scan false s = true.
Proof.
  intros (sg & g & ds & -> & L & N & D & ->). destruct L; cbn [app].
  - destruct D as [|c t Hc Ht]; [congruence|]. cbn [integer_scan]. unfold is_dec in Hc.
    replace ((c =? 43) || (c =? 45)) with false by lia. replace ((c <? 48) || (c >? 57)) with false by lia.
    apply integer_scan_digits, Ht.
  - cbn [integer_scan Z.eqb Pos.eqb orb]. apply integer_scan_digits, D.
  - cbn [integer_scan Z.eqb Pos.eqb orb]. apply integer_scan_digits, D.
Qed.

Lemma DecodeInteger_ok s n : DecodeInteger s = Ok n <-> lex_integer s n.
Proof.
  unfold DecodeInteger. split.
  - destruct (integer_scan false s); [|discriminate]. apply int_of_ok.
  - intros H. rewrite (integer_scan_lex s n H). apply int_of_ok, H.
Qed.
Lemma DecodeInteger_err s e : DecodeInteger s = Err e -> e = ValueError.
Proof. unfold DecodeInteger. destruct (integer_scan false s); [apply int_of_err|congruence]. Qed.
Lemma integer_round_trip n : DecodeInteger (EncodeInteger n) = Ok n.
Proof.
  apply DecodeInteger_ok. unfold EncodeInteger, pystr. destruct (n <? 0) eqn:E.
  - exists [45], (-1), (fmt (- n)). split; [reflexivity|]. split; [constructor|].
    split; [apply fmt_not_nil|]. split; [apply fmt_digits; lia|]. rewrite dval_fmt; lia.
  - exists [], 1, (fmt n). split; [reflexivity|]. split; [constructor|].
    split; [apply fmt_not_nil|]. split; [apply fmt_digits; lia|]. rewrite dval_fmt; lia.
Qed.

(** *** Decimals *)
Lemma before_point_no s : ~ In 46 s -> before_point s = (s, []).
Proof.
  induction s as [|c s IH]; intros H; [reflexivity|]. cbn [before_point].
  destruct (c =? 46) eqn:E; [exfalso; apply H; left; lia|]. rewrite IH; [reflexivity|].
  intros K. apply H. right. exact K.
Qed.
Lemma before_point_app a b : ~ In 46 a -> before_point (a ++ 46 :: b) = (a, b).
Proof.
  induction a as [|c s IH]; intros H; [reflexivity|]. cbn [app before_point].
  destruct (c =? 46) eqn:E; [exfalso; apply H; left; lia|]. rewrite IH; [reflexivity|].
  intros K. apply H. right. exact K.
Qed.
Lemma before_point_inv s : forall a b, before_point s = (a, b) -> s = a ++ 46 :: b \/ (b = [] /\ s = a).
Proof.
  induction s as [|c s IH]; intros a b H; cbn [before_point] in H.
  - injection H as <- <-. auto.
  - destruct (c =? 46) eqn:E.
    + injection H as <- <-. left. replace c with 46 by lia. reflexivity.
    + destruct (before_point s) as [a' b'] eqn:Q. injection H as <- <-.
      destruct (IH _ _ eq_refl) as [->|[-> ->]]; [left|right]; auto.
Qed.
Lemma dec_no46 a : Forall is_dec a -> ~ In 46 a.
Proof. rewrite Forall_forall. intros H K. specialize (H _ K). unfold is_dec in H. lia. Qed.

Definition lex_unsigned (s : str) (m k : Z) : Prop :=
  exists a b, Forall is_dec a /\ Forall is_dec b /\ a ++ b <> [] /\
    (s = a ++ 46 :: b \/ (b = [] /\ s = a)) /\ m = dval (a ++ b) /\ k = Z.of_nat (length b).

Lemma float_unsigned_ok s m k : float_unsigned s = Ok (m, k) <-> lex_unsigned s m k.
Proof.
  unfold float_unsigned, lex_unsigned. split.
  - destruct (before_point s) as [a b] eqn:E. apply before_point_inv in E.
    destruct (a ++ b) as [|c t] eqn:Q; [discriminate|]. destruct (forallb _ _) eqn:F; [|discriminate].
    intros [= <- <-]. rewrite <- Q in *. apply forallb_dec, Forall_app in F as [F1 F2]. exists a, b.
    repeat (split; [assumption|]). split; [rewrite Q; discriminate|]. auto.
  - intros (a & b & Ha & Hb & N & E & -> & ->).
    assert (before_point s = (a, b)) as ->.
    { destruct E as [->|[-> ->]]; [apply before_point_app, dec_no46, Ha|apply before_point_no, dec_no46, Ha]. }
    assert (forallb is_digit (a ++ b) = true) as F by (apply forallb_dec, Forall_app; auto).
    destruct (a ++ b) as [|c t]; [congruence|]. rewrite F. reflexivity.
Qed.

Lemma float_of_ok s m k : float_of s = Ok (m, k) <-> lex_decimal s m k.
Proof.
  unfold float_of, lex_decimal. split.
  - destruct s as [|c t]; [discriminate|]. destruct (c =? 43) eqn:E1; [|destruct (c =? 45) eqn:E2].
    + intros H. apply float_unsigned_ok in H as (a & b & Ha & Hb & N & E & -> & ->). exists [43], 1, a, b. replace c with 43 by lia.
      split; [constructor|]. repeat (split; [assumption|]).
      split; [destruct E as [->|[-> ->]]; [left|right; split]; reflexivity|]. split; [lia|reflexivity].
    + destruct (float_unsigned t) as [[m' k']|] eqn:V; [|discriminate]. cbn [bind]. intros [= <- <-].
      apply float_unsigned_ok in V as (a & b & Ha & Hb & N & E & -> & ->). exists [45], (-1), a, b. replace c with 45 by lia.
      split; [constructor|]. repeat (split; [assumption|]).
      split; [destruct E as [->|[-> ->]]; [left|right; split]; reflexivity|]. split; [lia|reflexivity].
    + intros H. apply float_unsigned_ok in H as (a & b & Ha & Hb & N & E & -> & ->). exists [], 1, a, b.
      split; [constructor|]. repeat (split; [assumption|]). split; [lia|reflexivity].
  - intros (sg & g & a & b & L & Ha & Hb & N & E & -> & ->).
    assert (forall u, u = a ++ 46 :: b \/ (b = [] /\ u = a) ->
      float_unsigned u = Ok (dval (a ++ b), Z.of_nat (length b))) as F.
    { intros u Hu. apply float_unsigned_ok. exists a, b. auto 8. }
    assert (exists u, s = sg ++ u /\ (u = a ++ 46 :: b \/ (b = [] /\ u = a))) as (u & -> & Hu).
    { destruct E as [->|[Hb' ->]]; [exists (a ++ 46 :: b)|exists a]; auto. }
    specialize (F u Hu). destruct L; cbn [app].
    + assert (exists c t, u = c :: t /\ c <> 43 /\ c <> 45) as (c & t & -> & C1 & C2).
      { destruct a as [|c t].
        - destruct Hu as [->|[-> ->]]; [exists 46, b; cbn; auto; repeat split; lia|cbn in N; congruence].
        - inversion_clear Ha as [|? ? Hc _]. unfold is_dec in Hc.
          destruct Hu as [->|[_ ->]]; eexists; eexists; (split; [reflexivity|lia]). }
      replace (c =? 43) with false by lia. replace (c =? 45) with false by lia. rewrite F. do 2 f_equal. lia.
    + change (43 =? 43) with true. cbv iota. rewrite F. do 2 f_equal. lia.
    + change (45 =? 43) with false. change (45 =? 45) with true. cbv iota. rewrite F. cbn [bind]. do 2 f_equal.
Qed.

Lemma decimal_scan_digits s r : forall point digit, Forall is_dec s -> s <> [] \/ digit = true ->
  decimal_scan true point digit (s ++ r) = decimal_scan true point true r.
Proof.
  intros point digit H. revert digit. induction H as [|c s Hc Hs IH]; intros digit N; cbn [app].
  - destruct N as [N| ->]; [congruence|reflexivity].
  - cbn [decimal_scan]. unfold is_dec in Hc. replace ((c =? 43) || (c =? 45)) with false by lia.
    replace (c =? 46) with false by lia. replace ((c <? 48) || (c >? 57)) with false by lia. apply IH. auto.
Qed.
Lemma decimal_scan_first sign point digit c s : is_dec c -> decimal_scan sign point digit (c :: s) = decimal_scan true point true s.
Proof.
  intros Hc. cbn [decimal_scan]. unfold is_dec in Hc. replace ((c =? 43) || (c =? 45)) with false by lia.
  replace (c =? 46) with false by lia. replace ((c <? 48) || (c >? 57)) with false by lia. reflexivity.
Qed.
Lemma decimal_scan_lex s m k : lex_decimal s m k -> decimal_scan false false false s = true.
Proof.
  intros (sg & g & a & b & L & Ha & Hb & N & E & _).
  assert (forall sign u, u = a ++ 46 :: b \/ (b = [] /\ u = a) -> decimal_scan sign false false u = true) as F.
  { intros sign u Hu. destruct Ha as [|c a Hc Ha].
    - destruct Hu as [->|[-> ->]]; [|cbn in N; congruence]. cbn [app decimal_scan Z.eqb Pos.eqb orb].
      destruct Hb as [|c b Hc Hb]; [cbn in N; congruence|]. rewrite decimal_scan_first by exact Hc.
      rewrite <- (app_nil_r b), decimal_scan_digits by auto. reflexivity.
    - destruct Hu as [->|[_ ->]]; cbn [app]; rewrite decimal_scan_first by exact Hc.
      + rewrite decimal_scan_digits by auto. cbn [decimal_scan Z.eqb Pos.eqb orb].
        rewrite <- (app_nil_r b), decimal_scan_digits by auto. reflexivity.
      + rewrite <- (app_nil_r a), decimal_scan_digits by auto. reflexivity. }
  assert (exists u, s = sg ++ u /\ (u = a ++ 46 :: b \/ (b = [] /\ u = a))) as (u & -> & Hu).
  { destruct E as [->|[Hb' ->]]; [exists (a ++ 46 :: b)|exists a]; auto. }
  destruct L; cbn [app]; [apply F, Hu|..]; cbn [decimal_scan Z.eqb Pos.eqb orb]; apply F, Hu.
Qed.
Lemma DecodeDecimal_ok s m k : DecodeDecimal s = Ok (m, k) <-> lex_decimal s m k.
Proof.
  unfold DecodeDecimal. split.
  - destruct (decimal_scan _ _ _ s); [|discriminate]. apply float_of_ok.
  - intros H. rewrite (decimal_scan_lex s m k H). apply float_of_ok, H.
Qed.
Lemma DecodeDecimal_err s e : DecodeDecimal s = Err e -> e = ValueError.
Proof.
  assert (forall t e', float_unsigned t = Err e' -> e' = ValueError) as I.
  { intros t e'. unfold float_unsigned. destruct (before_point t) as [a b]. destruct (a ++ b); [congruence|].
    destruct (forallb _ _); congruence. }
  unfold DecodeDecimal. destruct (decimal_scan _ _ _ s); [|congruence].
  unfold float_of. destruct s as [|c t]; [congruence|]. destruct (c =? 43); [apply I|]. destruct (c =? 45); [|apply I].
  destruct (float_unsigned t) as [[]|] eqn:E; cbn [bind]; [discriminate|]. intros [= <-]. eapply I, E.
Qed.

(** *** Rounding *)
Fixpoint rval (r : str) : Z := match r with [] => 0 | d :: r' => (d - 48) + 10 * rval r' end.
Lemma dval_rev r : dval (rev r) = rval r.
Proof. induction r as [|d r IH]; [reflexivity|]. cbn [rev rval]. rewrite dval_snoc, IH. lia. Qed.
Lemma rval_rev s : rval (rev s) = dval s.
Proof. rewrite <- dval_rev, rev_involutive. reflexivity. Qed.

Lemma pow10_S n : 10 ^ Z.of_nat (S n) = 10 * 10 ^ Z.of_nat n.
Proof. rewrite Nat2Z.inj_succ, Z.pow_succ_r by lia. reflexivity. Qed.

Lemma round_loop_carry r : Forall is_dec r -> (length r <= float_dig)%nat ->
  let '(r', o) := round_loop r in
  length r' = length r /\ Forall is_dec r' /\ rval r' + (if o then 10 ^ Z.of_nat (length r) else 0) = rval r + 1.
Proof.
  induction 1 as [|d r Hd Hr IH]; intros L; cbn [round_loop].
  - split; [reflexivity|]. split; [constructor|]. reflexivity.
  - cbn [length] in *. replace (Nat.ltb float_dig (length r)) with false by (symmetry; apply Nat.ltb_ge; lia).
    replace (Nat.eqb (length r) float_dig) with false by (symmetry; apply Nat.eqb_neq; lia).
    unfold is_dec in Hd. destruct (d =? 57) eqn:E.
    + specialize (IH ltac:(lia)). destruct (round_loop r) as [r' o]. destruct IH as (I1 & I2 & I3).
      cbn [length rval]. split; [lia|]. split; [constructor; [unfold is_dec; lia|exact I2]|].
      rewrite pow10_S. destruct o; lia.
    + cbn [length rval]. split; [reflexivity|]. split; [constructor; [unfold is_dec; lia|exact Hr]|]. lia.
Qed.

Lemma rounded_10 x u q d : 0 <= d < 10 -> Z.even u = true -> rounded x u q -> rounded (d + 10 * x) (10 * u) (10 * q).
Proof.
  intros Hd He (j & -> & H). exists j. split; [lia|]. apply Z.even_spec in He as [h ->]. lia.
Qed.

Lemma round_loop_rounds r : Forall is_dec r -> (float_dig < length r)%nat ->
  let '(r', o) := round_loop r in
  length r' = length r /\ Forall is_dec r' /\
  rounded (rval r) (10 ^ (Z.of_nat (length r) - 15)) (rval r' + if o then 10 ^ Z.of_nat (length r) else 0).
Proof.
  induction 1 as [|d r Hd Hr IH]; intros L; [cbn in L; unfold float_dig in L; lia|]. cbn [length] in L. cbn [round_loop].
  unfold is_dec in Hd. destruct (Nat.ltb float_dig (length r)) eqn:E1.
  - apply Nat.ltb_lt in E1. specialize (IH E1). destruct (round_loop r) as [r' o]. destruct IH as (I1 & I2 & I3).
    cbn [length rval]. split; [lia|]. split; [constructor; [unfold is_dec; lia|exact I2]|].
    unfold float_dig in *.
    assert (Z.of_nat (S (length r)) - 15 = Z.succ (Z.of_nat (length r) - 15)) as E by lia. rewrite E, Z.pow_succ_r by lia.
    replace (48 - 48 + 10 * rval r' + _) with (10 * (rval r' + if o then 10 ^ Z.of_nat (length r) else 0)).
    2:{ destruct o; [rewrite pow10_S|]; lia. }
    apply rounded_10; [lia| |exact I3].
    replace (Z.of_nat (length r) - 15) with (Z.succ (Z.of_nat (length r) - 16)) by lia. rewrite Z.pow_succ_r by lia.
    rewrite Z.even_mul. reflexivity.
  - apply Nat.ltb_ge in E1. assert (length r = float_dig) as El by lia. rewrite El, Nat.eqb_refl.
    destruct (d <? 53) eqn:E2.
    + cbn [length rval]. rewrite El. split; [reflexivity|]. split; [constructor; [unfold is_dec; lia|exact Hr]|].
      change (Z.of_nat (S float_dig) - 15) with 1. change (10 ^ 1) with 10. exists (rval r). split; [lia|]. lia.
    + pose proof (round_loop_carry r Hr ltac:(lia)) as C. destruct (round_loop r) as [r' o]. destruct C as (I1 & I2 & I3).
      cbn [length rval]. rewrite El in *. split; [lia|]. split; [constructor; [unfold is_dec; lia|exact I2]|].
      rewrite pow10_S. change (Z.of_nat (S float_dig) - 15) with 1. change (10 ^ 1) with 10.
      exists (rval r + 1). destruct o; lia.
Qed.

Lemma RoundDigits_spec ds : Forall is_dec ds ->
  let '(r, o) := RoundDigits ds in
  Forall is_dec r /\ length r = (length ds + if o then 1 else 0)%nat /\ (o = true -> exists t, r = 49 :: t) /\
  ((length ds <= 15)%nat /\ r = ds \/
   (15 < length ds)%nat /\ rounded (dval ds) (10 ^ (Z.of_nat (length ds) - 15)) (dval r)).
Proof.
  intros H. unfold RoundDigits. destruct (Nat.ltb float_dig (length ds)) eqn:E.
  - apply Nat.ltb_lt in E. pose proof (round_loop_rounds (rev ds)) as R.
    rewrite rev_length, rval_rev in R. specialize (R (Forall_rev H) E).
    destruct (round_loop (rev ds)) as [r o]. destruct R as (R1 & R2 & R3). unfold float_dig in E. destruct o.
    + split; [constructor; [unfold is_dec; lia|apply Forall_rev, R2]|]. cbn [length]. rewrite rev_length, R1.
      split; [lia|]. split; [eauto|]. right. split; [lia|].
      change (49 :: rev r) with ([49] ++ rev r). rewrite dval_app, dval_rev, rev_length, R1. change (dval [49]) with 1.
      rewrite Z.mul_1_l, Z.add_comm. exact R3.
    + split; [apply Forall_rev, R2|]. rewrite rev_length, R1. split; [lia|]. split; [discriminate|]. right. split; [lia|].
      rewrite dval_rev. rewrite Z.add_0_r in R3. exact R3.
  - apply Nat.ltb_ge in E. unfold float_dig in E. split; [exact H|]. split; [lia|]. split; [discriminate|]. left. auto.
Qed.

Lemma dval_upper s : Forall is_dec s -> 0 <= dval s < 10 ^ Z.of_nat (length s).
Proof.
  induction s as [|c s IH] using rev_ind; intros H; [unfold dval; cbn; lia|].
  apply Forall_app in H as [H1 H2]. inversion_clear H2 as [|? ? Hc _]. unfold is_dec in Hc.
  rewrite dval_snoc, app_length. cbn [length]. rewrite Nat.add_comm. cbn [Nat.add]. rewrite pow10_S. specialize (IH H1). lia.
Qed.
Lemma dval_lower c s : Forall is_dec s -> is_dec c -> c <> 48 -> 10 ^ Z.of_nat (length s) <= dval (c :: s).
Proof.
  intros H Hc N. change (c :: s) with ([c] ++ s). rewrite dval_app. pose proof (dval_upper s H). unfold is_dec in Hc.
  change (dval [c]) with (0 * 10 + (c - 48)).
  assert (0 < 10 ^ Z.of_nat (length s)) by (apply Z.pow_pos_nonneg; lia). nia.
Qed.

Lemma RoundDigits_15 i : 0 < i -> let '(r, _) := RoundDigits (fmt i) in
  Forall is_dec r /\ round15 i (dval r) /\ exists d t, r = d :: t /\ (t <> [] -> d <> 48) /\ d <> 48.
Proof.
  intros Hi. pose proof (fmt_digits i ltac:(lia)) as D. pose proof (RoundDigits_spec _ D) as R.
  destruct (fmt_head i Hi) as (a & s & Ea & Na). pose proof (dval_fmt i ltac:(lia)) as V.
  rewrite Ea in *. inversion D as [|? ? Da Ds].
  pose proof (dval_upper _ D) as U. pose proof (dval_lower a s Ds Da Na) as L.
  destruct (RoundDigits (a :: s)) as [r o]. destruct R as (R1 & R2 & Ro & [[R3 ->]|[R3 R4]]).
  - split; [exact R1|]. split; [|exists a, s; auto]. left. split; [|exact V].
    rewrite <- V. eapply Z.lt_le_trans; [apply U|]. apply Z.pow_le_mono_r; lia.
  - split; [exact R1|]. rewrite V in *. split.
    + right. exists (Z.of_nat (length (a :: s)) - 15). split; [lia|]. split; [|exact R4].
      cbn [length] in *. replace (14 + (Z.of_nat (S (length s)) - 15)) with (Z.of_nat (length s)) by lia.
      replace (15 + (Z.of_nat (S (length s)) - 15)) with (Z.of_nat (S (length s))) by lia. lia.
    + destruct r as [|d t]; [cbn [length] in R2; lia|]. exists d, t. split; [reflexivity|].
      assert (d <> 48); [|auto]. intros ->. inversion_clear R1 as [|? ? _ Rt].
      destruct R4 as (j & Ej & Hr). cbn [length] in *.
      assert (dval (48 :: t) = dval t) as Dt.
      { change (48 :: t) with ([48] ++ t). rewrite dval_app. change (dval [48]) with 0. lia. }
      pose proof (dval_upper t Rt) as Ut. rewrite Dt in *.
      (* without overflow the first digits are at least those of i; with overflow r = 1... *)
      set (k := Z.of_nat (S (length s)) - 15) in *.
      assert (10 ^ Z.of_nat (length s) = 10 ^ 14 * 10 ^ k) as P1.
      { rewrite <- Z.pow_add_r by lia. f_equal. lia. }
      assert (0 < 10 ^ k) as P0 by (apply Z.pow_pos_nonneg; lia).
      destruct o.
      * destruct (Ro eq_refl) as (t' & Et). discriminate.
      * assert (length t = length s) as Lt by lia. rewrite Lt, P1 in Ut.
        rewrite P1 in L. rewrite Ej in Ut. clear - Ut L Hr P0 Ej. set (U := 10 ^ k) in *. set (W := 10 ^ 14) in *.
        assert (j < W) by (apply (Z.mul_lt_mono_pos_r U); lia).
        assert (j * U <= (W - 1) * U) by (apply Z.mul_le_mono_nonneg_r; lia). lia.
Qed.

(** *** EncodeDecimal *)
Lemma drop_zeros_inv r : exists n, r = repeat 48 n ++ drop_zeros r /\
  (drop_zeros r = [] \/ exists c t, drop_zeros r = c :: t /\ c <> 48).
Proof.
  induction r as [|c r (n & IH & H)]; [exists 0%nat; auto|]. cbn [drop_zeros]. destruct (c =? 48) eqn:E.
  - exists (S n). cbn [repeat app]. split; [f_equal; [lia|exact IH]|exact H].
  - exists 0%nat. split; [reflexivity|]. right. exists c, r. split; [reflexivity|lia].
Qed.
Lemma drop_zeros_repeat n t : drop_zeros (repeat 48 n ++ t) = drop_zeros t.
Proof. induction n as [|n IH]; [reflexivity|]. exact IH. Qed.
Lemma rev_repeat n (c : Z) : rev (repeat c n) = repeat c n.
Proof.
  induction n as [|n IH]; [reflexivity|]. cbn [repeat rev]. rewrite IH. clear IH.
  induction n as [|n IH]; [reflexivity|]. cbn [repeat app]. f_equal. exact IH.
Qed.
Lemma dval_zeros n : dval (repeat 48 n) = 0.
Proof.
  induction n as [|n IH]; [reflexivity|]. change (repeat 48 (S n)) with ([48] ++ repeat 48 n).
  rewrite dval_app, IH. reflexivity.
Qed.
Lemma zeros_dec n : Forall is_dec (repeat 48 n).
Proof. apply Forall_forall. intros x Hx. apply repeat_spec in Hx. unfold is_dec. lia. Qed.

(** what StripZeros does to a number with a point and at least one digit after it *)
Lemma StripZeros_point p b : Forall is_dec b -> b <> [] -> exists b' n,
  StripZeros (p ++ 46 :: b) = Ok (p ++ 46 :: b') /\ b' <> [] /\ b = b' ++ repeat 48 n /\
  (b' = [48] \/ exists d t, b' = t ++ [d] /\ d <> 48).
Proof.
  intros Hb Nb. unfold StripZeros. rewrite rev_app_distr. cbn [rev]. rewrite <- app_assoc. cbn [app].
  destruct (drop_zeros_inv (rev b)) as (n & E & H).
  assert (b = rev (drop_zeros (rev b)) ++ repeat 48 n) as E'.
  { rewrite <- (rev_repeat n), <- rev_app_distr, <- E. symmetry. apply rev_involutive. }
  assert (drop_zeros (rev b ++ 46 :: rev p) = drop_zeros (drop_zeros (rev b) ++ 46 :: rev p)) as Ed.
  { rewrite E at 1. rewrite <- app_assoc. apply drop_zeros_repeat. }
  cbv zeta. rewrite Ed. clear Ed. destruct H as [H|(c & t & H & Nc)].
  - rewrite H in *. cbn [app drop_zeros Z.eqb Pos.eqb rev] in *. destruct n as [|n]; [cbn in E'; congruence|].
    exists [48], n. cbn [length]. rewrite rev_length.
    split; [|split; [discriminate|split; [rewrite E'; reflexivity|auto]]].
    f_equal. rewrite E'. cbn [repeat].
    rewrite firstn_app. replace (S (length p) + 1 - length p)%nat with 2%nat by lia.
    rewrite firstn_all2 by lia. reflexivity.
  - rewrite H in *. cbn [app drop_zeros rev] in *. replace (c =? 48) with false by lia. cbv iota.
    assert (is_dec c) as Dc.
    { rewrite Forall_forall in Hb. apply Hb. rewrite E'. apply in_or_app. left. apply in_or_app. right. left. reflexivity. }
    unfold is_dec in Dc. replace (c =? 46) with false by lia.
    exists (rev t ++ [c]), n. split; [|split; [destruct (rev t); discriminate|split; [exact E'|]]].
    + f_equal. cbn [rev]. rewrite rev_app_distr. cbn [rev]. rewrite rev_involutive, <- !app_assoc. reflexivity.
    + right. exists c, (rev t). auto.
Qed.

Definition sgn (negative : bool) : Z := if negative then -1 else 1.
Lemma EncodeDecimalDigits_fixed negative i n : 0 <= i -> exists sg a b q,
  EncodeDecimalDigits negative i n false = Ok (sg ++ a ++ 46 :: b) /\ lex_sign sg (sgn negative) /\
  (sg = [] /\ negative = false \/ sg = [45] /\ negative = true) /\
  Forall is_dec a /\ Forall is_dec b /\ length b = n /\ round15 i q /\ dval (a ++ b) = q /\
  (a = [48] \/ exists d t, a = d :: t /\ d <> 48) /\
  EncodeDecimalDigits negative i n true = StripZeros (sg ++ a ++ 46 :: b).
Proof.
  intros Hi. unfold EncodeDecimalDigits. unfold pystr. replace (i <? 0) with false by lia.
  assert (exists r o q, RoundDigits (fmt i) = (r, o) /\ Forall is_dec r /\ round15 i q /\ dval r = q /\
     (r = [48] \/ exists d t, r = d :: t /\ d <> 48)) as (r & o & q & -> & Hr & Hq & Eq & Hh).
  { destruct (Z.eq_dec i 0) as [->|N].
    - exists [48], false, 0. repeat split; auto; [repeat constructor; unfold is_dec; lia|]. left. lia.
    - pose proof (RoundDigits_15 i ltac:(lia)) as R. destruct (RoundDigits (fmt i)) as [r o].
      destruct R as (R1 & R2 & d & t & -> & _ & Nd). exists (d :: t), o, (dval (d :: t)). repeat split; auto.
      right. exists d, t. auto. }
  set (ds := if Nat.leb (length r) n then repeat 48 (n + 1 - length r) ++ r else r).
  assert (Forall is_dec ds /\ dval ds = q /\ (n < length ds)%nat /\
    (firstn (length ds - n) ds = [48] \/ exists d t, firstn (length ds - n) ds = d :: t /\ d <> 48)) as (D1 & D2 & D3 & D4).
  { unfold ds. destruct (Nat.leb (length r) n) eqn:E.
    - apply Nat.leb_le in E. split; [apply Forall_app; split; [apply zeros_dec|exact Hr]|].
      split; [rewrite dval_app, dval_zeros; lia|]. rewrite app_length, repeat_length. split; [lia|]. left.
      replace (n + 1 - length r + length r - n)%nat with 1%nat by lia.
      replace (n + 1 - length r)%nat with (S (n - length r)) by lia. reflexivity.
    - apply Nat.leb_gt in E. repeat split; auto. destruct (length r - n)%nat as [|m] eqn:Em; [lia|].
      destruct Hh as [->|(d & t & -> & Nd)].
      + left. cbn [firstn]. destruct m; reflexivity.
      + right. cbn [firstn]. eauto. }
  exists (if negative then [45] else []), (firstn (length ds - n) ds), (skipn (length ds - n) ds), q.
  split; [destruct negative; reflexivity|].
  split; [destruct negative; constructor|].
  split; [destruct negative; auto|].
  pose proof D1 as D1'. rewrite <- (firstn_skipn (length ds - n) ds) in D1'. apply Forall_app in D1' as [F1 F2].
  split; [exact F1|]. split; [exact F2|]. split; [rewrite skipn_length; lia|]. split; [exact Hq|].
  split; [rewrite firstn_skipn; exact D2|]. split; [exact D4|]. destruct negative; reflexivity.
Qed.

Lemma round15_pos x q : 0 < x -> round15 x q -> 0 < q.
Proof.
  intros Hx [[_ ->]|(k & Hk & Hb & j & -> & Hj)]; [exact Hx|].
  assert (10 ^ (14 + k) = 10 ^ 14 * 10 ^ k) as E by (apply Z.pow_add_r; lia). rewrite E in Hb.
  assert (0 < 10 ^ k) by (apply Z.pow_pos_nonneg; lia). nia.
Qed.

Lemma EncodeDecimalDigits_canonical negative i n : 0 < i -> (1 <= n)%nat -> exists s q m k,
  EncodeDecimalDigits negative i n true = Ok s /\ round15 i q /\ canonical_decimal s /\
  lex_decimal s m k /\ m * 10 ^ Z.of_nat n = sgn negative * q * 10 ^ k /\ 0 <= k <= Z.of_nat n.
Proof.
  intros Hi Hn.
  destruct (EncodeDecimalDigits_fixed negative i n ltac:(lia)) as (sg & a & b & q & _ & L & S & Ha & Hb & Lb & Hq & Dq & Hh & E).
  assert (b <> []) as Nb by (intros ->; cbn in Lb; lia).
  rewrite app_assoc in E.
  destruct (StripZeros_point (sg ++ a) b Hb Nb) as (b' & z & E' & Nb' & Eb & H'). rewrite E' in E.
  assert (Forall is_dec b') as Hb' by (rewrite Eb in Hb; apply Forall_app in Hb as [H _]; exact H).
  assert (dval (a ++ b) = dval (a ++ b') * 10 ^ Z.of_nat z) as Ev.
  { rewrite Eb, app_assoc, dval_app, dval_zeros, repeat_length. lia. }
  exists ((sg ++ a) ++ 46 :: b'), q, (sgn negative * dval (a ++ b')), (Z.of_nat (length b')).
  split; [exact E|]. split; [exact Hq|]. split.
  - exists sg, a, b'. split; [destruct S as [[-> _]|[-> _]]; auto|]. rewrite <- app_assoc.
    repeat (split; [first [reflexivity|assumption]|]). intros _ [-> ->].
    pose proof (round15_pos i q Hi Hq) as Hp. rewrite Ev in Dq. cbn in Dq. lia.
  - split.
    + exists sg, (sgn negative), a, b'. rewrite <- app_assoc. repeat (split; [assumption|]).
      split; [destruct a; [destruct b'; [congruence|]|]; discriminate|]. auto.
    + assert (length b = (length b' + z)%nat) as Lz by (rewrite Eb, app_length, repeat_length; reflexivity).
      rewrite <- Dq, Ev, <- Lb, Lz. split; [|lia]. rewrite Nat2Z.inj_add, Z.pow_add_r by lia. lia.
Qed.

(** *** White space *)
Lemma xspace_mem c : mem c [9; 10; 13; 32] = true <-> xspace c.
Proof. unfold xspace, mem. cbn [existsb]. lia. Qed.
Lemma not_xspace_mem c : ~ xspace c -> mem c [9; 10; 13; 32] = false.
Proof. intros H. destruct (mem c _) eqn:E; [apply xspace_mem in E; tauto|reflexivity]. Qed.
Definition tails (ws : list str) : str := flat_map (fun w => 32 :: w) ws.
Lemma spaced_cons w ws : spaced (w :: ws) = w ++ tails ws.
Proof.
  revert w. induction ws as [|w' ws IH]; intros w; [symmetry; apply app_nil_r|].
  change (spaced (w :: w' :: ws)) with (w ++ 32 :: spaced (w' :: ws)). rewrite IH. reflexivity.
Qed.

Lemma collapse_word w : forall out s, out <> [] -> Forall (fun c => ~ xspace c) w ->
  collapse_loop out false (w ++ s) = collapse_loop (out ++ w) false s.
Proof.
  induction w as [|c w IH]; intros out s N H; [cbn [app]; rewrite app_nil_r; reflexivity|].
  inversion_clear H as [|? ? Hc Hw]. cbn [app collapse_loop]. rewrite (not_xspace_mem c Hc).
  destruct out as [|o out]; [congruence|]. rewrite IH by (auto; discriminate). rewrite <- app_assoc. reflexivity.
Qed.
Lemma collapse_tail s ws : has_words s ws -> forall out g, out <> [] ->
  (s = [] \/ starts_with_space s \/ g = true) -> collapse_loop out g s = out ++ tails ws.
Proof.
  induction 1 as [|c s ws Hc H IH|w s ws Nw Hw Hs H IH]; intros out g N G.
  - symmetry. apply app_nil_r.
  - cbn [collapse_loop]. rewrite (proj2 (xspace_mem c) Hc). apply IH; auto.
  - destruct w as [|c w]; [congruence|]. inversion_clear Hw as [|? ? Hc Hw'].
    destruct G as [G|[(c' & t & G & Hc')| ->]]; [discriminate| |].
    { injection G as -> _. tauto. }
    cbn [app collapse_loop]. rewrite (not_xspace_mem c Hc). destruct out as [|o out]; [congruence|].
    rewrite collapse_word by (auto; discriminate). rewrite IH.
    + cbn [tails flat_map app]. rewrite <- !app_assoc. reflexivity.
    + discriminate.
    + destruct Hs as [->|Hs]; auto.
Qed.
Lemma collapse_plain s ws : has_words s ws -> ~ starts_with_space s -> WhiteSpaceCollapse s = spaced ws.
Proof.
  intros H N. unfold WhiteSpaceCollapse. destruct H as [|c s ws Hc H|w s ws Nw Hw Hs H]; [reflexivity| |].
  - exfalso. apply N. exists c, s. auto.
  - destruct w as [|c w]; [congruence|]. inversion_clear Hw as [|? ? Hc Hw'].
    cbn [app collapse_loop]. rewrite (not_xspace_mem c Hc). rewrite collapse_word by (auto; discriminate).
    rewrite (collapse_tail s ws H).
    + rewrite spaced_cons. reflexivity.
    + discriminate.
    + destruct Hs as [->|Hs]; auto.
Qed.
Definition split_first (ws : list str) : list str :=
  match ws with (c :: (d :: w)) :: ws' => [c] :: (d :: w) :: ws' | _ => ws end.
Lemma collapse_true s ws : has_words s ws -> collapse_loop [] true s = spaced (split_first ws).
Proof.
  induction 1 as [|c s ws Hc H IH|w s ws Nw Hw Hs H IH]; [reflexivity| |].
  - cbn [collapse_loop]. rewrite (proj2 (xspace_mem c) Hc). exact IH.
  - destruct w as [|c w]; [congruence|]. inversion_clear Hw as [|? ? Hc Hw'].
    cbn [app collapse_loop]. rewrite (not_xspace_mem c Hc). destruct w as [|d w].
    + cbn [app split_first]. rewrite (collapse_tail s ws H) by (auto; discriminate). rewrite spaced_cons. reflexivity.
    + inversion_clear Hw' as [|? ? Hd Hw]. cbn [app collapse_loop split_first]. rewrite (not_xspace_mem d Hd).
      rewrite collapse_word by (auto; discriminate). rewrite (collapse_tail s ws H).
      * rewrite !spaced_cons. cbn [tails flat_map app]. reflexivity.
      * discriminate.
      * destruct Hs as [->|Hs]; auto.
Qed.
Lemma collapse_leading s ws : has_words s ws -> starts_with_space s -> WhiteSpaceCollapse s = spaced (split_first ws).
Proof.
  intros H (c & t & -> & Hc). unfold WhiteSpaceCollapse. cbn [collapse_loop]. rewrite (proj2 (xspace_mem c) Hc).
  apply collapse_true. inversion H as [|c' s' ws' Hc' H' E|w s' ws' Nw Hw Hs H' E]; subst; [assumption|].
  destruct w as [|d w]; [congruence|]. injection E as -> _. inversion_clear Hw. tauto.
Qed.

Lemma space_dec s : starts_with_space s \/ ~ starts_with_space s.
Proof.
  destruct s as [|c s]; [right; intros (c & t & E & _); discriminate|].
  destruct (mem c [9; 10; 13; 32]) eqn:E.
  - left. exists c, s. split; [reflexivity|]. apply xspace_mem, E.
  - right. intros (c' & t & E' & H). injection E' as <- _. apply xspace_mem in H. congruence.
Qed.
Lemma words_exist s : exists ws, has_words s ws /\ is_words ws.
Proof.
  induction s as [|c s (ws & IH & W)]; [exists []; split; constructor|].
  destruct (mem c [9; 10; 13; 32]) eqn:E.
  - exists ws. split; [constructor; [apply xspace_mem, E|exact IH]|exact W].
  - assert (~ xspace c) as Nc by (intros H; apply xspace_mem in H; congruence).
    destruct IH as [|c' s ws' Hc' H|w s ws' Nw Hw Hs H].
    + exists [[c]]. split; [|constructor; [split; [discriminate|auto]|constructor]].
      apply (hw_word [c] []); auto; [discriminate|constructor].
    + exists ([c] :: ws'). split; [|constructor; [split; [discriminate|auto]|exact W]].
      apply (hw_word [c] (c' :: s)); [discriminate|auto| |constructor; auto].
      right. exists c', s. auto.
    + exists ((c :: w) :: ws'). inversion_clear W as [|? ? _ W'].
      split; [|constructor; [split; [discriminate|auto]|exact W']].
      apply (hw_word (c :: w) s); auto. discriminate.
Qed.
Lemma has_words_is s ws : has_words s ws -> is_words ws.
Proof. induction 1; [constructor|assumption|]. constructor; auto. Qed.
Lemma has_words_fun s ws : has_words s ws -> forall ws', has_words s ws' -> ws = ws'.
Proof.
  induction 1 as [|c s ws Hc H IH|w s ws Nw Hw Hs H IH]; intros ws' H'.
  - inversion H'; [reflexivity|]. destruct w; [congruence|discriminate].
  - inversion H' as [|c' s' ws2 Hc' H2 E|w s' ws2 Nw Hw Hs H2 E]; subst; [auto|].
    destruct w as [|d w]; [congruence|]. injection E as -> _. inversion_clear Hw. tauto.
  - inversion H' as [E|c s' ws2 Hc H2 E|w2 s2 ws2 Nw2 Hw2 Hs2 H2 E]; subst.
    + destruct w; [congruence|discriminate].
    + destruct w as [|d w]; [congruence|]. injection E as -> ->. inversion_clear Hw. tauto.
    + assert (w2 = w /\ s2 = s) as [-> ->].
      { clear Nw IH H H' H2. revert w2 Nw2 Hw2 E. induction w as [|d w IHw]; intros w2 _ Hw2 E.
        - destruct w2 as [|d2 w2]; [auto|]. cbn [app] in E. subst s.
          destruct Hs as [Hs|(c & t & Hs & Hc)]; [discriminate|]. injection Hs as -> _. inversion_clear Hw2. tauto.
        - inversion_clear Hw as [|? ? Hd Hw']. destruct w2 as [|d2 w2].
          + cbn [app] in E. subst s2. destruct Hs2 as [Hs2|(c & t & Hs2 & Hc)]; [discriminate|].
            injection Hs2 as -> _. tauto.
          + inversion_clear Hw2 as [|? ? Hd2 Hw2']. injection E as -> E. destruct w2 as [|d2 w2].
            * destruct w as [|d3 w]; [auto|]. cbn [app] in E. subst s2.
              destruct Hs2 as [Hs2|(c & t & Hs2 & Hc)]; [discriminate|]. injection Hs2 as -> _. inversion_clear Hw'. tauto.
            * destruct (IHw Hw' (d2 :: w2) ltac:(discriminate) Hw2' E) as [-> ->]. auto. }
      f_equal. apply IH, H2.
Qed.
Lemma has_words_spaced ws : is_words ws -> has_words (spaced ws) ws.
Proof.
  induction ws as [|w ws IH]; intros H; [constructor|]. inversion_clear H as [|? ? [N Hw] H'].
  destruct ws as [|w' ws].
  - cbn [spaced]. rewrite <- (app_nil_r w) at 1. constructor; auto.
  - change (spaced (w :: w' :: ws)) with (w ++ 32 :: spaced (w' :: ws)). constructor; auto.
    + right. exists 32, (spaced (w' :: ws)). split; [reflexivity|]. unfold xspace. auto.
    + constructor; [unfold xspace; auto|]. apply IH, H'.
Qed.
Lemma spaced_no_space ws : is_words ws -> ~ starts_with_space (spaced ws).
Proof.
  intros H. destruct ws as [|w ws]; [intros (c & t & E & _); discriminate|]. rewrite spaced_cons.
  inversion_clear H as [|? ? [N Hw] _]. destruct w as [|d w]; [congruence|]. inversion_clear Hw as [|? ? Hd _].
  intros (c & t & E & Hc). injection E as -> _. tauto.
Qed.
Lemma split_first_words ws : is_words ws -> is_words (split_first ws).
Proof.
  intros H. destruct ws as [|[|c [|d w]] ws]; auto. inversion_clear H as [|? ? [N Hw] H']. inversion_clear Hw as [|? ? Hc Hw'].
  cbn [split_first]. constructor; [split; [discriminate|auto]|]. constructor; [split; [discriminate|auto]|exact H'].
Qed.
Lemma collapse_shape s : exists ws, is_words ws /\ WhiteSpaceCollapse s = spaced ws.
Proof.
  destruct (words_exist s) as (ws & H & W). destruct (space_dec s) as [S|S].
  - exists (split_first ws). split; [apply split_first_words, W|]. apply collapse_leading; auto.
  - exists ws. split; [exact W|]. apply collapse_plain; auto.
Qed.
Lemma collapse_fixed ws : is_words ws -> WhiteSpaceCollapse (spaced ws) = spaced ws.
Proof. intros W. apply collapse_plain; [apply has_words_spaced, W|apply spaced_no_space, W]. Qed.
Lemma collapse_idempotent s : WhiteSpaceCollapse (WhiteSpaceCollapse s) = WhiteSpaceCollapse s.
Proof. destruct (collapse_shape s) as (ws & W & ->). apply collapse_fixed, W. Qed.

Lemma replace_chars s : Forall (fun c => ~ (c = 9 \/ c = 10 \/ c = 13)) (WhiteSpaceReplace s).
Proof.
  unfold WhiteSpaceReplace. rewrite Forall_map. apply Forall_forall. intros c _. unfold mem. cbn [existsb].
  destruct (_ || _) eqn:E; lia.
Qed.
Lemma replace_idempotent s : WhiteSpaceReplace (WhiteSpaceReplace s) = WhiteSpaceReplace s.
Proof.
  unfold WhiteSpaceReplace. rewrite map_map. apply map_ext. intros c. unfold mem. cbn [existsb].
  destruct ((c =? 9) || ((c =? 10) || ((c =? 13) || false))) eqn:E; [reflexivity|]. rewrite E. reflexivity.
Qed.
Lemma replace_pointwise s i : nth_error (WhiteSpaceReplace s) i =
  match nth_error s i with
  | None => None
  | Some c => Some (if (c =? 9) || (c =? 10) || (c =? 13) then 32 else c)
  end.
Proof.
  unfold WhiteSpaceReplace. rewrite nth_error_map. destruct (nth_error s i) as [c|]; [|reflexivity].
  cbn [option_map]. f_equal. unfold mem. cbn [existsb]. rewrite orb_false_r, orb_assoc. reflexivity.
Qed.
