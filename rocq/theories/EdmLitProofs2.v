(** Decimals *)
From Coq Require Import Lia.
From Verif Require Import Py Iso Dec OdExpr OdExprSpec OdExprProofs OdExprProofs2 EdmLit EdmLitSpec EdmLitProofs.
Open Scope Z_scope.
Open Scope list_scope.
Ltac Zify.zify_convert_to_euclidean_division_equations_flag ::= constr:(true).

(** ** Rounding *)
Lemma round_near c m : 0 < m -> 2 * Z.abs (c - round_div c m * m) <= m.
Proof.
  intros Hm. unfold round_div. cbv zeta. pose proof (Z.div_mod c m ltac:(lia)). pose proof (Z.mod_pos_bound c m Hm).
  destruct (2 * (c mod m) <? m) eqn:E1; [nia|]. destruct (2 * (c mod m) >? m) eqn:E2; [nia|].
  destruct (Z.even (c / m)); nia.
Qed.
Lemma round_le c m q : 0 < m -> c <= q * m -> round_div c m <= q.
Proof.
  intros Hm Hc. unfold round_div. cbv zeta. pose proof (Z.div_mod c m ltac:(lia)). pose proof (Z.mod_pos_bound c m Hm).
  assert (c / m <= q) by nia.
  destruct (2 * (c mod m) <? m) eqn:E1; [lia|]. assert (c / m < q) by nia.
  destruct (2 * (c mod m) >? m); [lia|]. destruct (Z.even (c / m)); lia.
Qed.
Lemma round_nonneg c m : 0 < m -> 0 <= c -> 0 <= round_div c m.
Proof.
  intros Hm Hc. unfold round_div. cbv zeta. assert (0 <= c / m) by (apply Z.div_pos; lia).
  destruct (_ <? _); [lia|]. destruct (_ >? _); [lia|]. destruct (Z.even _); lia.
Qed.
Lemma pow10 k : 0 <= k -> 0 < 10 ^ k. Proof. intros. apply Z.pow_pos_nonneg; lia. Qed.

(** ** Setting *)
Lemma above_max_spec c e k : 0 <= k -> 0 <= e + k -> above_max c e = false <-> c * 10 ^ (e + k) <= 10 ^ 29 * 10 ^ k.
Proof.
  intros Hk Hek. unfold above_max. destruct (0 <=? e) eqn:E.
  - rewrite Z.pow_add_r by lia. pose proof (pow10 k Hk). pose proof (pow10 e ltac:(lia)).
    rewrite Z.gtb_ltb, Z.ltb_ge. split; intros; nia.
  - replace (10 ^ k) with (10 ^ (e + k) * 10 ^ (- e)) by (rewrite <- Z.pow_add_r by lia; f_equal; lia).
    pose proof (pow10 (e + k) ltac:(lia)). rewrite Z.gtb_ltb, Z.ltb_ge. split; intros; nia.
Qed.
(** A number below 10^29 is accepted *)
Lemma set_dec_below d : dec_ok d -> d_exp d < 29 -> d_int d < 10 ^ (29 - d_exp d) -> set_dec d = Ok d.
Proof.
  destruct d as [neg c e]. unfold dec_ok, set_dec, dec_abs. cbn [d_neg d_int d_exp]. intros Hc He Hm.
  assert (above_max c e = false) as A.
  { apply (above_max_spec c e (Z.abs e)); try lia.
    assert (c * 10 ^ (e + Z.abs e) <= 10 ^ (29 - e) * 10 ^ (e + Z.abs e)).
    { apply Z.mul_le_mono_nonneg_r; [apply Z.lt_le_incl, pow10; lia|lia]. }
    rewrite <- Z.pow_add_r in * by lia. replace (29 + Z.abs e) with (29 - e + (e + Z.abs e)) by lia. assumption. }
  destruct (neg && negb (c =? 0))%bool; [|now rewrite A]. cbv zeta.
  set (k := d_len (mkDec neg c e) - 28). destruct (0 <? k) eqn:Ek; [|now rewrite A].
  assert (k <= 29 - e) as Hk.
  { unfold k, d_len, d_digits. cbn [d_int]. assert (length (fmt c) <= Z.to_nat (29 - e))%nat; [|lia].
    apply fmt_len; [|lia]. rewrite Z2Nat.id by lia. lia. }
  assert (above_max (round_div c (10 ^ k)) (e + k) = false) as ->; [|reflexivity].
  apply (above_max_spec _ _ (Z.abs e)); try lia.
  assert (round_div c (10 ^ k) <= 10 ^ (29 - e - k)) as R.
  { apply round_le; [apply pow10; lia|]. rewrite <- Z.pow_add_r by lia. replace (29 - e - k + k) with (29 - e) by lia. lia. }
  assert (round_div c (10 ^ k) * 10 ^ (e + k + Z.abs e) <= 10 ^ (29 - e - k) * 10 ^ (e + k + Z.abs e)).
  { apply Z.mul_le_mono_nonneg_r; [apply Z.lt_le_incl, pow10; lia|exact R]. }
  rewrite <- Z.pow_add_r in * by lia. replace (29 + Z.abs e) with (29 - e - k + (e + k + Z.abs e)) by lia. assumption.
Qed.
Lemma set_dec_small d : dec_ok d -> -29 <= d_exp d <= 0 -> d_int d < 10 ^ (29 - d_exp d) -> set_dec d = Ok d.
Proof. intros. apply set_dec_below; auto. lia. Qed.
Lemma below_pow d : dec_ok d -> below29 d -> d_int d = 0 \/ d_exp d < 29 /\ d_int d < 10 ^ (29 - d_exp d).
Proof.
  destruct d as [neg c e]. unfold dec_ok, below29. cbn [d_int d_exp]. intros Hc H.
  destruct (Z_lt_le_dec e 29) as [He|He].
  - right. split; [exact He|]. destruct (Z_le_gt_dec 0 e) as [H0|H0].
    + rewrite Z.max_r, Z.max_l, Z.mul_1_r in H by lia. replace 29 with (29 - e + e) in H at 1 by lia. rewrite Z.pow_add_r in H by lia.
      pose proof (pow10 e H0). nia.
    + rewrite Z.max_l, Z.max_r, Z.mul_1_r, <- Z.pow_add_r in H by lia. replace (29 - e) with (29 + - e) by lia. exact H.
  - left. rewrite Z.max_r, Z.max_l, Z.mul_1_r in H by lia. 
    assert (10 ^ 29 <= 10 ^ e) by (apply Z.pow_le_mono_r; lia). nia.
Qed.
Theorem set_dec_accepts d : dec_ok d -> below29 d -> set_dec d = Ok d.
Proof.
  intros Hd H. destruct (below_pow d Hd H) as [H0|[H1 H2]]; [|now apply set_dec_below].
  destruct d as [neg c e]. cbn [d_int] in H0. subst c. unfold set_dec, dec_abs. cbn [d_int d_neg d_exp]. rewrite andb_false_r.
  unfold above_max. destruct (0 <=? e) eqn:E; [reflexivity|]. destruct (_ >? _) eqn:G; [|reflexivity]. exfalso.
  rewrite Z.gtb_ltb in G. apply Z.ltb_lt in G. pose proof (pow10 29 ltac:(lia)). pose proof (pow10 (- e) ltac:(lia)). nia.
Qed.
Theorem set_dec_refuses d : dec_ok d -> d_neg d = false -> set_dec d = Ok d -> d_int d * 10 ^ Z.max 0 (d_exp d) <= 10 ^ 29 * 10 ^ Z.max 0 (- d_exp d).
Proof.
  destruct d as [neg c e]. unfold dec_ok, set_dec, dec_abs. cbn [d_int d_neg d_exp]. intros Hc -> H. cbn [andb] in H.
  destruct (above_max c e) eqn:A; [discriminate|]. apply (above_max_spec c e (Z.max 0 (- e))) in A; try lia.
  replace (Z.max 0 e) with (e + Z.max 0 (- e)) by lia. exact A.
Qed.
(** Numbers with no more than 29 places that are below 10^29, and not a zero with a large
    exponent, can be written *)
Lemma len_below d : dec_ok d -> below29 d -> d_int d <> 0 -> d_exp d + d_len d <= 29.
Proof.
  intros Hd H H0. destruct (below_pow d Hd H) as [|[H1 H2]]; [contradiction|].
  unfold d_len, d_digits. assert (length (fmt (d_int d)) <= Z.to_nat (29 - d_exp d))%nat; [|lia].
  apply fmt_len; [|lia]. rewrite Z2Nat.id by lia. unfold dec_ok in Hd. lia.
Qed.
Lemma set_dec_err d e : set_dec d = Err e -> e = ValueError.
Proof. unfold set_dec. destruct (dec_abs d) as [c x]. destruct (above_max c x); congruence. Qed.
Lemma set_dec_same d d' : set_dec d = Ok d' -> d' = d.
Proof. unfold set_dec. destruct (dec_abs d) as [c x]. destruct (above_max c x); congruence. Qed.

(** ** Reading *)
Lemma writes_ok d s : writes_dec d s -> dec_ok d /\ -29 <= d_exp d <= 0 /\ d_int d < 10 ^ (29 - d_exp d).
Proof.
  intros [neg l r Hl Hr Ll Lr Hn]. unfold dec_ok. cbn [d_int d_exp].
  assert (Forall is_dec (l ++ r)) as F by (apply Forall_app; split; assumption).
  split; [now apply dval_nonneg|]. split; [lia|].
  pose proof (dval_high _ F) as H. rewrite app_length in H.
  assert (10 ^ Z.of_nat (length l + length r) <= 10 ^ (29 - - Z.of_nat (length r))) by (apply Z.pow_le_mono_r; lia). lia.
Qed.
Lemma writes_read d s : writes_dec d s -> dec_from_literal s = Ok d.
Proof.
  intros H. pose proof (writes_ok d s H) as (W1 & W2 & W3). destruct H as [neg l r Hl Hr Ll Lr Hn]. unfold dec_from_literal.
  pose proof (plain_read neg l (if r then None else Some r) Hl) as P.
  assert (ParseNumericLiteral ((if neg then [45] else []) ++ l ++ (if r then [] else 46 :: r))
    = Some (mkNum (if neg then [45] else []) l (if r then None else Some r) [] None, [])) as ->.
  { destruct r as [|c r]; apply P; auto.
    - left. rewrite app_nil_r in Hn. exact Hn.
    - right. eauto. }
  cbn [RequireProductionEnd bind]. unfold dec_of_numeric. cbn [n_left n_right n_exp].
  rewrite (isalpha_digits l Hl). assert ((29 <? length l)%nat = false) as -> by (apply Nat.ltb_ge; lia).
  assert (match (if r then None else Some r) with Some r => ((29 <? length r)%nat || str_eqb r [])%bool | None => false end = false) as ->.
  { destruct r as [|c r]; [reflexivity|]. assert ((29 <? length (c :: r))%nat = false) as -> by (apply Nat.ltb_ge; lia). reflexivity. }
  cbn [orb].
  assert (dec_of (mkNum (if neg then [45] else []) l (if r then None else Some r) [] None) = mkDec neg (dval (l ++ r)) (- Z.of_nat (length r))) as ->.
  { unfold dec_of. cbn [n_sign n_left n_right]. destruct neg; destruct r; reflexivity. }
  apply set_dec_small; assumption.
Qed.
Theorem dec_spec s d : dec_from_literal s = Ok d <-> writes_dec d s.
Proof.
  split; [|apply writes_read]. intros H. unfold dec_from_literal in H.
  destruct (ParseNumericLiteral s) as [[m r]|] eqn:P; [|discriminate]. destruct r; [|discriminate].
  cbn [RequireProductionEnd bind] in H. unfold dec_of_numeric in H.
  destruct (isalpha (n_left m)) eqn:Ea; [discriminate|].
  destruct (n_exp m) eqn:Ee; [rewrite ?orb_true_r in H; discriminate|].
  destruct (29 <? length (n_left m))%nat eqn:El; [discriminate|]. apply Nat.ltb_ge in El.
  destruct (numeric_read s m P Ea Ee) as (neg & Em & Hd & Hne & Hr & ->).
  cbn [orb] in H. destruct (match n_right m with Some r => _ | None => false end) eqn:Er; [discriminate|]. cbn [orb] in H.
  apply set_dec_same in H. subst d. rewrite Em. cbn [n_left n_right].
  unfold dec_of. cbn [n_sign n_left n_right].
  destruct (n_right m) as [r|].
  - apply orb_false_iff in Er. destruct Er as [E1 E2]. apply Nat.ltb_ge in E1.
    destruct r as [|c r]; [discriminate|].
    replace (match (if neg then [45] else []) with [] => false | _ => true end) with neg by (destruct neg; reflexivity).
    apply (WritesDec neg (n_left m) (c :: r)); auto. destruct (n_left m); discriminate.
  - replace (match (if neg then [45] else []) with [] => false | _ => true end) with neg by (destruct neg; reflexivity).
    apply (WritesDec neg (n_left m) []); auto; [constructor|cbn; lia|]. rewrite app_nil_r. destruct Hne as [|(c & x & X)]; [assumption|discriminate].
Qed.
Lemma dec_err s e : dec_from_literal s = Err e -> e = ValueError.
Proof.
  unfold dec_from_literal, RequireProductionEnd. destruct (ParseNumericLiteral s) as [[m [|? ?]]|]; cbn [bind]; try congruence.
  unfold dec_of_numeric. destruct (_ || _)%bool; [congruence|apply set_dec_err].
Qed.

(** ** Writing *)
Lemma zeros_digits k : digits (repeat 48 k).
Proof. induction k; constructor; [lia|assumption]. Qed.
Lemma dval_zeros k : dval (repeat 48 k) = 0.
Proof. induction k as [|k IH]; [reflexivity|]. change (repeat 48 (S k)) with ([48] ++ repeat 48 k). rewrite dval_app, IH. unfold dval. cbn. lia. Qed.
Lemma digits_app a b : digits a -> digits b -> digits (a ++ b).
Proof. intros. apply Forall_app; auto. Qed.
Lemma digits_firstn k s : digits s -> digits (firstn k s).
Proof. intros H. rewrite <- (firstn_skipn k s) in H. apply Forall_app in H. apply H. Qed.
Lemma digits_skipn k s : digits s -> digits (skipn k s).
Proof. intros H. rewrite <- (firstn_skipn k s) in H. apply Forall_app in H. apply H. Qed.
Lemma writes_as neg l r c e s : digits l -> digits r -> (length l <= 29)%nat -> (length r <= 29)%nat -> l ++ r <> [] ->
  c = dval (l ++ r) -> e = - Z.of_nat (length r) -> s = (if neg : bool then [45] else []) ++ l ++ (if r then [] else 46 :: r) ->
  writes_dec (mkDec neg c e) s.
Proof. intros ? ? ? ? ? -> -> ->. constructor; assumption. Qed.
Theorem format_written d : dec_ok d -> -29 <= d_exp d -> d_exp d + d_len d <= 29 ->
  exists d', same_number d d' /\ writes_dec d' (format_f d).
Proof.
  destruct d as [neg c e]. unfold dec_ok, d_len, d_digits. cbn [d_int d_exp]. intros Hc He HL.
  destruct (fmt_cons c) as (x & t & Ex). pose proof (fmt_ds c Hc) as Hd.
  destruct (Z_lt_le_dec 0 e) as [Hp|Hp].
  - exists (mkDec neg (c * 10 ^ e) 0). split; [split; [reflexivity|right; auto]|].
    unfold format_f. cbn [d_neg d_int d_exp]. destruct (c =? 0) eqn:E0.
    + assert (e >? 0 = true) as -> by lia. cbn [andb]. assert (c = 0) as -> by lia.
      cbn [d_neg d_int d_exp]. change (d_len (mkDec neg 0 0)) with 1. cbn.
      apply (writes_as neg [48] []); try reflexivity; [constructor; [lia|constructor]|constructor|cbn; lia|cbn; lia|discriminate].
    + cbn [andb]. unfold d_len, d_digits. cbn [d_neg d_int d_exp].
      assert (e + Z.of_nat (length (fmt c)) <? 0 = false) as -> by lia.
      assert (e + Z.of_nat (length (fmt c)) >? Z.of_nat (length (fmt c)) = true) as -> by lia.
      replace (Z.to_nat (e + Z.of_nat (length (fmt c)) - Z.of_nat (length (fmt c)))) with (Z.to_nat e) by lia.
      apply (writes_as neg (fmt c ++ repeat 48 (Z.to_nat e)) []).
      * apply digits_app; [assumption|apply zeros_digits].
      * constructor.
      * rewrite app_length, repeat_length. lia.
      * cbn; lia.
      * rewrite Ex. discriminate.
      * rewrite app_nil_r, dval_app, dval_zeros, repeat_length, dval_fmt, Z2Nat.id by lia. lia.
      * reflexivity.
      * reflexivity.
  - exists (mkDec neg c e). split; [split; [reflexivity|left; auto]|].
    unfold format_f. cbn [d_neg d_int d_exp]. assert (((c =? 0) && (e >? 0))%bool = false) as -> by lia.
    unfold d_len, d_digits. cbn [d_neg d_int d_exp]. set (L := Z.of_nat (length (fmt c))) in *.
    destruct (e + L <? 0) eqn:E1.
    + apply (writes_as neg [48] (repeat 48 (Z.to_nat (- (e + L))) ++ fmt c)).
      * constructor; [lia|constructor].
      * apply digits_app; [apply zeros_digits|assumption].
      * cbn; lia.
      * rewrite app_length, repeat_length. unfold L in *. lia.
      * discriminate.
      * rewrite !dval_app, dval_zeros, dval_fmt by lia. unfold dval. cbn. lia.
      * rewrite app_length, repeat_length. unfold L in *. lia.
      * destruct (repeat 48 (Z.to_nat (- (e + L))) ++ fmt c); reflexivity.
    + assert (e + L >? L = false) as -> by lia.
      pose proof (firstn_skipn (Z.to_nat (e + L)) (fmt c)) as FS.
      assert (length (skipn (Z.to_nat (e + L)) (fmt c)) = Z.to_nat (- e)) as LS by (rewrite skipn_length; unfold L in *; lia).
      assert (length (firstn (Z.to_nat (e + L)) (fmt c)) = Z.to_nat (e + L)) as LF by (rewrite firstn_length; unfold L in *; lia).
      pose proof (digits_firstn (Z.to_nat (e + L)) _ Hd) as DF. pose proof (digits_skipn (Z.to_nat (e + L)) _ Hd) as DS.
      set (f := firstn (Z.to_nat (e + L)) (fmt c)) in *. set (r := skipn (Z.to_nat (e + L)) (fmt c)) in *.
      apply (writes_as neg (match f with [] => [48] | i => i end) r).
      * destruct f; [constructor; [lia|constructor]|assumption].
      * assumption.
      * destruct f; [cbn; lia|]. lia.
      * lia.
      * destruct f; discriminate.
      * rewrite <- (dval_fmt c) at 1 by lia. rewrite <- FS. destruct f; [|reflexivity].
        change ([] ++ r) with r. rewrite dval_app. unfold dval at 2. cbn. lia.
      * lia.
      * destruct f; destruct r; reflexivity.
Qed.
Theorem dec_text_read d : dec_ok d -> -29 <= d_exp d -> d_exp d + d_len d <= 29 ->
  exists s d', dec_text d = Written s /\ dec_from_literal s = Ok d' /\ same_number d d'.
Proof.
  intros Hd He HL. destruct (format_written d Hd He HL) as (d' & S & W). exists (format_f d), d'.
  split; [|split; [now apply writes_read|assumption]]. unfold dec_text.
  assert (d_exp d <? -29 = false) as -> by lia. assert (d_exp d + d_len d >? 29 = false) as -> by lia. reflexivity.
Qed.
(** More than 29 places *)
Lemma d_len_pos d : 0 < d_len d.
Proof. unfold d_len, d_digits. destruct (fmt_cons (d_int d)) as (a & t & ->). cbn [length]. lia. Qed.
Lemma quantize_ok d r : dec_ok d -> d_exp d < -29 -> quantize29 d = Some r -> dec_ok r /\ nearest29 d r /\ d_len r <= 28.
Proof.
  destruct d as [neg c e]. unfold quantize29, dec_ok, nearest29. cbn [d_neg d_int d_exp]. intros Hc He.
  pose proof (pow10 (-29 - e) ltac:(lia)) as HP.
  destruct (c =? 0) eqn:E0.
  - intros [= <-]. cbn [d_neg d_int d_exp]. assert (c = 0) as -> by lia. repeat split; try lia. cbv; congruence.
  - destruct (_ >? 28); [discriminate|]. cbv zeta.
    pose proof (round_near c (10 ^ (-29 - e)) HP) as N. pose proof (round_nonneg c (10 ^ (-29 - e)) HP Hc) as N0.
    generalize dependent (round_div c (10 ^ (-29 - e))). intros q N N0.
    destruct (d_len _ >? 28) eqn:E2; [discriminate|]. intros [= <-]. cbn [d_neg d_int d_exp].
    split; [exact N0|]. split; [|lia]. split; [reflexivity|]. split; [reflexivity|exact N].
Qed.
Theorem dec_text_near d s : dec_ok d -> d_exp d < -29 -> dec_text d = Written s ->
  exists d', dec_from_literal s = Ok d' /\ nearest29 d d'.
Proof.
  intros Hd He. unfold dec_text. assert (d_exp d <? -29 = true) as -> by lia.
  destruct (quantize29 d) as [r|] eqn:Q; [|discriminate]. intros [= <-].
  destruct (quantize_ok d r Hd He Q) as (A & B & C). pose proof B as (B1 & B2 & B3).
  destruct (format_written r A) as (d' & S & W); [lia|lia|].
  exists r. split; [|assumption]. assert (d' = r) as <-; [|now apply writes_read].
  destruct d' as [n1 c1 e1], r as [n2 c2 e2]. unfold same_number in S. cbn [d_neg d_int d_exp] in *. destruct S as [-> [(_ & -> & ->)|S]]; [reflexivity|lia].
Qed.
(** Small numbers can always be written *)
Lemma fmt_high c : 0 <= c -> c < 10 ^ Z.of_nat (length (fmt c)).
Proof. intros H. rewrite <- (dval_fmt c) at 1 by lia. apply dval_high, fmt_digits, H. Qed.
Theorem dec_text_small d : dec_ok d -> d_exp d < -29 -> d_int d * 10 < 10 ^ (- d_exp d) - 10 ^ (-29 - d_exp d) * 10 -> exists s, dec_text d = Written s.
Proof.
  destruct d as [neg c e]. unfold dec_ok, dec_text, quantize29. cbn [d_neg d_int d_exp]. intros Hc He Hs.
  assert (e <? -29 = true) as -> by lia. destruct (c =? 0) eqn:E0; [eauto|].
  pose proof (pow10 (-29 - e) ltac:(lia)) as HP.
  assert (d_len (mkDec neg c e) <= - e - 1) as HL.
  { unfold d_len, d_digits. cbn [d_int]. assert (length (fmt c) <= Z.to_nat (- e - 1))%nat; [|lia]. apply fmt_len; [|lia].
    rewrite Z2Nat.id by lia. split; [lia|]. replace (- e) with (Z.succ (- e - 1)) in Hs by lia. rewrite Z.pow_succ_r in Hs by lia. lia. }
  assert (e + d_len (mkDec neg c e) - 1 + 29 + 1 >? 28 = false) as -> by lia. cbv zeta.
  set (r := round_div c (10 ^ (-29 - e))).
  assert (r <= 10 ^ 28 - 1) as Hr.
  { apply round_le; [lia|]. rewrite Z.mul_sub_distr_r, <- Z.pow_add_r by lia. replace (28 + (-29 - e)) with (- e - 1) by lia.
    replace (- e) with (Z.succ (- e - 1)) in Hs by lia. rewrite Z.pow_succ_r in Hs by lia. lia. }
  assert (0 <= r) by (apply round_nonneg; lia).
  assert (d_len (mkDec neg r (-29)) <= 28) as HL2.
  { unfold d_len, d_digits. cbn [d_int]. assert (length (fmt r) <= 28)%nat; [|lia]. apply fmt_len; [|lia]. change (Z.of_nat 28) with 28. lia. }
  assert (d_len (mkDec neg r (-29)) >? 28 = false) as -> by lia. eauto.
Qed.
