(** Integers, Booleans, binary data and Guids *)
From Coq Require Import Lia.
From Verif Require Import Py Iso Dec OdExpr OdExprSpec OdExprProofs OdExprProofs2 OdExprProofs6 EdmLit EdmLitSpec.
Open Scope Z_scope.
Open Scope list_scope.
Ltac Zify.zify_convert_to_euclidean_division_equations_flag ::= constr:(true).

(** ** Reading numbers *)
Lemma run_split p s : forall a b, run p s = (a, b) -> s = a ++ b /\ Forall (fun c => p c = true) a.
Proof.
  induction s as [|c s IH]; intros a b H; cbn [run] in H.
  - injection H as <- <-. split; [reflexivity|constructor].
  - destruct (p c) eqn:E.
    + destruct (run p s) as [a' b'] eqn:R. injection H as <- <-. destruct (IH _ _ eq_refl) as [-> H2].
      split; [reflexivity|constructor; assumption].
    + injection H as <- <-. split; [reflexivity|constructor].
Qed.
Lemma is_digits s : Forall (fun c => is_digit c = true) s <-> digits s.
Proof. unfold digits, is_digit. split; apply Forall_impl; intros; lia. Qed.
Lemma plain_decimal neg l r : digits l -> (l <> [] \/ exists c d, r = Some (c :: d)) ->
  match r with Some d => digits d | None => True end ->
  decimal_text (mkNum (if neg : bool then [45] else []) l r [] None)
    ((if neg then [45] else []) ++ l ++ (match r with Some d => 46 :: d | None => [] end) ++ []).
Proof.
  intros Hl Hne Hr. constructor; auto.
  - destruct neg; cbn; auto.
  - destruct r; eauto 6.
Qed.
Lemma plain_read neg l r : digits l -> (l <> [] \/ exists c d, r = Some (c :: d)) ->
  match r with Some d => digits d | None => True end ->
  ParseNumericLiteral ((if neg : bool then [45] else []) ++ l ++ (match r with Some d => 46 :: d | None => [] end))
  = Some (mkNum (if neg then [45] else []) l r [] None, []).
Proof.
  intros Hl Hne Hr. pose proof (decimal_app _ _ [] (plain_decimal neg l r Hl Hne Hr) I) as H.
  rewrite !app_nil_r in H. exact H.
Qed.
Lemma isalpha_digits s : digits s -> isalpha s = false.
Proof.
  intros H. unfold isalpha. destruct H as [|c s Hc H]; [reflexivity|]. cbn [forallb].
  destruct (_ || _)%bool eqn:E; [lia|reflexivity].
Qed.
(** A number read with no exponent and no letters *)
Lemma numeric_read s n : ParseNumericLiteral s = Some (n, []) -> isalpha (n_left n) = false -> n_exp n = None ->
  exists neg : bool, n = mkNum (if neg then [45] else []) (n_left n) (n_right n) [] None /\ digits (n_left n) /\
    (n_left n <> [] \/ exists c d, n_right n = Some (c :: d)) /\
    match n_right n with Some d => digits d | None => True end /\
    s = (if neg then [45] else []) ++ n_left n ++ (match n_right n with Some d => 46 :: d | None => [] end).
Proof.
  rewrite numeric_sign. 
  assert (forall sg s1, (if true then after_sign sg s1 else None) = Some (n, []) -> isalpha (n_left n) = false -> n_exp n = None ->
    n = mkNum sg (n_left n) (n_right n) [] None /\ digits (n_left n) /\
    (n_left n <> [] \/ exists c d, n_right n = Some (c :: d)) /\
    match n_right n with Some d => digits d | None => True end /\
    s1 = n_left n ++ (match n_right n with Some d => 46 :: d | None => [] end)) as HA.
  { intros sg s1 H Ha He. unfold after_sign in H.
    destruct (skip_insensitive (lit "inf") s1); [injection H as <- ->; discriminate|].
    destruct (skip_insensitive (lit "nan") s1); [injection H as <- ->; discriminate|].
    destruct (run is_digit s1) as [l s2] eqn:R1. apply run_split in R1. destruct R1 as [-> Hl]. apply is_digits in Hl.
    destruct (match s2 with 46 :: s3 => let '(r, s4) := run is_digit s3 in (Some r, s4) | _ => (None, s2) end) as [r s3] eqn:R2.
    assert (s2 = (match r with Some d => 46 :: d | None => [] end) ++ s3 /\ match r with Some d => digits d | None => True end) as [-> Hr].
    { destruct s2 as [|c s2]; [injection R2 as <- <-; auto|].
      destruct (Z.eq_dec c 46) as [-> |Hc].
      - destruct (run is_digit s2) as [d s4] eqn:R3. injection R2 as <- <-. apply run_split in R3. destruct R3 as [-> H3].
        split; [reflexivity|now apply is_digits].
      - rewrite (not46 c s2 (fun s3 => let '(r, s4) := run is_digit s3 in (Some r, s4))) in R2 by exact Hc. injection R2 as <- <-. auto. }
    assert ((l <> [] \/ exists c d, r = Some (c :: d)) /\
      match s3 with
      | e :: s4 => if (e =? 101) || (e =? 69) then
          let '(es, s5) := match s4 with 45 :: s5 => ([45], s5) | _ => ([43], s4) end in
          let '(d, s6) := run is_digit s5 in Some (mkNum sg l r es (Some d), s6)
        else Some (mkNum sg l r [] None, s3)
      | [] => Some (mkNum sg l r [] None, s3) end = Some (n, [])) as [Hne H'].
    { destruct l as [|c l]; [destruct r as [[|c d]|]; [discriminate|split; [right; eauto|exact H]|discriminate]|].
      split; [left; congruence|exact H]. }
    clear H. destruct s3 as [|e s4].
    - injection H' as <-. cbn [n_left n_right]. rewrite app_nil_r. auto.
    - destruct ((e =? 101) || (e =? 69))%bool; [|discriminate].
      destruct (match s4 with 45 :: s5 => ([45], s5) | _ => ([43], s4) end) as [es s5]. destruct (run is_digit s5) as [d s6].
      injection H' as <- ->. discriminate. }
  intros H Ha He. destruct s as [|c s]; [discriminate|].
  destruct (Z.eq_dec c 45) as [-> |Hc].
  - destruct (HA [45] s H Ha He) as (A & B & C & D & E). exists true. repeat split; auto. cbn [app]. congruence.
  - rewrite (not45 c s (fun s1 => after_sign [45] s1) (after_sign [] (c :: s))) in H by exact Hc.
    destruct (HA [] (c :: s) H Ha He) as (A & B & C & D & E). exists false. repeat split; auto.
Qed.

(** ** Integers *)
Lemma range_ok t n : in_range t n <-> lowest t <= n <= highest t.
Proof. destruct t; reflexivity. Qed.
Lemma set_int_spec t p q n : set_int t p q = Ok n <->
  lowest t * Zpos q <= p <= highest t * Zpos q /\ n = Z.quot p (Zpos q).
Proof.
  unfold set_int. destruct (_ || _)%bool eqn:E; split; try discriminate; try (intros [H ->]; lia || reflexivity).
  intros [= <-]. split; [lia|reflexivity].
Qed.
Lemma set_int_err t p q e : set_int t p q = Err e -> e = ValueError.
Proof. unfold set_int. destruct (_ || _)%bool; congruence. Qed.
Lemma quot_truncated p q n : n = Z.quot p (Zpos q) <-> truncated p q n.
Proof.
  unfold truncated. set (m := Zpos q). assert (0 < m) by (unfold m; lia).
  pose proof (Z.quot_rem p m ltac:(lia)) as E. split.
  - intros ->. split; intros Hp.
    + pose proof (Z.rem_bound_pos p m Hp H). nia.
    + pose proof (Z.rem_bound_pos (- p) m ltac:(lia) H) as R; rewrite Z.rem_opp_l in R by lia; nia.
  - intros [H1 H2]. destruct (Z_lt_le_dec p 0) as [Hp|Hp].
    + specialize (H2 Hp). pose proof (Z.rem_bound_pos (- p) m ltac:(lia) H) as R; rewrite Z.rem_opp_l in R by lia; nia.
    + specialize (H1 Hp). pose proof (Z.rem_bound_pos p m Hp H). nia.
Qed.
Lemma str_nil s : str_eqb s [] = true <-> s = [].
Proof. apply str_eqb_eq. Qed.
Lemma int_of_plain t (neg : bool) l : digits l -> l <> [] -> most_digits t l -> (neg = true -> t <> Byte) ->
  int_of_numeric t (mkNum (if neg then [45] else []) l None [] None) = set_int t (if neg then - dval l else dval l) 1.
Proof.
  intros Hd Hn Hm Hb. unfold int_of_numeric. cbn [n_sign n_left n_right n_exp].
  rewrite (isalpha_digits l Hd).
  assert (str_eqb l [] = false) as -> by (destruct l; [contradiction|reflexivity]).
  assert (match t with Int32 => (10 <? length l)%nat | Int64 => (19 <? length l)%nat | _ => false end = false) as ->.
  { destruct t; cbn [most_digits] in Hm; try reflexivity; apply Nat.ltb_ge; exact Hm. }
  assert (match t with Byte => negb (str_eqb (if neg then [45] else []) []) | _ => false end = false) as ->.
  { destruct t; try reflexivity. destruct neg; [destruct (Hb eq_refl); reflexivity|reflexivity]. }
  cbn [orb]. unfold signed. cbn [n_sign n_left]. destruct neg.
  - destruct t; [destruct (Hb eq_refl); reflexivity|reflexivity..].
  - destruct t; reflexivity.
Qed.
Lemma quot1 p : Z.quot p 1 = p. Proof. apply Z.quot_1_r. Qed.
Theorem int_spec t s n : int_from_literal t s = Ok n <-> writes_int t n s.
Proof.
  unfold int_from_literal. split.
  - intros H. destruct (ParseNumericLiteral s) as [[m r]|] eqn:P; [|discriminate].
    destruct r; [|discriminate]. cbn [RequireProductionEnd bind] in H.
    unfold int_of_numeric in H. 
    destruct (isalpha (n_left m)) eqn:Ea; [rewrite ?orb_true_r, ?orb_true_l in H; discriminate|].
    destruct (n_exp m) eqn:Ee; [rewrite ?orb_true_r in H; discriminate|].
    destruct (n_right m) eqn:Er; [rewrite ?orb_true_r in H; discriminate|].
    destruct (numeric_read s m P Ea Ee) as (neg & Em & Hd & _ & _ & Es). rewrite Er in *. rewrite app_nil_r in Es.
    destruct (str_eqb (n_left m) []) eqn:El; [rewrite ?orb_true_r in H; discriminate|].
    assert (n_left m <> []) as Hn by (intros E; rewrite E in El; discriminate).
    assert (most_digits t (n_left m)) as Hm.
    { destruct t; cbn [most_digits]; trivial; destruct (_ <? _)%nat eqn:X in H;
        try (rewrite ?orb_true_r in H; discriminate); apply Nat.ltb_ge in X; exact X. }
    assert (neg = true -> t <> Byte) as Hb.
    { intros -> ->. rewrite Em in H. discriminate. }
    assert (int_of_numeric t m = Ok n) as H'.
    { unfold int_of_numeric. rewrite Ea, Ee, Er, El. exact H. }
    rewrite Em, (int_of_plain t neg _ Hd Hn Hm Hb) in H'. apply set_int_spec in H'. destruct H' as [Hr ->]. rewrite quot1.
    split; [apply (proj2 (range_ok t _)); lia|]. exists (n_left m). repeat split; auto.
    destruct neg; [right; auto|left; auto].
  - intros [Hr (d & Hd & Hn & Hm & H)]. apply (proj1 (range_ok t _)) in Hr.
    assert (exists neg : bool, s = (if neg then [45] else []) ++ d /\ n = (if neg then - dval d else dval d) /\ (neg = true -> t <> Byte)) as (neg & -> & -> & Hb).
    { destruct H as [[-> ->]|(Hb & -> & ->)]; [exists false|exists true]; repeat split; auto; discriminate. }
    pose proof (plain_read neg d None Hd (or_introl Hn) I) as P. rewrite app_nil_r in P. rewrite P.
    cbn [RequireProductionEnd bind]. rewrite int_of_plain by auto. apply set_int_spec. rewrite quot1. split; [lia|reflexivity].
Qed.
Lemma int_err t s e : int_from_literal t s = Err e -> e = ValueError.
Proof.
  unfold int_from_literal, RequireProductionEnd. destruct (ParseNumericLiteral s) as [[m [|? ?]]|]; cbn [bind]; try congruence.
  unfold int_of_numeric. destruct (_ || _)%bool; [congruence|apply set_int_err].
Qed.
Lemma fmt_ds n : 0 <= n -> digits (fmt n).
Proof. intros H. exact (fmt_digits n H). Qed.
(** The number of digits of a number *)
Lemma dval_low s : Forall is_dec s -> (exists a t, s = a :: t /\ a <> 48) -> 10 ^ (Z.of_nat (length s) - 1) <= dval s.
Proof.
  intros H (a & t & -> & Ha). inversion H as [|x y Hx Hy]; subst. change (a :: t) with ([a] ++ t). rewrite dval_app.
  pose proof (dval_nonneg t Hy). unfold dval at 1. cbn [fold_left app length].
  replace (Z.of_nat (S (length t)) - 1) with (Z.of_nat (length t)) by lia.
  unfold is_dec in Hx. assert (0 < 10 ^ Z.of_nat (length t)) by (apply Z.pow_pos_nonneg; lia). nia.
Qed.
Lemma dval_high s : Forall is_dec s -> dval s < 10 ^ Z.of_nat (length s).
Proof.
  induction s as [|c s IH] using rev_ind; intros H; [reflexivity|].
  apply Forall_app in H. destruct H as [H1 H2]. inversion H2 as [|x y Hx Hy]; subst. specialize (IH H1). rewrite dval_snoc, app_length.
  cbn [length]. replace (Z.of_nat (length s + 1)) with (Z.succ (Z.of_nat (length s))) by lia. rewrite Z.pow_succ_r by lia.
  unfold is_dec in Hx. lia.
Qed.
Lemma fmt_len n k : 0 <= n < 10 ^ Z.of_nat k -> (0 < k)%nat -> (length (fmt n) <= k)%nat.
Proof.
  intros H Hk. destruct (Z.eq_dec n 0) as [-> |Hn]; [cbn; lia|].
  pose proof (dval_low (fmt n) (fmt_digits n ltac:(lia)) (fmt_head n ltac:(lia))) as L. rewrite dval_fmt in L by lia.
  destruct (le_lt_dec (length (fmt n)) k) as [|X]; [assumption|exfalso].
  assert (10 ^ Z.of_nat k <= 10 ^ (Z.of_nat (length (fmt n)) - 1)) by (apply Z.pow_le_mono_r; lia). lia.
Qed.
Theorem int_round t n : in_range t n -> int_from_literal t (int_text n) = Ok n.
Proof.
  intros Hr. apply int_spec. split; [exact Hr|]. unfold int_text, pystr.
  exists (fmt (Z.abs n)). split; [apply fmt_ds; lia|]. split; [apply fmt_not_nil|]. split.
  { assert (2 ^ 31 < 10 ^ Z.of_nat 10) as P1 by reflexivity. assert (2 ^ 63 < 10 ^ Z.of_nat 19) as P2 by reflexivity.
    destruct t; unfold in_range in Hr; cbn [most_digits least greatest] in *; trivial; (apply fmt_len; [|apply Nat.lt_0_succ]).
    - generalize dependent (10 ^ Z.of_nat 10). intros; lia.
    - generalize dependent (10 ^ Z.of_nat 19). intros; lia. }
  destruct (n <? 0) eqn:E.
  - right. split; [intros ->; unfold in_range in Hr; cbn [least greatest] in Hr; lia|]. rewrite dval_fmt by lia. replace (Z.abs n) with (- n) by lia. split; [reflexivity|lia].
  - left. rewrite dval_fmt by lia. replace (Z.abs n) with n by lia. auto.
Qed.

(** ** Booleans *)
Theorem bool_spec s b : bool_literal s = Ok b <-> word (if b then "true" else "false") s.
Proof.
  unfold bool_literal. rewrite (word_lower (if b then "true" else "false") s) by (destruct b; reflexivity).
  destruct (str_eqb (lower s) (lit "true")) eqn:E1; [|destruct (str_eqb (lower s) (lit "false")) eqn:E2].
  - apply str_eqb_eq in E1. rewrite E1. destruct b; split; intros X; (discriminate X || congruence).
  - apply str_eqb_eq in E2. rewrite E2. destruct b; split; intros X; (discriminate X || congruence).
  - apply str_eqb_neq in E1. apply str_eqb_neq in E2. destruct b; split; intros X; (discriminate X || congruence).
Qed.

(** ** Binary data *)
Lemma is_hex_digit c : is_hex c = true -> hex_digit (hex_val c) c.
Proof.
  unfold hex_digit, is_hex, is_digit, hex_val. intros H. destruct (c <=? 57) eqn:E1; [lia|]. destruct (c <=? 70) eqn:E2; lia.
Qed.
Lemma bytes_hex_text n : forall s v, (length s <= n)%nat -> Forall (fun c => is_hex c = true) s -> bytes_of_hex s = Ok v -> hex_text v s.
Proof.
  induction n as [|n IH]; intros s v Hl Hs H; (destruct s as [|a [|b s]]; [injection H as <-; constructor|discriminate|cbn [length] in Hl; try lia]).
  cbn [bytes_of_hex] in H. destruct (bytes_of_hex s) as [r|] eqn:E; [|discriminate]. cbn [bind] in H. injection H as <-.
  inversion Hs as [|? ? Ha Hs1]; subst. inversion Hs1 as [|? ? Hb Hs2]; subst.
  constructor; [now apply is_hex_digit..|]. apply IH; [lia|assumption|assumption].
Qed.
Theorem binary_spec s v : binary_from_literal s = Ok v <-> hex_text v s.
Proof.
  unfold binary_from_literal. split.
  - destruct (run is_hex s) as [h r] eqn:R. apply run_split in R. destruct R as [-> Hh].
    destruct (bytes_of_hex h) as [b|] eqn:E; [|discriminate]. cbn [bind RequireProductionEnd].
    destruct r; [|discriminate]. intros [= <-]. rewrite app_nil_r. exact (bytes_hex_text _ h b (le_n _) Hh E).
  - intros H. destruct (hex_text_ok _ _ H) as [H1 H2].
    assert (run is_hex s = (s, [])) as ->.
    { rewrite <- (app_nil_r s) at 1. now apply run_app. }
    rewrite H2. reflexivity.
Qed.
Lemma bytes_err s e : bytes_of_hex s = Err e -> e = ValueError.
Proof.
  revert e. assert (forall n s e, (length s <= n)%nat -> bytes_of_hex s = Err e -> e = ValueError) as A.
  { induction n as [|n IH]; intros s' e Hl H; (destruct s' as [|a [|b s']]; [discriminate|cbn in H; congruence|cbn [length] in Hl; try lia]).
    cbn [bytes_of_hex] in H. destruct (bytes_of_hex s') eqn:E; cbn [bind] in H; [discriminate|]. injection H as <-. apply (IH s'); [lia|assumption]. }
  intros e. exact (A _ s e (le_n _)).
Qed.
Lemma binary_err s e : binary_from_literal s = Err e -> e = ValueError.
Proof.
  unfold binary_from_literal. destruct (run is_hex s) as [h r]. destruct (bytes_of_hex h) as [b|x] eqn:E; cbn [bind].
  - destruct r; cbn; congruence.
  - intros [= <-]. exact (bytes_err _ _ E).
Qed.

(** ** Guids *)
Lemma hex_exact_spec k : forall s h r, hex_exact k s = Some (h, r) <-> s = h ++ r /\ length h = k /\ Forall (fun c => is_hex c = true) h.
Proof.
  induction k as [|k IH]; intros s h r; cbn [hex_exact].
  - split; [intros [= <- <-]; auto|]. intros (-> & H & _). destruct h; [reflexivity|discriminate].
  - destruct s as [|c s]; [split; [discriminate|intros (H & L & _); destruct h; discriminate]|].
    destruct (is_hex c) eqn:E.
    + split.
      * destruct (hex_exact k s) as [[h' r']|] eqn:X; [|discriminate]. intros [= <- <-]. apply IH in X. destruct X as (-> & L & F).
        split; [reflexivity|split; [cbn; lia|constructor; assumption]].
      * intros (H & L & F). destruct h as [|c' h]; [discriminate|]. cbn [app] in H. injection H as <- ->. cbn [length] in L. injection L as L.
        inversion F; subst. assert (hex_exact (length h) (h ++ r) = Some (h, r)) as -> by (apply IH; auto). reflexivity.
    + split; [discriminate|]. intros (H & L & F). destruct h as [|c' h]; [discriminate|]. cbn [app] in H. injection H as <- ->.
      inversion F; congruence.
Qed.
Lemma hex_string_is s : Forall (fun c => is_hex c = true) s -> hex_string (hex_number s) s.
Proof.
  induction s as [|c s IH] using rev_ind; intros H; [constructor|]. apply Forall_app in H. destruct H as [H1 H2]. inversion H2; subst.
  unfold hex_number. rewrite fold_left_app. cbn [fold_left]. constructor; [now apply IH|now apply is_hex_digit].
Qed.
Lemma hex_string_inv n s : hex_string n s -> Forall (fun c => is_hex c = true) s /\ n = hex_number s.
Proof.
  induction 1 as [|n s v c H [IH1 IH2] Hv]; [split; [constructor|reflexivity]|].
  destruct (hex_digit_ok _ _ Hv) as [A B]. split; [apply Forall_app; auto|].
  unfold hex_number. rewrite fold_left_app. cbn [fold_left]. fold (hex_number s). congruence.
Qed.
Lemma hyphen_split s : exists w, In w [[45]; []] /\ s = w ++ hyphen s.
Proof.
  destruct s as [|c s]; [exists []; cbn; auto|]. destruct (Z.eq_dec c 45) as [-> |H]; [exists [45]; cbn; auto|].
  exists []. split; [cbn; auto|]. unfold hyphen. cbn [app]. symmetry. apply (not45 c s (fun s5 => s5) (c :: s) H).
Qed.
Lemma hyphen_hex s r : s <> [] -> Forall (fun c => is_hex c = true) s -> hyphen (s ++ r) = s ++ r.
Proof.
  intros Hn H. destruct H as [|c s Hc H]; [contradiction|]. cbn [app]. unfold hyphen.
  apply (not45 c (s ++ r) (fun s5 => s5)). unfold is_hex, is_digit in Hc. lia.
Qed.
Lemma guid_of_groups n bs s : Forall (fun w => In w [[45]; []]) bs -> guid_groups n bs s -> guid_from_literal s = Ok n.
Proof.
  intros Hb (a & b & c & d & e & Hx & La & Lb & Lc & Ld & Le & w & x & y & z & -> & ->).
  destruct (hex_string_inv _ _ Hx) as [F ->]. rewrite !Forall_app in F. destruct F as (Fa & Fb & Fc & Fd & Fe).
  assert (forall w g r, In w [[45]; []] -> Forall (fun c => is_hex c = true) g -> (0 < length g)%nat -> hyphen (w ++ g ++ r) = g ++ r) as HH.
  { intros w' g r Hw Fg Lg. destruct Hw as [<- |[<- |[]]]; [reflexivity|]. cbn [app]. apply hyphen_hex; [destruct g; [cbn in Lg; lia|congruence]|assumption]. }
  inversion Hb as [|? ? Hw Hb1]; subst. inversion Hb1 as [|? ? Hxx Hb2]; subst. inversion Hb2 as [|? ? Hy Hb3]; subst. inversion Hb3 as [|? ? Hz _]; subst.
  unfold guid_from_literal, ParseGuidLiteral.
  rewrite (proj2 (hex_exact_spec 8 _ a (w ++ b ++ x ++ c ++ y ++ d ++ z ++ e))) by auto.
  rewrite HH by (auto; lia). rewrite (proj2 (hex_exact_spec 4 _ b (x ++ c ++ y ++ d ++ z ++ e))) by auto.
  rewrite HH by (auto; lia). rewrite (proj2 (hex_exact_spec 4 _ c (y ++ d ++ z ++ e))) by auto.
  rewrite HH by (auto; lia). rewrite (proj2 (hex_exact_spec 4 _ d (z ++ e))) by auto.
  rewrite <- (app_nil_r e) at 1. rewrite HH by (auto; lia). rewrite (proj2 (hex_exact_spec 12 _ e [])) by auto. reflexivity.
Qed.
Lemma guid_groups_of n s : guid_from_literal s = Ok n -> exists bs, Forall (fun w => In w [[45]; []]) bs /\ guid_groups n bs s.
Proof.
  unfold guid_from_literal, ParseGuidLiteral. 
  destruct (hex_exact 8 s) as [[a s1]|] eqn:E1; [|discriminate].
  destruct (hex_exact 4 (hyphen s1)) as [[b s2]|] eqn:E2; [|discriminate].
  destruct (hex_exact 4 (hyphen s2)) as [[c s3]|] eqn:E3; [|discriminate].
  destruct (hex_exact 4 (hyphen s3)) as [[d s4]|] eqn:E4; [|discriminate].
  destruct (hex_exact 12 (hyphen s4)) as [[e s5]|] eqn:E5; [|discriminate].
  cbn [RequireProductionEnd]. destruct s5; [|discriminate]. intros [= <-].
  apply hex_exact_spec in E1, E2, E3, E4, E5.
  destruct E1 as (-> & L1 & F1), E2 as (X2 & L2 & F2), E3 as (X3 & L3 & F3), E4 as (X4 & L4 & F4), E5 as (X5 & L5 & F5).
  destruct (hyphen_split s1) as (w & Hw & S1). destruct (hyphen_split s2) as (x & Hx & S2).
  destruct (hyphen_split s3) as (y & Hy & S3). destruct (hyphen_split s4) as (z & Hz & S4).
  exists [w; x; y; z]. split; [auto|]. exists a, b, c, d, e. split; [apply hex_string_is; rewrite !Forall_app; auto|].
  repeat (split; [assumption|]). exists w, x, y, z. split; [reflexivity|].
  rewrite app_nil_r in X5. rewrite S1, X2, S2, X3, S3, X4, S4, X5. reflexivity.
Qed.
Lemma hexk_ok k : forall n, length (hexk k n) = k /\ hex_string (n mod 16 ^ Z.of_nat k) (hexk k n).
Proof.
  induction k as [|k IH]; intros n.
  - split; [reflexivity|]. cbn [hexk]. change (16 ^ Z.of_nat 0) with 1. rewrite Z.mod_1_r. constructor.
  - cbn [hexk]. destruct (IH (n / 16)) as [A B]. split; [rewrite app_length; cbn [length]; lia|].
    assert (n mod 16 ^ Z.of_nat (S k) = (n / 16) mod 16 ^ Z.of_nat k * 16 + n mod 16) as ->.
    { rewrite Nat2Z.inj_succ, Z.pow_succ_r by lia. rewrite Z.rem_mul_r by (try apply Z.pow_pos_nonneg; lia). lia. }
    constructor; [exact B|]. unfold hex_char, hex_digit. destruct (n mod 16 <? 10) eqn:E; lia.
Qed.
Lemma skip_split {A} (k m : nat) (l : list A) : skipn k l = firstn m (skipn k l) ++ skipn (k + m) l.
Proof. rewrite <- (firstn_skipn m (skipn k l)) at 1. f_equal. revert l. induction k as [|k IH]; intros l; [reflexivity|]. destruct l; [now rewrite !skipn_nil|]. cbn [skipn Nat.add]. apply IH. Qed.
Theorem guid_written n : 0 <= n < 2 ^ 128 -> writes_guid n (guid_text n).
Proof.
  intros Hn. destruct (hexk_ok 32 n) as [L H]. rewrite Z.mod_small in H by (change (16 ^ Z.of_nat 32) with (2 ^ 128); exact Hn).
  unfold guid_text. cbv zeta. set (h := hexk 32 n) in *.
  exists (firstn 8 h), (firstn 4 (skipn 8 h)), (firstn 4 (skipn 12 h)), (firstn 4 (skipn 16 h)), (skipn 20 h).
  split.
  { pose proof (skip_split 8 4 h) as A. pose proof (skip_split 12 4 h) as B. pose proof (skip_split 16 4 h) as C. cbn [Nat.add] in A, B, C.
    rewrite <- C, <- B, <- A, firstn_skipn. exact H. }
  rewrite !firstn_length, !skipn_length, L. repeat (split; [reflexivity|]). do 4 exists [45]. split; reflexivity.
Qed.
Lemma guid_err s e : guid_from_literal s = Err e -> e = ValueError.
Proof. unfold guid_from_literal, RequireProductionEnd. destruct (ParseGuidLiteral s) as [[? [|? ?]]|]; congruence. Qed.
Lemma guid_range n bs s : guid_groups n bs s -> 0 <= n < 2 ^ 128.
Proof.
  intros (a & b & c & d & e & Hx & La & Lb & Lc & Ld & Le & _).
  assert (forall m t, hex_string m t -> 0 <= m < 16 ^ Z.of_nat (length t)) as A.
  { induction 1 as [|m t v x H IH Hv]; [cbn; lia|]. rewrite app_length. cbn [length].
    replace (Z.of_nat (length t + 1)) with (Z.succ (Z.of_nat (length t))) by lia. rewrite Z.pow_succ_r by lia. unfold hex_digit in Hv. lia. }
  apply A in Hx. rewrite !app_length, La, Lb, Lc, Ld, Le in Hx. exact Hx.
Qed.
