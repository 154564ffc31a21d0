(** Proofs about the texts of expressions: whole texts, orders, and formatting. *)
From Coq Require Import Lia ZArith List Bool.
From Verif Require Import Py Iso Dec Shapes XmlChars OdExpr OdExprSpec OdExprProofs OdExprProofs2 OdExprProofs3 OdExprProofs4 OdExprProofs5.
Import ListNotations.
Open Scope Z_scope.
Open Scope list_scope.

Section Whole.
Context {X : Type}.
Variable number : edm_type -> numeric -> result X.
Variable quoted : edm_type -> str -> result (X * str).
Variable show : edm_type -> X -> str.
Variable start id : Z -> bool.
Hypothesis Hcl : classes start id.
Hypothesis Hrd : readers number quoted.
Notation loop := (expr_loop X number quoted start id).
Notation means := (means number quoted start id).
Notation arguments := (arguments number quoted start id).
Notation literal := (literal number quoted).
Notation FromString := (FromString X number quoted start id).

Lemma wsp_all w : spaces w -> wsp w = [].
Proof. intros H. rewrite <- (app_nil_r w), wsp_spaces by exact H. reflexivity. Qed.
(** Before a text that is no operator *)
Lemma parse_before e s rest w : means 2 e s -> spaces w -> follows rest -> next_op start id (wsp rest) = None ->
  ParseCommonExpression X number quoted start id (w ++ s ++ rest) = Ok (Some e, wsp rest).
Proof.
  intros M Hw Hf Hn. destruct (proj1 (means_reads number quoted start id Hcl) 2 e s M None [] rest O (Some e, wsp rest)) with (w := w) as (g & Hg); auto.
  - reflexivity.
  - intros o s' E. rewrite Hn in E. discriminate.
  - unfold after. rewrite Hn. reflexivity.
  - exact (loop_enough number quoted start id Hrd g _ _ Hg).
Qed.
Theorem filter_read e s : filter_means number quoted start id e s -> FromString s = Ok e.
Proof.
  intros (w1 & w2 & t & Hw1 & Hw2 & M & ->). unfold FromString. pose proof (wsp_all w2 Hw2) as Hws.
  rewrite (parse_before e t w2 w1 M Hw1).
  - rewrite Hws. reflexivity.
  - split; [rewrite <- (app_nil_r w2); apply stop_spaces; [exact Hw2|exact I]|]. rewrite Hws. exact I.
  - rewrite Hws. reflexivity.
Qed.

(** ** Orders *)
Lemma op_of_name_asc k : lower k = lit "asc" \/ lower k = lit "desc" -> op_of_name k = None.
Proof.
  intros H. unfold op_of_name. destruct (find _ _) as [p|] eqn:E; [|reflexivity]. apply find_some in E. destruct E as [Hin E].
  apply str_eqb_eq in E. subst k.
  assert (forallb (fun p => negb (str_eqb (lower (snd p)) (lit "asc")) && negb (str_eqb (lower (snd p)) (lit "desc"))) operators = true) as Hall by reflexivity.
  rewrite forallb_forall in Hall. specialize (Hall p Hin).
  destruct H as [H|H]; rewrite H in Hall; discriminate.
Qed.
Lemma skip_word w k rest : lowercase (lit w) = true -> word w k -> skip_insensitive (lit w) (k ++ rest) = Some rest.
Proof.
  intros Hl H. unfold skip_insensitive. rewrite <- (word_len _ _ H), firstn_app, Nat.sub_diag, firstn_all, firstn_O, app_nil_r.
  apply word_lower in H; [|exact Hl]. rewrite H, str_eqb_refl.
  f_equal. rewrite skipn_app, Nat.sub_diag, skipn_all. reflexivity.
Qed.
Definition dir_of (s2 : str) : bool * str :=
  match skip_insensitive (lit "asc") s2 with
  | Some s3 => (false, s3)
  | None => match skip_insensitive (lit "desc") s2 with Some s3 => (true, s3) | None => (false, s2) end
  end.
Lemma parse_item e s d t w1 w2 tail : means 2 e s -> direction d t -> spaces w1 -> spaces w2 ->
  (tail = [] \/ exists r, tail = 44 :: r) ->
  exists rest, ParseCommonExpression X number quoted start id (wsp (w1 ++ s ++ t ++ w2 ++ tail)) = Ok (Some e, rest) /\
    exists s3, dir_of (wsp rest) = (d, s3) /\ wsp s3 = tail.
Proof.
  intros M Hd Hw1 Hw2 Ht.
  assert (wsp (w1 ++ s ++ t ++ w2 ++ tail) = [] ++ s ++ t ++ w2 ++ tail) as ->.
  { apply (wsp_starts w1 s (t ++ w2 ++ tail)); [exact Hw1|]. eapply means_starts; eassumption. }
  assert (wsp (w2 ++ tail) = tail) as Hws.
  { rewrite wsp_spaces by exact Hw2. destruct Ht as [-> |(r & ->)]; reflexivity. }
  assert (stop (w2 ++ tail)) as Hst.
  { apply stop_spaces; [exact Hw2|]. destruct Ht as [-> |(r & ->)]; cbn; auto 8. }
  destruct Hd as [(-> & ->)|(w & k & -> & Hw & Hk)].
  - cbn [app]. exists tail. split.
    + rewrite <- Hws at 2. apply (parse_before e s (w2 ++ tail) [] M); [constructor| |].
      * split; [exact Hst|]. rewrite Hws. destruct Ht as [-> |(r & ->)]; [exact I|discriminate].
      * rewrite Hws. destruct Ht as [-> |(r & ->)]; [reflexivity|]. apply next_none; cbn; auto.
    + exists tail. destruct Ht as [-> |(r & ->)]; [split; reflexivity|]. rewrite wsp_id by reflexivity. split; reflexivity.
  - assert (lowercase (lit (if d then "desc" else "asc")) = true) as Hl by (destruct d; reflexivity).
    pose proof (word_letters _ _ Hl Hk) as HL.
    assert (k <> []) as Hne by (intros ->; apply word_len in Hk; destruct d; discriminate).
    assert (exists c k', k = c :: k' /\ (97 <= c <= 122 \/ 65 <= c <= 90)) as (c & k' & Ek & Hc).
    { destruct HL as [|c k' Hc HL]; [contradiction|eauto]. }
    assert (wsp ((w ++ k) ++ w2 ++ tail) = k ++ w2 ++ tail) as Hws2.
    { rewrite <- app_assoc, wsp_spaces by apply Hw. rewrite Ek. apply wsp_id. unfold is_wsp. lia. }
    exists (k ++ w2 ++ tail). split.
    + rewrite <- Hws2. apply (parse_before e s ((w ++ k) ++ w2 ++ tail) [] M); [constructor| |].
      * split; [rewrite <- app_assoc; apply stop_spaces1, Hw|]. rewrite Hws2, Ek. cbn [app]. lia.
      * rewrite Hws2. unfold next_op.
        assert (ParseSimpleIdentifier start id (k ++ w2 ++ tail) = Some (k, w2 ++ tail)) as ->.
        { apply ident_app; auto; [apply ident_letters; auto|]. apply (stop_id_end start id Hcl); auto. }
        rewrite op_of_name_asc by (apply word_lower in Hk; [|exact Hl]; destruct d; [right|left]; exact Hk).
        rewrite Ek. cbn [app]. destruct c as [|q|q]; try reflexivity. do 6 (destruct q as [q|q|]; try reflexivity); exfalso; clear -Hc; lia.
    + exists (w2 ++ tail). split; [|exact Hws].
      replace (wsp (k ++ w2 ++ tail)) with (k ++ w2 ++ tail) by (rewrite Ek; symmetry; apply wsp_id; unfold is_wsp; lia).
      unfold dir_of. destruct d.
      * assert (skip_insensitive (lit "asc") (k ++ w2 ++ tail) = None) as ->.
        { unfold skip_insensitive. destruct (str_eqb _ _) eqn:E; [|reflexivity]. apply str_eqb_eq in E. exfalso.
          apply word_lower in Hk; [|exact Hl]. subst k. unfold lower in *. cbn [app length lit firstn map] in *.
          inversion E. inversion Hk. cbv in *. congruence. }
        rewrite (skip_word "desc" k _ Hl Hk). reflexivity.
      * rewrite (skip_word "asc" k _ Hl Hk). reflexivity.
Qed.
Lemma orderby_S f s : orderby_loop X number quoted start id (S f) s =
  ('(e, s1) <- ParseCommonExpression X number quoted start id (wsp s) ;;
      match e with
      | None => Err ValueError
      | Some e =>
          let '(d, s3) := dir_of (wsp s1) in
          match wsp s3 with
          | 44 :: s4 => '(l, s5) <- orderby_loop X number quoted start id f s4 ;; Ok ((e, d) :: l, s5)
          | s4 => Ok ([(e, d)], s4)
          end
      end).
Proof. reflexivity. Qed.
Lemma orderby_loop_read l s : orderby_means number quoted start id l s -> forall f, (length s < f)%nat ->
  orderby_loop X number quoted start id f s = Ok (l, []).
Proof.
  induction 1 as [e s d t w1 w2 M Hd Hw1 Hw2|e s d t w1 w2 l r M Hd Hw1 Hw2 HO IH]; intros f Hf; (destruct f as [|f]; [lia|]); rewrite orderby_S.
  - destruct (parse_item e s d t w1 w2 [] M Hd Hw1 Hw2 (or_introl eq_refl)) as (rest & H1 & s3 & H2 & H3).
    rewrite app_nil_r in H1. rewrite H1. cbn [bind]. rewrite H2, H3. reflexivity.
  - destruct (parse_item e s d t w1 w2 (44 :: r) M Hd Hw1 Hw2 (or_intror (ex_intro _ r eq_refl))) as (rest & H1 & s3 & H2 & H3).
    rewrite H1. cbn [bind]. rewrite H2, H3. rewrite IH; [reflexivity|]. rewrite !app_length in Hf. cbn [length] in Hf. lia.
Qed.
Theorem orderby_read l s : orderby_means number quoted start id l s -> OrderByFromString X number quoted start id s = Ok l.
Proof. intros H. unfold OrderByFromString. rewrite (orderby_loop_read l s H) by lia. reflexivity. Qed.
Theorem orderby_total s : match OrderByFromString X number quoted start id s with Ok _ => True | Err e => e = ValueError end.
Proof.
  assert (forall f s, (length s < f)%nat -> match orderby_loop X number quoted start id f s with Ok _ => True | Err e => e = ValueError end) as H.
  { clear s. induction f as [|f IH]; intros s Hf; [lia|]. rewrite orderby_S. pose proof (wsp_len s) as Hw.
    unfold ParseCommonExpression. pose proof (loop_good number quoted start id Hrd (S (length (wsp s))) None [] (wsp s) ltac:(lia)) as Hg.
    destruct (loop _ _ _ _) as [[e s1]|e]; cbn [bind]; [|exact Hg]. cbn [good] in Hg. destruct e as [e|]; [|reflexivity].
    assert (length (snd (dir_of (wsp s1))) <= length (wsp s1))%nat as Hd.
    { unfold dir_of. destruct (skip_insensitive (lit "asc") (wsp s1)) eqn:E1; [exact (skip_insensitive_len _ _ _ E1)|].
      destruct (skip_insensitive (lit "desc") (wsp s1)) eqn:E2; [exact (skip_insensitive_len _ _ _ E2)|]. cbn. lia. }
    destruct (dir_of (wsp s1)) as [d s3]. cbn [snd] in Hd. pose proof (wsp_len s1) as Hw1. pose proof (wsp_len s3) as Hw3.
    destruct (wsp s3) as [|c s4]; [exact I|]. cbn [length] in Hw3. destruct (Z.eq_dec c 44) as [->|Hc].
    - specialize (IH s4 ltac:(lia)). destruct (orderby_loop _ _ _ _ _ f s4) as [[l r]|e']; cbn [bind]; [exact I|exact IH].
    - destruct c as [|q|q]; try exact I. do 6 (destruct q as [q|q|]; try exact I). contradiction. }
  unfold OrderByFromString. specialize (H (S (length s)) s ltac:(lia)). destruct (orderby_loop _ _ _ _ _ _ _) as [[l r]|e]; cbn [bind]; [|exact H].
  destruct r; [exact I|reflexivity].
Qed.

(** ** Formatting *)
Lemma means_weaken n e s : means n e s -> forall m, 2 <= m <= n -> means m e s.
Proof.
  intros H m Hm. remember (Z.to_nat (n - m)) as k eqn:Ek. revert m Hm Ek. induction k as [|k IH]; intros m Hm Ek.
  - replace m with n by lia. exact H.
  - apply MWeaken; [lia|]. apply IH; lia.
Qed.
Lemma weaker_bracketed e u o l : weaker e (EOp (X:=X) u o l) = bracketed o e.
Proof. destruct e; reflexivity. Qed.
Lemma kept_means o n e t : means (strength e) e t -> kept o n e -> 2 <= n <= 10 -> 2 <= strength e ->
  means n e (brackets (bracketed o e) t).
Proof.
  intros M K Hn Hs. unfold kept in K. destruct (bracketed o e); cbn [brackets].
  - apply (means_weaken 10); [|lia]. apply (MParen _ _ _ _ e t [] []); [apply (means_weaken _ _ _ M); lia|exact K|constructor|constructor].
  - apply (means_weaken _ _ _ M). lia.
Qed.
Lemma double_quotes_ok v : in_quotes v (double_quotes v).
Proof.
  induction v as [|c v IH]; [constructor|]. destruct (Z.eq_dec c 39) as [->|Hc]; [constructor; exact IH|].
  assert (double_quotes (c :: v) = c :: double_quotes v) as ->.
  { cbn [double_quotes]. destruct c as [|q|q]; try reflexivity. do 6 (destruct q as [q|q|]; try reflexivity). contradiction. }
  constructor; assumption.
Qed.
Lemma not_number_bracket t : ~ number_like (40 :: t).
Proof.
  intros [H|(a & b & E & H)]; [lia|]. destruct H as [H|H]; inversion H as [|x y l1 l2 Hxy Ht]; subst; cbn [app] in E; inversion E; subst;
    unfold same_letter in Hxy; cbn in Hxy; lia.
Qed.
Lemma arguments_nonempty l t : arguments l t -> t <> [].
Proof.
  intros H. destruct H as [e s w1 w2 M _ _|e s w1 w2 l t M _ _ _]; apply means_starts in M; try exact Hcl; (destruct s as [|c s]; [destruct M|]); destruct w1; discriminate.
Qed.
Definition texts := fix texts (l : list (expr X)) : result (list str) :=
  match l with [] => Ok [] | x :: l' => t <- text X show x ;; r <- texts l' ;; Ok (t :: r) end.
Lemma printable_strength e : printable number quoted show start id e -> 2 <= strength e <= 10.
Proof.
  intros H. destruct H; cbn [strength]; try lia.
  - destruct H as [-> | ->]; cbn; lia.
  - cbn. lia.
  - cbn. lia.
  - cbn. lia.
  - cbn [named In] in H. repeat (destruct H as [H|H]; [inversion H; cbn; lia|]). destruct H.
Qed.
Lemma printable_unary e o : printable number quoted show start id e -> bracketed o e = true -> category o <= 8 -> is_unary e = false.
Proof. intros H Hb Ho. destruct H; try reflexivity; cbn [bracketed category] in Hb; lia. Qed.
Theorem printable_means : forall e, printable number quoted show start id e -> exists t, text X show e = Ok t /\ means (strength e) e t.
Proof.
  fix IH 2. intros e H. destruct H as [v Hv|n Hi Hr|m l Hm Hne Hl|o e v Ho He|e He Hk|e t0 He Hk Ht0 Hnum|a b Ha Hb Hka Hkb|o n k a b Ho Ha Hb Hka Hkb].
  - exists (literal_text X show v). split; [reflexivity|]. apply MLit. exact Hv.
  - exists n. split; [reflexivity|]. apply MProp; assumption.
  - assert (exists ts, texts l = Ok ts /\ arguments l (join [44] ts)) as (ts & Hts & HA).
    { clear Hm. induction Hl as [|x l Hx Hl IHl]; [contradiction|]. destruct (IH x Hx) as (t & Ht & M).
      apply (means_weaken _ _ _) with (m := 2) in M; [|pose proof (printable_strength _ Hx); lia].
      destruct l as [|y l].
      - exists [t]. cbn [texts join]. rewrite Ht. split; [reflexivity|].
        pose proof (A1 number quoted start id x t [] [] M ltac:(constructor) ltac:(constructor)) as HA. cbn [app] in HA. rewrite app_nil_r in HA. exact HA.
      - destruct IHl as (ts & Hts & HA); [discriminate|]. exists (t :: ts). split.
        + change (texts (x :: y :: l)) with (t <- text X show x ;; r <- texts (y :: l) ;; Ok (t :: r)). rewrite Ht, Hts. reflexivity.
        + destruct ts as [|t2 ts]; [destruct (arguments_nonempty _ _ HA eq_refl)|].
          exact (ACons number quoted start id x t [] [] (y :: l) _ M ltac:(constructor) ltac:(constructor) HA). }
    exists (m ++ 40 :: join [44] ts ++ [41]). split.
    + change (text X show (ECall m l)) with (l <- texts l ;; Ok (m ++ 40 :: join [44] l ++ [41])). rewrite Hts. reflexivity.
    + exact (MCall number quoted start id m l [] _ Hm ltac:(constructor) HA).
  - destruct (IH e He) as (t & Ht & M).
    assert (means 2 e (brackets (bracketed o e) t)) as M2.
    { pose proof (printable_strength _ He). destruct (bracketed o e) eqn:E; cbn [brackets].
      - apply (means_weaken 10); [|lia]. apply (MParen _ _ _ _ e t [] []); [apply (means_weaken _ _ _ M); lia| |constructor|constructor].
        apply (printable_unary e o He E). destruct Ho as [-> | ->]; cbn; lia.
      - apply (means_weaken _ _ _ M). lia. }
    exists (op_name o ++ 40 :: brackets (bracketed o e) t ++ 44 :: (39 :: double_quotes v ++ [39]) ++ [41]). split.
    + cbn [text]. rewrite Ht. rewrite !weaker_bracketed. cbn [bind].
      destruct Ho as [-> | ->]; reflexivity.
    + assert (In (o, op_name o) [(OCast, lit "cast"); (OIsof, lit "isof")]) as Hin by (destruct Ho as [-> | ->]; cbn; auto).
      assert (strength (EOp false o [Some e; Some (ELit (mkV (Some TString) (Some (PStr v))))]) = 10) as -> by (destruct Ho as [-> | ->]; reflexivity).
      pose proof (MCast number quoted start id o (op_name o) [] [] [] [] [] e _ v _ Hin ltac:(constructor) ltac:(constructor) ltac:(constructor) ltac:(constructor) ltac:(constructor) M2 (double_quotes_ok v)) as HM.
      cbn [app] in HM. cbn [app]. rewrite <- app_assoc. cbn [app]. exact HM.
  - destruct (IH e He) as (t & Ht & M). pose proof (printable_strength _ He).
    exists (lit "not" ++ [32] ++ brackets (bracketed ONot e) t). split.
    + cbn [text]. rewrite Ht, weaker_bracketed. cbn [bind]. reflexivity.
    + apply MNot; [apply kept_means; auto; lia|]. split; [repeat constructor|discriminate].
  - destruct (IH e He) as (t & Ht & M). pose proof (printable_strength _ He). rewrite Ht0 in Ht. inversion Ht; subst t0.
    exists (45 :: brackets (bracketed ONegate e) t). split.
    + cbn [text]. rewrite Ht0, weaker_bracketed. cbn [bind]. reflexivity.
    + apply (MNegate number quoted start id e _ []); [apply kept_means; auto; lia|constructor|]. cbn [app].
      destruct (bracketed ONegate e); cbn [brackets]; [apply not_number_bracket|apply Hnum; reflexivity].
  - destruct (IH a Ha) as (ta & Hta & Ma). destruct (IH b Hb) as (tb & Htb & Mb). pose proof (printable_strength _ Ha). pose proof (printable_strength _ Hb).
    exists (brackets (bracketed OMember a) ta ++ 47 :: brackets (bracketed OMember b) tb). split.
    + cbn [text]. rewrite Hta, Htb, !weaker_bracketed. reflexivity.
    + apply (MMember number quoted start id a b _ _ [] []); [apply kept_means; auto; lia|apply kept_means; auto; lia|constructor|constructor].
  - destruct (IH a Ha) as (ta & Hta & Ma). destruct (IH b Hb) as (tb & Htb & Mb). pose proof (printable_strength _ Ha). pose proof (printable_strength _ Hb).
    assert (2 <= n <= 7 /\ category o = n /\ op_name o = k /\ strength (EOp false o [Some a; Some b]) = n) as (Hn & Hc & Hk & Hst).
    { cbn [named In] in Ho. repeat (destruct Ho as [Ho|Ho]; [inversion Ho; subst; repeat split; try reflexivity; lia|]). destruct Ho. }
    exists (brackets (bracketed o a) ta ++ 32 :: k ++ 32 :: brackets (bracketed o b) tb). split.
    + cbn [text]. rewrite Hta, Htb, !weaker_bracketed. cbn [bind].
      cbn [named In] in Ho. repeat (destruct Ho as [Ho|Ho]; [inversion Ho; subst; reflexivity|]). destruct Ho.
    + rewrite Hst. apply (MBinary number quoted start id o n k a b _ _ [32] [32]); auto; try (apply kept_means; auto; lia);
        (split; [repeat constructor|discriminate]).
Qed.
Theorem printable_round e : printable number quoted show start id e -> exists t, text X show e = Ok t /\ FromString t = Ok e.
Proof.
  intros H. destruct (printable_means e H) as (t & Ht & M). exists t. split; [exact Ht|]. apply filter_read.
  exists [], [], t. repeat split; [constructor|constructor| |cbn; rewrite app_nil_r; reflexivity].
  apply (means_weaken _ _ _ M). pose proof (printable_strength _ H). lia.
Qed.

(** ** Values of the modelled types *)
Lemma fmt_length n k : 0 <= n < 10 ^ Z.of_nat k -> (k <> 0)%nat -> (length (fmt n) <= k)%nat.
Proof.
  intros Hn Hk. destruct (Z.eq_dec n 0) as [->|H0]; [cbn; lia|].
  destruct (fmt_head n ltac:(lia)) as (a & s & E & Ha). pose proof (fmt_digits n ltac:(lia)) as Hd. pose proof (dval_fmt n ltac:(lia)) as Hv.
  rewrite E in *. pose proof (Forall_inv Hd) as Hx. pose proof (Forall_inv_tail Hd) as Hs.
  unfold dval in Hv. cbn [fold_left] in Hv. rewrite fold_dval in Hv. pose proof (dval_nonneg s Hs) as Hp.
  cbn [length]. unfold is_dec in Hx.
  destruct (Nat.le_gt_cases k (length s)) as [Hl|Hl]; [|lia].
  exfalso. assert (10 ^ Z.of_nat k <= 10 ^ Z.of_nat (length s)) as Hpow by (apply Z.pow_le_mono_r; lia).
  assert (1 <= 0 * 10 + (a - 48)) as H1 by lia. nia.
Qed.
Lemma pystr_integer n k : - 10 ^ Z.of_nat k < n < 10 ^ Z.of_nat k -> (k <> 0)%nat -> integer n k (pystr n).
Proof.
  intros Hn Hk. unfold integer, pystr. destruct (n <? 0) eqn:E.
  - exists (fmt (- n)). split; [exact (fmt_digits (- n) ltac:(lia))|]. split; [apply fmt_not_nil|]. split; [apply fmt_length; [lia|exact Hk]|].
    right. split; [reflexivity|]. rewrite dval_fmt by lia. lia.
  - exists (fmt n). split; [exact (fmt_digits n ltac:(lia))|]. split; [apply fmt_not_nil|]. split; [apply fmt_length; [lia|exact Hk]|].
    left. split; [reflexivity|]. rewrite dval_fmt by lia. reflexivity.
Qed.
Lemma hex2_ok b : 0 <= b <= 255 -> exists c d x y, hex2 b = [c; d] /\ hex_digit x c /\ hex_digit y d /\ b = x * 16 + y.
Proof.
  intros Hb.
  set (hc := fun v => if v <? 10 then 48 + v else 55 + v).
  assert (forallb (fun b => str_eqb (hex2 b) [hc (b / 16); hc (b mod 16)]) (map Z.of_nat (seq 0 256)) = true) as Hall by (vm_compute; reflexivity).
  rewrite forallb_forall in Hall. specialize (Hall b).
  assert (In b (map Z.of_nat (seq 0 256))) as Hin by (apply in_map_iff; exists (Z.to_nat b); split; [lia|apply in_seq; lia]).
  apply Hall in Hin. apply str_eqb_eq in Hin. rewrite Hin.
  assert (forall v, 0 <= v <= 15 -> hex_digit v (hc v)) as Hd.
  { intros v Hv. unfold hex_digit, hc. destruct (v <? 10) eqn:E; lia. }
  exists (hc (b / 16)), (hc (b mod 16)), (b / 16), (b mod 16).
  assert (0 <= b / 16 <= 15) by (split; [apply Z.div_pos; lia|apply Z.lt_succ_r, Z.div_lt_upper_bound; lia]).
  assert (0 <= b mod 16 < 16) by (apply Z.mod_pos_bound; lia).
  repeat split; try (apply Hd; lia). rewrite (Z.div_mod b 16) at 1 by lia. lia.
Qed.
Lemma hex_text_bytes s : Forall (fun b => 0 <= b <= 255) s -> hex_text s (concat (map hex2 s)).
Proof.
  induction 1 as [|b s Hb Hs IH]; [constructor|]. cbn [map concat]. destruct (hex2_ok b Hb) as (c & d & x & y & E & Hx & Hy & Eb).
  rewrite E. cbn [app]. rewrite Eb. constructor; assumption.
Qed.
Theorem plain_literal v : plain v -> literal_ok number quoted show v.
Proof.
  unfold literal_ok. destruct v as [t p]. destruct t as [t|]; [|destruct p; [intros []|intros _]].
  2:{ apply LNull. apply word_lower; reflexivity. }
  destruct t; cbn [plain]; intros H; try contradiction; destruct p as [p|]; try contradiction; destruct p; try contradiction; cbn [literal_text v_val v_type].
  - exact (LBinary number quoted (lit "X") s _ (or_introl eq_refl) (hex_text_bytes _ H)).
  - destruct b; [apply LTrue|apply LFalse]; apply word_lower; reflexivity.
  - apply LInt32; [apply (pystr_integer n 10); [change (10 ^ Z.of_nat 10) with 10000000000; lia|lia]|exact H].
  - apply LInt64; [apply (pystr_integer n 19); [change (10 ^ Z.of_nat 19) with 10000000000000000000; lia|lia]|exact H|left; reflexivity].
  - apply (LString number quoted), double_quotes_ok.
Qed.

(** ** Orders, written and read *)
Theorem orderby_round l : l <> [] -> Forall (fun p => printable number quoted show start id (fst p)) l ->
  exists t, OrderByToString X show l = Ok t /\ OrderByFromString X number quoted start id t = Ok l.
Proof.
  intros Hne Hl.
  assert (exists t, OrderByToString X show l = Ok t /\ (forall w, spaces w -> orderby_means number quoted start id l (w ++ t))) as (t & Ht & HO).
  2:{ exists t. split; [exact Ht|]. apply orderby_read. apply (HO []). constructor. }
  induction Hl as [|[e d] l He Hl IH]; [contradiction|]. cbn [fst] in He.
  destruct (printable_means e He) as (t & Ht & M). apply (means_weaken _ _ _) with (m := 2) in M; [|pose proof (printable_strength _ He); lia].
  assert (direction d (32 :: if d then lit "desc" else lit "asc")) as Hd.
  { right. exists [32], (if d then lit "desc" else lit "asc"). repeat split; [repeat constructor|discriminate|].
    destruct d; apply word_lower; reflexivity. }
  destruct l as [|[e2 d2] l].
  - exists (t ++ 32 :: if d then lit "desc" else lit "asc"). split; [cbn [OrderByToString]; rewrite Ht; reflexivity|].
    intros w Hw. pose proof (O1 number quoted start id e t d _ w [] M Hd Hw ltac:(constructor)) as HO. rewrite app_nil_r in HO. exact HO.
  - destruct IH as (r & Hr & HO); [discriminate|].
    exists (t ++ 32 :: (if d then lit "desc" else lit "asc") ++ lit ", " ++ r). split.
    + change (OrderByToString X show ((e, d) :: (e2, d2) :: l)) with
        (t <- text X show e ;; r <- OrderByToString X show ((e2, d2) :: l) ;; Ok (t ++ 32 :: (if d then lit "desc" else lit "asc") ++ lit ", " ++ r)).
      rewrite Ht, Hr. reflexivity.
    + intros w Hw. specialize (HO [32] ltac:(repeat constructor)).
      pose proof (OCons number quoted start id e t d _ w [] _ _ M Hd Hw ltac:(constructor) HO) as HP. exact HP.
Qed.
End Whole.
