(** Proofs about the floats of OdEval.v, with Flocq: sums, products, comparisons and rounding *)
From Coq Require Import ZArith Reals Psatz Lia Lra List Floats.SpecFloat.
From Flocq Require Import Core Relative BinarySingleNaN.
From Verif Require Import Py OdExpr OdEval OdEvalSpec OdEvalSpecF OdEvalFloat.
Open Scope Z_scope.

Lemma valid_B x : valid x -> exists b : binary_float 53 1024, x = B2SF b.
Proof. intros H. exists (SF2B x H). symmetry. apply B2SF_SF2B. Qed.
Lemma finite_B (b : binary_float 53 1024) : finite (B2SF b) <-> is_finite b = true.
Proof. unfold finite. rewrite is_finite_SF_B2SF. reflexivity. Qed.
Lemma real_B (b : binary_float 53 1024) : real (B2SF b) = B2R b.
Proof. apply SF2R_B2SF. Qed.
Lemma add_B (x y : binary_float 53 1024) : fl_add (B2SF x) (B2SF y) = B2SF (Bplus mode_NE x y).
Proof.
  unfold fl_add. case x as [sx|sx| |sx mx ex Bx]; case y as [sy|sy| |sy my ey By]; [now (trivial || simpl; case Bool.eqb)..|]. apply normalize_equiv.
Qed.
Lemma sub_B (x y : binary_float 53 1024) : fl_sub (B2SF x) (B2SF y) = B2SF (Bminus mode_NE x y).
Proof.
  unfold fl_sub. case x as [sx|sx| |sx mx ex Bx]; case y as [sy|sy| |sy my ey By]; [now (trivial || simpl; case Bool.eqb)..|].
  simpl. unfold Zminus. rewrite <- cond_Zopp_negb. apply normalize_equiv.
Qed.
Lemma mul_B (x y : binary_float 53 1024) : fl_mul (B2SF x) (B2SF y) = B2SF (Bmult mode_NE x y).
Proof.
  unfold fl_mul. case x as [sx|sx| |sx mx ex Bx]; case y as [sy|sy| |sy my ey By]; [now trivial..|]. simpl. rewrite B2SF_SF2B. apply round_aux_equiv.
Qed.
Lemma div_B (x y : binary_float 53 1024) : SFdiv 53 1024 (B2SF x) (B2SF y) = B2SF (Bdiv mode_NE x y).
Proof.
  case x as [sx|sx| |sx mx ex Bx]; case y as [sy|sy| |sy my ey By]; [now (trivial || simpl; case Bool.eqb)..|].
  simpl. rewrite B2SF_SF2B. set (melz := SFdiv_core_binary _ _ _ _ _ _). case melz as [[mz ez] lz]. apply round_aux_equiv.
Qed.
Lemma rounds_if (z : binary_float 53 1024) r : 
  (if Rlt_bool (Rabs (rnd r)) (bpow radix2 1024) then B2R z = rnd r /\ is_finite z = true else exists s, B2SF z = S754_infinity s) -> rounds r (B2SF z).
Proof.
  intros H. split; [apply valid_binary_B2SF|]. revert H. case Rlt_bool_spec; intros L H; [left|right]; (split; [exact L|]); [rewrite finite_B, real_B; tauto|exact H].
Qed.
Lemma add_rounds x y : valid x -> valid y -> finite x -> finite y -> rounds (real x + real y) (fl_add x y).
Proof.
  intros (a & ->)%valid_B (b & ->)%valid_B. rewrite !finite_B, !real_B. intros Fa Fb. rewrite add_B. apply rounds_if.
  pose proof (Bplus_correct 53 1024 Hprec Hmax mode_NE a b Fa Fb) as C. change (round radix2 _ _ (B2R a + B2R b)) with (rnd (B2R a + B2R b)) in C.
  destruct (Rlt_bool _ _); [tauto|]. destruct C as [C _]. rewrite C. eexists. reflexivity.
Qed.
Lemma sub_rounds x y : valid x -> valid y -> finite x -> finite y -> rounds (real x - real y) (fl_sub x y).
Proof.
  intros (a & ->)%valid_B (b & ->)%valid_B. rewrite !finite_B, !real_B. intros Fa Fb. rewrite sub_B. apply rounds_if.
  pose proof (Bminus_correct 53 1024 Hprec Hmax mode_NE a b Fa Fb) as C. change (round radix2 _ _ (B2R a - B2R b)) with (rnd (B2R a - B2R b)) in C.
  destruct (Rlt_bool _ _); [tauto|]. destruct C as [C _]. rewrite C. eexists. reflexivity.
Qed.
Lemma mul_rounds x y : valid x -> valid y -> finite x -> finite y -> rounds (real x * real y) (fl_mul x y).
Proof.
  intros (a & ->)%valid_B (b & ->)%valid_B. rewrite !finite_B, !real_B. intros Fa Fb. rewrite mul_B. apply rounds_if.
  pose proof (Bmult_correct 53 1024 Hprec Hmax mode_NE a b) as C. change (round radix2 _ _ (B2R a * B2R b)) with (rnd (B2R a * B2R b)) in C.
  destruct (Rlt_bool _ _); [|rewrite C; eexists; reflexivity]. rewrite Fa, Fb in C. split; [apply C|apply C].
Qed.
Lemma div_rounds x y : valid x -> valid y -> finite x -> finite y -> real y <> 0%R -> exists z, fl_div x y = Ok z /\ rounds (real x / real y) z.
Proof.
  intros (a & ->)%valid_B (b & ->)%valid_B. rewrite !finite_B, !real_B. intros Fa Fb Nb. exists (SFdiv 53 1024 (B2SF a) (B2SF b)).
  split; [apply fl_div_nz; [apply finite_B; exact Fb|rewrite real_B; exact Nb]|]. rewrite div_B. apply rounds_if.
  pose proof (Bdiv_correct 53 1024 Hprec Hmax mode_NE a b Nb) as C. change (round radix2 _ _ (B2R a / B2R b)) with (rnd (B2R a / B2R b)) in C.
  destruct (Rlt_bool _ _); [|rewrite C; eexists; reflexivity]. rewrite Fa in C. split; [apply C|apply C].
Qed.
Lemma fl_div_zero x y : finite y -> real y = 0%R -> fl_div x y = Err ZeroDivisionError.
Proof. intros F H. destruct (div_zero y F H) as (s & ->). reflexivity. Qed.

(** comparisons *)
Lemma compare_real x y : valid x -> valid y -> finite x -> finite y -> SFcompare x y = Some (Rcompare (real x) (real y)).
Proof.
  intros (a & ->)%valid_B (b & ->)%valid_B. rewrite !finite_B, !real_B. intros Fa Fb. exact (Bcompare_correct 53 1024 a b Fa Fb).
Qed.
Lemma compare_IZR_scaled c n k : 0 <= k -> Rcompare (F2R (Float radix2 c (- k))) (IZR n) = (c ?= n * 2 ^ k).
Proof.
  intros K. rewrite <- Rcompare_IZR. rewrite mult_IZR, pow2_bpow by exact K. unfold F2R. cbn [Fnum Fexp].
  rewrite <- (Rcompare_mult_r (bpow radix2 k)) by apply bpow_gt_0. rewrite Rmult_assoc, <- bpow_plus. replace (- k + k) with 0 by lia. cbn [bpow]. rewrite Rmult_1_r. reflexivity.
Qed.
Lemma compare_int_real x n : finite x -> fl_compare_int x n = Some (Rcompare (real x) (IZR n)).
Proof.
  destruct x as [s|s| |s m e]; intros F; try discriminate F; cbn [fl_compare_int real SF2R].
  - change 0%R with (IZR 0). rewrite Rcompare_IZR. reflexivity.
  - f_equal. assert (S : signed s (Z.pos m) = cond_Zopp s (Z.pos m)) by (destruct s; reflexivity). rewrite S. destruct (Z.leb_spec 0 e) as [G|G].
    + rewrite <- Rcompare_IZR, mult_IZR, pow2_bpow by exact G. reflexivity.
    + rewrite <- compare_IZR_scaled by lia. do 3 f_equal. lia.
Qed.
Lemma double_max_real : IZR double_max = (bpow radix2 1024 - bpow radix2 971)%R.
Proof. unfold double_max. rewrite minus_IZR, !pow2_bpow by lia. reflexivity. Qed.
Lemma valid_max x : valid x -> (Rabs (real x) <= IZR double_max)%R.
Proof.
  intros (a & ->)%valid_B. rewrite real_B, double_max_real. exact (abs_B2R_le_emax_minus_prec 53 1024 Hprec a).
Qed.
(** a Double can be set to any binary64 number *)
Lemma set_double x : valid x -> set_float double_max (PF x) = Ok (PF x).
Proof.
  intros V. pose proof (valid_max x V) as M. unfold set_float. cbn [num_of PF].
  assert (C : finite x -> is_c Lt (num_compare (NF x) (- double_max)) || is_c Gt (num_compare (NF x) double_max) = false).
  { intros F. cbn [num_compare]. rewrite !(compare_int_real _ _ F). apply Rabs_le_inv in M. rewrite opp_IZR.
    destruct (Rcompare_spec (real x) (- IZR double_max)); [lra| |]; (destruct (Rcompare_spec (real x) (IZR double_max)); [reflexivity|reflexivity|lra]). }
  destruct x; try reflexivity; rewrite C by reflexivity; reflexivity.
Qed.
(** an integer as a Double *)
Lemma double_max_big : 2 ^ 64 < double_max. Proof. vm_compute. reflexivity. Qed.
Lemma single_max_big : 2 ^ 64 < single_max. Proof. vm_compute. reflexivity. Qed.
Lemma set_float_int max n : 2 ^ 64 < max -> Z.abs n < 2 ^ 64 -> set_float max (PInt n) = Ok (PF (fl_of_int n)).
Proof.
  intros B H. unfold set_float. cbn [num_of num_compare].
  destruct (Z.compare_spec n (- max)) as [?|?|?]; [lia|lia|]. destruct (Z.compare_spec n max) as [?|?|?]; [lia|reflexivity|lia].
Qed.
Lemma of_int_valid n : valid (fl_of_int n).
Proof. unfold fl_of_int, valid. rewrite normalize_equiv. apply valid_binary_B2SF. Qed.

(** the integer parts *)
Lemma finite_ratio s m e : e < 0 -> real (S754_finite s m e) = (IZR (signed s (Z.pos m)) / IZR (2 ^ (- e)))%R.
Proof.
  intros G. cbn [real SF2R]. assert (S : cond_Zopp s (Z.pos m) = signed s (Z.pos m)) by (destruct s; reflexivity). rewrite S.
  rewrite pow2_bpow by lia. unfold F2R, Rdiv. cbn [Fnum Fexp]. rewrite <- bpow_opp, Z.opp_involutive. reflexivity.
Qed.
Lemma below_floor n d : 0 < d -> below n d = Zfloor (IZR n / IZR d).
Proof. intros H. symmetry. apply Zfloor_div. lia. Qed.
Lemma above_ceil n d : 0 < d -> above n d = Zceil (IZR n / IZR d).
Proof. intros H. unfold above, Zceil. f_equal. rewrite <- Zfloor_div by lia. f_equal. rewrite opp_IZR. field. apply not_0_IZR. lia. Qed.
Lemma half_even_nearest n d : 0 < d -> half_even n d = ZnearestE (IZR n / IZR d).
Proof.
  intros H. assert (Pd : (0 < IZR d)%R) by (apply IZR_lt; exact H). unfold half_even, Znearest. rewrite Zfloor_div by lia. set (q := n / d).
  pose proof (Z.div_mod n d ltac:(lia)) as D. fold q in D. pose proof (Z.mod_pos_bound n d H) as M.
  assert (C : Rcompare (IZR n / IZR d - IZR q) (/ 2) = (2 * (n mod d) ?= d)).
  { rewrite <- Rcompare_IZR. rewrite <- (Rcompare_mult_r (2 * IZR d)) by lra. f_equal; [|field].
    rewrite mult_IZR. replace (IZR (n mod d)) with (IZR n - IZR d * IZR q)%R; [field; lra|]. rewrite <- mult_IZR, <- minus_IZR. f_equal. lia. }
  rewrite C. destruct (Z.compare_spec (2 * (n mod d)) d) as [T|T|T]; [|reflexivity|].
  - assert (N0 : n mod d <> 0) by lia. assert (U : Zceil (IZR n / IZR d) = q + 1).
    { apply Zceil_imp. rewrite plus_IZR, minus_IZR, plus_IZR. replace (IZR n) with (IZR d * IZR q + IZR (n mod d))%R by (rewrite <- mult_IZR, <- plus_IZR; f_equal; lia).
      assert (A : (0 < IZR (n mod d) < IZR d)%R) by (split; apply IZR_lt; lia). assert (Q : ((IZR d * IZR q + IZR (n mod d)) / IZR d = IZR q + IZR (n mod d) / IZR d)%R) by (field; lra). rewrite Q.
      assert (0 < IZR (n mod d) / IZR d)%R by (apply Rdiv_lt_0_compat; lra). assert (IZR (n mod d) / IZR d < 1)%R by (apply Rmult_lt_reg_r with (IZR d); [lra|]; unfold Rdiv; rewrite Rmult_assoc, Rinv_l by lra; lra). lra. }
    rewrite U. destruct (Z.even q); reflexivity.
  - symmetry. apply Zceil_imp. rewrite minus_IZR, plus_IZR. replace (IZR n) with (IZR d * IZR q + IZR (n mod d))%R by (rewrite <- mult_IZR, <- plus_IZR; f_equal; lia).
    assert (A : (0 < IZR (n mod d) < IZR d)%R) by (split; apply IZR_lt; lia). assert (Q : ((IZR d * IZR q + IZR (n mod d)) / IZR d = IZR q + IZR (n mod d) / IZR d)%R) by (field; lra). rewrite Q.
    assert (0 < IZR (n mod d) / IZR d)%R by (apply Rdiv_lt_0_compat; lra). assert (IZR (n mod d) / IZR d < 1)%R by (apply Rmult_lt_reg_r with (IZR d); [lra|]; unfold Rdiv; rewrite Rmult_assoc, Rinv_l by lra; lra). lra.
Qed.
Lemma valid_bits s m e : valid (S754_finite s m e) -> Z.pos m < 2 ^ 53 /\ -1074 <= e <= 971.
Proof.
  intros V. unfold valid in V. cbn [valid_binary] in V.
  unfold bounded in V. apply andb_prop in V as [C B]. unfold canonical_mantissa in C. apply Zeq_bool_eq in C. apply Zle_bool_imp_le in B. unfold fexp, emin in C.
  change (digits2_pos m) with (Digits.digits2_pos m) in C. rewrite Digits.Zpos_digits2_pos in C.
  pose proof (Digits.Zdigits_correct radix2 (Z.pos m)) as [_ U]. cbn [Z.abs] in U. split; [|lia].
  assert (Digits.Zdigits radix2 (Z.pos m) <= 53) by lia. pose proof (Zpower_le radix2 (Digits.Zdigits radix2 (Z.pos m)) 53 ltac:(lia)).
  change (Zpower radix2 53) with (2 ^ 53) in *. lia.
Qed.
Lemma normalize_valid m e z : valid (SpecFloat.binary_normalize 53 1024 m e z).
Proof. unfold valid. rewrite normalize_equiv. apply valid_binary_B2SF. Qed.
Lemma integral_real f (F : R -> Z) x : (forall n d, 0 < d -> f n d = F (IZR n / IZR d)%R) -> (forall n, F (IZR n) = n) ->
  (forall n d, 2 <= d -> Z.abs n < 2 ^ 53 -> Z.abs (f n d) < 2 ^ 53) -> valid x -> finite x ->
  valid (fl_integral f x) /\ finite (fl_integral f x) /\ real (fl_integral f x) = IZR (F (real x)).
Proof.
  intros Hf HF Hs V Fx. destruct x as [s|s| |s m e]; try discriminate Fx.
  - split; [exact V|]. split; [exact Fx|]. cbn [fl_integral real SF2R]. change 0%R with (IZR 0). rewrite HF. reflexivity.
  - destruct (valid_bits s m e V) as [Bm Be]. cbn [fl_integral]. destruct (Z.leb_spec 0 e) as [G|G].
    + split; [exact V|]. split; [exact Fx|]. assert (I : real (S754_finite s m e) = IZR (cond_Zopp s (Z.pos m) * 2 ^ e)) by (rewrite mult_IZR, pow2_bpow by exact G; reflexivity).
      rewrite I, HF. reflexivity.
    + split; [apply normalize_valid|]. pose proof (pow2_pos (- e) ltac:(lia)) as P2. assert (D2 : 2 <= 2 ^ (- e)) by (change 2 with (2 ^ 1) at 1; apply Z.pow_le_mono_r; lia).
      destruct (normalize_exact (f (signed s (Z.pos m)) (2 ^ (- e))) 0 s) as [A B]; [apply Hs; [exact D2|destruct s; cbn [signed]; lia]|lia|].
      split; [exact A|]. rewrite B, F2R_0, finite_ratio by exact G. rewrite Hf by exact P2. reflexivity.
Qed.
Lemma floor_small n d : 2 <= d -> Z.abs n < 2 ^ 53 -> Z.abs (below n d) < 2 ^ 53.
Proof.
  intros H B. unfold below. apply Z.abs_lt in B. apply Z.abs_lt. pose proof (Z.div_mod n d ltac:(lia)). pose proof (Z.mod_pos_bound n d ltac:(lia)). nia.
Qed.
Lemma ceil_small n d : 2 <= d -> Z.abs n < 2 ^ 53 -> Z.abs (above n d) < 2 ^ 53.
Proof. intros H B. unfold above. rewrite Z.abs_opp. apply floor_small; [exact H|rewrite Z.abs_opp; exact B]. Qed.
Lemma half_even_small n d : 2 <= d -> Z.abs n < 2 ^ 53 -> Z.abs (half_even n d) < 2 ^ 53.
Proof.
  intros H B. apply Z.abs_lt in B. apply Z.abs_lt. unfold half_even. pose proof (Z.div_mod n d ltac:(lia)). pose proof (Z.mod_pos_bound n d ltac:(lia)).
  destruct (Z.compare_spec (2 * (n mod d)) d); [destruct (Z.even _)| |]; nia.
Qed.
Lemma floor_int n : Zfloor (IZR n) = n. Proof. apply Zfloor_IZR. Qed.
Lemma ceil_int n : Zceil (IZR n) = n. Proof. apply Zceil_IZR. Qed.
Lemma nearest_int n : ZnearestE (IZR n) = n. Proof. apply (Zrnd_IZR (Znearest (fun x => negb (Z.even x)))). Qed.
