(** Proofs about the floats of OdEval.v, with Flocq: what the operations of the standard library's
    [SpecFloat] give as real numbers *)
From Coq Require Import ZArith Reals Psatz Lia Lra Floats.SpecFloat.
From Flocq Require Import Core Relative BinarySingleNaN.
From Verif Require Import Py OdExpr OdEval OdEvalSpec OdEvalSpecF.
Open Scope Z_scope.

Global Instance Hprec : Prec_gt_0 53 := eq_refl.
Global Instance Hmax : Prec_lt_emax 53 1024 := eq_refl.
Lemma nearest_even_equiv s m l : round_nearest_even m l = choice_mode mode_NE s m l.
Proof. case l; [reflexivity|intro c]. case c; [|reflexivity..]. simpl. unfold Round.cond_incr. now case Z.even. Qed.
Lemma round_aux_equiv sx mx ex lx : SpecFloat.binary_round_aux 53 1024 sx mx ex lx = binary_round_aux 53 1024 mode_NE sx mx ex lx.
Proof.
  unfold SpecFloat.binary_round_aux, binary_round_aux. set (mrse' := shr_fexp _ _ _). case mrse'; intros mrs' e'; simpl.
  now rewrite (nearest_even_equiv sx).
Qed.
Lemma round_equiv s m e : SpecFloat.binary_round 53 1024 s m e = binary_round 53 1024 mode_NE s m e.
Proof. unfold SpecFloat.binary_round, binary_round, shl_align_fexp. set (mez := shl_align _ _ _); case mez as [mz ez]. apply round_aux_equiv. Qed.
Lemma normalize_equiv m e szero : SpecFloat.binary_normalize 53 1024 m e szero = B2SF (binary_normalize 53 1024 Hprec Hmax mode_NE m e szero).
Proof. case m as [|p|p]; [reflexivity| |]; simpl; rewrite B2SF_SF2B; apply round_equiv. Qed.

Lemma normalize_real m e z : (Rabs (rnd (F2R (Float radix2 m e))) < bpow radix2 1024)%R ->
  finite (SpecFloat.binary_normalize 53 1024 m e z) /\ real (SpecFloat.binary_normalize 53 1024 m e z) = rnd (F2R (Float radix2 m e)).
Proof.
  intros H. rewrite normalize_equiv. pose proof (binary_normalize_correct 53 1024 Hprec Hmax mode_NE m e z) as C. cbv zeta in C.
  rewrite Rlt_bool_true in C by exact H. destruct C as (A & B & _). unfold finite, real. rewrite is_finite_SF_B2SF, SF2R_B2SF. split; [exact B|exact A].
Qed.
(** numbers of 53 bits are not rounded *)
Lemma rnd_exact m e : Z.abs m < 2 ^ 53 -> -1074 <= e -> rnd (F2R (Float radix2 m e)) = F2R (Float radix2 m e).
Proof.
  intros H K. unfold rnd. apply round_generic; [apply valid_rnd_N|]. apply generic_format_FLT. exists (Float radix2 m e); [reflexivity|exact H|exact K].
Qed.
Lemma small_lt m e : Z.abs m < 2 ^ 53 -> e <= 971 -> (Rabs (F2R (Float radix2 m e)) < bpow radix2 1024)%R.
Proof.
  intros H K. rewrite <- F2R_Zabs. apply Rlt_le_trans with (F2R (Float radix2 (2 ^ 53) e)); [apply F2R_lt; exact H|].
  change (2 ^ 53)%Z with (Zpower radix2 53). rewrite <- (Zmult_1_l (Zpower radix2 53)). replace (F2R (Float radix2 (1 * Zpower radix2 53) e)) with (bpow radix2 (53 + e)); [apply bpow_le; lia|].
  unfold F2R. cbn [Fnum Fexp]. rewrite Zmult_1_l, IZR_Zpower by lia. apply bpow_plus.
Qed.
Lemma normalize_exact m e z : Z.abs m < 2 ^ 53 -> -1074 <= e <= 971 ->
  finite (SpecFloat.binary_normalize 53 1024 m e z) /\ real (SpecFloat.binary_normalize 53 1024 m e z) = F2R (Float radix2 m e).
Proof.
  intros H K. rewrite <- (rnd_exact m e H) by lia. apply normalize_real. rewrite rnd_exact by lia. apply small_lt; lia.
Qed.
Lemma F2R_0 n : F2R (Float radix2 n 0) = IZR n.
Proof. unfold F2R. cbn [Fnum Fexp bpow]. ring. Qed.
Lemma of_int_real n : Z.abs n < 2 ^ 53 -> finite (fl_of_int n) /\ real (fl_of_int n) = IZR n.
Proof. intros H. rewrite <- F2R_0. apply normalize_exact; lia. Qed.

(** int(x) *)
Lemma fl_int_real x : finite x -> fl_int x = Ok (Ztrunc (real x)).
Proof.
  destruct x as [s|s| |s m e]; intros H; try discriminate H; cbn [fl_int real SF2R].
  - change 0%R with (IZR 0). rewrite Ztrunc_IZR. reflexivity.
  - f_equal. assert (P : forall m e, Ztrunc (F2R (Float radix2 (Z.pos m) e)) = whole m e).
    { clear. intros m e. unfold whole. destruct (Z.leb_spec 0 e) as [G|G].
      - rewrite <- (Ztrunc_IZR (Z.pos m * 2 ^ e)). f_equal. unfold F2R. cbn [Fnum Fexp]. rewrite mult_IZR. f_equal. change 2 with (radix_val radix2). rewrite IZR_Zpower by lia. reflexivity.
      - assert (D : F2R (Float radix2 (Z.pos m) e) = (IZR (Z.pos m) / IZR (2 ^ (- e)))%R).
        { unfold F2R, Rdiv. cbn [Fnum Fexp]. f_equal. change (2 ^ (- e)) with (Zpower radix2 (- e)). rewrite IZR_Zpower by lia. rewrite <- bpow_opp. f_equal. lia. }
        rewrite D, Ztrunc_floor; [apply Zfloor_div; pose proof (Z.pow_pos_nonneg 2 (- e)); lia|].
        apply Rmult_le_pos; [apply IZR_le; lia|]. apply Rlt_le, Rinv_0_lt_compat, IZR_lt. apply Z.pow_pos_nonneg; lia. }
    destruct s; cbn [cond_Zopp signed]; [|symmetry; apply P]. rewrite F2R_Zopp, Ztrunc_opp, P. reflexivity.
Qed.

(** x/y *)
Lemma div_real x y : finite x -> finite y -> real y <> 0%R -> (Rabs (rnd (real x / real y)) < bpow radix2 1024)%R ->
  finite (SFdiv 53 1024 x y) /\ real (SFdiv 53 1024 x y) = rnd (real x / real y).
Proof.
  intros Fx Fy Hy B. destruct y as [sy|sy| |sy my ey]; try discriminate Fy; [exfalso; apply Hy; reflexivity|].
  destruct x as [sx|sx| |sx mx ex]; try discriminate Fx.
  - split; [reflexivity|]. cbn [SFdiv real SF2R]. unfold Rdiv. rewrite Rmult_0_l. unfold rnd. rewrite round_0; [reflexivity|apply valid_rnd_N].
  - cbn [SFdiv]. pose proof (Bdiv_correct_aux 53 1024 Hprec Hmax mode_NE sx mx ex sy my ey) as C. cbv zeta in C.
    destruct (SFdiv_core_binary 53 1024 (Z.pos mx) ex (Z.pos my) ey) as [[mz ez] lz]. rewrite round_aux_equiv. destruct C as (_ & C).
    rewrite Rlt_bool_true in C by exact B. destruct C as (R1 & F1 & _). split; [exact F1|exact R1].
Qed.
Lemma rnd_opp x : rnd (- x) = (- rnd x)%R.
Proof. unfold rnd. apply round_NE_opp. Qed.
Lemma rnd_le x y : (x <= y)%R -> (rnd x <= rnd y)%R.
Proof. unfold rnd. intros H. apply round_le; [apply FLT_exp_valid; reflexivity|apply valid_rnd_N|exact H]. Qed.
Lemma rnd_int n : Z.abs n <= 2 ^ 53 -> rnd (IZR n) = IZR n.
Proof.
  intros H. destruct (Z.eq_dec (Z.abs n) (2 ^ 53)) as [E|E].
  - assert (D : IZR n = F2R (Float radix2 (Z.sgn n) 53)).
    { unfold F2R. cbn [Fnum Fexp]. rewrite <- (IZR_Zpower radix2 53) by lia. rewrite <- mult_IZR. f_equal. change (Zpower radix2 53) with (2 ^ 53). rewrite <- E. symmetry. rewrite Z.mul_comm. apply Z.abs_sgn. }
    rewrite D. apply rnd_exact; [|lia]. destruct n; cbn; lia.
  - rewrite <- F2R_0. apply rnd_exact; lia.
Qed.
(** the quotient of two small integers, rounded, is not rounded to the next integer *)
Lemma rnd_quotient a b : 0 <= a < 2 ^ 53 -> 0 < b < 2 ^ 53 -> (IZR (a / b) <= rnd (IZR a / IZR b) < IZR (a / b) + 1)%R.
Proof.
  intros Ha Hb. set (n := a / b). pose proof (Z.div_mod a b ltac:(lia)) as D. fold n in D. pose proof (Z.mod_pos_bound a b ltac:(lia)) as M.
  assert (N : 0 <= n < 2 ^ 53) by (split; [apply Z.div_pos; lia|unfold n; apply Z.div_lt_upper_bound; nia]).
  assert (Pb : (0 < IZR b)%R) by (apply IZR_lt; lia).
  assert (L : (IZR n <= IZR a / IZR b)%R). { apply Rmult_le_reg_r with (IZR b); [exact Pb|]. unfold Rdiv. rewrite Rmult_assoc, Rinv_l, Rmult_1_r by lra. rewrite <- mult_IZR. apply IZR_le. nia. }
  assert (U : (IZR a / IZR b <= IZR (n + 1))%R). { apply Rmult_le_reg_r with (IZR b); [exact Pb|]. unfold Rdiv. rewrite Rmult_assoc, Rinv_l, Rmult_1_r by lra. rewrite <- mult_IZR. apply IZR_le. nia. }
  split; [rewrite <- (rnd_int n) by lia; apply rnd_le; exact L|].
  rewrite <- plus_IZR. destruct (Rle_lt_or_eq_dec (rnd (IZR a / IZR b)) (IZR (n + 1))) as [G|G]; [rewrite <- (rnd_int (n + 1)) by lia; apply rnd_le; exact U|exact G|exfalso].
  destruct (Z.eq_dec a 0) as [->|Na].
  { unfold Rdiv in G. rewrite Rmult_0_l in G. change 0%R with (IZR 0) in G. rewrite rnd_int in G by (cbn; lia). apply eq_IZR in G. lia. }
  assert (Pa : (0 < IZR a)%R) by (apply IZR_lt; lia).
  assert (Pos : (0 < IZR a / IZR b)%R) by (apply Rdiv_lt_0_compat; assumption).
  assert (Big : (bpow radix2 (-1074 + 53 - 1) <= Rabs (IZR a / IZR b))%R).
  { rewrite Rabs_pos_eq by lra. apply Rle_trans with (bpow radix2 (-53)); [apply bpow_le; lia|]. change (-53) with (- (53)). rewrite bpow_opp.
    apply Rle_trans with (/ IZR b)%R.
    - apply Rinv_le; [exact Pb|]. rewrite <- (IZR_Zpower radix2 53) by lia. apply IZR_le. change (Zpower radix2 53) with (2 ^ 53). lia.
    - unfold Rdiv. rewrite <- (Rmult_1_l (/ IZR b)) at 1. apply Rmult_le_compat_r; [apply Rlt_le, Rinv_0_lt_compat; exact Pb|]. apply IZR_le. lia. }
  pose proof (relative_error_N_FLT radix2 (-1074) 53 eq_refl (fun x => negb (Z.even x)) (IZR a / IZR b) Big) as E.
  change (round radix2 (FLT_exp (-1074) 53) (Znearest (fun x => negb (Z.even x))) (IZR a / IZR b)) with (rnd (IZR a / IZR b)) in E.
  rewrite G in E. rewrite (Rabs_pos_eq (IZR a / IZR b)) in E by lra. rewrite Rabs_pos_eq in E by lra.
  assert (E2 : ((IZR (n + 1) * IZR b - IZR a) * bpow radix2 53 <= IZR a)%R).
  { apply Rmult_le_compat_r with (r := (IZR b * bpow radix2 53)%R) in E; [|apply Rmult_le_pos; [lra|apply bpow_ge_0]].
    replace ((IZR (n + 1) - IZR a / IZR b) * (IZR b * bpow radix2 53))%R with ((IZR (n + 1) * IZR b - IZR a) * bpow radix2 53)%R in E by (field; lra).
    change (- (53) + 1) with (-52) in E.
    replace (/ 2 * bpow radix2 (-52) * (IZR a / IZR b) * (IZR b * bpow radix2 53))%R with (IZR a * (/ 2 * (bpow radix2 (-52) * bpow radix2 53)))%R in E by (field; lra).
    rewrite <- bpow_plus in E. change (-52 + 53) with 1 in E. replace (bpow radix2 1) with 2%R in E by reflexivity. lra. }
  rewrite <- (IZR_Zpower radix2 53) in E2 by lia. rewrite <- mult_IZR, <- minus_IZR, <- mult_IZR in E2. apply le_IZR in E2. change (Zpower radix2 53) with (2 ^ 53) in E2. nia.
Qed.
Lemma div_zero x : finite x -> real x = 0%R -> exists s, x = S754_zero s.
Proof.
  destruct x as [s|s| |s m e]; intros F H; try discriminate F; [eauto|]. exfalso. cbn [real SF2R] in H. apply eq_0_F2R in H. destruct s; discriminate H.
Qed.
Lemma fl_div_nz x y : finite y -> real y <> 0%R -> fl_div x y = Ok (SFdiv 53 1024 x y).
Proof. destruct y; intros F H; try discriminate F; [exfalso; apply H; reflexivity|reflexivity]. Qed.
Lemma trunc_quotient a b : Z.abs a < 2 ^ 53 -> Z.abs b < 2 ^ 53 -> b <> 0 -> Ztrunc (rnd (IZR a / IZR b)) = Z.quot a b /\ (Rabs (rnd (IZR a / IZR b)) < bpow radix2 1024)%R.
Proof.
  assert (P : forall a b, 0 <= a < 2 ^ 53 -> 0 < b < 2 ^ 53 -> Ztrunc (rnd (IZR a / IZR b)) = Z.quot a b /\ (Rabs (rnd (IZR a / IZR b)) < bpow radix2 1024)%R).
  { clear. intros a b Ha Hb. pose proof (rnd_quotient a b Ha Hb) as [L U]. assert (N : 0 <= a / b < 2 ^ 53) by (split; [apply Z.div_pos; lia|apply Z.div_lt_upper_bound; nia]).
    assert (N0 : (0 <= IZR (a / b))%R) by (apply IZR_le; lia).
    split.
    - rewrite Ztrunc_floor by lra. rewrite Z.quot_div_nonneg by lia. apply Zfloor_imp. rewrite plus_IZR. split; assumption.
    - rewrite Rabs_pos_eq by lra. apply Rlt_le_trans with (IZR (2 ^ 53)); [apply Rlt_le_trans with (1 := U); rewrite <- plus_IZR; apply IZR_le; lia|].
      change (2 ^ 53) with (Zpower radix2 53). rewrite IZR_Zpower by lia. apply bpow_le. lia. }
  intros Ha Hb Nb. destruct (Z.le_gt_cases 0 a) as [Sa|Sa], (Z.le_gt_cases 0 b) as [Sb|Sb].
  - apply P; lia.
  - destruct (P a (- b) ltac:(lia) ltac:(lia)) as [T B]. rewrite opp_IZR in T, B.
    replace (IZR a / - IZR b)%R with (- (IZR a / IZR b))%R in T, B by (field; apply not_0_IZR; lia).
    rewrite rnd_opp in T, B. rewrite Ztrunc_opp in T. rewrite Rabs_Ropp in B. rewrite Z.quot_opp_r in T by lia. split; [apply Z.opp_inj; exact T|exact B].
  - destruct (P (- a) b ltac:(lia) ltac:(lia)) as [T B]. rewrite opp_IZR in T, B.
    replace (- IZR a / IZR b)%R with (- (IZR a / IZR b))%R in T, B by (field; apply not_0_IZR; lia).
    rewrite rnd_opp in T, B. rewrite Ztrunc_opp in T. rewrite Rabs_Ropp in B. rewrite Z.quot_opp_l in T by lia. split; [apply Z.opp_inj; exact T|exact B].
  - destruct (P (- a) (- b) ltac:(lia) ltac:(lia)) as [T B]. rewrite !opp_IZR in T, B.
    replace (- IZR a / - IZR b)%R with (IZR a / IZR b)%R in T, B by (field; apply not_0_IZR; lia).
    rewrite Z.quot_opp_opp in T by lia. split; [exact T|exact B].
Qed.
Lemma int_div_small a b : Z.abs a < 2 ^ 53 -> Z.abs b < 2 ^ 53 -> b <> 0 -> int_div (PInt a) (PInt b) = Ok (PInt (Z.quot a b)).
Proof.
  intros Ha Hb Nb. unfold int_div. cbn [to_float num_of bind]. destruct (of_int_real a Ha) as [Fa Ra]. destruct (of_int_real b Hb) as [Fb Rb].
  assert (Nz : real (fl_of_int b) <> 0%R) by (rewrite Rb; apply not_0_IZR; exact Nb).
  rewrite (fl_div_nz _ _ Fb Nz). cbn [bind]. destruct (trunc_quotient a b Ha Hb Nb) as [T B].
  destruct (div_real _ _ Fa Fb Nz ltac:(rewrite Ra, Rb; exact B)) as [Fq Rq]. rewrite (fl_int_real _ Fq), Rq, Ra, Rb, T. reflexivity.
Qed.
Lemma int_div_zero a : int_div (PInt a) (PInt 0) = Err ZeroDivisionError.
Proof. reflexivity. Qed.

(** math.fmod *)
Lemma of_int_zero : fl_of_int 0 = S754_zero false. Proof. reflexivity. Qed.
(** a number that is an integer, as integer and exponent *)
Lemma finite_int_value s m e n : real (S754_finite s m e) = IZR n -> forall k, k <= e -> k <= 0 ->
  Z.pos m * 2 ^ (e - k) = Z.abs n * 2 ^ (- k) /\ (n < 0 <-> s = true).
Proof.
  intros H k Hk K0. cbn [real SF2R] in H. split.
  - assert (A : F2R (Float radix2 (Z.pos m) e) = IZR (Z.abs n)).
    { rewrite abs_IZR, <- H, <- F2R_Zabs, abs_cond_Zopp. reflexivity. }
    apply eq_IZR. rewrite !mult_IZR. change 2 with (radix_val radix2). rewrite !IZR_Zpower by lia. rewrite <- A. unfold F2R. cbn [Fnum Fexp]. rewrite Rmult_assoc, <- bpow_plus. reflexivity.
  - split.
    + intros L. destruct s; [reflexivity|exfalso]. assert (G : (0 < F2R (Float radix2 (cond_Zopp false (Z.pos m)) e))%R) by (apply F2R_gt_0; reflexivity). rewrite H in G. apply lt_IZR in G. lia.
    + intros ->. assert (G : (F2R (Float radix2 (cond_Zopp true (Z.pos m)) e) < 0)%R) by (apply F2R_lt_0; reflexivity). rewrite H in G. apply lt_IZR in G. exact G.
Qed.
(** the numbers that come out of float(n) have an exponent that is not below -1074 and 53 bits *)
Lemma of_int_bounded n s m e : fl_of_int n = S754_finite s m e -> Z.pos m < 2 ^ 53 /\ -1074 <= e <= 971.
Proof.
  unfold fl_of_int. rewrite normalize_equiv. set (b := binary_normalize _ _ _ _ _ _ _ _). intros H. pose proof (valid_binary_B2SF 53 1024 b) as V. rewrite H in V. cbn [valid_binary] in V.
  unfold bounded in V. apply andb_prop in V as [C B]. unfold canonical_mantissa in C. apply Zeq_bool_eq in C. apply Zle_bool_imp_le in B. unfold fexp, emin in C.
  change (digits2_pos m) with (Digits.digits2_pos m) in C. rewrite Digits.Zpos_digits2_pos in C.
  pose proof (Digits.Zdigits_correct radix2 (Z.pos m)) as [_ U]. cbn [Z.abs] in U. split; [|lia].
  assert (Digits.Zdigits radix2 (Z.pos m) <= 53) by lia. pose proof (Zpower_le radix2 (Digits.Zdigits radix2 (Z.pos m)) 53 ltac:(lia)).
  change (Zpower radix2 53) with (2 ^ 53) in *. lia.
Qed.
Lemma pow2_bpow k : 0 <= k -> IZR (2 ^ k) = bpow radix2 k.
Proof. intros H. change 2 with (radix_val radix2). apply IZR_Zpower. exact H. Qed.
Lemma scaled r k j v : j <= k -> j <= 0 -> r * 2 ^ (k - j) = v * 2 ^ (- j) -> F2R (Float radix2 r k) = IZR v.
Proof.
  intros H1 H2 C. apply (f_equal IZR) in C. rewrite !mult_IZR, !pow2_bpow in C by lia. unfold F2R. cbn [Fnum Fexp].
  assert (K : bpow radix2 k = (bpow radix2 (k - j) * bpow radix2 j)%R) by (rewrite <- bpow_plus; f_equal; lia).
  rewrite K, <- Rmult_assoc, C, Rmult_assoc, <- bpow_plus. replace (- j + j) with 0 by lia. cbn [bpow]. ring.
Qed.
Lemma pow2_pos k : 0 <= k -> 0 < 2 ^ k. Proof. intros. apply Z.pow_pos_nonneg; lia. Qed.
Lemma int_mod_small a b : Z.abs a < 2 ^ 53 -> Z.abs b < 2 ^ 53 -> b <> 0 -> int_mod (PInt a) (PInt b) = Ok (PInt (Z.rem a b)).
Proof.
  intros Ha Hb Nb. unfold int_mod. cbn [to_float num_of bind]. destruct (of_int_real a Ha) as [Fa Ra]. destruct (of_int_real b Hb) as [Fb Rb].
  destruct (fl_of_int b) as [sy|sy| |sy my ey] eqn:Eb; try discriminate Fb; [exfalso; apply (not_0_IZR b Nb); rewrite <- Rb; reflexivity|].
  destruct (fl_of_int a) as [sx|sx| |sx mx ex] eqn:Ea; try discriminate Fa.
  - assert (a = 0) as -> by (apply eq_IZR; rewrite <- Ra; reflexivity). cbn [fl_fmod bind fl_int]. reflexivity.
  - destruct (of_int_bounded a _ _ _ Ea) as [Ma Xa]. destruct (of_int_bounded b _ _ _ Eb) as [Mb Xb].
    cbn [fl_fmod]. set (k := Z.min ex ey). set (r := (Z.pos mx * 2 ^ (ex - k)) mod (Z.pos my * 2 ^ (ey - k))). cbn [bind].
    pose proof (pow2_pos (ex - k) ltac:(lia)) as P1. pose proof (pow2_pos (ey - k) ltac:(lia)) as P2.
    assert (R0 : 0 <= r < Z.pos my * 2 ^ (ey - k)) by (apply Z.mod_pos_bound; nia).
    assert (R1 : r <= Z.pos mx * 2 ^ (ex - k)) by (apply Z.mod_le; nia).
    assert (Rs : r < 2 ^ 53).
    { destruct (Z.min_spec ex ey) as [[L Ek]|[L Ek]]; fold k in Ek.
      - rewrite Ek, Z.sub_diag in R1. change (2 ^ 0) with 1 in R1. lia.
      - rewrite Ek, Z.sub_diag in R0. change (2 ^ 0) with 1 in R0. lia. }
    (* r * 2^k = |a| mod |b| *)
    assert (V : F2R (Float radix2 r k) = IZR (Z.abs a mod Z.abs b)).
    { set (j := Z.min k 0). assert (Hj1 : j <= k) by apply Z.le_min_l. assert (Hj2 : j <= 0) by apply Z.le_min_r. destruct (finite_int_value sx mx ex a Ra j ltac:(lia) ltac:(lia)) as [A _]. destruct (finite_int_value sy my ey b Rb j ltac:(lia) ltac:(lia)) as [B _].
      assert (A' : Z.pos mx * 2 ^ (ex - k) * 2 ^ (k - j) = Z.abs a * 2 ^ (- j)) by (rewrite <- A, <- Z.mul_assoc, <- Z.pow_add_r by lia; do 2 f_equal; lia).
      assert (B' : Z.pos my * 2 ^ (ey - k) * 2 ^ (k - j) = Z.abs b * 2 ^ (- j)) by (rewrite <- B, <- Z.mul_assoc, <- Z.pow_add_r by lia; do 2 f_equal; lia).
      pose proof (pow2_pos (k - j) ltac:(lia)) as Pk. pose proof (pow2_pos (- j) ltac:(lia)) as Pj.
      assert (C : r * 2 ^ (k - j) = (Z.abs a mod Z.abs b) * 2 ^ (- j)).
      { assert (Nk : 2 ^ (k - j) <> 0) by (apply Z.neq_sym, Z.lt_neq; exact Pk). assert (Nj : 2 ^ (- j) <> 0) by (apply Z.neq_sym, Z.lt_neq; exact Pj).
        assert (Nm : Z.pos my * 2 ^ (ey - k) <> 0) by (apply Z.neq_sym, Z.lt_neq, Z.mul_pos_pos; [reflexivity|exact P2]).
        unfold r. rewrite <- (Z.mul_mod_distr_r _ _ _ Nm Nk). rewrite <- (Z.mul_mod_distr_r (Z.abs a) (Z.abs b) (2 ^ (- j))) by (assumption || (clear - Nb; lia)).
        rewrite A', B'. reflexivity. }
      clear - C Hj1 Hj2. clearbody r k j. exact (scaled r k j _ Hj1 Hj2 C). }
    destruct (normalize_exact (signed sx r) k sx) as [Fr Rr]; [destruct sx; cbn [signed]; lia|lia|].
    rewrite (fl_int_real _ Fr), Rr. cbn [bind]. do 2 f_equal.
    assert (Sg : F2R (Float radix2 (signed sx r) k) = IZR (signed sx (Z.abs a mod Z.abs b))).
    { destruct sx; cbn [signed]; [rewrite F2R_Zopp, V, opp_IZR; reflexivity|exact V]. }
    rewrite Sg, Ztrunc_IZR. destruct (finite_int_value sx mx ex a Ra (Z.min ex 0) ltac:(lia) ltac:(lia)) as [_ S].
    destruct sx; cbn [signed].
    + assert (L : a < 0) by (apply S; reflexivity). clear - L Nb. rewrite (Z.abs_neq a) by lia. rewrite <- Z.rem_mod_nonneg, Z.rem_abs_r, Z.rem_opp_l by lia. apply Z.opp_involutive.
    + assert (L : 0 <= a) by (destruct (Z.le_gt_cases 0 a) as [|G]; [assumption|apply S in G; discriminate G]). clear - L Nb. rewrite (Z.abs_eq a) by lia. rewrite <- Z.rem_mod_nonneg, Z.rem_abs_r by lia. reflexivity.
Qed.
Lemma fmod_zero a : fl_fmod (fl_of_int a) (S754_zero false) = Err ValueError \/ fl_of_int a = S754_nan.
Proof. destruct (fl_of_int a); cbn; auto. Qed.
Lemma int_mod_zero a : Z.abs a < 2 ^ 1023 -> int_mod (PInt a) (PInt 0) = Err ValueError.
Proof.
  intros _. unfold int_mod. cbn [to_float num_of bind]. rewrite of_int_zero. destruct (fmod_zero a) as [->|H]; [reflexivity|].
  exfalso. unfold fl_of_int in H. rewrite normalize_equiv in H. pose proof (is_nan_binary_normalize 53 1024 Hprec Hmax mode_NE a 0 false) as N.
  destruct (binary_normalize _ _ _ _ _ _ _ _); discriminate.
Qed.
