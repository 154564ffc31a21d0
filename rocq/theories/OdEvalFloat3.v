(** Proofs about OdEval.v: operators on Doubles, as operations on real numbers *)
From Coq Require Import ZArith Reals QArith Qpower Qreals Psatz Lia Lra List Floats.SpecFloat.
From Flocq Require Import Core Relative BinarySingleNaN.
From Verif Require Import Py Iso OdExpr OdEval OdEvalSpec OdEvalSpecF OdEvalFloat OdEvalFloat2 OdEvalProofs OdEvalProofs2 OdEvalProofs3.
Import ListNotations.
Open Scope Z_scope.

Lemma Q2R_inject n : Q2R (inject_Z n) = IZR n.
Proof. unfold Q2R, inject_Z. cbn [Qnum Qden]. field. Qed.
Lemma rnd_bounded x k : (Rabs x <= bpow radix2 k)%R -> -1074 <= k -> (Rabs (rnd x) <= bpow radix2 k)%R.
Proof.
  intros H K. unfold rnd. apply abs_round_le_generic; [apply FLT_exp_valid; exact Hprec|apply valid_rnd_N| |exact H].
  apply generic_format_bpow. unfold FLT_exp. lia.
Qed.
Lemma rnd_0 : rnd 0 = 0%R. Proof. unfold rnd. apply round_0. apply valid_rnd_N. Qed.
Lemma div_valid x y : finite x -> finite y -> real y <> 0%R -> (Rabs (rnd (real x / real y)) < bpow radix2 1024)%R -> valid (SFdiv 53 1024 x y).
Proof.
  intros Fx Fy Hy B. destruct y as [sy|sy| |sy my ey]; try discriminate Fy; [exfalso; apply Hy; reflexivity|].
  destruct x as [sx|sx| |sx mx ex]; try discriminate Fx; [reflexivity|].
  unfold valid. cbn [SFdiv]. pose proof (Bdiv_correct_aux 53 1024 Hprec Hmax mode_NE sx mx ex sy my ey) as C. cbv zeta in C.
  destruct (SFdiv_core_binary 53 1024 (Z.pos mx) ex (Z.pos my) ey) as [[mz ez] lz]. rewrite round_aux_equiv. apply C.
Qed.
Lemma dec_bound a : dec_ok a -> (Rabs (Q2R (dec_value a)) <= bpow radix2 100)%R.
Proof.
  intros [A B]. apply Qle_Rle in A, B. rewrite Q2R_opp in A. rewrite Q2R_inject in A, B.
  assert (M : (IZR (10 ^ 29 - 1) <= bpow radix2 100)%R) by (rewrite <- pow2_bpow by lia; apply IZR_le; vm_compute; discriminate).
  apply Rabs_le. lra.
Qed.
Lemma lt_1024 x : (Rabs x <= bpow radix2 100)%R -> (Rabs x < bpow radix2 1024)%R.
Proof. intros H. eapply Rle_lt_trans; [exact H|apply bpow_lt; lia]. Qed.
(** float(d) is the nearest float *)
Lemma of_dec_real a : dec_ok a -> valid (fl_of_dec a) /\ finite (fl_of_dec a) /\ real (fl_of_dec a) = rnd (Q2R (dec_value a)).
Proof.
  intros K. pose proof (rnd_bounded _ _ (dec_bound a K) ltac:(lia)) as B. apply lt_1024 in B. unfold fl_of_dec.
  assert (Z : d_coef a = 0 -> Q2R (dec_value a) = 0%R) by (intros Z; unfold dec_value; rewrite Z, Q2R_mult, Q2R_inject; apply Rmult_0_l).
  assert (P : forall s p, d_coef a = signed s (Z.pos p) -> valid (if 0 <=? d_exp a then SpecFloat.binary_normalize 53 1024 (d_coef a * 10 ^ d_exp a) 0 false
      else SFdiv 53 1024 (S754_finite s p 0) (S754_finite false (Z.to_pos (10 ^ (- d_exp a))) 0)) /\
    finite (if 0 <=? d_exp a then SpecFloat.binary_normalize 53 1024 (d_coef a * 10 ^ d_exp a) 0 false
      else SFdiv 53 1024 (S754_finite s p 0) (S754_finite false (Z.to_pos (10 ^ (- d_exp a))) 0)) /\
    real (if 0 <=? d_exp a then SpecFloat.binary_normalize 53 1024 (d_coef a * 10 ^ d_exp a) 0 false
      else SFdiv 53 1024 (S754_finite s p 0) (S754_finite false (Z.to_pos (10 ^ (- d_exp a))) 0)) = rnd (Q2R (dec_value a))).
  { intros s p Hc. destruct (Z.leb_spec 0 (d_exp a)) as [G|G].
    - assert (V : F2R (Float radix2 (d_coef a * 10 ^ d_exp a) 0) = Q2R (dec_value a)).
      { rewrite F2R_0. rewrite <- Q2R_inject. apply Qeq_eqR. unfold dec_value. rewrite inject_Z_mult, inject_pow10 by exact G. reflexivity. }
      split; [apply normalize_valid|]. rewrite <- V. apply normalize_real. rewrite V. exact B.
    - pose proof (pow10_pos (- d_exp a) ltac:(lia)) as T.
      assert (Rx : real (S754_finite s p 0) = IZR (d_coef a)) by (cbn [real SF2R]; rewrite F2R_0, Hc; destruct s; reflexivity).
      assert (Ry : real (S754_finite false (Z.to_pos (10 ^ (- d_exp a))) 0) = IZR (10 ^ (- d_exp a))) by (cbn [real SF2R cond_Zopp]; rewrite F2R_0, Z2Pos.id by exact T; reflexivity).
      assert (Ny : IZR (10 ^ (- d_exp a)) <> 0%R) by (apply not_0_IZR; lia).
      assert (V : (IZR (d_coef a) / IZR (10 ^ (- d_exp a)) = Q2R (dec_value a))%R).
      { rewrite <- !Q2R_inject. assert (D : (dec_value a * inject_Z (10 ^ (- d_exp a)) == inject_Z (d_coef a))%Q).
        { unfold dec_value. rewrite inject_pow10 by lia. rewrite <- Qmult_assoc, <- Qpower_plus by exact ten_nz. replace (d_exp a + - d_exp a) with 0 by lia. change ((10 # 1) ^ 0)%Q with 1%Q. ring. }
        apply Qeq_eqR in D. rewrite Q2R_mult in D. rewrite <- D. field. rewrite Q2R_inject. exact Ny. }
      rewrite <- V in *. rewrite <- Rx, <- Ry in *. split; [apply div_valid; [reflexivity|reflexivity|exact Ny|exact B]|]. apply div_real; [reflexivity|reflexivity|exact Ny|exact B]. }
  destruct (d_coef a) as [|p|p] eqn:C.
  - rewrite (Z eq_refl), rnd_0. split; [reflexivity|]. split; reflexivity.
  - apply (P false p eq_refl).
  - apply (P true p eq_refl).
Qed.
Lemma of_int_rnd n : Z.abs n < 2 ^ 64 -> finite (fl_of_int n) /\ real (fl_of_int n) = rnd (IZR n).
Proof.
  intros H. rewrite <- (F2R_0 n). apply normalize_real. apply lt_1024, rnd_bounded; [|lia]. rewrite F2R_0, <- abs_IZR, <- pow2_bpow by lia. apply IZR_le. 
  transitivity (2 ^ 64); [lia|vm_compute; discriminate].
Qed.
Lemma in_type_64 a n : in_type a n -> Z.abs n < 2 ^ 64.
Proof. intros [_ H]%in_type_range. destruct a; cbn [lo hi] in H; lia. Qed.

(** the remainder *)
Lemma fmod_exact x y : valid x -> valid y -> finite x -> finite y -> real y <> 0%R ->
  exists z, fl_fmod x y = Ok z /\ valid z /\ finite z /\ real z = remainder (real x) (real y).
Proof.
  intros Vx Vy Fx Fy Ny. destruct y as [sy|sy| |sy my ey]; try discriminate Fy; [exfalso; apply Ny; reflexivity|].
  destruct x as [sx|sx| |sx mx ex]; try discriminate Fx.
  - eexists. split; [reflexivity|]. split; [exact Vx|]. split; [exact Fx|]. unfold remainder. cbn [real SF2R]. unfold Rdiv. rewrite Rmult_0_l. change 0%R with (IZR 0) at 2. rewrite Ztrunc_IZR. lra.
  - cbn [fl_fmod]. set (k := Z.min ex ey). set (a := Z.pos mx * 2 ^ (ex - k)). set (b := Z.pos my * 2 ^ (ey - k)).
    eexists. split; [reflexivity|]. split; [apply normalize_valid|]. destruct (valid_bits _ _ _ Vx) as [Bx Ex]. destruct (valid_bits _ _ _ Vy) as [By Ey].
    pose proof (pow2_pos (ex - k) ltac:(lia)) as P1. pose proof (pow2_pos (ey - k) ltac:(lia)) as P2.
    assert (Pa : 0 < a) by (unfold a; lia). assert (Pb : 0 < b) by (unfold b; lia).
    assert (S : Z.abs (signed sx (a mod b)) < 2 ^ 53).
    { pose proof (Z.mod_pos_bound a b Pb) as M. assert (a mod b <= a) by (apply Z.mod_le; lia). assert (T : Z.abs (signed sx (a mod b)) = a mod b) by (destruct sx; cbn [signed]; lia). rewrite T.
      destruct (Z.le_ge_cases ex ey) as [L|L].
      - assert (k = ex) by lia. assert (a = Z.pos mx) by (unfold a; replace (ex - k) with 0 by lia; lia). lia.
      - assert (k = ey) by lia. assert (b = Z.pos my) by (unfold b; replace (ey - k) with 0 by lia; lia). lia. }
    destruct (normalize_exact (signed sx (a mod b)) k sx S ltac:(lia)) as [A B]. split; [exact A|]. rewrite B. clear A B S.
    assert (RX : real (S754_finite sx mx ex) = (IZR (signed sx a) * bpow radix2 k)%R).
    { unfold a. cbn [real SF2R]. unfold F2R. cbn [Fnum Fexp]. replace (signed sx (Z.pos mx * 2 ^ (ex - k))) with (cond_Zopp sx (Z.pos mx) * 2 ^ (ex - k)) by (destruct sx; cbn [signed cond_Zopp]; lia).
      rewrite mult_IZR, pow2_bpow by lia. rewrite Rmult_assoc, <- bpow_plus. do 2 f_equal. lia. }
    assert (RY : real (S754_finite sy my ey) = (IZR (signed sy b) * bpow radix2 k)%R).
    { unfold b. cbn [real SF2R]. unfold F2R. cbn [Fnum Fexp]. replace (signed sy (Z.pos my * 2 ^ (ey - k))) with (cond_Zopp sy (Z.pos my) * 2 ^ (ey - k)) by (destruct sy; cbn [signed cond_Zopp]; lia).
      rewrite mult_IZR, pow2_bpow by lia. rewrite Rmult_assoc, <- bpow_plus. do 2 f_equal. lia. }
    pose proof (bpow_gt_0 radix2 k) as Pk. unfold remainder. rewrite RX, RY. clearbody a b. clear -Pa Pb Pk.
    assert (Nb : IZR (signed sy b) <> 0%R) by (apply not_0_IZR; destruct sy; cbn [signed]; lia).
    assert (Q : ((IZR (signed sx a) * bpow radix2 k) / (IZR (signed sy b) * bpow radix2 k) = IZR (signed sx a) / IZR (signed sy b))%R) by (field; split; [exact Nb|lra]). rewrite Q.
    rewrite Ztrunc_div by (destruct sy; cbn [signed]; lia). rewrite <- Rmult_assoc, <- Rmult_minus_distr_r. unfold F2R. cbn [Fnum Fexp]. f_equal.
    rewrite <- mult_IZR, <- minus_IZR. f_equal. pose proof (Z.quot_rem' (signed sx a) (signed sy b)) as QR.
    assert (R : Z.rem (signed sx a) (signed sy b) = signed sx (a mod b)).
    { destruct sx, sy; cbn [signed]; rewrite ?Z.rem_opp_r, ?Z.rem_opp_l by lia; rewrite Z.rem_mod_nonneg by lia; reflexivity. }
    rewrite R in QR. lia.
Qed.

Section D.
Context {E : Type}.
Lemma as_double (x : data E) a r : as_real x a r -> a = TDouble \/ wider a TDouble ->
  exists v f, x = DSimple E v /\ v_type v = Some a /\ SimpleCast TDouble v = Ok (mkV (Some TDouble) (Some (PF f))) /\ valid f /\ finite f /\ real f = r.
Proof.
  intros [(f & -> & T & V & F & ->)|(q & H & ->)] W.
  - exists (mkV (Some a) (Some (PF f))), f. split; [reflexivity|]. split; [reflexivity|]. split; [|auto]. unfold SimpleCast. cbn [v_type v_val].
    destruct (type_eqb a TDouble); [reflexivity|]. cbn [set_value]. rewrite set_double by exact V. reflexivity.
  - destruct H as [(n & -> & I & ->)|(d & -> & -> & K & ->)].
    + exists (mkV (Some a) (Some (PInt n))), (fl_of_int n). split; [reflexivity|]. split; [reflexivity|]. pose proof (in_type_64 a n I) as B. destruct (of_int_rnd n B) as [F R].
      split; [|split; [apply of_int_valid|]; split; [exact F|rewrite Q2R_inject; exact R]]. unfold SimpleCast. cbn [v_type v_val].
      assert (Td : type_eqb a TDouble = false) by (apply in_type_range in I as [I _]; destruct I as [->|[->|[->|[->| ->]]]]; reflexivity). rewrite Td.
      cbn [set_value]. rewrite set_float_int; [reflexivity|exact double_max_big|exact B].
    + exists (mkV (Some TDecimal) (Some (PD d))), (fl_of_dec d). split; [reflexivity|]. split; [reflexivity|]. split; [|apply of_dec_real; exact K].
      unfold SimpleCast. cbn [v_type v_val type_eqb set_value]. unfold set_float. cbn [num_of PD num_compare].
      assert (M : (inject_Z dec_max < inject_Z double_max)%Q) by (rewrite <- Zlt_Qlt; vm_compute; reflexivity). destruct K as [K1 K2]. fold dec_max in K1, K2.
      assert (C1 : dec_compare d (dec_of_int (- double_max)) = Gt) by (apply dec_compare_is; rewrite dec_of_int_value, inject_Z_opp; eapply Qlt_le_trans; [|exact K1]; apply Qopp_lt_compat; exact M).
      assert (C2 : dec_compare d (dec_of_int double_max) = Lt) by (apply dec_compare_is; rewrite dec_of_int_value; eapply Qle_lt_trans; [exact K2|exact M]).
      rewrite C1, C2. reflexivity.
Qed.
Lemma new_double f : valid f -> new_value E TDouble (Some (PF f)) = Ok (fl_v TDouble f).
Proof. intros V. unfold new_value. cbn [set_value]. rewrite set_double by exact V. reflexivity. Qed.
Lemma arithmetic_double op (g : flt -> flt -> flt) (x y : data E) a b r s (G : R -> R -> R) : as_real x a r -> as_real y b s -> joins a b TDouble ->
  (forall c d, op (PF c) (PF d) = Ok (PF (g c d))) ->
  (forall c d, valid c -> valid d -> finite c -> finite d -> rounds (G (real c) (real d)) (g c d)) ->
  exists z, arithmetic E op x y = Ok (fl_v TDouble z) /\ rounds (G r s) z.
Proof.
  intros Hx Hy J Ho Hg. destruct (as_double x a r Hx (joins_l _ _ _ J)) as (v & c & -> & Tv & Cv & Vc & Fc & <-).
  destruct (as_double y b s Hy (joins_r _ _ _ J)) as (w & d & -> & Tw & Cw & Vd & Fd & <-).
  exists (g c d). pose proof (Hg c d Vc Vd Fc Fd) as R. split; [|exact R]. unfold arithmetic, PromoteOperands. rewrite Tv, Tw, (proj2 (promote_joins a b TDouble) J). cbn [bind].
  change (computes TDouble) with true. cbn [bind]. rewrite Cv, Cw. cbn [bind v_val]. rewrite Ho. cbn [bind]. apply new_double. apply R.
Qed.
Lemma div_double (x y : data E) a b r s : as_real x a r -> as_real y b s -> joins a b TDouble ->
  (s <> 0%R -> exists z, EvaluateDiv E x y = Ok (fl_v TDouble z) /\ rounds (r / s) z) /\ (s = 0%R -> EvaluateDiv E x y = Err EvaluationError).
Proof.
  intros Hx Hy J. destruct (as_double x a r Hx (joins_l _ _ _ J)) as (v & c & -> & Tv & Cv & Vc & Fc & <-).
  destruct (as_double y b s Hy (joins_r _ _ _ J)) as (w & d & -> & Tw & Cw & Vd & Fd & <-).
  assert (U : EvaluateDiv E (DSimple E v) (DSimple E w) = match (z <- py_div (PF c) (PF d) ;; new_value E TDouble (Some z)) with Err ZeroDivisionError => Err EvaluationError | u => u end).
  { unfold EvaluateDiv, PromoteOperands. rewrite Tv, Tw, (proj2 (promote_joins a b TDouble) J). cbn [bind].
    change (computes TDouble) with true. change (is_int TDouble) with false. cbn [bind]. rewrite Cv, Cw. cbn [bind v_val]. reflexivity. }
  rewrite U. unfold py_div. cbn [num_of PF]. split; intros Ns.
  - destruct (div_rounds c d Vc Vd Fc Fd Ns) as (z & -> & R). cbn [bind]. exists z. split; [|exact R]. change (PX (XF z)) with (PF z). rewrite new_double by apply R. reflexivity.
  - rewrite (fl_div_zero c d Fd Ns). reflexivity.
Qed.
Lemma mod_double (x y : data E) a b r s : as_real x a r -> as_real y b s -> joins a b TDouble ->
  (s <> 0%R -> exists z, EvaluateMod E x y = Ok (fl_v TDouble z) /\ finite z /\ real z = remainder r s) /\ (s = 0%R -> EvaluateMod E x y = Err EvaluationError).
Proof.
  intros Hx Hy J. destruct (as_double x a r Hx (joins_l _ _ _ J)) as (v & c & -> & Tv & Cv & Vc & Fc & <-).
  destruct (as_double y b s Hy (joins_r _ _ _ J)) as (w & d & -> & Tw & Cw & Vd & Fd & <-).
  assert (U : EvaluateMod E (DSimple E v) (DSimple E w) = match (z <- py_fmod (PF c) (PF d) ;; new_value E TDouble (Some z)) with Err ZeroDivisionError | Err ValueError => Err EvaluationError | u => u end).
  { unfold EvaluateMod, PromoteOperands. rewrite Tv, Tw, (proj2 (promote_joins a b TDouble) J). cbn [bind].
    change (computes TDouble) with true. change (is_int TDouble) with false. cbn [bind]. rewrite Cv, Cw. cbn [bind v_val]. reflexivity. }
  rewrite U. unfold py_fmod. cbn [to_float num_of PF bind]. split; intros Ns.
  - destruct (fmod_exact c d Vc Vd Fc Fd Ns) as (z & -> & Vz & Fz & Rz). cbn [bind]. exists z. split; [|auto]. change (PX (XF z)) with (PF z). rewrite new_double by exact Vz. reflexivity.
  - destruct (div_zero d Fd Ns) as (q & ->). destruct c; try discriminate Fc; reflexivity.
Qed.
Lemma tells_R x y : tells (Rcompare x y) (x < y)%R (y < x)%R (x = y).
Proof. destruct (Rcompare_spec x y); cbn; lra. Qed.
Lemma compare_double e_set e_key o (x y : data E) a b r s : In o comparisons -> as_real x a r -> as_real y b s -> joins a b TDouble ->
  exists f c, binary_method E e_set e_key o = Some f /\ f x y = Ok (bool_v c) /\ (c = true <-> r_rel o r s).
Proof.
  intros H Hx Hy J. destruct (as_double x a r Hx (joins_l _ _ _ J)) as (v & c & -> & Tv & Cv & Vc & Fc & <-).
  destruct (as_double y b s Hy (joins_r _ _ _ J)) as (w & d & -> & Tw & Cw & Vd & Fd & <-).
  assert (P : PromoteTypes (v_type v) (v_type w) = Ok (Some TDouble)) by (rewrite Tv, Tw; apply promote_joins; exact J).
  assert (PC : py_compare (Some (PF c)) (Some (PF d)) = Ok (Some (Rcompare (real c) (real d)))) by (cbn [py_compare num_of PF]; rewrite compare_real by assumption; reflexivity).
  destruct (compare_computes e_set e_key o v w TDouble _ _ _ _ _ H P eq_refl Cv Cw eq_refl eq_refl PC) as (f & Hf & R).
  exists f, (op_of o (Some (Rcompare (real c) (real d)))). split; [exact Hf|]. split; [exact R|]. apply op_of_sense; [exact H|apply tells_R].
Qed.
End D.
