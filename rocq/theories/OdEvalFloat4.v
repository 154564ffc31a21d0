(** Proofs about OdEval.v: the remainder of Decimals, which is that of floats *)
From Coq Require Import ZArith Reals QArith Qpower Qreals Psatz Lia Lra List Floats.SpecFloat.
From Flocq Require Import Core Relative BinarySingleNaN.
From Verif Require Import Py Iso OdExpr OdEval OdEvalSpec OdEvalSpecF OdEvalFloat OdEvalFloat2 OdEvalProofs OdEvalProofs2 OdEvalProofs3 OdEvalFloat3.
Import ListNotations.
Open Scope Z_scope.

Lemma Q2R_pow2 e : Q2R ((2 # 1) ^ e) = bpow radix2 e.
Proof.
  destruct (Z.leb_spec 0 e) as [G|G].
  - rewrite <- pow2_bpow by exact G. rewrite <- Q2R_inject. apply Qeq_eqR.
    change (2 # 1)%Q with (inject_Z 2). symmetry. rewrite Zpower_Qpower by exact G. reflexivity.
  - replace e with (- (- e)) by lia. rewrite Qpower_opp, bpow_opp.
    rewrite Q2R_inv.
    + f_equal. rewrite <- pow2_bpow by lia. rewrite <- Q2R_inject. apply Qeq_eqR.
      change (2 # 1)%Q with (inject_Z 2). symmetry. rewrite Zpower_Qpower by lia. reflexivity.
    + apply Qpower_not_0. discriminate.
Qed.
Lemma ten_five_two e : 0 <= e -> (inject_Z (5 ^ e) * (10 # 1) ^ (- e) == (2 # 1) ^ (- e))%Q.
Proof.
  intros G. rewrite !Qpower_opp. rewrite Zpower_Qpower by exact G. change (inject_Z 5) with (5 # 1)%Q.
  assert (T : ((10 # 1) ^ e == (5 # 1) ^ e * (2 # 1) ^ e)%Q).
  { rewrite <- Qmult_power. apply Qpower_comp; reflexivity. }
  rewrite T. field. split; apply Qpower_not_0; discriminate.
Qed.
(** Decimal(f) has the number of f *)
Lemma of_fl_exact f : finite f -> exists d, dec_of_fl f = Some d /\ Q2R (dec_value d) = real f.
Proof.
  intros F. destruct f as [s|s| |s m e]; try discriminate F; cbn [dec_of_fl]; (eexists; split; [reflexivity|]).
  - unfold dec_value. cbn [d_coef d_exp]. rewrite Q2R_mult, Q2R_inject. cbn [real SF2R]. apply Rmult_0_l.
  - assert (R : real (S754_finite s m e) = (IZR (signed s (Z.pos m)) * bpow radix2 e)%R).
    { cbn [real SF2R]. unfold F2R. cbn [Fnum Fexp]. destruct s; reflexivity. }
    rewrite R. destruct (Z.leb_spec 0 e) as [G|G]; unfold dec_value; cbn [d_coef d_exp]; rewrite Q2R_mult, Q2R_inject, mult_IZR.
    + rewrite pow2_bpow by exact G. change ((10 # 1) ^ 0)%Q with 1%Q. unfold Q2R at 1. cbn. field.
    + rewrite Rmult_assoc. f_equal. rewrite <- Q2R_pow2, <- Q2R_inject, <- Q2R_mult. apply Qeq_eqR.
      pose proof (ten_five_two (- e) ltac:(lia)) as T. rewrite Z.opp_involutive in T. exact T.
Qed.

Section D.
Variable E : Type.
Lemma new_dec_float f d : dec_of_fl f = Some d ->
  new_value E TDecimal (Some (PF f)) = new_value E TDecimal (Some (PD d)).
Proof.
  intros H. unfold new_value, set_value, set_dec. cbn [num_of PF PD]. rewrite H. reflexivity.
Qed.
Lemma mod_decs (x y : data E) a b r s : exact x a r -> exact y b s -> joins a b TDecimal ->
  (rnd (Q2R s) <> 0%R -> exists d, Q2R (dec_value d) = remainder (rnd (Q2R r)) (rnd (Q2R s)) /\
     ((dec_ok d /\ EvaluateMod E x y = Ok (dec_v d)) \/ (~ dec_ok d /\ EvaluateMod E x y = Err EvaluationError))) /\
  (rnd (Q2R s) = 0%R -> EvaluateMod E x y = Err EvaluationError).
Proof.
  intros Hx Hy J. destruct (as_dec x a r Hx (joins_l _ _ _ J)) as (v & c & -> & Tv & _ & Cv & Vc & Kc).
  destruct (as_dec y b s Hy (joins_r _ _ _ J)) as (w & d & -> & Tw & _ & Cw & Vd & Kd).
  apply Qeq_eqR in Vc, Vd. rewrite <- Vc, <- Vd.
  destruct (of_dec_real c Kc) as (Fc1 & Fc2 & <-), (of_dec_real d Kd) as (Fd1 & Fd2 & <-).
  assert (U : EvaluateMod E (DSimple E v) (DSimple E w) = match (z <- py_fmod (PD c) (PD d) ;; new_value E TDecimal (Some z)) with Err ZeroDivisionError | Err ValueError => Err EvaluationError | u => u end).
  { unfold EvaluateMod, PromoteOperands. rewrite Tv, Tw, (proj2 (promote_joins a b TDecimal) J). cbn [bind].
    change (computes TDecimal) with true. change (is_int TDecimal) with false. cbn [bind]. rewrite Cv, Cw. cbn [bind v_val]. reflexivity. }
  rewrite U. unfold py_fmod. cbn [to_float num_of PD bind]. split; intros Ns.
  - destruct (fmod_exact _ _ Fc1 Fd1 Fc2 Fd2 Ns) as (z & -> & Vz & Fz & Rz). cbn [bind].
    destruct (of_fl_exact z Fz) as (k & Ek & Rk). exists k. split; [now rewrite Rk, Rz|].
    change (PX (XF z)) with (PF z). rewrite (new_dec_float z k Ek).
    destruct (dec_ok_dec k) as [K|K]; [left|right]; (split; [exact K|]).
    + rewrite new_dec_ok by exact K. reflexivity.
    + rewrite new_dec_out by exact K. reflexivity.
  - destruct (div_zero _ Fd2 Ns) as (q & Eq). rewrite Eq. destruct (fl_of_dec c); try discriminate Fc2; reflexivity.
Qed.
End D.
