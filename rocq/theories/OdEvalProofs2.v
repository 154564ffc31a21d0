(** Proofs about OdEval.v: Decimals as operands; quotients of Decimals *)
From Coq Require Import ZArith List Bool QArith Qpower Qabs Lia Lqa.
From Coq Require Floats.SpecFloat.
From Verif Require Import Py Iso OdExpr OdEval OdEvalSpec OdEvalProofs.
Import ListNotations Floats.SpecFloat.
Open Scope Z_scope.
Open Scope list_scope.

Lemma dec_of_int_value n : (dec_value (dec_of_int n) == inject_Z n)%Q.
Proof. unfold dec_value, dec_of_int. cbn [d_coef d_exp]. change ((10 # 1) ^ 0)%Q with 1%Q. ring. Qed.
Lemma dec_abs_value d : (dec_value (mkDec (Z.abs (d_coef d)) (d_exp d)) == Qabs (dec_value d))%Q.
Proof.
  unfold dec_value. cbn [d_coef d_exp]. rewrite Qabs_Qmult, (Qabs_pos ((10 # 1) ^ d_exp d)) by apply Qlt_le_weak, Qpow_pos. reflexivity.
Qed.
Lemma dec_ok_abs d : dec_ok d <-> (Qabs (dec_value d) <= inject_Z dec_max)%Q.
Proof. unfold dec_ok. fold dec_max. rewrite Qabs_Qle_condition. reflexivity. Qed.
Lemma dec_ok_dec d : {dec_ok d} + {~ dec_ok d}.
Proof.
  destruct (Qlt_le_dec (inject_Z dec_max) (Qabs (dec_value d))) as [H|H]; [right|left]; rewrite dec_ok_abs; [|exact H].
  intros K. apply (Qlt_not_le _ _ H K).
Qed.
Lemma set_dec_num v n : num_of v = Some n -> (forall f, n <> NF f) -> forall d, n = ND d \/ (exists z, n = NI z /\ d = dec_of_int z) ->
  (dec_ok d -> set_dec v = Ok (PD d)) /\ (~ dec_ok d -> set_dec v = Err ValueError).
Proof.
  intros Hn Hf d Hd. unfold set_dec. rewrite Hn.
  assert (C : match dec_compare (mkDec (Z.abs (d_coef d)) (d_exp d)) (dec_of_int dec_max) with Gt => ~ dec_ok d | _ => dec_ok d end).
  { pose proof (dec_compare_value (mkDec (Z.abs (d_coef d)) (d_exp d)) (dec_of_int dec_max)) as C.
    destruct (dec_compare _ _); rewrite dec_abs_value, dec_of_int_value in C; rewrite dec_ok_abs; [apply Qle_lteq; right|apply Qlt_le_weak|intros K; apply (Qlt_not_le _ _ C)]; assumption. }
  destruct Hd as [->|(z & -> & ->)]; cbn [bind]; destruct (dec_compare _ _); split; intros K; first [reflexivity|contradiction].
Qed.
Lemma set_dec_ok d : dec_ok d -> set_dec (PD d) = Ok (PD d).
Proof. intros H. apply (set_dec_num (PD d) (ND d) eq_refl ltac:(discriminate) d); auto. Qed.
Lemma set_dec_out d : ~ dec_ok d -> set_dec (PD d) = Err ValueError.
Proof. intros H. apply (set_dec_num (PD d) (ND d) eq_refl ltac:(discriminate) d); auto. Qed.
Lemma dec_ok_int a n : in_type a n -> dec_ok (dec_of_int n).
Proof.
  intros H. apply dec_ok_abs. rewrite dec_of_int_value. change (Qabs (inject_Z n)) with (inject_Z (Z.abs n)). rewrite <- Zle_Qle.
  unfold dec_max. apply in_type_range in H as [_ H]. destruct a; cbn [lo hi] in H; lia.
Qed.
Section D.
Context {E : Type}.
(** an operand that is promoted to Decimal *)
Lemma as_dec (x : data E) a p : exact x a p -> a = TDecimal \/ wider a TDecimal ->
  exists v d, x = DSimple E v /\ v_type v = Some a /\ v_val v <> None /\ SimpleCast TDecimal v = Ok (mkV (Some TDecimal) (Some (PD d))) /\ (dec_value d == p)%Q /\ dec_ok d.
Proof.
  intros [(n & -> & I & ->)|(d & -> & -> & K & ->)] W.
  - exists (mkV (Some a) (Some (PInt n))), (dec_of_int n). split; [reflexivity|]. split; [reflexivity|]. split; [discriminate|].
    pose proof (dec_ok_int a n I) as O. split; [|split; [apply dec_of_int_value|exact O]].
    unfold SimpleCast. cbn [v_type v_val]. destruct (type_eqb a TDecimal) eqn:T.
    + apply type_eqb_eq in T as ->. destruct I.
    + unfold set_value. destruct (set_dec_num (PInt n) (NI n) eq_refl ltac:(discriminate) (dec_of_int n) ltac:(right; eauto)) as [S _].
      rewrite (S O). reflexivity.
  - exists (mkV (Some TDecimal) (Some (PD d))), d. split; [reflexivity|]. split; [reflexivity|]. split; [discriminate|]. split; [reflexivity|]. split; [reflexivity|exact K].
Qed.
Lemma new_dec_ok d : dec_ok d -> new_value E TDecimal (Some (PD d)) = Ok (dec_v d).
Proof. intros H. unfold new_value, set_value. rewrite set_dec_ok by exact H. reflexivity. Qed.
Lemma new_dec_out d : ~ dec_ok d -> new_value E TDecimal (Some (PD d)) = Err ValueError.
Proof. intros H. unfold new_value, set_value. rewrite set_dec_out by exact H. reflexivity. Qed.
Lemma decimal_new u r d : nearly u d r -> decimal_result u r (new_value E TDecimal (Some (PD d))).
Proof.
  intros H. exists d. split; [exact H|]. destruct (dec_ok_dec d) as [K|K]; [left|right]; (split; [exact K|]); [apply new_dec_ok|apply new_dec_out]; exact K.
Qed.
Lemma decimal_result_eq u r r' (res : result (data E)) : (r == r')%Q -> decimal_result u r res -> decimal_result u r' res.
Proof. intros H (d & N & K). exists d. split; [eapply nearly_eq; eassumption|exact K]. Qed.
Lemma arithmetic_dec op (f : dec -> dec -> dec) u (x y : data E) a b p q r : exact x a p -> exact y b q -> joins a b TDecimal ->
  (forall c d, op (PD c) (PD d) = Ok (PD (f c d))) -> (forall c d, (dec_value c == p)%Q -> (dec_value d == q)%Q -> nearly u (f c d) r) ->
  decimal_result u r (arithmetic E op x y).
Proof.
  intros Hx Hy J Ho Hf. destruct (as_dec x a p Hx (joins_l _ _ _ J)) as (v & c & -> & Tv & _ & Cv & Vc & _).
  destruct (as_dec y b q Hy (joins_r _ _ _ J)) as (w & d & -> & Tw & _ & Cw & Vd & _).
  unfold arithmetic, PromoteOperands. rewrite Tv, Tw, (proj2 (promote_joins a b TDecimal) J). cbn [bind]. change (computes TDecimal) with true.
  rewrite Cv, Cw. cbn [bind v_val]. rewrite Ho. cbn [bind]. apply decimal_new. apply Hf; assumption.
Qed.
End D.

(** ** Quotients *)
Lemma strip_zeros_value f q x ideal : (dec_value (strip_zeros f q x ideal) == dec_value (mkDec q x))%Q.
Proof.
  revert q x; induction f as [|f IH]; intros q x; cbn [strip_zeros]; [reflexivity|].
  destruct (x <? ideal); cbn [andb]; [|reflexivity]. destruct (Z.eqb_spec (q mod 10) 0) as [H|]; [|reflexivity].
  rewrite IH. unfold dec_value. cbn [d_coef d_exp]. rewrite (Qpower_plus _ x 1 ten_nz). change ((10 # 1) ^ 1)%Q with (inject_Z 10).
  rewrite (Z.div_mod q 10) at 2 by lia. rewrite H, Z.add_0_r, inject_Z_mult. ring.
Qed.
(** a bound for quotients that are not exact *)
Lemma unit_27_val : (unit_27 == 1 # 1000000000000000000000000000)%Q. Proof. vm_compute. reflexivity. Qed.
Lemma unit_28_val : (unit_28 == 1 # 2000000000000000000000000000)%Q. Proof. vm_compute. reflexivity. Qed.
(** from an approximation [a] of [r] *)
Lemma fix_nearly_27 a r : (Qabs (dec_value a - r) <= (1 # 10000000000000000000000000000) * Qabs r)%Q -> (Qabs (dec_value (dec_fix a) - r) <= unit_27 * Qabs r)%Q.
Proof.
  intros H. pose proof (dec_fix_near a) as N. fold unit_28 in N. rewrite unit_28_val in N. rewrite unit_27_val.
  set (F := dec_value (dec_fix a)) in *. set (A := dec_value a) in *.
  assert (T : (Qabs (F - r) <= Qabs (F - A) + Qabs (A - r))%Q).
  { setoid_replace (F - r)%Q with ((F - A) + (A - r))%Q by ring. apply Qabs_triangle. }
  assert (B : (Qabs A <= Qabs r + Qabs (A - r))%Q).
  { setoid_replace A with (r + (A - r))%Q at 1 by ring. apply Qabs_triangle. }
  pose proof (Qabs_nonneg r). set (ar := Qabs r) in *. set (d := Qabs (A - r)) in *. set (aa := Qabs A) in *. set (fa := Qabs (F - A)) in *. lra.
Qed.
Lemma inj_eq x y : (inject_Z x == inject_Z y)%Q -> x = y.
Proof. apply inject_Z_injective. Qed.
Lemma ndigits_low n : 0 < n -> 10 ^ (ndigits n - 1) <= n.
Proof.
  intros H. destruct (ndigits_spec n ltac:(lia)) as (A & _ & C). destruct (Z.eq_dec (ndigits n) 1) as [->|]; [change (10 ^ (1 - 1)) with 1; lia|apply C; lia].
Qed.
Lemma signed_value s c x : (dec_value (mkDec (signed s c) x) == (if s then -1 else 1) * dec_value (mkDec c x))%Q.
Proof. unfold dec_value, signed. cbn [d_coef d_exp]. destruct s; [rewrite inject_Z_opp|]; ring. Qed.
Lemma coef_sign c : inject_Z c = ((if (c <? 0)%Z then -1 else 1) * inject_Z (Z.abs c))%Q.
Proof. destruct c; reflexivity. Qed.
Lemma q_abs_sign (s : bool) (z : Q) : (Qabs ((if s then -1 else 1) * z) == Qabs z)%Q.
Proof. rewrite Qabs_Qmult. destruct s; [change (Qabs (-1)) with 1%Q|change (Qabs 1) with 1%Q]; ring. Qed.
(** the numbers that are divided, shifted so that the quotient has 29 or 30 digits *)
Lemma shifted n d (shift := ndigits d - ndigits n + dec_prec + 1) : 0 < n -> 0 < d ->
  exists N D, 0 < D /\ 10 ^ 28 * D <= N /\
    (if 0 <=? shift then (n * 10 ^ shift / d, n * 10 ^ shift mod d) else (n / (d * 10 ^ (- shift)), n mod (d * 10 ^ (- shift)))) = (N / D, N mod D) /\
    (inject_Z N / inject_Z D == inject_Z n / inject_Z d * (10 # 1) ^ shift)%Q.
Proof.
  intros Hn Hd. pose proof (ndigits_low n Hn) as Ln. destruct (ndigits_spec d ltac:(lia)) as (Ad & Ud & _). destruct (ndigits_spec n ltac:(lia)) as (An & _ & _).
  assert (Dq : ~ (inject_Z d == 0)%Q) by (intros K; change 0%Q with (inject_Z 0) in K; apply inj_eq in K; lia).
  unfold dec_prec in shift. destruct (Z.leb_spec 0 shift) as [S|S].
  - exists (n * 10 ^ shift), d. split; [exact Hd|]. split.
    + pose proof (pow10_pos shift S). assert (P : 10 ^ 28 * 10 ^ ndigits d = 10 ^ (ndigits n - 1) * 10 ^ shift) by (rewrite <- !Z.pow_add_r by lia; f_equal; lia).
      assert (10 ^ (ndigits n - 1) * 10 ^ shift <= n * 10 ^ shift) by (apply Z.mul_le_mono_nonneg_r; lia). lia.
    + split; [reflexivity|]. rewrite inject_Z_mult, inject_pow10 by exact S. field. exact Dq.
  - exists n, (d * 10 ^ (- shift)). pose proof (pow10_pos (- shift) ltac:(lia)) as P. split; [apply Z.mul_pos_pos; lia|]. split.
    + assert (X : 10 ^ 28 * 10 ^ ndigits d * 10 ^ (- shift) = 10 ^ (ndigits n - 1)) by (rewrite <- !Z.pow_add_r by lia; f_equal; lia).
      assert (d * 10 ^ (- shift) <= 10 ^ ndigits d * 10 ^ (- shift)) by (apply Z.mul_le_mono_nonneg_r; lia). lia.
    + split; [reflexivity|]. rewrite inject_Z_mult, inject_pow10 by lia. rewrite Qpower_opp.
      field. split; [exact Dq|]. intros K. pose proof (Qpow_pos shift) as W. rewrite K in W. discriminate W.
Qed.
Lemma dec_div_nearly a b : d_coef b <> 0 -> exists d, dec_div a b = Ok d /\ nearly unit_27 d (dec_value a / dec_value b).
Proof.
  intros Hb. unfold dec_div. destruct (Z.eqb_spec (d_coef b) 0) as [|_]; [contradiction|]. destruct (Z.eqb_spec (d_coef a) 0) as [Ha|Ha].
  - eexists; split; [reflexivity|]. assert (R : (dec_value a / dec_value b == 0)%Q) by (unfold dec_value at 1; rewrite Ha; unfold Qdiv; rewrite !Qmult_0_l; reflexivity).
    assert (V : (dec_value (mkDec 0 (d_exp a - d_exp b)) == 0)%Q) by (unfold dec_value; cbn [d_coef]; apply Qmult_0_l).
    split; [|intros m e _ _; rewrite V, R; reflexivity]. rewrite V, R. change (Qabs (0 - 0)) with 0%Q. apply Qmult_le_0_compat; [apply Qlt_le_weak, Qpow_pos|apply Qabs_nonneg].
  - set (n := Z.abs (d_coef a)). set (d := Z.abs (d_coef b)).
    destruct (shifted n d ltac:(lia) ltac:(lia)) as (N & D & HD & HN & EQ & V). cbv zeta.
    set (shift := ndigits d - ndigits n + dec_prec + 1) in *. rewrite EQ. set (x := d_exp a - d_exp b - shift).
    set (s := xorb (d_coef a <? 0) (d_coef b <? 0)).
    set (T := (inject_Z N / inject_Z D)%Q) in *.
    assert (Dq : (0 < inject_Z D)%Q) by (change 0%Q with (inject_Z 0); rewrite <- Zlt_Qlt; exact HD).
    assert (NT : (inject_Z N == T * inject_Z D)%Q) by (unfold T; field; intros K; rewrite K in Dq; discriminate Dq).
    assert (T28 : (inject_Z (10 ^ 28) <= T)%Q).
    { unfold T. apply Qle_shift_div_l; [exact Dq|]. rewrite <- inject_Z_mult, <- Zle_Qle. exact HN. }
    (* the exact quotient *)
    assert (RQ : (dec_value a / dec_value b == (if s then -1 else 1) * (T * (10 # 1) ^ x))%Q).
    { rewrite V. unfold dec_value. rewrite (coef_sign (d_coef a)), (coef_sign (d_coef b)). fold n. fold d. unfold x.
      assert (Pow : ((10 # 1) ^ shift * (10 # 1) ^ (d_exp a - d_exp b - shift) == (10 # 1) ^ d_exp a / (10 # 1) ^ d_exp b)%Q).
      { rewrite <- (Qpower_plus _ _ _ ten_nz). replace (shift + (d_exp a - d_exp b - shift)) with (d_exp a + - d_exp b) by lia. rewrite (Qpower_plus _ _ _ ten_nz), Qpower_opp. reflexivity. }
      rewrite <- !Qmult_assoc, Pow. unfold s.
      assert (Pb : ~ ((10 # 1) ^ d_exp b == 0)%Q) by (intros K; pose proof (Qpow_pos (d_exp b)) as W; rewrite K in W; discriminate W).
      assert (Db : ~ (inject_Z d == 0)%Q) by (intros K; change 0%Q with (inject_Z 0) in K; apply inj_eq in K; lia).
      destruct (d_coef a <? 0), (d_coef b <? 0); cbn [xorb]; field; repeat split; assumption. }
    eexists; split; [reflexivity|].
    set (v := if negb (N mod D =? 0) then mkDec (if N / D mod 5 =? 0 then N / D + 1 else N / D) x else strip_zeros (Z.to_nat shift) (N / D) x (d_exp a - d_exp b)).
    pose proof (Z.div_mod N D ltac:(lia)) as DM. pose proof (Z.mod_pos_bound N D HD) as MB.
    assert (SV : (dec_value (mkDec (signed s (d_coef v)) (d_exp v)) == (if s then -1 else 1) * dec_value v)%Q) by (rewrite signed_value; destruct v; reflexivity).
    pose proof (Qpow_pos x) as Px.
    (* no remainder: exact *)
    assert (EX : N mod D = 0 -> (dec_value (mkDec (signed s (d_coef v)) (d_exp v)) == dec_value a / dec_value b)%Q).
    { intros M0. rewrite SV, RQ. unfold v. rewrite M0. cbn [Z.eqb negb]. rewrite strip_zeros_value. unfold dec_value. cbn [d_coef d_exp].
      assert (K : (T == inject_Z (N / D))%Q); [|rewrite K; reflexivity]. apply (Qmult_inj_r _ _ (inject_Z D)); [intros K; rewrite K in Dq; discriminate Dq|].
      rewrite <- NT, <- inject_Z_mult. apply inject_Z_injective. lia. }
    split.
    + apply fix_nearly_27. destruct (Z.eq_dec (N mod D) 0) as [M0|M0].
      * rewrite (EX M0). setoid_replace (dec_value a / dec_value b - dec_value a / dec_value b)%Q with 0%Q by ring. apply Qmult_le_0_compat; [discriminate|apply Qabs_nonneg].
      * rewrite SV, RQ. setoid_replace ((if s then -1 else 1) * dec_value v - (if s then -1 else 1) * (T * (10 # 1) ^ x))%Q with ((if s then -1 else 1) * (dec_value v - T * (10 # 1) ^ x))%Q by ring.
        rewrite !q_abs_sign. set (q' := if N / D mod 5 =? 0 then N / D + 1 else N / D).
        assert (Vv : v = mkDec q' x) by (unfold v; destruct (Z.eqb_spec (N mod D) 0); [contradiction|reflexivity]). rewrite Vv. unfold dec_value. cbn [d_coef d_exp].
        setoid_replace (inject_Z q' * (10 # 1) ^ x - T * (10 # 1) ^ x)%Q with ((inject_Z q' - T) * (10 # 1) ^ x)%Q by ring.
        rewrite !Qabs_Qmult, (Qabs_pos ((10 # 1) ^ x)), Qmult_assoc by (apply Qlt_le_weak; exact Px). apply Qmult_le_compat_r; [|apply Qlt_le_weak; exact Px].
        assert (L1 : (inject_Z (N / D) <= T)%Q). { unfold T. apply Qle_shift_div_l; [exact Dq|]. rewrite <- inject_Z_mult, <- Zle_Qle. lia. }
        assert (L2 : (T <= inject_Z (N / D + 1))%Q). { unfold T. apply Qle_shift_div_r; [exact Dq|]. rewrite <- inject_Z_mult, <- Zle_Qle. lia. }
        assert (B : (Qabs (inject_Z q' - T) <= 1)%Q).
        { rewrite inject_Z_plus in L2. change (inject_Z 1) with 1%Q in L2. apply Qabs_Qle_condition. assert (O : (q' = N / D \/ q' = N / D + 1)%Z) by (subst q'; clear; destruct ((N / D) mod 5 =? 0)%Z; [right|left]; reflexivity).
          clearbody q'. destruct O as [-> | ->]; [split; lra|]. rewrite inject_Z_plus. change (inject_Z 1) with 1%Q. split; lra. }
        rewrite (Qabs_pos T) by (eapply Qle_trans; [|exact T28]; discriminate).
        eapply Qle_trans; [exact B|]. eapply Qle_trans; [|rewrite Qmult_comm; apply Qmult_le_compat_r; [exact T28|discriminate]]. vm_compute. discriminate.
    + intros m e Hr Hm. assert (M0 : N mod D = 0).
      { assert (TA : (T * (10 # 1) ^ x == inject_Z (Z.abs m) * (10 # 1) ^ e)%Q).
        { rewrite RQ in Hr. assert (A : (Qabs ((if s then -1 else 1) * (T * (10 # 1) ^ x)) == Qabs (inject_Z m * (10 # 1) ^ e))%Q) by (rewrite Hr; reflexivity).
          rewrite q_abs_sign, !Qabs_Qmult, (Qabs_pos ((10 # 1) ^ x)), (Qabs_pos ((10 # 1) ^ e)), (Qabs_pos T) in A; [exact A|eapply Qle_trans; [|exact T28]; discriminate|apply Qlt_le_weak, Qpow_pos|apply Qlt_le_weak, Qpow_pos]. }
        assert (TX : (T == inject_Z (Z.abs m) * (10 # 1) ^ (e - x))%Q).
        { apply (Qmult_inj_r _ _ ((10 # 1) ^ x)); [intros K; rewrite K in Px; discriminate Px|]. rewrite TA, <- Qmult_assoc, <- (Qpower_plus _ _ _ ten_nz). replace (e - x + x) with e by lia. reflexivity. }
        destruct (Z.le_gt_cases 0 (e - x)) as [G|G].
        - rewrite <- inject_pow10, <- inject_Z_mult in TX by exact G. rewrite TX, <- inject_Z_mult in NT. apply inj_eq in NT. rewrite NT. apply Z.mod_mul. lia.
        - exfalso. rewrite TX in T28. assert (P1 : ((10 # 1) ^ (e - x) <= 1)%Q).
          { replace (e - x) with (- (x - e)) by lia. rewrite Qpower_opp, <- inject_pow10 by lia. pose proof (pow10_pos (x - e) ltac:(lia)) as P10.
            apply Qle_shift_inv_r; [change 0%Q with (inject_Z 0); rewrite <- Zlt_Qlt; lia|]. rewrite Qmult_1_l. change 1%Q with (inject_Z 1). rewrite <- Zle_Qle. lia. }
          assert (W : (inject_Z (Z.abs m) * (10 # 1) ^ (e - x) <= inject_Z (Z.abs m) * 1)%Q).
          { rewrite !(Qmult_comm (inject_Z (Z.abs m))). apply Qmult_le_compat_r; [exact P1|]. change 0%Q with (inject_Z 0). rewrite <- Zle_Qle. lia. }
          rewrite Qmult_1_r in W. pose proof (Qle_trans _ _ _ T28 W) as Z. rewrite <- Zle_Qle in Z. lia. }
      rewrite (dec_fix_exact _ m e); [exact (EX M0)| |exact Hm]. rewrite (EX M0). exact Hr.
Qed.
