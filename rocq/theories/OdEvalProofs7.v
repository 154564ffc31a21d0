(** Proofs about OdEval.v: operators, methods and members in expressions *)
From Coq Require Import ZArith Reals QArith Qreals List Lia Lra Bool Floats.SpecFloat.
From Flocq Require Import Core BinarySingleNaN.
From Verif Require Import Py Iso OdExpr OdEval OdEvalSpec OdEvalSpecF OdEvalTypes OdEvalFloat OdEvalFloat2 OdEvalFloat3 OdEvalProofs OdEvalProofs2 OdEvalProofs3 OdEvalProofs4 OdEvalProofs5 OdEvalProofs6.
Import ListNotations.
Open Scope Z_scope.

Section G.
Variable lower_char upper_char : Z -> Z.
Variable space : Z -> bool.
Variable E : Type.
Variable property : E -> str -> option (field E).
Variable e_len : E -> Z.
Variable e_type : E -> str.
Variable e_set : E -> Z.
Variable e_key : E -> result (list (option pyv)).
Notation Ev := (Evaluate lower_char upper_char space E property e_len e_type e_set e_key).
Notation bm := (binary_method E e_set e_key).
Notation methods := (call_methods lower_char upper_char space E).

Lemma bin_eval o f p q x y ctx : bm o = Some f -> Ev p ctx = Ok x -> Ev q ctx = Ok y -> Ev (bin o p q) ctx = f x y.
Proof.
  intros H Hp Hq. unfold bin. cbn [Evaluate]. rewrite Hp. cbn [bind]. destruct o; try discriminate H; rewrite Hq; cbn [bind]; injection H as <-; reflexivity.
Qed.
Lemma negate_eval p x ctx : Ev p ctx = Ok x -> Ev (un ONegate p) ctx = EvaluateNegate E x.
Proof. intros Hp. unfold un. cbn [Evaluate]. rewrite Hp. reflexivity. Qed.
Lemma not_eval p x ctx : Ev p ctx = Ok x -> Ev (un ONot p) ctx = EvaluateNot E x.
Proof. intros Hp. unfold un. cbn [Evaluate]. rewrite Hp. reflexivity. Qed.
Lemma member_eval p q x ctx : Ev p ctx = Ok x -> Ev (bin OMember p q) ctx = Ev q (Some x).
Proof. intros Hp. unfold bin. cbn [Evaluate]. rewrite Hp. reflexivity. Qed.
Lemma call_eval m f ps xs ctx : find (fun p => str_eqb (fst p) (lit m)) methods = Some (lit m, f) -> Forall2 (fun p x => Ev p ctx = Ok x) ps xs -> Ev (call m ps) ctx = f xs.
Proof.
  intros H L. unfold call. cbn [Evaluate]. rewrite H. cbn [snd].
  assert (A : (fix all (l : list (expr ext)) : result (list (data E)) := match l with [] => Ok [] | a :: l' => x <- Ev a ctx ;; xs <- all l' ;; Ok (x :: xs) end) ps = Ok xs).
  { clear H. induction L as [|p x ps xs Hp L IH]; [reflexivity|]. rewrite Hp. cbn [bind]. rewrite IH. reflexivity. }
  rewrite A. reflexivity.
Qed.

(** ** Sums *)
Definition py_op (o : operator) : pyv -> pyv -> result pyv := match o with OAdd => py_add | OSub => py_sub | _ => py_mul end.
Lemma sums_fn o : In o sums -> bm o = Some (arithmetic E (py_op o)).
Proof. intros [<-|[<-|[<-|[]]]]; reflexivity. Qed.
Lemma sum_ints o p q ctx a b t x y : In o sums -> Ev p ctx = Ok (int_v a x) -> Ev q ctx = Ok (int_v b y) -> in_type a x -> in_type b y -> joins a b t -> t = TInt32 \/ t = TInt64 ->
  (in_type t (z_op o x y) -> Ev (bin o p q) ctx = Ok (int_v t (z_op o x y))) /\ (~ in_type t (z_op o x y) -> Ev (bin o p q) ctx = Err ValueError).
Proof.
  intros H Hp Hq Hx Hy J T. rewrite (bin_eval o _ p q _ _ ctx (sums_fn o H) Hp Hq). destruct (computes_int t T) as (_ & I & _).
  rewrite (arithmetic_int (py_op o) a b t x y (z_op o x y) J T Hx Hy) by (destruct H as [<-|[<-|[<-|[]]]]; reflexivity).
  split; intros K; [apply new_int_in; exact K|apply new_int_out; [exact I|exact K]].
Qed.
Lemma sum_decs o p q ctx x y a b r s : In o sums -> Ev p ctx = Ok x -> Ev q ctx = Ok y -> exact x a r -> exact y b s -> joins a b TDecimal ->
  decimal_result unit_28 (q_op o r s) (Ev (bin o p q) ctx).
Proof.
  intros H Hp Hq Hx Hy J. rewrite (bin_eval o _ p q _ _ ctx (sums_fn o H) Hp Hq).
  pose (f := match o with OAdd => dec_add | OSub => dec_sub | _ => dec_mul end).
  apply (arithmetic_dec (py_op o) f unit_28 x y a b r s); [exact Hx|exact Hy|exact J| |].
  - intros c d. unfold f. destruct H as [<-|[<-|[<-|[]]]]; reflexivity.
  - intros c d Hc Hd. unfold f. destruct H as [<-|[<-|[<-|[]]]]; cbn [q_op].
    + eapply nearly_eq; [|apply dec_add_nearly]. rewrite Hc, Hd. reflexivity.
    + eapply nearly_eq; [|apply dec_sub_nearly]. rewrite Hc, Hd. reflexivity.
    + eapply nearly_eq; [|apply dec_mul_nearly]. rewrite Hc, Hd. reflexivity.
Qed.
Lemma sum_doubles o p q ctx x y a b r s : In o sums -> Ev p ctx = Ok x -> Ev q ctx = Ok y -> as_real x a r -> as_real y b s -> joins a b TDouble ->
  exists z, Ev (bin o p q) ctx = Ok (fl_v TDouble z) /\ rounds (r_op o r s) z.
Proof.
  intros H Hp Hq Hx Hy J. rewrite (bin_eval o _ p q _ _ ctx (sums_fn o H) Hp Hq).
  pose (f := match o with OAdd => fl_add | OSub => fl_sub | _ => fl_mul end).
  apply (arithmetic_double (py_op o) f x y a b r s (r_op o)); [exact Hx|exact Hy|exact J| |].
  - intros c d. unfold f. destruct H as [<-|[<-|[<-|[]]]]; reflexivity.
  - intros c d Vc Vd Fc Fd. unfold f. destruct H as [<-|[<-|[<-|[]]]]; cbn [r_op]; [apply add_rounds|apply sub_rounds|apply mul_rounds]; assumption.
Qed.
(** ** Quotients *)
Lemma div_ints a b t x y : in_type a x -> in_type b y -> joins a b t -> t = TInt32 \/ t = TInt64 -> Z.abs x < 2 ^ 53 -> Z.abs y < 2 ^ 53 -> y <> 0 ->
  EvaluateDiv E (int_v a x) (int_v b y) = new_value E t (Some (PInt (Z.quot x y))).
Proof.
  intros Hx Hy J T Bx By Ny. destruct (computes_int t T) as (C & I & II). rewrite (div_numeric E). unfold numeric, int_v, PromoteOperands. cbn [v_type].
  rewrite (proj2 (promote_joins a b t) J). cbn [bind]. rewrite C, (cast_int a t x Hx I (joins_l _ _ _ J)), (cast_int b t y Hy I (joins_r _ _ _ J)). cbn [bind v_val]. rewrite II, int_div_small by assumption. cbn [bind].
  unfold new_value. rewrite set_value_int by exact I. destruct (_ || _); reflexivity.
Qed.
Lemma div_ints_zero a b t x : in_type a x -> in_type b 0 -> joins a b t -> t = TInt32 \/ t = TInt64 -> EvaluateDiv E (int_v a x) (int_v b 0) = Err EvaluationError.
Proof.
  intros Hx Hy J T. destruct (computes_int t T) as (C & I & II). rewrite (div_numeric E). unfold numeric, int_v, PromoteOperands. cbn [v_type].
  rewrite (proj2 (promote_joins a b t) J). cbn [bind]. rewrite C, (cast_int a t x Hx I (joins_l _ _ _ J)), (cast_int b t 0 Hy I (joins_r _ _ _ J)). cbn [bind v_val]. rewrite II, int_div_zero. reflexivity.
Qed.
Lemma rem_bounds x y : y <> 0 -> 0 <= Z.abs (Z.rem x y) <= Z.abs x /\ 0 <= x * Z.rem x y.
Proof.
  intros Ny. pose proof (Z.rem_sign_mul x y Ny) as S. assert (L : Z.abs (Z.rem x y) <= Z.abs x) by (rewrite Z.rem_abs_l || rewrite <- Z.rem_abs; [|exact Ny]; apply Z.rem_le; lia). lia.
Qed.
Lemma rem_in t x y : in_type t x -> y <> 0 -> in_type t (Z.rem x y).
Proof.
  intros H Ny. apply in_type_range in H as [I R]. apply in_type_range. split; [exact I|]. pose proof (rem_bounds x y Ny) as [A B]. assert (lo t <= 0 <= hi t) by (destruct t; cbn; lia).
  destruct (Z.lt_trichotomy x 0) as [?|[->|?]]; [| |]; nia.
Qed.
Lemma mod_ints a b t x y : in_type a x -> in_type b y -> joins a b t -> t = TInt32 \/ t = TInt64 -> Z.abs x < 2 ^ 53 -> Z.abs y < 2 ^ 53 -> y <> 0 ->
  EvaluateMod E (int_v a x) (int_v b y) = Ok (int_v t (Z.rem x y)).
Proof.
  intros Hx Hy J T Bx By Ny. destruct (computes_int t T) as (C & I & II). rewrite (mod_numeric E). unfold numeric, int_v, PromoteOperands. cbn [v_type].
  rewrite (proj2 (promote_joins a b t) J). cbn [bind]. rewrite C, (cast_int a t x Hx I (joins_l _ _ _ J)), (cast_int b t y Hy I (joins_r _ _ _ J)). cbn [bind v_val]. rewrite II, int_mod_small by assumption. cbn [bind].
  rewrite new_int_in; [reflexivity|]. apply rem_in; [exact (in_wider a t x Hx I (joins_l _ _ _ J))|exact Ny].
Qed.
Lemma mod_ints_zero a b t x : in_type a x -> in_type b 0 -> joins a b t -> t = TInt32 \/ t = TInt64 -> EvaluateMod E (int_v a x) (int_v b 0) = Err EvaluationError.
Proof.
  intros Hx Hy J T. destruct (computes_int t T) as (C & I & II). rewrite (mod_numeric E). unfold numeric, int_v, PromoteOperands. cbn [v_type].
  rewrite (proj2 (promote_joins a b t) J). cbn [bind]. rewrite C, (cast_int a t x Hx I (joins_l _ _ _ J)), (cast_int b t 0 Hy I (joins_r _ _ _ J)). cbn [bind v_val]. rewrite II, int_mod_zero; [reflexivity|].
  pose proof (in_type_64 a x Hx). pose proof (Z.pow_lt_mono_r 2 64 1023 ltac:(lia) ltac:(lia) ltac:(lia)). lia.
Qed.
Lemma div_decs x y a b r s : exact x a r -> exact y b s -> joins a b TDecimal -> ~ (s == 0)%Q -> decimal_result unit_27 (r / s) (EvaluateDiv E x y).
Proof.
  intros Hx Hy J Ns. destruct (as_dec x a r Hx (joins_l _ _ _ J)) as (v & c & -> & Tv & _ & Cv & Vc & _).
  destruct (as_dec y b s Hy (joins_r _ _ _ J)) as (w & d & -> & Tw & _ & Cw & Vd & _).
  assert (Nd : d_coef d <> 0). { intros Z0. apply Ns. rewrite <- Vd. unfold dec_value. rewrite Z0. apply Qmult_0_l. }
  destruct (dec_div_nearly c d Nd) as (z & Hz & Nz). rewrite (div_numeric E). unfold numeric, PromoteOperands. rewrite Tv, Tw, (proj2 (promote_joins a b TDecimal) J). cbn [bind].
  change (computes TDecimal) with true. change (is_int TDecimal) with false. cbn [bind]. rewrite Cv, Cw. cbn [bind v_val]. cbn [py_div num_of PD]. rewrite Hz. cbn [bind].
  assert (Q : (dec_value c / dec_value d == r / s)%Q) by (rewrite Vc, Vd; reflexivity).
  pose proof (decimal_new (E := E) unit_27 (r / s) z (nearly_eq _ _ _ _ Q Nz)) as R. destruct (new_value E TDecimal (Some (PD z))) as [u|u] eqn:N; [exact R|].
  destruct R as (d' & D1 & [[_ D2]|[D2 D3]]); [discriminate D2|]. injection D3 as ->. exists d'. split; [exact D1|]. right. split; [exact D2|reflexivity].
Qed.
Lemma div_decs_zero x y a b r s : exact x a r -> exact y b s -> joins a b TDecimal -> (s == 0)%Q -> ~ (r == 0)%Q -> EvaluateDiv E x y = Err EvaluationError.
Proof.
  intros Hx Hy J Zs Nr. destruct (as_dec x a r Hx (joins_l _ _ _ J)) as (v & c & -> & Tv & _ & Cv & Vc & _).
  destruct (as_dec y b s Hy (joins_r _ _ _ J)) as (w & d & -> & Tw & _ & Cw & Vd & _).
  assert (Zd : d_coef d = 0). { apply inj_eq. rewrite Zs in Vd. unfold dec_value in Vd. apply Qmult_integral in Vd as [V|V]; [exact V|]. pose proof (Qpow_pos (d_exp d)) as P. rewrite V in P. discriminate P. }
  assert (Nc : d_coef c <> 0). { intros Z0. apply Nr. rewrite <- Vc. unfold dec_value. rewrite Z0. apply Qmult_0_l. }
  rewrite (div_numeric E). unfold numeric, PromoteOperands. rewrite Tv, Tw, (proj2 (promote_joins a b TDecimal) J). cbn [bind].
  change (computes TDecimal) with true. change (is_int TDecimal) with false. cbn [bind]. rewrite Cv, Cw. cbn [bind v_val]. cbn [py_div num_of PD]. unfold dec_div. rewrite Zd. cbn [Z.eqb].
  destruct (Z.eqb_spec (d_coef c) 0); [contradiction|]. reflexivity.
Qed.
(** ** NULL *)
Lemma promoted_types a b t : promoted a b t <-> PromoteTypes a b = Ok (Some t).
Proof.
  destruct a as [a|], b as [b|]; cbn [promoted].
  - symmetry. apply promote_joins.
  - cbn. split; [intros ->; reflexivity|intros H; injection H as ->; reflexivity].
  - cbn. split; [intros ->; reflexivity|intros H; injection H as ->; reflexivity].
  - cbn. split; [contradiction|discriminate].
Qed.
Lemma arith_computes t : In t arithmetic_types <-> computes t = true.
Proof. split; [intros [<-|[<-|[<-|[<-|[<-|[]]]]]]; reflexivity|]. intros H. apply computes_number in H. cbn. intuition. Qed.
Lemma cast_total t v : computes t = true -> typed v -> (forall a, v_type v = Some a -> a = t \/ wider a t) -> exists w, SimpleCast t v = Ok w.
Proof.
  intros C T W. destruct v as [[a|] x]; unfold SimpleCast; cbn [v_type v_val]; [|eauto]. destruct (type_eqb a t) eqn:Q; [eauto|]. destruct x as [x|]; [|eexists; reflexivity].
  specialize (W a eq_refl). destruct W as [->|W]; [rewrite type_eqb_refl in Q; discriminate|]. unfold typed in T. cbn [v_val v_type] in T.
  assert (G : exists y, set_value t (Some x) = Ok y); [|destruct G as (y & ->); eexists; reflexivity].
  apply computes_number in C. pose proof W as W'. apply wider_idx in W' as (i & j & Ia & It & L).
  destruct x as [b|n|s|s|[f|d|p|c|g]]; cbn [of_type] in T; try (subst a; discriminate Ia).
  - destruct C as [C|[C|[C|[C|C]]]]; subst t.
    + eexists. apply set_value_in. apply (in_wider a TInt32 n T); [unfold integer_t; tauto|right; exact W].
    + eexists. apply set_value_in. apply (in_wider a TInt64 n T); [unfold integer_t; tauto|right; exact W].
    + cbn [set_value]. rewrite set_float_int; [eexists; reflexivity|exact single_max_big|exact (in_type_64 a n T)].
    + cbn [set_value]. rewrite set_float_int; [eexists; reflexivity|exact double_max_big|exact (in_type_64 a n T)].
    + cbn [set_value]. destruct (set_dec_num (PInt n) (NI n) eq_refl ltac:(discriminate) (dec_of_int n)) as [S _]; [right; eauto|]. rewrite S by exact (dec_ok_int a n T). eexists; reflexivity.
  - destruct T as [V [->|[-> _]]]; injection Ia as <-; destruct t; try discriminate It; injection It as <-; try lia. cbn [set_value]. change (PX (XF f)) with (PF f). rewrite set_double by exact V. eexists; reflexivity.
  - destruct T as [-> K]. injection Ia as <-. destruct t; try discriminate It; injection It as <-; try lia; cbn [set_value]; unfold set_float; cbn [num_of num_compare].
    + assert (M : (inject_Z dec_max < inject_Z double_max)%Q) by (rewrite <- Zlt_Qlt; vm_compute; reflexivity). destruct K as [K1 K2]. fold dec_max in K1, K2.
      assert (C1 : dec_compare d (dec_of_int (- double_max)) = Gt) by (apply dec_compare_is; rewrite dec_of_int_value, inject_Z_opp; eapply Qlt_le_trans; [|exact K1]; apply Qopp_lt_compat; exact M).
      assert (C2 : dec_compare d (dec_of_int double_max) = Lt) by (apply dec_compare_is; rewrite dec_of_int_value; eapply Qle_lt_trans; [exact K2|exact M]).
      rewrite C1, C2. eexists; reflexivity.
    + assert (M : (inject_Z dec_max < inject_Z single_max)%Q) by (rewrite <- Zlt_Qlt; vm_compute; reflexivity). destruct K as [K1 K2]. fold dec_max in K1, K2.
      assert (C1 : dec_compare d (dec_of_int (- single_max)) = Gt) by (apply dec_compare_is; rewrite dec_of_int_value, inject_Z_opp; eapply Qlt_le_trans; [|exact K1]; apply Qopp_lt_compat; exact M).
      assert (C2 : dec_compare d (dec_of_int single_max) = Lt) by (apply dec_compare_is; rewrite dec_of_int_value; eapply Qle_lt_trans; [exact K2|exact M]).
      rewrite C1, C2. eexists; reflexivity.
  - destruct T as [->| ->]; discriminate Ia.
Qed.
Lemma numeric_null op a b t u w : typed (mkV a u) -> typed (mkV b w) -> promoted a b t -> In t arithmetic_types -> u = None \/ w = None ->
  numeric E op (DSimple E (mkV a u)) (DSimple E (mkV b w)) = Ok (null_v (Some t)).
Proof.
  intros Ta Tb P C N. apply promoted_types in P. apply arith_computes in C. destruct (promote_widen _ _ _ P) as [Wa Wb].
  destruct (cast_total t _ C Ta Wa) as (a' & Ca). destruct (cast_total t _ C Tb Wb) as (b' & Cb).
  destruct (cast_type t _ _ Ta Wa Ca) as (_ & _ & Na). destruct (cast_type t _ _ Tb Wb Cb) as (_ & _ & Nb). cbn [v_val] in Na, Nb.
  unfold numeric, PromoteOperands. cbn [v_type]. rewrite P. cbn [bind]. rewrite C, Ca, Cb. cbn [bind].
  destruct N as [N|N]; [rewrite (proj2 Na N)|rewrite (proj2 Nb N); destruct (v_val a')]; reflexivity.
Qed.
Lemma null_arith o p q ctx a b t u w : In o [OAdd; OSub; OMul; ODiv; OMod] -> Ev p ctx = Ok (DSimple E (mkV a u)) -> Ev q ctx = Ok (DSimple E (mkV b w)) ->
  typed (mkV a u) -> typed (mkV b w) -> promoted a b t -> In t arithmetic_types -> u = None \/ w = None -> Ev (bin o p q) ctx = Ok (null_v (Some t)).
Proof.
  intros H Hp Hq Ta Tb P C N. assert (M : forall op, numeric E op (DSimple E (mkV a u)) (DSimple E (mkV b w)) = Ok (null_v (Some t))) by (intros op; apply numeric_null; assumption).
  destruct H as [<-|[<-|[<-|[<-|[<-|[]]]]]].
  - rewrite (bin_eval OAdd _ p q _ _ ctx eq_refl Hp Hq). exact (M (fun _ => py_add)).
  - rewrite (bin_eval OSub _ p q _ _ ctx eq_refl Hp Hq). exact (M (fun _ => py_sub)).
  - rewrite (bin_eval OMul _ p q _ _ ctx eq_refl Hp Hq). exact (M (fun _ => py_mul)).
  - rewrite (bin_eval ODiv _ p q _ _ ctx eq_refl Hp Hq). rewrite (div_numeric E), M. reflexivity.
  - rewrite (bin_eval OMod _ p q _ _ ctx eq_refl Hp Hq). rewrite (mod_numeric E), M. reflexivity.
Qed.
Lemma null_relation o p q ctx a b t u w : In o [OLt; OGt; OLe; OGe] -> Ev p ctx = Ok (DSimple E (mkV a u)) -> Ev q ctx = Ok (DSimple E (mkV b w)) ->
  typed (mkV a u) -> typed (mkV b w) -> promoted a b t -> In t arithmetic_types -> u = None \/ w = None -> Ev (bin o p q) ctx = Ok (bool_v false).
Proof.
  intros H Hp Hq Ta Tb P C N. apply promoted_types in P. apply arith_computes in C. destruct (promote_widen _ _ _ P) as [Wa Wb].
  destruct (cast_total t _ C Ta Wa) as (a' & Ca). destruct (cast_total t _ C Tb Wb) as (b' & Cb).
  destruct (cast_type t _ _ Ta Wa Ca) as (_ & _ & Na). destruct (cast_type t _ _ Tb Wb Cb) as (_ & _ & Nb). cbn [v_val] in Na, Nb.
  assert (R : forall rel, EvaluateRelation E rel (DSimple E (mkV a u)) (DSimple E (mkV b w)) = Ok (bool_v false)).
  { intros rel. unfold EvaluateRelation, PromoteOperands. cbn [v_type]. rewrite P. cbn [bind]. rewrite C, Ca, Cb. cbn [bind].
    destruct N as [N|N]; [rewrite (proj2 Na N)|rewrite (proj2 Nb N); destruct (v_val a')]; reflexivity. }
  destruct H as [<-|[<-|[<-|[<-|[]]]]]; [rewrite (bin_eval OLt _ p q _ _ ctx eq_refl Hp Hq)|rewrite (bin_eval OGt _ p q _ _ ctx eq_refl Hp Hq)|rewrite (bin_eval OLe _ p q _ _ ctx eq_refl Hp Hq)|rewrite (bin_eval OGe _ p q _ _ ctx eq_refl Hp Hq)]; apply R.
Qed.
Lemma null_eq p q ctx a b t u w : Ev p ctx = Ok (DSimple E (mkV a u)) -> Ev q ctx = Ok (DSimple E (mkV b w)) ->
  typed (mkV a u) -> typed (mkV b w) -> promoted a b t -> In t (TString :: TGuid :: TBinary :: arithmetic_types) -> u = None \/ w = None ->
  exists c, Ev (bin OEq p q) ctx = Ok (bool_v c) /\ Ev (bin ONe p q) ctx = Ok (bool_v (negb c)) /\ (c = true <-> u = None /\ w = None).
Proof.
  intros Hp Hq Ta Tb P C N. rewrite (bin_eval OEq _ p q _ _ ctx eq_refl Hp Hq), (bin_eval ONe _ p q _ _ ctx eq_refl Hp Hq), ne_negates. apply promoted_types in P. destruct (promote_widen _ _ _ P) as [Wa Wb].
  assert (PC : forall x y : option pyv, x = None \/ y = None -> (forall q, x <> Some (PX (XT q))) -> (forall q, y <> Some (PX (XT q))) -> exists c, py_compare x y = Ok (Some c) /\ (is_c Eq (Some c) = true <-> x = None /\ y = None)).
  { intros [x|] [y|] Hn Nx Ny; cbn [py_compare].
    - destruct Hn; discriminate.
    - exists Gt. split; [|split; [discriminate|intros [? _]; discriminate]]. destruct x as [| | | |[]]; try reflexivity. destruct (Nx p0 eq_refl).
    - exists Lt. split; [|split; [discriminate|intros [_ ?]; discriminate]]. destruct y as [| | | |[]]; try reflexivity. destruct (Ny p0 eq_refl).
    - exists Eq. split; [reflexivity|]. split; [auto|reflexivity]. }
  assert (NT : forall v, typed v -> forall s, v_type v = Some s -> (s <> TDateTime /\ s <> TDateTimeOffset) -> forall q, v_val v <> Some (PX (XT q))).
  { intros v Tv s Hs [N1 N2] z Hz. unfold typed in Tv. rewrite Hz, Hs in Tv. cbn in Tv. tauto. }
  assert (K : exists c, EvaluateEq E e_set e_key (DSimple E (mkV a u)) (DSimple E (mkV b w)) = Ok (bool_v c) /\ (c = true <-> u = None /\ w = None)).
  { destruct (computes t) eqn:Ct.
    - destruct (cast_total t _ Ct Ta Wa) as (a' & Ca). destruct (cast_total t _ Ct Tb Wb) as (b' & Cb).
      destruct (cast_type t _ _ Ta Wa Ca) as (Ya & Ta' & Na). destruct (cast_type t _ _ Tb Wb Cb) as (Yb & Tb' & Nb). cbn [v_val] in Na, Nb.
      assert (D : t <> TDateTime /\ t <> TDateTimeOffset) by (apply computes_number in Ct; destruct Ct as [->|[->|[->|[->| ->]]]]; split; discriminate).
      destruct (PC (v_val a') (v_val b')) as (c & HC & IC); [rewrite Na, Nb; exact N|apply (NT a' Ta' t Ya D)|apply (NT b' Tb' t Yb D)|].
      exists (is_c Eq (Some c)). split; [|rewrite IC, Na, Nb; reflexivity]. unfold EvaluateEq, PromoteOperands. cbn [v_type]. rewrite P. cbn [bind]. rewrite Ct, Ca, Cb. cbn [bind]. rewrite HC. reflexivity.
    - assert (Tt : t = TString \/ t = TGuid \/ t = TBinary). { destruct C as [<-|[<-|[<-|C]]]; [auto|auto|auto|]. apply arith_computes in C. congruence. }
      assert (O : one_of t [TString; TDateTime; TGuid; TBinary] = true) by (destruct Tt as [->|[->| ->]]; reflexivity).
      assert (SX : forall s, (s = Some t \/ s = None) -> forall x, typed (mkV s x) -> forall z, x <> Some (PX (XT z))).
      { intros s Hs x Tx z ->. unfold typed in Tx. cbn [v_val v_type] in Tx. destruct s as [s|]; [|contradiction]. destruct Hs as [Hs|Hs]; [injection Hs as ->|discriminate]. destruct Tt as [->|[->| ->]]; destruct Tx; discriminate. }
      assert (Sa : a = Some t \/ a = None). { destruct a as [a|]; [|auto]. destruct (Wa a eq_refl) as [->|W]; [auto|]. apply wider_idx in W as (i & j & _ & Hj & _). destruct Tt as [->|[->| ->]]; discriminate Hj. }
      assert (Sb : b = Some t \/ b = None). { destruct b as [b|]; [|auto]. destruct (Wb b eq_refl) as [->|W]; [auto|]. apply wider_idx in W as (i & j & _ & Hj & _). destruct Tt as [->|[->| ->]]; discriminate Hj. }
      destruct (PC u w N (SX a Sa u Ta) (SX b Sb w Tb)) as (c & HC & IC). exists (is_c Eq (Some c)). split; [|exact IC].
      unfold EvaluateEq, PromoteOperands. cbn [v_type v_val]. rewrite P. cbn [bind]. rewrite Ct, O. cbn [v_val]. rewrite HC. reflexivity. }
  destruct K as (c & K1 & K2). exists c. split; [exact K1|]. split; [|exact K2]. rewrite K1. reflexivity.
Qed.
End G.
