(** Proofs about OdEval.v: negation, logic, filters, texts, rounding, dates, members, isof and cast *)
From Coq Require Import ZArith Reals QArith Qreals List Lia Lra Bool String Floats.SpecFloat.
From Flocq Require Import Core BinarySingleNaN.
From Verif Require Import Py Iso IsoSpec IsoProofs IsoProofs2 OdExpr OdEval OdEvalSpec OdEvalSpecF OdEvalTypes OdEvalFloat OdEvalFloat2 OdEvalFloat3 OdEvalProofs OdEvalProofs2 OdEvalProofs3 OdEvalProofs4 OdEvalProofs5 OdEvalProofs6 OdEvalProofs7 OdEvalProofs8.
Import ListNotations.
Open Scope Z_scope.
Open Scope list_scope.

Section G.
Variable lower_char upper_char : Z -> Z.
Variable space : Z -> bool.
Variable E : Type.
Variable property : E -> str -> option (field E).
Variable e_len : E -> Z.
Variable e_type : E -> str.
Variable e_set : E -> Z.
Variable e_key : E -> result (list (option pyv)).
Notation Ev := (Evaluate lower_char upper_char space E property e_len e_type e_set e_key).
Notation CF := (CheckFilter lower_char upper_char space E property e_len e_type e_set e_key).
Notation bm := (binary_method E e_set e_key).
Notation methods := (call_methods lower_char upper_char space E).
Notation meth := (method lower_char upper_char space E).

(** ** Types that do not go together *)
Lemma mismatch o p q ctx a b u w : In o binaries -> Ev p ctx = Ok (DSimple E (mkV (Some a) u)) -> Ev q ctx = Ok (DSimple E (mkV (Some b) w)) ->
  (forall t, ~ joins a b t) -> Ev (bin o p q) ctx = Err EvaluationError.
Proof.
  intros H Hp Hq J. apply promote_fails in J.
  assert (K : forall f, bm o = Some f -> f (DSimple E (mkV (Some a) u)) (DSimple E (mkV (Some b) w)) = Err EvaluationError -> Ev (bin o p q) ctx = Err EvaluationError).
  { intros f Hf R. rewrite (bin_eval lower_char upper_char space E property e_len e_type e_set e_key o f p q _ _ ctx Hf Hp Hq). exact R. }
  unfold binaries in H. cbn [In] in H.
  repeat (destruct H as [<-|H]; [eapply K; [reflexivity|]; unfold EvaluateMul, EvaluateAdd, EvaluateSub, EvaluateDiv, EvaluateMod, EvaluateAnd, EvaluateOr, EvaluateNe, EvaluateEq, EvaluateRelation, arithmetic, logic, PromoteOperands; cbn [v_type]; rewrite J; reflexivity|]). contradiction.
Qed.

(** ** Negation *)
Lemma negate_int p ctx a t x : Ev p ctx = Ok (int_v a x) -> in_type a x -> (In a [TByte; TInt16; TInt32] /\ t = TInt32) \/ (a = TInt64 /\ t = TInt64) ->
  (in_type t (- x) -> Ev (un ONegate p) ctx = Ok (int_v t (- x))) /\ (~ in_type t (- x) -> Ev (un ONegate p) ctx = Err ValueError).
Proof.
  intros Hp I W. rewrite (negate_eval _ _ _ _ _ _ _ _ _ p _ ctx Hp).
  assert (R : EvaluateNegate E (int_v a x) = new_value E t (Some (PInt (- x)))).
  { assert (C : forall c, c = TByte \/ c = TInt16 -> in_type c x -> SimpleCast TInt32 (mkV (Some c) (Some (PInt x))) = Ok (mkV (Some TInt32) (Some (PInt x)))).
    { intros c Hc Ic. apply cast_int; [exact Ic|apply (computes_int TInt32); auto|]. right. destruct Hc as [-> | ->].
      - exists [], [TInt16], [TInt64; TDecimal; TSingle; TDouble]. reflexivity.
      - exists [TByte], [], [TInt64; TDecimal; TSingle; TDouble]. reflexivity. }
    destruct W as [[[<-|[<-|[<-|[]]]] ->]|[-> ->]]; unfold EvaluateNegate, int_v; cbn [v_type].
    - rewrite (C TByte (or_introl eq_refl) I). cbn [bind v_type v_val py_neg num_of]. rewrite Z.sub_0_l. reflexivity.
    - rewrite (C TInt16 (or_intror eq_refl) I). cbn [bind v_type v_val py_neg num_of]. rewrite Z.sub_0_l. reflexivity.
    - cbn [bind v_type v_val py_neg num_of]. rewrite Z.sub_0_l. reflexivity.
    - cbn [bind v_type v_val py_neg num_of]. rewrite Z.sub_0_l. reflexivity. }
  rewrite R. split; intros K; [apply new_int_in; exact K|apply new_int_out; [|exact K]]. destruct W as [[_ ->]|[_ ->]]; [apply (computes_int TInt32)|apply (computes_int TInt64)]; auto.
Qed.
Lemma negate_dec p ctx d : Ev p ctx = Ok (dec_v d) -> decimal_result unit_28 (- dec_value d) (Ev (un ONegate p) ctx).
Proof.
  intros Hp. rewrite (negate_eval _ _ _ _ _ _ _ _ _ p _ ctx Hp).
  change (EvaluateNegate E (dec_v d)) with (new_value E TDecimal (Some (PD (dec_sub (dec_of_int 0) d)))).
  apply decimal_new. eapply nearly_eq; [|apply dec_sub_nearly]. rewrite dec_of_int_value. ring.
Qed.
Lemma negate_double p ctx t f : Ev p ctx = Ok (fl_v t f) -> t = TDouble \/ t = TSingle -> valid f -> finite f ->
  exists z, Ev (un ONegate p) ctx = Ok (fl_v TDouble z) /\ valid z /\ finite z /\ real z = (- real f)%R.
Proof.
  intros Hp T V F. rewrite (negate_eval _ _ _ _ _ _ _ _ _ p _ ctx Hp).
  assert (R : rounds (real (S754_zero false) - real f) (fl_sub (S754_zero false) f)) by (apply sub_rounds; [reflexivity|exact V|reflexivity|exact F]).
  assert (Z0 : (real (S754_zero false) - real f = - real f)%R) by (change (real (S754_zero false)) with 0%R; ring). rewrite Z0 in R.
  assert (RN : rnd (- real f) = (- real f)%R).
  { unfold rnd. apply round_generic; [apply valid_rnd_N|]. apply generic_format_opp.
    exact (generic_format_B2R 53 1024 (SF2B f V)) || (rewrite <- (B2SF_SF2B 53 1024 f V) at 1; unfold real; rewrite SF2R_B2SF; exact (generic_format_B2R 53 1024 (SF2B f V))). }
  assert (B : (Rabs (- real f) < bpow radix2 1024)%R).
  { rewrite Rabs_Ropp. pose proof (abs_B2R_lt_emax 53 1024 (SF2B f V)) as K. unfold real. rewrite <- (B2SF_SF2B 53 1024 f V) at 1. rewrite SF2R_B2SF. exact K. }
  assert (N : EvaluateNegate E (fl_v t f) = new_value E TDouble (Some (PF (fl_sub (S754_zero false) f)))).
  { destruct T as [-> | ->]; [reflexivity|]. unfold EvaluateNegate, fl_v. cbn [v_type].
    unfold SimpleCast. cbn [v_type v_val type_eqb]. assert (S : set_value TDouble (Some (PX (XF f))) = Ok (Some (PX (XF f)))) by (unfold set_value; change (PX (XF f)) with (PF f); rewrite (set_double f V); reflexivity). rewrite S. reflexivity. }
  rewrite N. destruct R as [Vz [(_ & Fz & Rz)|(Big & _)]].
  - exists (fl_sub (S754_zero false) f). rewrite new_double by exact Vz. rewrite Rz, RN. auto.
  - exfalso. rewrite RN in Big. lra.
Qed.
(** ** Logic *)
Lemma logic_bool o p q ctx a b : In o [OAnd; OOr] -> Ev p ctx = Ok (bool_v a) -> Ev q ctx = Ok (bool_v b) ->
  Ev (bin o p q) ctx = Ok (bool_v (match o with OAnd => a && b | _ => a || b end)).
Proof.
  intros [<-|[<-|[]]] Hp Hq.
  - rewrite (bin_eval lower_char upper_char space E property e_len e_type e_set e_key OAnd _ p q _ _ ctx eq_refl Hp Hq). reflexivity.
  - rewrite (bin_eval lower_char upper_char space E property e_len e_type e_set e_key OOr _ p q _ _ ctx eq_refl Hp Hq). reflexivity.
Qed.
Lemma logic_null o p q ctx x y a b : In o [OAnd; OOr] -> Ev p ctx = Ok x -> Ev q ctx = Ok y -> truth_value x a -> truth_value y b -> a = None \/ b = None ->
  Ev (bin o p q) ctx = Ok (bool_v false).
Proof.
  intros H Hp Hq X Y N.
  assert (K : forall op, logic E op x y = Ok (bool_v false)).
  { intros op. destruct a as [a|], b as [b|]; cbn [truth_value] in X, Y; try (destruct N; discriminate); [subst x; destruct Y as [-> | ->]|destruct X as [-> | ->]; subst y|destruct X as [-> | ->], Y as [-> | ->]]; reflexivity. }
  destruct H as [<-|[<-|[]]].
  - rewrite (bin_eval lower_char upper_char space E property e_len e_type e_set e_key OAnd _ p q _ _ ctx eq_refl Hp Hq). apply K.
  - rewrite (bin_eval lower_char upper_char space E property e_len e_type e_set e_key OOr _ p q _ _ ctx eq_refl Hp Hq). apply K.
Qed.
Lemma not_bool p ctx x b : Ev p ctx = Ok x -> truth_value x b -> Ev (un ONot p) ctx = Ok (match b with Some b => bool_v (negb b) | None => null_v (Some TBoolean) end).
Proof.
  intros Hp X. rewrite (not_eval _ _ _ _ _ _ _ _ _ p _ ctx Hp). destruct b as [b|]; cbn [truth_value] in X; [subst x; reflexivity|destruct X as [-> | ->]; reflexivity].
Qed.

(** ** Texts *)
Notation evals := (fun ctx => Forall2 (fun p x => Ev p ctx = Ok x)).
Lemma meth_eval m ps xs ctx : find (fun p => str_eqb (fst p) (lit m)) methods = Some (lit m, meth m) -> evals ctx ps xs -> Ev (call m ps) ctx = meth m xs.
Proof. apply method_eval. Qed.
Lemma small_new n : - 2 ^ 31 <= n < 2 ^ 31 -> new_value E TInt32 (Some (PInt n)) = Ok (int_v TInt32 n).
Proof. intros H. apply new_int_in. exact H. Qed.
Lemma call2 m p q x y ctx : find (fun p => str_eqb (fst p) (lit m)) methods = Some (lit m, meth m) -> Ev p ctx = Ok x -> Ev q ctx = Ok y -> Ev (call m [p; q]) ctx = meth m [x; y].
Proof. intros F Hp Hq. apply meth_eval; [exact F|repeat constructor; assumption]. Qed.
Lemma call1 m p x ctx : find (fun p => str_eqb (fst p) (lit m)) methods = Some (lit m, meth m) -> Ev p ctx = Ok x -> Ev (call m [p]) ctx = meth m [x].
Proof. intros F Hp. apply meth_eval; [exact F|repeat constructor; assumption]. Qed.
Lemma call3 m p q r x y z ctx : find (fun p => str_eqb (fst p) (lit m)) methods = Some (lit m, meth m) -> Ev p ctx = Ok x -> Ev q ctx = Ok y -> Ev r ctx = Ok z -> Ev (call m [p; q; r]) ctx = meth m [x; y; z].
Proof. intros F Hp Hq Hr. apply meth_eval; [exact F|repeat constructor; assumption]. Qed.
Section Texts.
Variable ctx : option (data E).
Variable p q r : expr ext.
Variable s t w : str.
Hypothesis Hp : Ev p ctx = Ok (str_v s).
Hypothesis Hq : Ev q ctx = Ok (str_v t).
Hypothesis Hr : Ev r ctx = Ok (str_v w).
Lemma endswith_v : exists b, Ev (call "endswith" [p; q]) ctx = Ok (bool_v b) /\ (b = true <-> exists u, s = u ++ t).
Proof. exists (ends t s). split; [|apply ends_spec]. rewrite (call2 "endswith" p q _ _ ctx eq_refl Hp Hq). reflexivity. Qed.
Lemma startswith_v : exists b, Ev (call "startswith" [p; q]) ctx = Ok (bool_v b) /\ (b = true <-> exists u, s = t ++ u).
Proof. exists (starts t s). split; [|apply starts_spec]. rewrite (call2 "startswith" p q _ _ ctx eq_refl Hp Hq). reflexivity. Qed.
Lemma substringof_v : exists b, Ev (call "substringof" [p; q]) ctx = Ok (bool_v b) /\ (b = true <-> exists u v, t = u ++ s ++ v).
Proof. exists (0 <=? find_from 0 s t). split; [|apply find_holds]. rewrite (call2 "substringof" p q _ _ ctx eq_refl Hp Hq). reflexivity. Qed.
Lemma concat_v : Ev (call "concat" [p; q]) ctx = Ok (str_v (s ++ t)).
Proof. rewrite (call2 "concat" p q _ _ ctx eq_refl Hp Hq). reflexivity. Qed.
Lemma indexof_v : Z.of_nat (List.length s) < 2 ^ 31 -> exists i, Ev (call "indexof" [p; q]) ctx = Ok (int_v TInt32 i) /\ first_place t s i.
Proof.
  intros L. exists (find_from 0 t s). split; [|apply find_first]. rewrite (call2 "indexof" p q _ _ ctx eq_refl Hp Hq).
  change (meth "indexof" [str_v s; str_v t]) with (new_value E TInt32 (Some (PInt (find_from 0 t s)))). apply small_new.
  destruct (find_first t s) as [[-> _]|(u & v & Q & -> & _)]; [lia|]. apply (f_equal (@List.length Z)) in Q. rewrite !app_length in Q. lia.
Qed.
Lemma replace_v : t <> [] -> exists u, Ev (call "replace" [p; q; r]) ctx = Ok (str_v u) /\ replaced t w s u.
Proof. intros N. exists (replace t w s). split; [|apply replace_spec; exact N]. rewrite (call3 "replace" p q r _ _ _ ctx eq_refl Hp Hq Hr). reflexivity. Qed.
Lemma trim_v : exists u, Ev (call "trim" [p]) ctx = Ok (str_v u) /\ trimmed space s u.
Proof. exists (strip space s). split; [|apply strip_spec]. rewrite (call1 "trim" p _ ctx eq_refl Hp). reflexivity. Qed.
Lemma tolower_v : Ev (call "tolower" [p]) ctx = Ok (str_v (map lower_char s)).
Proof. rewrite (call1 "tolower" p _ ctx eq_refl Hp). reflexivity. Qed.
Lemma toupper_v : Ev (call "toupper" [p]) ctx = Ok (str_v (map upper_char s)).
Proof. rewrite (call1 "toupper" p _ ctx eq_refl Hp). reflexivity. Qed.
Lemma length_v : Z.of_nat (List.length s) < 2 ^ 31 -> Ev (call "length" [p]) ctx = Ok (int_v TInt32 (Z.of_nat (List.length s))).
Proof.
  intros L. rewrite (call1 "length" p _ ctx eq_refl Hp). change (meth "length" [str_v s]) with (new_value E TInt32 (Some (PInt (Z.of_nat (List.length s))))). apply small_new. lia.
Qed.
End Texts.
Lemma substring2_v ctx p q s i : Ev p ctx = Ok (str_v s) -> Ev q ctx = Ok (int_v TInt32 i) -> 0 <= i ->
  Ev (call "substring" [p; q]) ctx = Ok (str_v (skipn (Z.to_nat i) s)).
Proof. intros Hp Hq H. rewrite (call2 "substring" p q _ _ ctx eq_refl Hp Hq). rewrite <- slice_from_spec by exact H. reflexivity. Qed.
Lemma substring3_v ctx p q r s i n : Ev p ctx = Ok (str_v s) -> Ev q ctx = Ok (int_v TInt32 i) -> Ev r ctx = Ok (int_v TInt32 n) -> 0 <= i -> 0 <= n ->
  Ev (call "substring" [p; q; r]) ctx = Ok (str_v (firstn (Z.to_nat n) (skipn (Z.to_nat i) s))).
Proof. intros Hp Hq Hr H H'. rewrite (call3 "substring" p q r _ _ _ ctx eq_refl Hp Hq Hr). rewrite <- slice_spec by assumption. reflexivity. Qed.

(** ** Rounding *)
Lemma round_exact m P F p ctx x a r : In (m, P, F) roundings -> Ev p ctx = Ok x -> exact x a r -> In a [TInt16; TInt32; TInt64; TDecimal] ->
  exists d k, Ev (call m [p]) ctx = Ok (dec_v d) /\ (dec_value d == inject_Z k)%Q /\ P r k.
Proof.
  intros Hm Hp Hx Ha.
  assert (W : a = TDecimal \/ wider a TDecimal).
  { destruct Ha as [<-|[<-|[<-|[<-|[]]]]]; [right; exists [TByte], [TInt32; TInt64], [TSingle; TDouble]; reflexivity|right; exists [TByte; TInt16], [TInt64], [TSingle; TDouble]; reflexivity|right; exists [TByte; TInt16; TInt32], [], [TSingle; TDouble]; reflexivity|left; reflexivity]. }
  destruct (as_dec x a r Hx W) as (v & d & -> & Tv & _ & C & Q & O).
  assert (K : forall f ff, In (f, P) rounding -> (forall k, P (dec_value d) k -> P r k) -> exists d k, integral E f ff [DSimple E v] = Ok (dec_v d) /\ (dec_value d == inject_Z k)%Q /\ P r k).
  { intros f ff Hf HP. destruct (dec_integral_spec f P d Hf) as (k & V & HK). exists (dec_integral f d), k. split; [|split; [exact V|apply HP; exact HK]].
    unfold integral, PromoteParameter. rewrite Tv. assert (CC : CanCastMethodArgument (Some a) TDecimal = true) by (destruct Ha as [<-|[<-|[<-|[<-|[]]]]]; reflexivity).
    rewrite CC, C. cbn [bind v_val PD]. change (PX (XD (dec_integral f d))) with (PD (dec_integral f d)). rewrite (new_dec_ok _ (dec_integral_ok f P d Hf O)). reflexivity. }
  destruct Hm as [Hm|[Hm|[Hm|[]]]]; injection Hm as <- <- <-.
  - rewrite (call1 "floor" p _ ctx eq_refl Hp). apply K; [left; reflexivity|]. intros k. unfold is_floor. rewrite Q. auto.
  - rewrite (call1 "ceiling" p _ ctx eq_refl Hp). apply K; [right; left; reflexivity|]. intros k. unfold is_ceiling. rewrite Q. auto.
  - rewrite (call1 "round" p _ ctx eq_refl Hp). apply K; [right; right; left; reflexivity|]. intros k. unfold is_round_up. rewrite Q. auto.
Qed.
Lemma round_double m P F p ctx x a r : In (m, P, F) roundings -> Ev p ctx = Ok x -> as_real x a r -> In a [TByte; TSingle; TDouble] ->
  exists z, Ev (call m [p]) ctx = Ok (fl_v TDouble z) /\ finite z /\ real z = IZR (F r).
Proof.
  intros Hm Hp Hx Ha.
  assert (W : a = TDouble \/ wider a TDouble).
  { destruct Ha as [<-|[<-|[<-|[]]]]; [right; exists [], [TInt16; TInt32; TInt64; TDecimal; TSingle], []; reflexivity|right; exists [TByte; TInt16; TInt32; TInt64; TDecimal], [], []; reflexivity|left; reflexivity]. }
  destruct (as_double x a r Hx W) as (v & f & -> & Tv & C & Vf & Ff & Rf).
  assert (K : forall fd ff, (forall n d, 0 < d -> ff n d = F (IZR n / IZR d)%R) -> (forall n, F (IZR n) = n) -> (forall n d, 2 <= d -> Z.abs n < 2 ^ 53 -> Z.abs (ff n d) < 2 ^ 53) ->
    exists z, integral E fd ff [DSimple E v] = Ok (fl_v TDouble z) /\ finite z /\ real z = IZR (F r)).
  { intros fd ff Hf HF Hs. destruct (integral_real ff F f Hf HF Hs Vf Ff) as (V1 & F1 & R1). exists (fl_integral ff f). split; [|split; [exact F1|rewrite R1, Rf; reflexivity]].
    unfold integral, PromoteParameter. rewrite Tv. assert (CC : CanCastMethodArgument (Some a) TDecimal = false) by (destruct Ha as [<-|[<-|[<-|[]]]]; reflexivity).
    assert (CD : CanCastMethodArgument (Some a) TDouble = true) by (destruct Ha as [<-|[<-|[<-|[]]]]; reflexivity).
    rewrite CC, CD, C. cbn [bind v_val PF]. change (PX (XF (fl_integral ff f))) with (PF (fl_integral ff f)). apply new_double. exact V1. }
  destruct Hm as [Hm|[Hm|[Hm|[]]]]; injection Hm as <- <- <-.
  - rewrite (call1 "floor" p _ ctx eq_refl Hp). apply K; [exact below_floor|exact floor_int|exact floor_small].
  - rewrite (call1 "ceiling" p _ ctx eq_refl Hp). apply K; [exact above_ceil|exact ceil_int|exact ceil_small].
  - rewrite (call1 "round" p _ ctx eq_refl Hp). apply K; [exact half_even_nearest|exact nearest_int|exact half_even_small].
Qed.
End G.
