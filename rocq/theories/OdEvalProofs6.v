(** Proofs about OdEval.v: every result has a value of its type *)
From Coq Require Import ZArith Reals QArith List Lia Lra Bool Floats.SpecFloat.
From Flocq Require Import Core BinarySingleNaN.
From Verif Require Import Py Iso OdExpr OdEval OdEvalSpec OdEvalSpecF OdEvalTypes OdEvalFloat OdEvalFloat2 OdEvalFloat3 OdEvalProofs OdEvalProofs2 OdEvalProofs3 OdEvalProofs4 OdEvalProofs5.
Import ListNotations.
Open Scope Z_scope.

Tactic Notation "stepb" hyp(H) ident(x) ident(K) := match type of H with bind ?r _ = Ok _ => destruct r as [x|] eqn:K; cbn [bind] in H; [|discriminate H] end.

Section T.
Variable lower_char upper_char : Z -> Z.
Variable space : Z -> bool.
Variable E : Type.
Variable property : E -> str -> option (field E).
Variable e_len : E -> Z.
Variable e_type : E -> str.
Variable e_set : E -> Z.
Variable e_key : E -> result (list (option pyv)).
Notation wellE := (well E).

Lemma operands_inv l r t a b : PromoteOperands E l r = Ok (t, a, b) -> wellE l -> wellE r ->
  l = DSimple E a /\ r = DSimple E b /\ typed a /\ typed b /\ PromoteTypes (v_type a) (v_type b) = Ok t.
Proof.
  destruct l as [v| |], r as [w| |]; cbn [PromoteOperands]; intros H Wl Wr; try discriminate H. stepb H u K. injection H as -> -> ->.
  apply well_simple in Wl, Wr. auto.
Qed.
Lemma cast_val t v w x : typed v -> (forall a, v_type v = Some a -> a = t \/ wider a t) -> SimpleCast t v = Ok w -> v_val w = Some x -> of_type t x.
Proof.
  intros T W H V. destruct (cast_type t v w T W H) as (Tw & Ty & _). unfold typed in Ty. rewrite V, Tw in Ty. exact Ty.
Qed.
Lemma dec_of_float_goes f : goes TDecimal (set_value TDecimal (Some (PF f))).
Proof.
  intros y Hy. cbn [set_value] in Hy. unfold set_dec in Hy. cbn [num_of PF] in Hy.
  destruct (dec_of_fl f) as [d|]; [|destruct f; discriminate Hy]. cbn [bind] in Hy. destruct (dec_ok_dec d) as [K|K].
  - destruct (dec_compare _ _) in Hy; try discriminate Hy; injection Hy as <-; (split; [reflexivity|exact K]).
  - pose proof (set_dec_out d K) as O. unfold set_dec in O. cbn [num_of PD bind] in O. destruct (dec_compare _ _) in *; try discriminate O. discriminate Hy.
Qed.
(** the common part of the arithmetic operators *)
Definition numeric (op : edm_type -> pyv -> pyv -> result pyv) (l r : data E) : result (data E) :=
  '(t, a, b) <- PromoteOperands E l r ;;
  match t with
  | Some t =>
      if computes t then
        a <- SimpleCast t a ;; b <- SimpleCast t b ;;
        match v_val a, v_val b with
        | Some x, Some y => z <- op t x y ;; new_value E t (Some z)
        | _, _ => Ok (null_of E t)
        end
      else Err EvaluationError
  | None => Ok (null_of E TInt32)
  end.
Lemma numeric_well op l r d : (forall t x y z, computes t = true -> of_type t x -> of_type t y -> op t x y = Ok z -> goes t (set_value t (Some z))) ->
  wellE l -> wellE r -> numeric op l r = Ok d -> wellE d.
Proof.
  intros C Wl Wr H. unfold numeric in H. stepb H p P. destruct p as [[[t|] a] b]; [|injection H as <-; apply well_null].
  destruct (operands_inv _ _ _ _ _ P Wl Wr) as (-> & -> & Ta & Tb & PT). destruct (promote_widen _ _ _ PT) as [Wa Wb].
  destruct (computes t) eqn:Ct; [|discriminate H]. stepb H a' Ca. stepb H b' Cb.
  destruct (v_val a') as [x|] eqn:Va; [|injection H as <-; apply well_null]. destruct (v_val b') as [y|] eqn:Vb; [|injection H as <-; apply well_null].
  stepb H z Z. eapply new_goes; [|exact H]. cbn beta. apply (C t x y z Ct (cast_val t a a' x Ta Wa Ca Va) (cast_val t b b' y Tb Wb Cb Vb) Z).
Qed.
Lemma arithmetic_well op l r d : In op [py_add; py_sub; py_mul] -> wellE l -> wellE r -> arithmetic E op l r = Ok d -> wellE d.
Proof.
  intros Hop Wl Wr H. change (arithmetic E op l r) with (numeric (fun _ => op) l r) in H. eapply numeric_well; [|exact Wl|exact Wr|exact H].
  intros t x y z C Hx Hy Hz. cbv beta in Hz. apply set_number. exact (closed_arith op t Hop C x y z Hx Hy Hz).
Qed.
Lemma div_numeric l r : EvaluateDiv E l r = match numeric (fun t x y => if is_int t then int_div x y else py_div x y) l r with Err ZeroDivisionError => Err EvaluationError | x => x end.
Proof. reflexivity. Qed.
Lemma div_well l r d : wellE l -> wellE r -> EvaluateDiv E l r = Ok d -> wellE d.
Proof.
  intros Wl Wr H. rewrite div_numeric in H. destruct (numeric _ l r) as [d'|x] eqn:N; [|destruct x; discriminate H]. injection H as ->. eapply numeric_well; [|exact Wl|exact Wr|exact N].
  intros t x y z C Hx Hy Hz. cbv beta in Hz. apply set_number. apply (closed_div t C x y z Hx Hy). revert Hz. destruct (is_int t); intros Hz; exact Hz.
Qed.
Lemma mod_numeric l r : EvaluateMod E l r = match numeric (fun t x y => if is_int t then int_mod x y else py_fmod x y) l r with Err ZeroDivisionError | Err ValueError => Err EvaluationError | x => x end.
Proof. reflexivity. Qed.
Lemma mod_well l r d : wellE l -> wellE r -> EvaluateMod E l r = Ok d -> wellE d.
Proof.
  intros Wl Wr H. rewrite mod_numeric in H. destruct (numeric _ l r) as [d'|x] eqn:N; [|destruct x; discriminate H]. injection H as ->. eapply numeric_well; [|exact Wl|exact Wr|exact N].
  intros t x y z C Hx Hy Hz. cbv beta in Hz. destruct (closed_mod t C) as [K|K].
  - apply set_number. apply (K x y z Hx Hy). revert Hz. destruct (is_int t); intros Hz; exact Hz.
  - subst t. change (is_int TDecimal) with false in Hz. cbv iota in Hz. unfold py_fmod in Hz. stepb Hz u U. stepb Hz v V. stepb Hz w W. injection Hz as <-. apply dec_of_float_goes.
Qed.
Lemma negate_well r d : wellE r -> EvaluateNegate E r = Ok d -> wellE d.
Proof.
  intros W H. unfold EvaluateNegate in H. destruct r as [v| |]; try discriminate H. apply well_simple in W.
  assert (K : forall w, typed w -> match v_type w with
      | Some ((TInt32 | TInt64 | TDouble | TDecimal) as t) => match v_val w with Some x => y <- py_neg x ;; new_value E t (Some y) | None => Ok (null_of E t) end
      | None => Ok (null_of E TInt32) | _ => Err EvaluationError end = Ok d -> wellE d).
  { intros w Tw Hw. unfold typed in Tw. 
    assert (N : forall t x y, t = TInt32 \/ t = TInt64 \/ t = TDouble \/ t = TDecimal -> of_type t x -> py_neg x = Ok y -> goes t (set_value t (Some y))).
    { intros t x y Ht Hx Hy. apply set_number. assert (C : computes t = true) by (destruct Ht as [->|[->|[->| ->]]]; reflexivity).
      destruct (num_cases t x C Hx) as [(n & -> & I)|[(e & -> & T)|(f & -> & V & T)]]; cbn [py_neg num_of PF PD] in Hy; injection Hy as <-; cbn [number_of PF PD]; try assumption. split; [|exact T]. change (valid (fl_sub (S754_zero false) f)); apply sub_valid; [reflexivity|exact V]. }
    destruct (v_type w) as [t|] eqn:Q; [|injection Hw as <-; apply well_null].
    destruct (v_val w) as [x|] eqn:V.
    - destruct t; try discriminate Hw; stepb Hw y Y; (eapply new_goes; [|exact Hw]); (eapply N; [|exact Tw|exact Y]); auto.
    - destruct t; try discriminate Hw; injection Hw as <-; apply well_null. }
  destruct (v_type v) as [t|] eqn:Q.
  - assert (CT : forall t', t = t' \/ wider t t' -> forall w, SimpleCast t' v = Ok w -> typed w).
    { intros t' Wt w Hw. apply (cast_type t' v w W); [|exact Hw]. intros a Ha. rewrite Q in Ha. injection Ha as <-. exact Wt. }
    destruct t; stepb H w Hw; try (injection Hw as <-; apply (K v W); exact H).
    + apply (K w); [eapply CT; [|exact Hw]; right; apply wider_idx; exists 0%nat, 2%nat; split; [reflexivity|split; [reflexivity|lia]]|exact H].
    + apply (K w); [eapply CT; [|exact Hw]; right; apply wider_idx; exists 5%nat, 6%nat; split; [reflexivity|split; [reflexivity|lia]]|exact H].
    + apply (K w); [eapply CT; [|exact Hw]; right; apply wider_idx; exists 1%nat, 2%nat; split; [reflexivity|split; [reflexivity|lia]]|exact H].
  - cbn [bind] in H. apply (K v W). exact H.
Qed.
Lemma not_well r d : EvaluateNot E r = Ok d -> wellE d.
Proof.
  intros H. destruct r as [v| |]; try discriminate H. cbn [EvaluateNot] in H. destruct (v_val v) as [x|]; [|injection H as <-; apply well_null].
  destruct (v_type v) as [[]|]; try discriminate H. destruct x; try discriminate H. injection H as <-. apply well_bool.
Qed.
Lemma relation_well rel l r d : EvaluateRelation E rel l r = Ok d -> wellE d.
Proof.
  intros H. unfold EvaluateRelation in H. stepb H p P. destruct p as [[[t|] a] b]; [|injection H as <-; apply well_bool].
  destruct (computes t).
  - stepb H a' A. stepb H b' B. destruct (v_val a'), (v_val b'); try (injection H as <-; apply well_bool). stepb H c C. injection H as <-. apply well_bool.
  - destruct (one_of _ _); [|discriminate H]. stepb H c C. injection H as <-. apply well_bool.
Qed.
Lemma eq_well l r d : EvaluateEq E e_set e_key l r = Ok d -> wellE d.
Proof. intros H. apply eq_boolean in H as (b & ->). apply well_bool. Qed.
Lemma ne_well l r d : EvaluateNe E e_set e_key l r = Ok d -> wellE d.
Proof.
  intros H. rewrite ne_negates in H. destruct (EvaluateEq E e_set e_key l r) as [x|] eqn:Q; [|discriminate H]. apply eq_boolean in Q as (b & ->). injection H as <-. apply well_bool.
Qed.
Lemma logic_well op l r d : logic E op l r = Ok d -> wellE d.
Proof.
  intros H. unfold logic in H. stepb H p P. destruct p as [[[[]|] a] b]; try discriminate H; [|injection H as <-; apply well_bool].
  destruct (v_val a) as [[]|], (v_val b) as [[]|]; try discriminate H; injection H as <-; apply well_bool.
Qed.
Lemma binary_well o f l r d : binary_method E e_set e_key o = Some f -> wellE l -> wellE r -> f l r = Ok d -> wellE d.
Proof.
  intros H Wl Wr. destruct o; cbn [binary_method] in H; try discriminate H; injection H as <-; intros K.
  all: first [eapply relation_well; exact K|eapply eq_well; exact K|eapply ne_well; exact K|eapply logic_well; exact K|eapply div_well; [exact Wl|exact Wr|exact K]|eapply mod_well; [exact Wl|exact Wr|exact K]|
    (eapply arithmetic_well; [|exact Wl|exact Wr|exact K]); cbn; tauto].
Qed.
Lemma isof_well l r d : EvaluateIsOf space E e_len e_type l r = Ok d -> wellE d.
Proof.
  intros H. unfold EvaluateIsOf in H. destruct l as [l|]; [|injection H as <-; apply well_bool]. destruct (truth E e_len l); [|injection H as <-; apply well_bool].
  cbn [negb] in H. destruct l as [v| |e]; [|discriminate H|].
  - stepb H s S. destruct (DecodeType space s); [|discriminate H]. destruct (PromoteTypes _ _) as [[]|]; injection H as <-; apply well_bool.
  - stepb H s S. injection H as <-. apply well_bool.
Qed.
Lemma cast_well l r d : (forall x, l = Some x -> wellE x) -> EvaluateCast space E e_len e_type l r = Ok d -> wellE d.
Proof.
  intros W H. unfold EvaluateCast in H. destruct l as [l|].
  - specialize (W l eq_refl). destruct (truth E e_len l); cbn [negb] in H.
    + destruct l as [v| |e]; [|discriminate H|].
      * stepb H s S. destruct (DecodeType space s) as [t|]; [|discriminate H]. stepb H n N. destruct n as [n|]; [|discriminate H]. destruct (type_eqb t n) eqn:Q; [|discriminate H].
        apply type_eqb_eq in Q as <-. destruct (promote_widen _ _ _ N) as [_ Wv]. apply well_simple in W. eapply new_goes; [|exact H].
        unfold typed in W. destruct (v_val v) as [x|]; [|exact I]. destruct (v_type v) as [a|] eqn:Ta; [|contradiction]. apply (set_widen a t x W (Wv a eq_refl)).
      * stepb H s S. destruct (str_eqb _ _); [|discriminate H]. injection H as <-. exact W.
    + stepb H s S. destruct (DecodeType space s); injection H as <-; [apply well_null|constructor; exact I].
  - stepb H s S. destruct (DecodeType space s); injection H as <-; [apply well_null|constructor; exact I].
Qed.
Hypothesis Hprop : forall e n d, property e n = Some (FData E d) -> wellE d.
Lemma property_well n ctx d : (forall x, ctx = Some x -> wellE x) -> EvaluateProperty E property e_len n ctx = Ok d -> wellE d.
Proof.
  intros W H. unfold EvaluateProperty in H. destruct ctx as [x|]; [|discriminate H]. destruct (truth E e_len x); [|discriminate H]. specialize (W x eq_refl). destruct x as [|fs|e]; [discriminate H| |].
  - destruct (find _ fs) as [p|] eqn:F; [|discriminate H]. injection H as <-. apply find_some in F as [F _]. inversion W as [|fs' Wf|]; subst. rewrite Forall_forall in Wf. apply Wf. exact F.
  - destruct (property e n) as [[d'|r|]|] eqn:P; try discriminate H.
    + injection H as <-. eapply Hprop. exact P.
    + stepb H x X. destruct x; injection H as <-; [constructor|constructor; exact I].
Qed.
(** methods *)
Lemma new_str s d : new_value E TString (Some (PStr s)) = Ok d -> wellE d.
Proof. intros H. injection H as <-. constructor. reflexivity. Qed.
Lemma new_b b d : new_value E TBoolean (Some (PBool b)) = Ok d -> wellE d.
Proof. intros H. injection H as <-. constructor. reflexivity. Qed.
Lemma new_i n d : new_value E TInt32 (Some (PInt n)) = Ok d -> wellE d.
Proof. intros H. eapply new_goes; [|exact H]. cbn beta. apply set_number. unfold number_of, integer_t. tauto. Qed.
Lemma of_texts_b f a b d : of_texts E TBoolean (fun s p => PBool (f s p)) a b = Ok d -> wellE d.
Proof. unfold of_texts. destruct a, b; intros H; try (injection H as <-; apply well_null). eapply new_b; exact H. Qed.
Lemma point_well f args d : of_point E f args = Ok d -> wellE d.
Proof.
  intros H. unfold of_point in H. destruct args as [|a [|]]; try discriminate H. stepb H x X. stepb H p P. destruct p; [|injection H as <-; apply well_null]. stepb H n N.
  destruct n; [eapply new_i; exact H|]. injection H as <-. apply well_null.
Qed.
Lemma one_text_well f args d : one_text E f args = Ok d -> wellE d.
Proof.
  intros H. unfold one_text in H. destruct args as [|a [|]]; try discriminate H. stepb H x X. stepb H p P. unfold of_text in H. destruct p; [eapply new_str; exact H|injection H as <-; apply well_null].
Qed.
Lemma integral_well fd ff args d : (forall f, valid f -> valid (fl_integral ff f)) -> (forall a, In a args -> wellE a) -> integral E fd ff args = Ok d -> wellE d.
Proof.
  intros V W H. unfold integral in H. destruct args as [|a [|]]; try discriminate H. specialize (W a (or_introl eq_refl)).
  assert (P : forall t v, (t = TDecimal \/ t = TDouble) -> PromoteParameter E a t = Ok v -> v_type v = Some t /\ typed v).
  { intros t v Ht Hp. unfold PromoteParameter in Hp. destruct a as [w| |]; try discriminate Hp. destruct (CanCastMethodArgument (v_type w) t) eqn:C; [|discriminate Hp]. apply well_simple in W.
    destruct (cast_type t w v W) as (A & B & _); [|exact Hp|auto]. intros a Ha. rewrite Ha in C. cbn [CanCastMethodArgument] in C. destruct (type_eqb a t) eqn:Q; [left; apply type_eqb_eq; exact Q|].
    right. apply wider_idx. destruct Ht as [->| ->]; destruct a; try discriminate C; try discriminate Q; do 2 eexists; (split; [reflexivity|split; [reflexivity|lia]]). }
  match type of H with (match ?r with Ok _ => _ | Err _ => _ end) = _ => destruct r as [u|x] eqn:R end.
  - injection H as <-. stepb R v Hv. destruct (P _ _ (or_introl eq_refl) Hv) as [Tv Ty]. destruct (v_val v) as [x|]; [|injection R as <-; apply well_null].
    destruct x as [| | | |[]]; try discriminate R. eapply new_goes; [|exact R]. apply set_number. reflexivity.
  - destruct x; try discriminate H. stepb H v Hv. destruct (P _ _ (or_intror eq_refl) Hv) as [Tv Ty]. unfold typed in Ty. rewrite Tv in Ty. destruct (v_val v) as [x|]; [|injection H as <-; apply well_null].
    destruct x as [| | | |[]]; try discriminate H. eapply new_goes; [|exact H]. apply set_number. split; [|auto]. apply V. apply Ty.
Qed.
Lemma integral_valid ff f : valid f -> valid (fl_integral ff f).
Proof. intros V. destruct f; try exact V. cbn [fl_integral]. destruct (0 <=? e); [exact V|apply normalize_valid]. Qed.
Lemma call_well m args d : In m (call_methods lower_char upper_char space E) -> (forall a, In a args -> wellE a) -> snd m args = Ok d -> wellE d.
Proof.
  intros H W. cbn in H. repeat (destruct H as [<-|H]); try contradiction; cbn [snd]; intros K.
  all: try (eapply point_well; exact K); try (eapply one_text_well; exact K); try (eapply integral_well; [intros f; apply integral_valid|exact W|exact K]).
  - unfold EvaluateEndswith in K. destruct args as [|a [|b [|]]]; try discriminate K. stepb K p P. destruct p. eapply of_texts_b; exact K.
  - unfold EvaluateIndexof in K. destruct args as [|a [|b [|]]]; try discriminate K. stepb K p P. destruct p as [s t]. unfold of_texts in K. destruct s, t; try (injection K as <-; apply well_null). eapply new_i; exact K.
  - unfold EvaluateReplace in K. destruct args as [|a [|b [|c [|]]]]; try discriminate K. stepb K p P. destruct p as [s t]. stepb K z Z. stepb K q Q. destruct s, t, q; try (injection K as <-; apply well_null). eapply new_str; exact K.
  - unfold EvaluateStartswith in K. destruct args as [|a [|b [|]]]; try discriminate K. stepb K p P. destruct p. eapply of_texts_b; exact K.
  - unfold EvaluateSubstring in K. destruct args as [|a [|b rest]]; try discriminate K. assert (N : forall (x : result (data E)), (match rest with _ :: _ :: _ => Err EvaluationError | _ => x end) = Ok d -> x = Ok d) by (intros x; destruct rest as [|? [|]]; auto; discriminate).
    apply N in K. stepb K x X. stepb K y Y. stepb K n L. stepb K s S. stepb K i I0. destruct s, i; try (injection K as <-; apply well_null). eapply new_str; exact K.
  - unfold EvaluateSubstringof in K. destruct args as [|a [|b [|]]]; try discriminate K. stepb K p P. destruct p. eapply of_texts_b; exact K.
  - unfold EvaluateConcat in K. destruct args as [|a [|b [|]]]; try discriminate K. stepb K p P. destruct p as [s t]. unfold of_texts in K. destruct s, t; try (injection K as <-; apply well_null). eapply new_str; exact K.
  - unfold EvaluateLength in K. destruct args as [|a [|]]; try discriminate K. stepb K x X. stepb K s S. unfold of_text in K. destruct s; [eapply new_i; exact K|injection K as <-; apply well_null].
Qed.
Notation Ev := (Evaluate lower_char upper_char space E property e_len e_type e_set e_key).
Theorem evaluate_well e : forall ctx d, literals typed e -> (forall x, ctx = Some x -> wellE x) -> Ev e ctx = Ok d -> wellE d.
Proof.
  induction e as [v|n|m args IH|u o ops IH] using expr_rec_all; intros ctx d L W H; cbn [Evaluate] in H.
  - injection H as <-. inversion L; subst. constructor. assumption.
  - eapply property_well; [exact W|exact H].
  - destruct (find _ _) as [p|] eqn:F; [|discriminate H]. apply find_some in F as [F _]. stepb H xs X. eapply call_well; [exact F| |exact H].
    assert (La : forall e, In e args -> literals typed e) by (inversion L; subst; assumption). clear L F H. revert xs X. induction args as [|a args IHa]; intros xs X; [injection X as <-; intros y []|].
    stepb X y Y. stepb X ys Ys. injection X as <-. intros z [<-|Hz].
    + eapply (IH a (or_introl eq_refl)); [apply La; left; reflexivity|exact W|exact Y].
    + eapply (IHa (fun e He => IH e (or_intror He)) (fun e He => La e (or_intror He)) ys eq_refl). exact Hz.
  - assert (La : forall e, In (Some e) ops -> literals typed e) by (inversion L; subst; assumption). clear L.
    assert (OP : forall x c y, In x ops -> (forall z, c = Some z -> wellE z) -> (match x with Some a => Ev a c | None => Err AttributeError end) = Ok y -> wellE y).
    { intros [a|] c y Hx Wc Hy; [|discriminate Hy]. eapply (IH a Hx); [apply La; exact Hx|exact Wc|exact Hy]. }
    destruct ops as [|x rest]; [discriminate H|]. stepb H l Hl. assert (Wl : wellE l) by (eapply (OP x); [left; reflexivity|exact W|exact Hl]).
    assert (Wl' : forall z, Some l = Some z -> wellE z) by (intros z Hz; injection Hz as <-; exact Wl).
    destruct u.
    + destruct o; try discriminate H; [eapply negate_well; [exact Wl|exact H]|eapply not_well; exact H].
    + assert (B : match rest with [] => Err IndexError | y :: _ => r <- match y with Some a => Ev a ctx | None => Err AttributeError end ;; match binary_method E e_set e_key o with Some f => f l r | None => Err KeyError end end = Ok d -> wellE d).
      { clear H. intros H. destruct rest as [|y rest]; [discriminate H|]. stepb H r Hr. assert (Wr : wellE r) by (eapply (OP y); [right; left; reflexivity|exact W|exact Hr]).
        destruct (binary_method E e_set e_key o) as [f|] eqn:M; [|discriminate H]. eapply binary_well; [exact M|exact Wl|exact Wr|exact H]. }
      destruct o; try (apply B; exact H).
      * destruct rest as [|y rest]; [discriminate H|]. eapply (OP y); [right; left; reflexivity|exact Wl'|exact H].
      * destruct rest as [|y rest]; [eapply cast_well; [exact W|exact H]|]. stepb H r Hr. eapply cast_well; [exact Wl'|exact H].
      * destruct rest as [|y rest]; [eapply isof_well; exact H|]. stepb H r Hr. eapply isof_well; exact H.
Qed.
End T.
