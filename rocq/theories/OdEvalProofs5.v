(** Proofs about OdEval.v: the types of results *)
From Coq Require Import ZArith Reals QArith List Lia Lra Bool Floats.SpecFloat.
From Flocq Require Import Core BinarySingleNaN.
From Verif Require Import Py Iso OdExpr OdEval OdEvalSpec OdEvalSpecF OdEvalTypes OdEvalFloat OdEvalFloat2 OdEvalFloat3 OdEvalProofs OdEvalProofs2 OdEvalProofs3 OdEvalProofs4.
Import ListNotations.
Open Scope Z_scope.

(** ** Induction on expressions *)
Section Ind.
Variable P : expr ext -> Prop.
Hypothesis Hl : forall v, P (ELit v).
Hypothesis Hp : forall n, P (EProp n).
Hypothesis Hc : forall m args, (forall e, In e args -> P e) -> P (ECall m args).
Hypothesis Ho : forall u o ops, (forall e, In (Some e) ops -> P e) -> P (EOp u o ops).
Fixpoint expr_rec_all (e : expr ext) : P e :=
  match e with
  | ELit v => Hl v
  | EProp n => Hp n
  | ECall m args => Hc m args
      ((fix go (l : list (expr ext)) : forall e, In e l -> P e :=
          match l with
          | [] => fun e H => match H with end
          | a :: l' => fun e H => match H with or_introl H => eq_ind a P (expr_rec_all a) e H | or_intror H => go l' e H end
          end) args)
  | EOp u o ops => Ho u o ops
      ((fix go (l : list (option (expr ext))) : forall e, In (Some e) l -> P e :=
          match l with
          | [] => fun e H => match H with end
          | x :: l' => fun e H =>
              match H with
              | or_introl H => match x as x return x = Some e -> P e with
                               | Some a => fun K => eq_ind a P (expr_rec_all a) e (f_equal (fun o => match o with Some b => b | None => a end) K)
                               | None => fun K => match K with end
                               end H
              | or_intror H => go l' e H
              end
          end) ops)
  end.
End Ind.

(** ** Setting a value *)
Lemma pow2_max k max : 0 <= k -> 2 ^ k <= max -> (bpow radix2 k <= IZR max)%R.
Proof. intros H K. rewrite <- pow2_bpow by exact H. apply IZR_le. exact K. Qed.
Lemma max_100 max : max = double_max \/ max = single_max -> 2 ^ 100 <= max.
Proof. intros [->| ->]; vm_compute; discriminate. Qed.
Lemma set_float_type max v y : max = double_max \/ max = single_max ->
  match num_of v with Some (NI n) => Z.abs n < 2 ^ 64 | Some (ND d) => dec_ok d | Some (NF f) => valid f | None => False end ->
  set_float max v = Ok y -> exists f, y = PF f /\ valid f /\ (finite f -> (Rabs (real f) <= IZR max)%R).
Proof.
  intros M H S. pose proof (max_100 max M) as M1. assert (M6 : 2 ^ 64 < max) by (eapply Z.lt_le_trans; [|exact M1]; reflexivity).
  unfold set_float in S. destruct (num_of v) as [[n|f|d]|]; [| | |contradiction].
  - destruct (_ || _); [discriminate|]. injection S as <-. exists (fl_of_int n). split; [reflexivity|]. split; [apply of_int_valid|]. intros _.
    destruct (of_int_rnd n H) as [_ ->]. apply Rle_trans with (bpow radix2 64); [|apply pow2_max; lia]. apply rnd_bounded; [|lia]. rewrite <- abs_IZR. rewrite <- pow2_bpow by lia. apply IZR_le. lia.
  - destruct f as [s|s| |s m e]; cbn [num_compare] in S; try (injection S as <-; eexists; split; [reflexivity|]; split; [exact H|discriminate]).
    + destruct (_ || _) in S; [discriminate|]. injection S as <-. eexists; split; [reflexivity|]. split; [exact H|]. intros _. cbn [real SF2R]. rewrite Rabs_R0. apply IZR_le. lia.
    + destruct (is_c Lt _ || is_c Gt _) eqn:C in S; [discriminate|]. injection S as <-. eexists; split; [reflexivity|]. split; [exact H|]. intros F.
      rewrite !(compare_int_real _ _ F) in C. apply orb_false_elim in C as [C1 C2]. rewrite opp_IZR in C1. apply Rabs_le.
      destruct (Rcompare_spec (real (S754_finite s m e)) (- IZR max)); [discriminate C1| |]; (destruct (Rcompare_spec (real (S754_finite s m e)) (IZR max)); [| |discriminate C2]); lra.
  - destruct (_ || _) in S; [discriminate|]. injection S as <-. destruct (of_dec_real d H) as (V & F & R). exists (fl_of_dec d). split; [reflexivity|]. split; [exact V|]. intros _. rewrite R.
    apply Rle_trans with (bpow radix2 100); [|apply pow2_max; lia]. apply rnd_bounded; [apply dec_bound; exact H|lia].
Qed.
Lemma set_int_type t n y : integer_t t -> set_value t (Some (PInt n)) = Ok y -> y = Some (PInt n) /\ in_type t n.
Proof.
  intros I H. rewrite set_value_int in H by exact I. destruct (Z.ltb_spec n (lo t)); [discriminate|]. destruct (Z.ltb_spec (hi t) n); [discriminate|]. injection H as <-.
  split; [reflexivity|]. apply in_type_range. split; [exact I|lia].
Qed.
Lemma set_dec_type d y : set_value TDecimal (Some (PD d)) = Ok y -> y = Some (PD d) /\ dec_ok d.
Proof.
  cbn [set_value]. intros H. destruct (dec_ok_dec d) as [K|K]; [rewrite set_dec_ok in H by exact K|rewrite set_dec_out in H by exact K; discriminate].
  injection H as <-. auto.
Qed.
Definition goes (t : edm_type) (r : result (option pyv)) : Prop := forall y, r = Ok y -> match y with Some x => of_type t x | None => False end.
Lemma float_goes max v : max = double_max \/ max = single_max ->
  match num_of v with Some (NI n) => Z.abs n < 2 ^ 64 | Some (ND d) => dec_ok d | Some (NF f) => valid f | None => False end ->
  goes (if max =? single_max then TSingle else TDouble) (r <- set_float max v ;; Ok (Some r)).
Proof.
  intros M H y Hy. destruct (set_float max v) as [r|] eqn:S; [|discriminate]. cbn [bind] in Hy. injection Hy as <-.
  destruct (set_float_type max v r M H S) as (f & -> & V & B). cbn [of_type PF]. split; [exact V|].
  destruct (Z.eqb_spec max single_max) as [->|N]; [right; auto|left; reflexivity].
Qed.
(** a value of a type can be set as one of the same type or of a wider one *)
Lemma set_widen a t x : of_type a x -> a = t \/ wider a t -> goes t (set_value t (Some x)).
Proof.
  intros H W.
  assert (WD : t = TDouble -> match num_of x with Some (NI n) => Z.abs n < 2 ^ 64 | Some (ND d) => dec_ok d | Some (NF f) => valid f | None => False end -> goes t (set_value t (Some x))).
  { intros -> K. pose proof (float_goes double_max x (or_introl eq_refl) K) as G. assert (Ed : double_max =? single_max = false) by (vm_compute; reflexivity). rewrite Ed in G. exact G. }
  assert (WS : t = TSingle -> match num_of x with Some (NI n) => Z.abs n < 2 ^ 64 | Some (ND d) => dec_ok d | Some (NF f) => valid f | None => False end -> goes t (set_value t (Some x))).
  { intros -> K. pose proof (float_goes single_max x (or_intror eq_refl) K) as G. rewrite Z.eqb_refl in G. exact G. }
  destruct x as [b|n|s|s|[f|d|p|c|g]]; cbn [of_type] in H.
  - subst a. destruct W as [<-|W]; [|apply wider_idx in W as (? & ? & D & _); discriminate D]. intros y Hy. injection Hy as <-. reflexivity.
  - assert (I : integer_t a) by (apply in_type_range in H; apply H). pose proof (in_type_64 a n H) as B.
    assert (C : integer_t t \/ t = TDecimal \/ t = TSingle \/ t = TDouble).
    { destruct W as [<-|W]; [auto|]. apply wider_idx in W as (i & j & A & T & L). unfold integer_t. destruct t; try discriminate T; auto 10. }
    destruct C as [C|[->|[C|C]]]; [| |apply WS; [exact C|exact B]|apply WD; [exact C|exact B]].
    + intros y Hy. destruct (set_int_type t n y C Hy) as [-> K]. exact K.
    + intros y Hy. cbn [set_value] in Hy. unfold set_dec in Hy. cbn [num_of bind] in Hy. destruct (dec_compare _ _) in Hy; try discriminate Hy; injection Hy as <-; (split; [reflexivity|exact (dec_ok_int a n H)]).
  - subst a. destruct W as [<-|W]; [|apply wider_idx in W as (? & ? & D & _); discriminate D]. intros y Hy. injection Hy as <-. reflexivity.
  - subst a. destruct W as [<-|W]; [|apply wider_idx in W as (? & ? & D & _); discriminate D]. intros y Hy. injection Hy as <-. reflexivity.
  - destruct H as [V T]. assert (C : t = TSingle \/ t = TDouble).
    { destruct W as [<-|W]; [tauto|]. apply wider_idx in W as (i & j & A & B & L). destruct T as [->|[-> _]]; injection A as <-; destruct t; try discriminate B; injection B as <-; try lia; auto. }
    destruct C as [C|C]; [apply WS; [exact C|exact V]|apply WD; [exact C|exact V]].
  - destruct H as [-> K]. assert (C : t = TDecimal \/ t = TSingle \/ t = TDouble).
    { destruct W as [<-|W]; [auto|]. apply wider_idx in W as (i & j & A & B & L). injection A as <-; destruct t; try discriminate B; injection B as <-; try lia; auto. }
    destruct C as [->|[C|C]]; [|apply WS; [exact C|exact K]|apply WD; [exact C|exact K]]. intros y Hy. destruct (set_dec_type d y Hy) as [-> _]. split; [reflexivity|exact K].
  - destruct W as [<-|W]; [|apply wider_idx in W as (? & ? & D & _); destruct H as [->| ->]; discriminate D].
    destruct H as [->| ->]; intros y Hy; cbn [set_value] in Hy.
    + destruct (p_WithZone p None None None) as [q|]; [|discriminate Hy]. injection Hy as <-. left. reflexivity.
    + destruct (is_none _); [discriminate Hy|]. destruct (precision_eqb _ _); [|discriminate Hy]. injection Hy as <-. right. reflexivity.
  - subst a. destruct W as [<-|W]; [|apply wider_idx in W as (? & ? & D & _); discriminate D]. intros y Hy. injection Hy as <-. reflexivity.
  - subst a. destruct W as [<-|W]; [|apply wider_idx in W as (? & ? & D & _); discriminate D]. intros y Hy. injection Hy as <-. reflexivity.
Qed.
(** a new number *)
Definition number_of (t : edm_type) (x : pyv) : Prop :=
  match x with
  | PInt _ => integer_t t
  | PX (XD _) => t = TDecimal
  | PX (XF f) => valid f /\ (t = TDouble \/ t = TSingle)
  | _ => False
  end.
Lemma set_number t x : number_of t x -> goes t (set_value t (Some x)).
Proof.
  destruct x as [b|n|s|s|[f|d|p|c|g]]; cbn [number_of]; try contradiction; intros H y Hy.
  - destruct (set_int_type t n y H Hy) as [-> K]. exact K.
  - destruct H as [V [->| ->]]; cbn [set_value] in Hy.
    + apply (float_goes double_max (PF f) (or_introl eq_refl) V y Hy).
    + apply (float_goes single_max (PF f) (or_intror eq_refl) V y Hy).
  - subst t. destruct (set_dec_type d y Hy) as [-> K]. split; [reflexivity|exact K].
Qed.
Lemma cast_type t v w : typed v -> (forall a, v_type v = Some a -> a = t \/ wider a t) -> SimpleCast t v = Ok w -> v_type w = Some t /\ typed w /\ (v_val w = None <-> v_val v = None).
Proof.
  destruct v as [[a|] x]; unfold typed, SimpleCast; cbn [v_type v_val]; intros T W H.
  - destruct (type_eqb a t) eqn:Q.
    + apply type_eqb_eq in Q as ->. injection H as <-. cbn [v_type v_val simple_v]. split; [reflexivity|]. split; [exact T|reflexivity].
    + destruct x as [x|].
      * pose proof (set_widen a t x T (W a eq_refl)) as G. destruct (set_value t (Some x)) as [y|]; [|discriminate H]. cbn [bind] in H. injection H as <-.
        specialize (G y eq_refl). cbn [v_type v_val simple_v]. destruct y; [|contradiction]. split; [reflexivity|]. split; [exact G|split; discriminate].
      * cbn [set_value bind] in H. injection H as <-. cbn [v_type v_val simple_v]. split; [reflexivity|]. split; [exact I|split; reflexivity].
  - injection H as <-. cbn [v_type v_val simple_v]. split; [reflexivity|]. split; [exact I|]. destruct x; [contradiction|split; reflexivity].
Qed.

Section T.
Variable E : Type.
Notation wellE := (well E).
Lemma well_simple v : wellE (DSimple E v) -> typed v.
Proof. intros H. inversion H. assumption. Qed.
Lemma new_goes t x d : (match x with Some y => goes t (set_value t (Some y)) | None => True end) -> new_value E t x = Ok d -> wellE d.
Proof.
  unfold new_value. destruct x as [x|]; intros G H.
  - destruct (set_value t (Some x)) as [y|] eqn:S; [|discriminate]. cbn [bind] in H. injection H as <-. specialize (G y eq_refl). constructor. unfold typed. cbn [v_val v_type simple_v]. destruct y; [exact G|contradiction].
  - cbn [set_value bind] in H. injection H as <-. constructor. exact I.
Qed.
Lemma well_bool b : wellE (boolean E b). Proof. constructor. reflexivity. Qed.
Lemma well_null t : wellE (null_of E t). Proof. constructor. exact I. Qed.
Lemma promote_widen ta tb t : PromoteTypes ta tb = Ok (Some t) -> (forall a, ta = Some a -> a = t \/ wider a t) /\ (forall b, tb = Some b -> b = t \/ wider b t).
Proof.
  destruct ta as [a|], tb as [b|]; intros H.
  - apply promote_joins in H. split; intros x Hx; injection Hx as <-; [exact (joins_l _ _ _ H)|exact (joins_r _ _ _ H)].
  - injection H as ->. split; intros x Hx; [injection Hx as <-; auto|discriminate].
  - injection H as ->. split; intros x Hx; [discriminate|injection Hx as <-; auto].
  - discriminate.
Qed.
(** what an operator gets from PromoteOperands and the two casts *)
Lemma computes_number t : computes t = true -> t = TInt32 \/ t = TInt64 \/ t = TSingle \/ t = TDouble \/ t = TDecimal.
Proof. destruct t; intros H; try discriminate H; auto. Qed.
Definition closed (op : pyv -> pyv -> result pyv) (t : edm_type) : Prop :=
  forall x y z, of_type t x -> of_type t y -> op x y = Ok z -> number_of t z.
Lemma num_cases t x : computes t = true -> of_type t x ->
  (exists n, x = PInt n /\ integer_t t) \/ (exists d, x = PD d /\ t = TDecimal) \/ (exists f, x = PF f /\ valid f /\ (t = TDouble \/ t = TSingle)).
Proof.
  intros C H. apply computes_number in C. destruct x as [b|n|s|s|[f|d|p|c|g]]; cbn [of_type] in H.
  - subst t. exfalso. intuition discriminate.
  - left. exists n. split; [reflexivity|]. apply in_type_range in H. apply H.
  - subst t. exfalso. intuition discriminate.
  - subst t. exfalso. intuition discriminate.
  - right. right. exists f. split; [reflexivity|]. tauto.
  - right. left. exists d. split; [reflexivity|apply H].
  - exfalso. destruct H; subst t; intuition discriminate.
  - subst t. exfalso. intuition discriminate.
  - subst t. exfalso. intuition discriminate.
Qed.
Lemma int_not_other t : integer_t t -> t = TDecimal \/ t = TDouble \/ t = TSingle -> False.
Proof. unfold integer_t. intros H K. intuition congruence. Qed.
Lemma add_valid x y : valid x -> valid y -> valid (fl_add x y).
Proof. intros (a & ->)%valid_B (b & ->)%valid_B. rewrite add_B. apply valid_binary_B2SF. Qed.
Lemma sub_valid x y : valid x -> valid y -> valid (fl_sub x y).
Proof. intros (a & ->)%valid_B (b & ->)%valid_B. rewrite sub_B. apply valid_binary_B2SF. Qed.
Lemma mul_valid x y : valid x -> valid y -> valid (fl_mul x y).
Proof. intros (a & ->)%valid_B (b & ->)%valid_B. rewrite mul_B. apply valid_binary_B2SF. Qed.
Lemma fl_div_valid x y z : valid x -> valid y -> fl_div x y = Ok z -> valid z.
Proof.
  intros (a & ->)%valid_B (b & ->)%valid_B H. unfold fl_div in H. destruct (B2SF b) eqn:Q; try discriminate H; injection H as <-; rewrite <- Q, div_B; apply valid_binary_B2SF.
Qed.
Lemma fmod_valid x y z : valid x -> valid y -> fl_fmod x y = Ok z -> valid z.
Proof. intros Vx Vy H. destruct x, y; cbn [fl_fmod] in H; try discriminate H; injection H as <-; first [exact Vx|reflexivity|apply normalize_valid]. Qed.
Ltac num t C H1 H2 :=
  destruct (num_cases t _ C H1) as [(?n & -> & ?I)|[(?d & -> & ?T)|(?f & -> & ?V & ?T)]];
  destruct (num_cases t _ C H2) as [(?n & -> & ?I)|[(?d & -> & ?T)|(?f & -> & ?V & ?T)]];
  try (exfalso; apply (int_not_other t); [assumption|tauto]); try (exfalso; intuition congruence).
Lemma closed_arith op t : In op [py_add; py_sub; py_mul] -> computes t = true -> closed op t.
Proof.
  intros H C x y z Hx Hy Hz. num t C Hx Hy; cbn in H; destruct H as [<-|[<-|[<-|[]]]]; cbn in Hz; injection Hz as <-; cbn [number_of PF PD]; try assumption;
    (split; [|assumption]); first [apply add_valid|apply sub_valid|apply mul_valid]; assumption.
Qed.
Lemma closed_div t : computes t = true -> closed (if is_int t then int_div else py_div) t.
Proof.
  intros C x y z Hx Hy Hz. assert (II : is_int t = true <-> integer_t t).
  { apply computes_number in C. unfold integer_t. destruct C as [->|[->|[->|[->| ->]]]]; cbn; intuition congruence. }
  num t C Hx Hy.
  - rewrite (proj2 II) in Hz by assumption. unfold int_div in Hz. cbn [to_float num_of bind] in Hz. destruct (fl_div _ _); [|discriminate Hz]. cbn [bind] in Hz. destruct (fl_int _); [|discriminate Hz]. injection Hz as <-. assumption.
  - destruct (is_int t) eqn:Q; [exfalso; apply (int_not_other t); tauto|]. cbn in Hz. destruct (dec_div d d0); [|discriminate Hz]. injection Hz as <-. assumption.
  - destruct (is_int t) eqn:Q; [exfalso; apply (int_not_other t); tauto|]. cbn in Hz. destruct (fl_div f f0) eqn:D; [|discriminate Hz]. injection Hz as <-. split; [|assumption]. eapply fl_div_valid; [| |exact D]; assumption.
Qed.
Lemma closed_mod t : computes t = true -> closed (if is_int t then int_mod else py_fmod) t \/ t = TDecimal.
Proof.
  intros C. destruct (type_eqb t TDecimal) eqn:TD; [right; apply type_eqb_eq; exact TD|left]. intros x y z Hx Hy Hz.
  assert (II : is_int t = true <-> integer_t t).
  { apply computes_number in C. unfold integer_t. destruct C as [->|[->|[->|[->| ->]]]]; cbn; intuition congruence. }
  num t C Hx Hy.
  - rewrite (proj2 II) in Hz by assumption. unfold int_mod in Hz. cbn [to_float num_of bind] in Hz. destruct (fl_fmod _ _); [|discriminate Hz]. cbn [bind] in Hz. destruct (fl_int _); [|discriminate Hz]. injection Hz as <-. assumption.
  - subst t. discriminate TD.
  - destruct (is_int t) eqn:Q; [exfalso; apply (int_not_other t); tauto|]. unfold py_fmod in Hz. cbn in Hz. destruct (fl_fmod f f0) eqn:D; [|discriminate Hz]. injection Hz as <-. split; [|assumption]. eapply fmod_valid; [| |exact D]; assumption.
Qed.
End T.
