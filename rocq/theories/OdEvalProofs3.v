(** Proofs about OdEval.v: comparisons and Boolean operators *)
From Coq Require Import ZArith List Bool QArith Qpower Qabs Lia Lqa.
From Coq Require Floats.SpecFloat.
From Verif Require Import Py Iso OdExpr OdEval OdEvalSpec OdEvalProofs OdEvalProofs2.
Import ListNotations Floats.SpecFloat.
Open Scope Z_scope.
Open Scope list_scope.

(** the result of a comparison *)
Definition op_of (o : operator) (c : option comparison) : bool :=
  match o with
  | OLt => rel_lt c | OGt => rel_gt c | OLe => rel_le c | OGe => rel_ge c
  | OEq => is_c Eq c | ONe => negb (is_c Eq c) | _ => false
  end.
Definition tells (c : comparison) (lt gt eq : Prop) : Prop :=
  match c with Lt => lt /\ ~ gt /\ ~ eq | Gt => gt /\ ~ lt /\ ~ eq | Eq => eq /\ ~ lt /\ ~ gt end.
Lemma op_of_sense o c lt gt eq : In o comparisons -> tells c lt gt eq -> (op_of o (Some c) = true <-> sense o lt gt eq).
Proof.
  intros H T. cbn in H. destruct H as [<-|[<-|[<-|[<-|[<-|[<-|[]]]]]]]; destruct c; cbn in *; intuition discriminate.
Qed.
Lemma tells_Z x y : tells (x ?= y) (x < y) (x > y) (x = y).
Proof. destruct (Z.compare_spec x y); cbn; lia. Qed.
Lemma tells_dec c d : tells (dec_compare c d) (dec_value c < dec_value d)%Q (dec_value d < dec_value c)%Q (dec_value c == dec_value d)%Q.
Proof. pose proof (dec_compare_value c d) as H. destruct (dec_compare c d); cbn; (split; [exact H|split; intros K; lra]). Qed.
Lemma tells_Zq x y : tells (x ?= y) (inject_Z x < inject_Z y)%Q (inject_Z y < inject_Z x)%Q (inject_Z x == inject_Z y)%Q.
Proof.
  pose proof (tells_Z x y) as H. assert (I : (inject_Z x == inject_Z y)%Q <-> x = y) by (split; [apply inj_eq|intros ->; reflexivity]).
  destruct (x ?= y); cbn in *; rewrite <- !Zlt_Qlt, I; lia.
Qed.
Lemma tells_iff c lt gt eq lt' gt' eq' : (lt <-> lt') -> (gt <-> gt') -> (eq <-> eq') -> tells c lt gt eq -> tells c lt' gt' eq'.
Proof. intros A B C. destruct c; cbn; tauto. Qed.

(** *** strings *)
Lemma before_cons x s t : before (x :: s) (x :: t) <-> before s t.
Proof.
  split.
  - intros [(c & u & H)|(p & c & d & u & v & Hs & Ht & L)].
    + injection H as ->. left. eauto.
    + destruct p as [|y p]; cbn in Hs, Ht; [injection Hs as -> ->; injection Ht as -> ->; lia|].
      injection Hs as -> ->. injection Ht as ->. right. exists p, c, d, u, v. auto.
  - intros [(c & u & ->)|(p & c & d & u & v & -> & -> & L)]; [left; exists c, u; reflexivity|right; exists (x :: p), c, d, u, v; auto].
Qed.
Lemma before_diff x y s t : x <> y -> before (x :: s) (y :: t) <-> x < y.
Proof.
  intros N. split.
  - intros [(c & u & H)|(p & c & d & u & v & Hs & Ht & L)].
    + injection H as -> _. contradiction.
    + destruct p as [|z p]; cbn in Hs, Ht; [injection Hs as -> ->; injection Ht as -> ->; exact L|]. injection Hs as -> _. injection Ht as -> _. contradiction.
  - intros L. right. exists [], x, y, s, t. auto.
Qed.
Lemma before_nil s : before s [] <-> False.
Proof. split; [|tauto]. intros [(c & u & H)|(p & c & d & u & v & _ & H & _)]; [destruct s|destruct p]; discriminate. Qed.
Lemma nil_before c t : before [] (c :: t). Proof. left. exists c, t. reflexivity. Qed.
Lemma tells_str s t : tells (str_compare s t) (before s t) (before t s) (s = t).
Proof.
  revert t; induction s as [|x s IH]; intros [|y t]; cbn [str_compare].
  - cbn. rewrite before_nil. tauto.
  - cbn. rewrite before_nil. split; [apply nil_before|split; [tauto|discriminate]].
  - cbn. rewrite before_nil. split; [apply nil_before|split; [tauto|discriminate]].
  - destruct (Z.compare_spec x y) as [->|H|H].
    + eapply tells_iff; [| | |apply IH]; [rewrite before_cons; tauto|rewrite before_cons; tauto|split; [intros ->; reflexivity|intros K; injection K as ->; reflexivity]].
    + cbn. rewrite !before_diff by lia. split; [exact H|split; [lia|intros K; injection K as -> _; lia]].
    + cbn. rewrite !before_diff by lia. split; [exact H|split; [lia|intros K; injection K as -> _; lia]].
Qed.

Section C.
Context {E : Type} (e_set : E -> Z) (e_key : E -> result (list (option pyv))).
Notation bm := (binary_method E e_set e_key).
Lemma compare_computes o a b t va vb x y c : In o comparisons -> PromoteTypes (v_type a) (v_type b) = Ok (Some t) -> computes t = true ->
  SimpleCast t a = Ok va -> SimpleCast t b = Ok vb -> v_val va = Some x -> v_val vb = Some y -> py_compare (Some x) (Some y) = Ok c ->
  exists f, bm o = Some f /\ f (DSimple E a) (DSimple E b) = Ok (bool_v (op_of o c)).
Proof.
  intros H P C Sa Sb Va Vb Py. cbn in H.
  assert (R : forall rel, EvaluateRelation E rel (DSimple E a) (DSimple E b) = Ok (bool_v (rel c))).
  { intros rel. unfold EvaluateRelation, PromoteOperands. rewrite P. cbn [bind]. rewrite C, Sa, Sb. cbn [bind]. rewrite Va, Vb, Py. reflexivity. }
  assert (Q : EvaluateEq E e_set e_key (DSimple E a) (DSimple E b) = Ok (bool_v (is_c Eq c))).
  { unfold EvaluateEq, PromoteOperands. rewrite P. cbn [bind]. rewrite C, Sa, Sb. cbn [bind]. rewrite Va, Vb, Py. reflexivity. }
  destruct H as [<-|[<-|[<-|[<-|[<-|[<-|[]]]]]]]; eexists; (split; [reflexivity|]); [apply R|apply R|apply R|apply R|exact Q|].
  unfold EvaluateNe. rewrite Q. reflexivity.
Qed.
Lemma compare_other o a b t c : In o comparisons -> PromoteTypes (v_type a) (v_type b) = Ok (Some t) -> one_of t [TString; TDateTime; TGuid] = true ->
  py_compare (v_val a) (v_val b) = Ok c -> exists f, bm o = Some f /\ f (DSimple E a) (DSimple E b) = Ok (bool_v (op_of o c)).
Proof.
  intros H P T Py. cbn in H.
  assert (C : computes t = false) by (destruct t; first [discriminate T|reflexivity]).
  assert (T2 : one_of t [TString; TDateTime; TGuid; TBinary] = true) by (destruct t; first [discriminate T|reflexivity]).
  assert (R : forall rel, EvaluateRelation E rel (DSimple E a) (DSimple E b) = Ok (bool_v (rel c))).
  { intros rel. unfold EvaluateRelation, PromoteOperands. rewrite P. cbn [bind]. rewrite C, T, Py. reflexivity. }
  assert (Q : EvaluateEq E e_set e_key (DSimple E a) (DSimple E b) = Ok (bool_v (is_c Eq c))).
  { unfold EvaluateEq, PromoteOperands. rewrite P. cbn [bind]. rewrite C, T2, Py. reflexivity. }
  destruct H as [<-|[<-|[<-|[<-|[<-|[<-|[]]]]]]]; eexists; (split; [reflexivity|]); [apply R|apply R|apply R|apply R|exact Q|].
  unfold EvaluateNe. rewrite Q. reflexivity.
Qed.
(** exact numbers *)
Lemma compare_exact o (x y : data E) a b t p q : In o comparisons -> exact x a p -> exact y b q -> joins a b t -> t = TInt32 \/ t = TInt64 \/ t = TDecimal ->
  exists f r, bm o = Some f /\ f x y = Ok (bool_v r) /\ (r = true <-> q_rel o p q).
Proof.
  intros H Hx Hy J T. destruct (type_eqb t TDecimal) eqn:D.
  - apply type_eqb_eq in D as ->. destruct (as_dec x a p Hx (joins_l _ _ _ J)) as (v & c & -> & Tv & _ & Cv & Vc & _).
    destruct (as_dec y b q Hy (joins_r _ _ _ J)) as (w & d & -> & Tw & _ & Cw & Vd & _).
    assert (P : PromoteTypes (v_type v) (v_type w) = Ok (Some TDecimal)) by (rewrite Tv, Tw; apply promote_joins; exact J).
    destruct (compare_computes o v w TDecimal _ _ _ _ _ H P eq_refl Cv Cw eq_refl eq_refl eq_refl) as (f & Hf & R).
    exists f, (op_of o (Some (dec_compare c d))). split; [exact Hf|]. split; [exact R|]. apply op_of_sense; [exact H|].
    eapply tells_iff; [| | |apply tells_dec]; rewrite Vc, Vd; reflexivity.
  - assert (T' : t = TInt32 \/ t = TInt64) by (destruct T as [->|[->| ->]]; [auto|auto|discriminate D]).
    destruct (computes_int t T') as (C & I & _).
    assert (W : forall (z : data E) c r, exact z c r -> c = t \/ wider c t -> exists n, z = int_v c n /\ in_type c n /\ r = inject_Z n).
    { intros z c r [K|(m & _ & -> & _)] L; [exact K|]. exfalso. destruct L as [<-|L]; [discriminate D|]. apply wider_idx in L as (i & j & A & B & G).
      injection A as <-. destruct T' as [->| ->]; injection B as <-; lia. }
    destruct (W x a p Hx (joins_l _ _ _ J)) as (n & -> & In_n & ->). destruct (W y b q Hy (joins_r _ _ _ J)) as (m & -> & In_m & ->).
    pose proof (proj2 (promote_joins a b t) J) as P.
    destruct (compare_computes o (mkV (Some a) (Some (PInt n))) (mkV (Some b) (Some (PInt m))) t _ _ (PInt n) (PInt m) (Some (n ?= m)) H P C
      (cast_int a t n In_n I (joins_l _ _ _ J)) (cast_int b t m In_m I (joins_r _ _ _ J)) eq_refl eq_refl eq_refl) as (f & Hf & R).
    exists f, (op_of o (Some (n ?= m))). split; [exact Hf|]. split; [exact R|]. apply op_of_sense; [exact H|apply tells_Zq].
Qed.
Lemma compare_str o s t : In o comparisons -> exists f r, bm o = Some f /\ f (str_v s) (str_v t) = Ok (bool_v r) /\ (r = true <-> s_rel o s t).
Proof.
  intros H. destruct (compare_other o (mkV (Some TString) (Some (PStr s))) (mkV (Some TString) (Some (PStr t))) TString (Some (str_compare s t)) H eq_refl eq_refl eq_refl) as (f & Hf & R).
  exists f, (op_of o (Some (str_compare s t))). split; [exact Hf|]. split; [exact R|]. apply op_of_sense; [exact H|apply tells_str].
Qed.
(** ne is the negation of eq *)
Lemma eq_boolean (x y d : data E) : EvaluateEq E e_set e_key x y = Ok d -> exists b, d = bool_v b.
Proof.
  assert (PP : forall p : result (option edm_type * simple * simple), 
    ('(t, a, b) <- p ;;
      match t with
      | Some t =>
          if computes t then
            a <- SimpleCast t a ;; b <- SimpleCast t b ;;
            c <- py_compare (v_val a) (v_val b) ;; Ok (boolean E (is_c Eq c))
          else if one_of t [TString; TDateTime; TGuid; TBinary] then
            c <- py_compare (v_val a) (v_val b) ;; Ok (boolean E (is_c Eq c))
          else Err EvaluationError
      | None => Ok (boolean E true)
      end) = Ok d -> exists b, d = bool_v b).
  { intros [[[[t|] a] b]|]; cbn [bind]; intros H; [| |discriminate].
    - destruct (computes t).
      + destruct (SimpleCast t a); cbn [bind] in H; [|discriminate]. destruct (SimpleCast t b); cbn [bind] in H; [|discriminate].
        destruct (py_compare _ _); cbn [bind] in H; [|discriminate]. injection H as <-. eexists. reflexivity.
      + destruct (one_of t _); [|discriminate]. destruct (py_compare _ _); cbn [bind] in H; [|discriminate]. injection H as <-. eexists. reflexivity.
    - injection H as <-. eexists. reflexivity. }
  destruct x, y; try apply PP. unfold EvaluateEq. destruct (_ =? _).
  - destruct (e_key e); cbn [bind]; [|discriminate]. destruct (e_key e0); cbn [bind]; [|discriminate]. destruct (key_eq _ _); cbn [bind]; [|discriminate]. intros H. injection H as <-. eexists. reflexivity.
  - intros H. injection H as <-. eexists. reflexivity.
Qed.
Lemma ne_negates (x y : data E) : EvaluateNe E e_set e_key x y =
  match EvaluateEq E e_set e_key x y with Ok (DSimple _ (mkV _ (Some (PBool b)))) => Ok (bool_v (negb b)) | Ok _ => Err Unmodelled | Err e => Err e end.
Proof.
  unfold EvaluateNe. destruct (EvaluateEq E e_set e_key x y) as [d|e] eqn:H; [|reflexivity]. apply eq_boolean in H as (b & ->). reflexivity.
Qed.
End C.
