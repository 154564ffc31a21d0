(** Proofs about SqlExpr.v: a filter in the database and in memory *)
From Coq Require Import ZArith QArith List Lia Bool.
From Verif Require Import Py Iso OdExpr OdEval OdEvalSpec OdEvalTypes OdEvalProofs OdEvalProofs3 OdEvalProofs4 OdEvalProofs5 OdEvalProofs7 OdEvalProofs8 OdEvalProofs9 SqlExpr SqlExprSpec SqlExprSpec2 SqlExprProofs SqlExprProofs2 SqlExprProofs3.
Import ListNotations.
Open Scope Z_scope.
Open Scope list_scope.

Section A.
Variable lower_char upper_char : Z -> Z.
Variable space : Z -> bool.
Variable E : Type.
Variable property : E -> str -> option (field E).
Variable e_len : E -> Z.
Variable e_type : E -> str.
Variable e_set : E -> Z.
Variable e_key : E -> result (list (option pyv)).
Variable ctx : option (data E).
Notation Ev0 := (Evaluate lower_char upper_char space E property e_len e_type e_set e_key).
Notation Ev := (fun e => Ev0 e ctx).
Notation bm := (binary_method E e_set e_key).
Notation meth := (method lower_char upper_char space E).
Context {O : Type}.
Variable fold : Z -> Z.
Notation V := (@sqlv O).
Notation gives := (@gives O fold).

(** What SQL has for a value: NULL may stand for false *)
Definition matches (d : data E) (w : V) : Prop := stored d w \/ (d = bool_v false /\ w = VNull).
Inductive kind : data E -> V -> Prop :=
| N_int : forall t n, in_type t n -> kind (int_v t n) (VInt n)
| N_text : forall s, kind (str_v s) (VText s)
| N_bool : forall b w, w = VInt (Z.b2z b) \/ (b = false /\ w = VNull) -> kind (bool_v b) w
| N_null : forall t, kind (null_v t) VNull.
Lemma kinds d w : matches d w <-> kind d w.
Proof.
  split.
  - intros [H|[-> ->]]; [destruct H; constructor; auto|constructor; auto].
  - intros H. destruct H as [t n H|s|b w [->|[-> ->]]|t]; [left; constructor; exact H|left; constructor|left; constructor|right; auto|left; constructor].
Qed.

(** ** Types *)
Definition odd_type (t : edm_type) : Prop := t = TString \/ t = TBoolean.
Lemma promote_odd_l a u t : odd_type a -> PromoteTypes (Some a) u = Ok t -> t = Some a.
Proof. intros [->| ->]; (destruct u as [u|]; [destruct u; cbn; intros H; try discriminate H; injection H as <-; reflexivity|cbn; intros H; injection H as <-; reflexivity]). Qed.
Lemma promote_odd_r a u t : odd_type a -> PromoteTypes u (Some a) = Ok t -> t = Some a.
Proof. intros [->| ->]; (destruct u as [u|]; [destruct u; cbn; intros H; try discriminate H; injection H as <-; reflexivity|cbn; intros H; injection H as <-; reflexivity]). Qed.
Lemma ints_or a b x y : in_type a x -> in_type b y -> (exists t, joins a b t /\ (t = TInt32 \/ t = TInt64)) \/
  (forall o f, In o (comparisons ++ sums) -> bm o = Some f -> f (int_v a x) (int_v b y) = Err EvaluationError).
Proof.
  intros Ha Hb.
  assert (B : (exists t, PromoteTypes (Some a) (Some b) = Ok (Some t) /\ (t = TInt32 \/ t = TInt64)) \/
    (forall o f, In o (comparisons ++ sums) -> bm o = Some f -> f (int_v a x) (int_v b y) = Err EvaluationError)).
  { destruct a; try contradiction Ha; destruct b; try contradiction Hb;
      first [left; eexists; split; [reflexivity|auto; fail]
            |right; intros o f H Hf; cbn in H; repeat (destruct H as [<-|H]; [injection Hf as <-; reflexivity|]); contradiction]. }
  destruct B as [(t & P & T)|B]; [left; exists t; split; [apply promote_joins; exact P|exact T]|right; exact B].
Qed.
Lemma cast_none t v w : SimpleCast t v = Ok w -> v_val v = None -> v_val w = None.
Proof.
  destruct v as [[a|] x]; unfold SimpleCast; cbn [v_type v_val]; intros H ->; [|injection H as <-; reflexivity].
  destruct (type_eqb a t); injection H as <-; reflexivity.
Qed.

(** ** Sums *)
Lemma arith_null op a b d : arithmetic E op (DSimple E a) (DSimple E b) = Ok d -> v_val a = None \/ v_val b = None -> exists t, d = null_v t.
Proof.
  unfold arithmetic, PromoteOperands. intros H N. destruct (PromoteTypes (v_type a) (v_type b)) as [[t|]|e]; cbn [bind] in H; [|injection H as <-; eexists; reflexivity|discriminate H].
  destruct (computes t); [|discriminate H]. destruct (SimpleCast t a) as [a'|] eqn:Ca; [|discriminate H]. destruct (SimpleCast t b) as [b'|] eqn:Cb; [|discriminate H]. cbn [bind] in H.
  destruct N as [N|N]; [rewrite (cast_none _ _ _ Ca N) in H|rewrite (cast_none _ _ _ Cb N) in H; destruct (v_val a')]; injection H as <-; eexists; reflexivity.
Qed.
Lemma arith_odd op a b t d : arithmetic E op (DSimple E a) (DSimple E b) = Ok d -> odd_type t -> v_type a = Some t \/ v_type b = Some t -> False.
Proof.
  unfold arithmetic, PromoteOperands. intros H T N. destruct (PromoteTypes (v_type a) (v_type b)) as [u|e] eqn:P; cbn [bind] in H; [|discriminate H].
  assert (u = Some t) as -> by (destruct N as [N|N]; rewrite N in P; [eapply promote_odd_l|eapply promote_odd_r]; eassumption).
  destruct T as [->| ->]; discriminate H.
Qed.
Lemma sum_match o q x y wx wy d : In (o, q) arithmetics -> matches x wx -> matches y wy -> arithmetic E (py_op o) x y = Ok d -> exists w, matches d w /\ gives q wx wy w.
Proof.
  rewrite !kinds. intros Ho X Y H.
  assert (Q : q <> BAnd /\ q <> BOr /\ q <> BConcat) by (cbn in Ho; intuition congruence).
  destruct X as [a m A|s|b w B|t]; [|exfalso; destruct Y; (eapply (arith_odd _ _ _ TString); [exact H|left; reflexivity|left; reflexivity])
    |exfalso; destruct Y; (eapply (arith_odd _ _ _ TBoolean); [exact H|right; reflexivity|left; reflexivity])|].
  - destruct Y as [b n B|s|b w B|t]; [|exfalso; eapply (arith_odd _ _ _ TString); [exact H|left; reflexivity|right; reflexivity]
      |exfalso; eapply (arith_odd _ _ _ TBoolean); [exact H|right; reflexivity|right; reflexivity]|].
    + assert (S : In o sums) by (cbn in Ho |- *; intuition congruence).
      destruct (ints_or a b m n A B) as [(t & J & T)|N].
      * rewrite (arithmetic_int (py_op o) a b t m n (z_op o m n) J T A B) in H by (destruct S as [<-|[<-|[<-|[]]]]; reflexivity).
        assert (I : in_type t (z_op o m n)).
        { destruct (computes_int t T) as (_ & I & _). unfold new_value in H. rewrite (set_value_int t _ I) in H.
          destruct ((z_op o m n <? lo t) || (hi t <? z_op o m n)) eqn:R; [discriminate H|]. apply in_type_range. split; [exact I|]. apply orb_false_iff in R as [R1 R2]. apply Z.ltb_ge in R1, R2. lia. }
        rewrite new_int_in in H by exact I. injection H as <-. exists (VInt (z_op o m n)). split; [left; constructor; exact I|].
        eapply V_arith; [exact Ho|]. destruct T as [->| ->]; cbn [in_type] in *; lia.
      * rewrite (N o _ (in_or_app _ _ _ (or_intror S)) (sums_fn E e_set e_key o S)) in H. discriminate H.
    + apply arith_null in H as (u & ->); [|right; reflexivity]. exists VNull. split; [left; constructor|]. apply V_right_null; tauto.
  - assert (exists u, d = null_v u) as (u & ->) by (destruct Y; (eapply arith_null; [exact H|left; reflexivity])).
    exists VNull. split; [left; constructor|apply V_left_null; tauto].
Qed.
(** ** Comparisons *)
Lemma compare_bool o f a b d : In o comparisons -> bm o = Some f -> f (DSimple E a) (DSimple E b) = Ok d -> v_type a = Some TBoolean \/ v_type b = Some TBoolean -> False.
Proof.
  intros Ho Hf H N.
  assert (P : PromoteTypes (v_type a) (v_type b) = Ok (Some TBoolean) \/ exists e, PromoteTypes (v_type a) (v_type b) = Err e).
  { destruct (PromoteTypes (v_type a) (v_type b)) as [u|e] eqn:P; [left|right; eauto].
    destruct N as [N|N]; rewrite N in P; [apply promote_odd_l in P as ->|apply promote_odd_r in P as ->]; auto; right; reflexivity. }
  cbn in Ho. repeat (destruct Ho as [<-|Ho]; [injection Hf as <-; unfold EvaluateNe, EvaluateEq, EvaluateRelation, PromoteOperands in H; destruct P as [P|(e & P)]; rewrite P in H; discriminate H|]). exact Ho.
Qed.
Lemma compare_types o f a b x y d : In o comparisons -> bm o = Some f -> (forall t, ~ joins a b t) -> f (DSimple E (mkV (Some a) x)) (DSimple E (mkV (Some b) y)) = Ok d -> False.
Proof.
  intros Ho Hf J H. apply promote_fails in J.
  cbn in Ho. repeat (destruct Ho as [<-|Ho]; [injection Hf as <-; unfold EvaluateNe, EvaluateEq, EvaluateRelation, PromoteOperands in H; cbn [v_type] in H; rewrite J in H; discriminate H|]). exact Ho.
Qed.
Lemma int_string a n t : in_type a n -> ~ joins a TString t /\ ~ joins TString a t.
Proof.
  intros H. rewrite <- !promote_joins. destruct a; try contradiction H; split; discriminate.
Qed.
Lemma rel_z o x y : In o comparisons -> q_rel o (inject_Z x) (inject_Z y) <-> z_rel o x y.
Proof.
  intros H. unfold q_rel, z_rel. cbn in H. repeat (destruct H as [<-|H]; [cbn [sense]; rewrite <- ?Zlt_Qlt, ?inject_Z_injective; intuition lia|]). contradiction.
Qed.
Lemma relation_in o q : In (o, q) relations -> In o comparisons.
Proof. cbn. intuition congruence. Qed.
Lemma compare_match o q f x y wx wy d : In (o, q) relations -> bm o = Some f -> matches x wx -> matches y wy -> f x y = Ok d ->
  (forall t, x <> null_v t) -> (forall t, y <> null_v t) -> exists w, matches d w /\ gives q wx wy w.
Proof.
  rewrite !kinds. intros Ho Hf X Y H Nx Ny. pose proof (relation_in _ _ Ho) as C.
  destruct X as [a m A|s|b w B|t]; [| | |destruct (Nx t eq_refl)].
  - destruct Y as [b n B|s|b w B|t]; [| |exfalso; eapply compare_bool; [exact C|exact Hf|exact H|right; reflexivity]|destruct (Ny t eq_refl)].
    + destruct (ints_or a b m n A B) as [(t & J & T)|N].
      * destruct (compare_exact e_set e_key o (int_v a m) (int_v b n) a b t (inject_Z m) (inject_Z n) C) as (g & r & Hg & R & S); [left; eauto|left; eauto|exact J|tauto|].
        rewrite Hf in Hg. injection Hg as <-. rewrite R in H. injection H as <-. exists (VInt (Z.b2z r)). split; [left; constructor|].
        eapply V_rel_ints; [exact Ho|]. rewrite S. apply rel_z, C.
      * rewrite (N o f (in_or_app _ _ _ (or_introl C)) Hf) in H. discriminate H.
    + exfalso. eapply compare_types; [exact C|exact Hf| |exact H]. intros t. apply (int_string a m t A).
  - destruct Y as [b n B|t|b w B|t]; [| |exfalso; eapply compare_bool; [exact C|exact Hf|exact H|right; reflexivity]|destruct (Ny t eq_refl)].
    + exfalso. eapply compare_types; [exact C|exact Hf| |exact H]. intros t. apply (int_string b n t B).
    + destruct (compare_str e_set e_key o s t C) as (g & r & Hg & R & S). rewrite Hf in Hg. injection Hg as <-. rewrite R in H. injection H as <-.
      exists (VInt (Z.b2z r)). split; [left; constructor|]. eapply V_rel_texts; [exact Ho|exact S].
  - exfalso. destruct Y; (eapply compare_bool; [exact C|exact Hf|exact H|left; reflexivity]).
Qed.
Lemma promote_ints t u t' : In t ints -> PromoteTypes (Some t) u = Ok (Some t') \/ PromoteTypes u (Some t) = Ok (Some t') -> one_of t' [TString; TDateTime; TGuid; TBinary] = false.
Proof.
  intros T P. unfold ints in T. cbn [In] in T. destruct u as [u|].
  - repeat (destruct T as [<-|T]; [destruct u; cbn in P; destruct P as [P|P]; try discriminate P; injection P as <-; reflexivity|]). contradiction.
  - repeat (destruct T as [<-|T]; [cbn in P; destruct P as [P|P]; injection P as <-; reflexivity|]). contradiction.
Qed.
Definition has_ints (a b : simple) : Prop := exists t, In t ints /\ (v_type a = Some t \/ v_type b = Some t).
Lemma promote_has a b t' : has_ints a b -> PromoteTypes (v_type a) (v_type b) = Ok (Some t') -> one_of t' [TString; TDateTime; TGuid; TBinary] = false.
Proof. intros (t & T & [N|N]) P; rewrite N in P; [apply (promote_ints t (v_type b) t' T); left; exact P|apply (promote_ints t (v_type a) t' T); right; exact P]. Qed.
Lemma rel_null rel a b d : EvaluateRelation E rel (DSimple E a) (DSimple E b) = Ok d -> v_val a = None \/ v_val b = None -> has_ints a b -> d = bool_v false.
Proof.
  unfold EvaluateRelation, PromoteOperands. intros H N T. destruct (PromoteTypes (v_type a) (v_type b)) as [[t|]|e] eqn:P; cbn [bind] in H; [|injection H as <-; reflexivity|discriminate H].
  destruct (computes t).
  - destruct (SimpleCast t a) as [a'|] eqn:Ca; [|discriminate H]. destruct (SimpleCast t b) as [b'|] eqn:Cb; [|discriminate H]. cbn [bind] in H.
    destruct N as [N|N]; [rewrite (cast_none _ _ _ Ca N) in H|rewrite (cast_none _ _ _ Cb N) in H; destruct (v_val a')]; injection H as <-; reflexivity.
  - pose proof (promote_has a b t T P) as F. destruct t; try discriminate F; discriminate H.
Qed.
Lemma rel_o o f : In o [OLt; OGt; OLe; OGe] -> bm o = Some f -> exists rel, f = EvaluateRelation E rel.
Proof. intros H Hf. cbn in H. repeat (destruct H as [<-|H]; [injection Hf as <-; eexists; reflexivity|]). contradiction. Qed.
Lemma kind_simple d w : kind d w -> exists v, d = DSimple E v.
Proof. intros H. destruct H; eexists; reflexivity. Qed.
Lemma null_or x w : kind x w -> (forall t, x <> null_v t) \/ (exists t, x = null_v t /\ w = VNull).
Proof. intros H. destruct H as [t n H|s|b w H|t]; [left; discriminate|left; discriminate|left; discriminate|right; eauto]. Qed.
Lemma gives_null q (wx wy : V) : q <> BAnd -> q <> BOr -> q <> BConcat -> wx = VNull \/ wy = VNull -> gives q wx wy VNull.
Proof. intros A B C [->| ->]; [apply V_left_null|apply V_right_null]; assumption. Qed.
Lemma relation_plain o q : In (o, q) relations -> q <> BAnd /\ q <> BOr /\ q <> BConcat.
Proof. cbn. intuition congruence. Qed.
Lemma order_match o q f x y wx wy d : In (o, q) relations -> In o [OLt; OGt; OLe; OGe] -> bm o = Some f -> matches x wx -> matches y wy -> f x y = Ok d ->
  (forall t, x <> null_v t) /\ (forall t, y <> null_v t) \/ (exists a b, x = DSimple E a /\ y = DSimple E b /\ has_ints a b) -> exists w, matches d w /\ gives q wx wy w.
Proof.
  intros Ho Hr Hf X Y H C. destruct (relation_plain _ _ Ho) as (Q1 & Q2 & Q3).
  destruct C as [[Nx Ny]|(a & b & -> & -> & T)]; [eapply compare_match; eassumption|].
  pose proof (proj1 (kinds _ _) X) as X'. pose proof (proj1 (kinds _ _) Y) as Y'.
  destruct (rel_o o f Hr Hf) as (rel & ->).
  destruct (null_or _ _ X') as [Nx|(t & Ex & ->)]; [destruct (null_or _ _ Y') as [Ny|(t & Ey & ->)]|].
  - eapply compare_match; eassumption.
  - injection Ey as ->. apply rel_null in H as ->; [|right; reflexivity|exact T]. exists VNull. split; [right; auto|apply gives_null; auto].
  - injection Ex as ->. apply rel_null in H as ->; [|left; reflexivity|exact T]. exists VNull. split; [right; auto|apply gives_null; auto].
Qed.
Lemma promote_some t u : PromoteTypes (Some t) u <> Ok None /\ PromoteTypes u (Some t) <> Ok None.
Proof. destruct t, u as [[]|]; split; discriminate. Qed.
Lemma eq_null a b u w d : EvaluateEq E e_set e_key (DSimple E (mkV a u)) (DSimple E (mkV b w)) = Ok d -> typed (mkV a u) -> typed (mkV b w) ->
  has_ints (mkV a u) (mkV b w) \/ a = Some TString \/ b = Some TString -> u = None \/ w = None -> ~ (u = None /\ w = None) -> d = bool_v false.
Proof.
  intros H Ta Tb T N N2.
  assert (P : exists t, PromoteTypes a b = Ok (Some t) /\ In t (TString :: TGuid :: TBinary :: arithmetic_types)).
  { unfold EvaluateEq, PromoteOperands in H. cbn [v_type] in H. destruct (PromoteTypes a b) as [[t|]|e] eqn:P; cbn [bind] in H; [| |discriminate H].
    - exists t. split; [reflexivity|]. destruct (computes t) eqn:C; [apply arith_computes in C; right; right; right; exact C|].
      destruct T as [T|T].
      + pose proof (promote_has _ _ t T P) as F. rewrite F in H. discriminate H.
      + assert (Some t = Some TString) as [= ->] by (destruct T as [-> | ->]; [eapply promote_odd_l|eapply promote_odd_r]; try exact P; left; reflexivity). left. reflexivity.
    - exfalso. destruct T as [(t & _ & [E1|E1])|[E1|E1]]; cbn [v_type] in E1; rewrite E1 in P; [apply (proj1 (promote_some t b)) in P|apply (proj2 (promote_some t a)) in P|apply (proj1 (promote_some TString b)) in P|apply (proj2 (promote_some TString a)) in P]; exact P. }
  destruct P as (t & P & I). apply promoted_types in P.
  destruct (null_eq lower_char upper_char space E property e_len e_type e_set e_key (ELit (mkV a u)) (ELit (mkV b w)) ctx a b t u w eq_refl eq_refl Ta Tb P I N) as (c & R & _ & C).
  rewrite (bin_eval lower_char upper_char space E property e_len e_type e_set e_key OEq _ (ELit (mkV a u)) (ELit (mkV b w)) (DSimple E (mkV a u)) (DSimple E (mkV b w)) ctx eq_refl eq_refl eq_refl) in R. rewrite R in H. injection H as <-.
  destruct c; [destruct (N2 (proj1 C eq_refl))|reflexivity].
Qed.
Lemma eq_match x y wx wy d : matches x wx -> matches y wy -> EvaluateEq E e_set e_key x y = Ok d ->
  (forall t, x <> null_v t) \/ (forall t, y <> null_v t) -> exists w, matches d w /\ gives BEq wx wy w.
Proof.
  intros X Y H C. pose proof (proj1 (kinds _ _) X) as X'. pose proof (proj1 (kinds _ _) Y) as Y'.
  assert (R : In (OEq, BEq) relations) by (left; reflexivity).
  destruct (null_or _ _ X') as [Nx|(t & Ex & ->)]; [destruct (null_or _ _ Y') as [Ny|(t & Ey & ->)]|].
  - eapply compare_match; [exact R|reflexivity|exact X|exact Y|exact H|exact Nx|exact Ny].
  - subst y. exists VNull. split; [right; split; [|reflexivity]|apply gives_null; auto; discriminate].
    destruct X' as [a m A|s|b w B|t']; [| | |destruct (Nx t' eq_refl)].
    + eapply eq_null; [exact H|exact A|exact I| |right; reflexivity|intros [K _]; discriminate K]. left. exists a. split; [destruct a; try contradiction A; cbn; auto 6|left; reflexivity].
    + eapply eq_null; [exact H|reflexivity|exact I| |right; reflexivity|intros [K _]; discriminate K]. right. left. reflexivity.
    + exfalso. eapply (compare_bool OEq); [cbn; auto 6|reflexivity|exact H|left; reflexivity].
  - subst x. destruct C as [C|C]; [destruct (C t eq_refl)|]. exists VNull. split; [right; split; [|reflexivity]|apply gives_null; auto; discriminate].
    destruct Y' as [a m A|s|b w B|t']; [| | |destruct (C t' eq_refl)].
    + eapply eq_null; [exact H|exact I|exact A| |left; reflexivity|intros [_ K]; discriminate K]. left. exists a. split; [destruct a; try contradiction A; cbn; auto 6|right; reflexivity].
    + eapply eq_null; [exact H|exact I|reflexivity| |left; reflexivity|intros [_ K]; discriminate K]. right. right. reflexivity.
    + exfalso. eapply (compare_bool OEq); [cbn; auto 6|reflexivity|exact H|right; reflexivity].
Qed.
(** ** and, or *)
Definition truth3 (d : data E) (w : V) : Prop := (d = bool_v true /\ is3 w (Some true)) \/ ((d = bool_v false \/ exists t, d = null_v t) /\ (is3 w (Some false) \/ is3 w None)).
Lemma truths d w : matches d w -> (exists b, d = bool_v b) \/ (exists t, d = null_v t) -> truth3 d w.
Proof.
  rewrite kinds. intros H C. destruct H as [t n H|s|b w H|t].
  - destruct C as [(b & C)|(u & C)]; discriminate C.
  - destruct C as [(b & C)|(u & C)]; discriminate C.
  - destruct H as [->|[-> ->]]; [destruct b; [left; split; [reflexivity|exact (I_int 1)]|right; split; [left; reflexivity|left; exact (I_int 0)]]|right; split; [left; reflexivity|right; constructor]].
  - right. split; [right; eauto|right; constructor].
Qed.
Lemma logic_kinds op x y wx wy d : matches x wx -> matches y wy -> logic E op x y = Ok d ->
  ((exists b, x = bool_v b) \/ exists t, x = null_v t) /\ ((exists b, y = bool_v b) \/ exists t, y = null_v t).
Proof.
  rewrite !kinds. intros X Y H.
  destruct X as [a m A|s|b w B|t]; destruct Y as [a' m' A'|s'|b' w' B'|t']; try (split; eauto; fail); exfalso;
    unfold logic, PromoteOperands in H; cbn [v_type] in H.
  - destruct a; try contradiction A; destruct a'; try contradiction A'; discriminate H.
  - destruct a; try contradiction A; discriminate H.
  - destruct a; try contradiction A; discriminate H.
  - destruct a; try contradiction A; destruct t' as [[]|]; discriminate H.
  - destruct a'; try contradiction A'; discriminate H.
  - discriminate H.
  - discriminate H.
  - destruct t' as [[]|]; discriminate H.
  - destruct a'; try contradiction A'; discriminate H.
  - discriminate H.
  - destruct a'; try contradiction A'; destruct t as [[]|]; discriminate H.
  - destruct t as [[]|]; discriminate H.
Qed.
Lemma logic_value op x y d : logic E op x y = Ok d -> (forall a b, x = bool_v a -> y = bool_v b -> d = bool_v (op a b)) /\
  ((exists t, x = null_v t) \/ (exists t, y = null_v t) -> d = bool_v false).
Proof.
  intros H. split.
  - intros a b -> ->. injection H as <-. reflexivity.
  - intros N. destruct x as [[tx vx]|?|?]; [|discriminate H|discriminate H]. destruct y as [[ty vy]|?|?]; [|discriminate H|discriminate H].
    unfold logic, PromoteOperands in H. cbn [v_type v_val] in H.
    destruct (PromoteTypes tx ty) as [[[]|]|e]; cbn [bind] in H; try discriminate H; [|injection H as <-; reflexivity].
    destruct N as [(t & N)|(t & N)]; injection N as -> ->; [|destruct vx as [[]|]]; injection H as <-; reflexivity.
Qed.
Lemma of3_match a (b : bool) : (a = Some b \/ (b = false /\ a = None)) -> matches (bool_v b) (of3 a).
Proof. intros [->|[-> ->]]; [left; constructor|right; auto]. Qed.
Lemma and_match x y wx wy d : matches x wx -> matches y wy -> EvaluateAnd E x y = Ok d -> exists w, matches d w /\ gives BAnd wx wy w.
Proof.
  intros X Y H. destruct (logic_kinds _ _ _ _ _ _ X Y H) as [Kx Ky]. destruct (logic_value _ _ _ _ H) as [L1 L2].
  assert (G : forall a b z, is3 wx a -> is3 wy b -> (and3 a b = Some z \/ (z = false /\ and3 a b = None)) -> d = bool_v z -> exists w, matches d w /\ gives BAnd wx wy w).
  { intros a b z Ha Hb Hz ->. exists (of3 (and3 a b)). split; [apply of3_match; exact Hz|constructor; assumption]. }
  destruct (truths _ _ X Kx) as [[-> Wx]|[Dx Wx]]; destruct (truths _ _ Y Ky) as [[-> Wy]|[Dy Wy]].
  - apply (G _ _ true Wx Wy); [left; reflexivity|apply (L1 true true); reflexivity].
  - assert (d = bool_v false) as -> by (destruct Dy as [->|Dy]; [apply (L1 true false); reflexivity|apply L2; right; exact Dy]).
    destruct Wy as [Wy|Wy]; (eapply (G _ _ false Wx Wy); [cbn; auto|reflexivity]).
  - assert (d = bool_v false) as -> by (destruct Dx as [->|Dx]; [apply (L1 false true); reflexivity|apply L2; left; exact Dx]).
    destruct Wx as [Wx|Wx]; (eapply (G _ _ false Wx Wy); [cbn; auto|reflexivity]).
  - assert (d = bool_v false) as -> by (destruct Dx as [->|Dx]; [destruct Dy as [->|Dy]; [apply (L1 false false); reflexivity|apply L2; right; exact Dy]|apply L2; left; exact Dx]).
    destruct Wx as [Wx|Wx], Wy as [Wy|Wy]; (eapply (G _ _ false Wx Wy); [cbn; auto|reflexivity]).
Qed.
Lemma or_match x y wx wy d : matches x wx -> matches y wy -> EvaluateOr E x y = Ok d -> (forall t, x <> null_v t) -> (forall t, y <> null_v t) -> exists w, matches d w /\ gives BOr wx wy w.
Proof.
  intros X Y H Nx Ny. destruct (logic_kinds _ _ _ _ _ _ X Y H) as [Kx Ky]. destruct (logic_value _ _ _ _ H) as [L1 _].
  assert (G : forall a b z, is3 wx a -> is3 wy b -> (or3 a b = Some z \/ (z = false /\ or3 a b = None)) -> d = bool_v z -> exists w, matches d w /\ gives BOr wx wy w).
  { intros a b z Ha Hb Hz ->. exists (of3 (or3 a b)). split; [apply of3_match; exact Hz|constructor; assumption]. }
  destruct (truths _ _ X Kx) as [[-> Wx]|[[->|(t & ->)] Wx]]; [| |destruct (Nx t eq_refl)]; (destruct (truths _ _ Y Ky) as [[-> Wy]|[[->|(t & ->)] Wy]]; [| |destruct (Ny t eq_refl)]).
  - apply (G _ _ true Wx Wy); [left; reflexivity|apply (L1 true true); reflexivity].
  - destruct Wy as [Wy|Wy]; (eapply (G _ _ true Wx Wy); [cbn; auto|apply (L1 true false); reflexivity]).
  - destruct Wx as [Wx|Wx]; (eapply (G _ _ true Wx Wy); [cbn; auto|apply (L1 false true); reflexivity]).
  - destruct Wx as [Wx|Wx], Wy as [Wy|Wy]; (eapply (G _ _ false Wx Wy); [cbn; auto|apply (L1 false false); reflexivity]).
Qed.
End A.
