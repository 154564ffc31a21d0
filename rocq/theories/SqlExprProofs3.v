(** Proofs about SqlExpr.v: the rows that a condition selects *)
From Coq Require Import ZArith QArith List Lia Bool.
From Verif Require Import Py Iso OdExpr OdEval OdEvalSpec OdEvalTypes OdEvalProofs OdEvalProofs3 OdEvalProofs4 OdEvalProofs7 OdEvalProofs9 SqlExpr SqlExprSpec SqlExprSpec2 SqlExprProofs SqlExprProofs2.
Import ListNotations.
Open Scope Z_scope.
Open Scope list_scope.

(** ** LIKE *)
Lemma likes_text fold p s : (forall c d, fold c = fold d -> c = d) -> no_wildcard p -> likes fold p s <-> s = p.
Proof.
  intros F [N1 N2]. split.
  - intros H. induction H as [|p u s H IH|p c s H IH|p c d s C1 C2 Q H IH]; [reflexivity|destruct N1; left; reflexivity|destruct N2; left; reflexivity|].
    rewrite (F _ _ Q). f_equal. apply IH; intros K; [apply N1|apply N2]; right; exact K.
  - intros ->. induction p as [|c p IH]; constructor.
    + intros ->. apply N1. left. reflexivity.
    + intros ->. apply N2. left. reflexivity.
    + reflexivity.
    + apply IH; intros K; [apply N1|apply N2]; right; exact K.
Qed.
Lemma likes_any fold p s : likes fold (37 :: p) s <-> exists u v, s = u ++ v /\ likes fold p v.
Proof.
  split.
  - intros H. inversion H; subst; [eauto|]. congruence.
  - intros (u & v & -> & H). constructor. exact H.
Qed.
Lemma likes_all fold s : likes fold [37] s.
Proof. apply likes_any. exists s, []. split; [symmetry; apply app_nil_r|constructor]. Qed.
Lemma likes_prefix fold p q s : (forall c d, fold c = fold d -> c = d) -> no_wildcard p -> likes fold (p ++ q) s <-> exists v, s = p ++ v /\ likes fold q v.
Proof.
  intros F. revert s. induction p as [|c p IH]; intros s [N1 N2].
  - cbn [app]. split; [intros H; exists s; auto|intros (v & -> & H); exact H].
  - assert (N : no_wildcard p) by (split; intros K; [apply N1|apply N2]; right; exact K).
    assert (C1 : c <> 37) by (intros ->; apply N1; left; reflexivity). assert (C2 : c <> 95) by (intros ->; apply N2; left; reflexivity).
    cbn [app]. split.
    + intros H. inversion H as [| | |p0 c0 d0 s0 A1 A2 A3 A4]; subst; try congruence. apply IH in A4 as (v & -> & A4); [|exact N]. exists v. split; [|exact A4]. rewrite (F _ _ A3). reflexivity.
    + intros (v & -> & H). cbn [app]. constructor; [exact C1|exact C2|reflexivity|]. apply IH; [exact N|]. exists v. auto.
Qed.
Lemma likes_starts fold p s : (forall c d, fold c = fold d -> c = d) -> no_wildcard p -> likes fold (p ++ [37]) s <-> exists v, s = p ++ v.
Proof.
  intros F N. rewrite (likes_prefix fold p [37] s F N). split; [intros (v & -> & _); eauto|intros (v & ->); exists v; split; [reflexivity|apply likes_all]].
Qed.
Lemma likes_ends fold p s : (forall c d, fold c = fold d -> c = d) -> no_wildcard p -> likes fold ([37] ++ p) s <-> exists u, s = u ++ p.
Proof.
  intros F N. cbn [app]. rewrite likes_any. split.
  - intros (u & v & -> & H). apply likes_text in H; [subst v; eauto|exact F|exact N].
  - intros (u & ->). exists u, p. split; [reflexivity|]. apply likes_text; [exact F|exact N|reflexivity].
Qed.
Lemma likes_contains fold p s : (forall c d, fold c = fold d -> c = d) -> no_wildcard p -> likes fold ([37] ++ p ++ [37]) s <-> exists u v, s = u ++ p ++ v.
Proof.
  intros F N. cbn [app]. rewrite likes_any. split.
  - intros (u & v & -> & H). apply likes_starts in H as (w & ->); [eauto|exact F|exact N].
  - intros (u & v & ->). exists u, (p ++ v). split; [reflexivity|]. apply likes_starts; [exact F|exact N|eauto].
Qed.

Section Select.
Context {O : Type}.
Variable fold low up : Z -> Z.
Variable cols : list str -> option (@sqlv O).
Variable params : list (@sqlv O).
Notation V := (@sqlv O).
Notation gives := (@gives O fold).
Notation evaluates := (@evaluates O fold low up cols params).

(** ** One value *)
Lemma iff_bool (a b : bool) (P : Prop) : (a = true <-> P) -> (b = true <-> P) -> a = b.
Proof. intros [A A'] [B B']. destruct a, b; try reflexivity; [rewrite B' by (apply A; reflexivity)|rewrite A' by (apply B; reflexivity)]; reflexivity. Qed.
Lemma relation_one q q' o : In (q, o) relations -> In (q', o) relations -> q = q'.
Proof. cbn. intros H H'. repeat (destruct H as [[= <- <-]|H]; [repeat (destruct H' as [[= <-]|H']; [reflexivity|]); try contradiction|]); try contradiction; intuition congruence. Qed.
Lemma arith_one q q' o : In (q, o) arithmetics -> In (q', o) arithmetics -> q = q'.
Proof. cbn. intros H H'. intuition congruence. Qed.
Lemma is3_one (x : V) a b : is3 x a -> is3 x b -> a = b.
Proof. intros H H'. inversion H; subst; inversion H'; subst; reflexivity. Qed.
Lemma arith_not_rel q q' o : In (q, o) relations -> In (q', o) arithmetics -> False.
Proof. cbn. intuition congruence. Qed.
Ltac no_op := match goal with
  | H : In (_, BAnd) _ |- _ => cbn in H; intuition congruence
  | H : In (_, BOr) _ |- _ => cbn in H; intuition congruence
  | H : In (_, BConcat) _ |- _ => cbn in H; intuition congruence
  | H : In (_, BLike) _ |- _ => cbn in H; intuition congruence
  | H : In (_, BDivide) _ |- _ => cbn in H; intuition congruence
  end.
Lemma gives_one o x y z z' : gives o x y z -> gives o x y z' -> z = z'.
Proof.
  intros H H'. destruct H; inversion H'; subst; try reflexivity; try congruence; try no_op; try (exfalso; eauto using arith_not_rel; fail);
  repeat match goal with
  | A : is3 ?x ?a, B : is3 ?x ?b |- _ => lazymatch a with b => fail | _ => pose proof (is3_one x a b A B); subst; clear B end
  | A : In (?q, ?o) relations, B : In (?p, ?o) relations |- _ => lazymatch p with q => fail | _ => pose proof (relation_one q p o A B); subst; clear B end
  | A : In (?q, ?o) arithmetics, B : In (?p, ?o) arithmetics |- _ => lazymatch p with q => fail | _ => pose proof (arith_one q p o A B); subst; clear B end
  | A : ?a = true <-> ?P, B : ?b = true <-> ?P |- _ => lazymatch a with b => fail | _ => pose proof (iff_bool a b P A B); subst; clear B end
  end; try reflexivity.
Qed.
Lemma names_apart f : (In f length_names -> In f lower_names -> False) /\ (In f length_names -> In f upper_names -> False) /\ (In f lower_names -> In f upper_names -> False).
Proof. unfold length_names, lower_names, upper_names. repeat split; cbn [In]; intros [<-|[<-|[]]]; vm_compute; intros [K|[K|[]]]; discriminate K. Qed.
Lemma evaluates_one t : forall x y, evaluates t x -> evaluates t y -> x = y.
Proof.
  induction t; intros x y H H'; inversion H; subst; inversion H'; subst; try congruence;
  repeat match goal with
  | I : forall x y, evaluates ?a x -> evaluates ?a y -> x = y, A : evaluates ?a ?u, B : evaluates ?a ?v |- _ =>
      lazymatch u with v => fail | _ => let Q := fresh "Q" in pose proof (I u v A B) as Q; clear B; try discriminate Q; try (injection Q; intros; subst); try subst end
  end; try reflexivity;
  try (exfalso; match goal with f : str |- _ => destruct (names_apart f) as (? & ? & ?); tauto end; fail).
  - eapply gives_one; eassumption.
  - match goal with A : first_place ?p ?s ?i, B : first_place ?p ?s ?j |- _ => rewrite (first_place_unique p s i j A B) end. reflexivity.
Qed.
(** ** Regrouping *)
Lemma is3_of3 a : @is3 O (of3 a) a.
Proof. destruct a as [[]|]; [exact (I_int 1)|exact (I_int 0)|constructor]. Qed.
Lemma is3_of3_inv a b : @is3 O (of3 a) b -> b = a.
Proof. intros H. apply (is3_one (of3 a)); [exact H|apply is3_of3]. Qed.
Lemma and3_assoc a b c : and3 (and3 a b) c = and3 a (and3 b c).
Proof. destruct a as [[]|], b as [[]|], c as [[]|]; reflexivity. Qed.
Lemma or3_assoc a b c : or3 (or3 a b) c = or3 a (or3 b c).
Proof. destruct a as [[]|], b as [[]|], c as [[]|]; reflexivity. Qed.
Lemma gives_and x y z : gives BAnd x y z <-> exists a b, is3 x a /\ is3 y b /\ z = of3 (and3 a b).
Proof. split; [|intros (a & b & A & B & ->); constructor; assumption]. intros H. inversion H; subst; try no_op; try congruence. eauto 6. Qed.
Lemma gives_or x y z : gives BOr x y z <-> exists a b, is3 x a /\ is3 y b /\ z = of3 (or3 a b).
Proof. split; [|intros (a & b & A & B & ->); constructor; assumption]. intros H. inversion H; subst; try no_op; try congruence. eauto 6. Qed.
Definition texty (v : V) (s : option str) : Prop := v = match s with Some s => VText s | None => VNull end.
Definition app3 (a b : option str) : option str := match a, b with Some a, Some b => Some (a ++ b) | _, _ => None end.
Lemma gives_concat x y z : gives BConcat x y z <-> exists a b, texty x a /\ texty y b /\ texty z (app3 a b).
Proof.
  unfold texty. split.
  - intros H. inversion H; subst; try no_op; try congruence.
    + exists (Some s), (Some t). auto.
    + match goal with H : _ \/ _ |- _ => destruct H as [->|(t & ->)] end; [exists None, None|exists None, (Some t)]; auto.
    + exists (Some s), None. auto.
  - intros ([a|] & [b|] & -> & -> & ->); cbn [app3]; [apply V_concat|apply V_concat_right|apply V_concat_left; eauto|apply V_concat_left; eauto].
Qed.
Lemma app3_assoc a b c : app3 (app3 a b) c = app3 a (app3 b c).
Proof. destruct a, b, c; cbn [app3]; try reflexivity. rewrite app_assoc. reflexivity. Qed.
Lemma texty_one v a b : texty v a -> texty v b -> a = b.
Proof. unfold texty. intros -> H. destruct a, b; congruence. Qed.
Lemma gives_assoc o x y z r : assoc o -> (exists u, gives o x y u /\ gives o u z r) <-> (exists u, gives o y z u /\ gives o x u r).
Proof.
  intros [->|[->| ->]].
  - setoid_rewrite gives_or. split.
    + intros (u & (a & b & A & B & ->) & (ab & c & AB & C & ->)). apply is3_of3_inv in AB as ->. exists (of3 (or3 b c)). split; [eauto 6|].
      exists a, (or3 b c). rewrite or3_assoc. auto using is3_of3.
    + intros (u & (b & c & B & C & ->) & (a & bc & A & BC & ->)). apply is3_of3_inv in BC as ->. exists (of3 (or3 a b)). split; [eauto 6|].
      exists (or3 a b), c. rewrite or3_assoc. auto using is3_of3.
  - setoid_rewrite gives_and. split.
    + intros (u & (a & b & A & B & ->) & (ab & c & AB & C & ->)). apply is3_of3_inv in AB as ->. exists (of3 (and3 b c)). split; [eauto 6|].
      exists a, (and3 b c). rewrite and3_assoc. auto using is3_of3.
    + intros (u & (b & c & B & C & ->) & (a & bc & A & BC & ->)). apply is3_of3_inv in BC as ->. exists (of3 (and3 a b)). split; [eauto 6|].
      exists (and3 a b), c. rewrite and3_assoc. auto using is3_of3.
  - setoid_rewrite gives_concat. split.
    + intros (u & (a & b & A & B & U) & (ab & c & AB & C & R)). rewrite (texty_one u _ _ AB U) in R. exists (match app3 b c with Some s => VText s | None => VNull end).
      split; [exists b, c; unfold texty; auto|]. exists a, (app3 b c). rewrite <- app3_assoc. unfold texty in *. auto.
    + intros (u & (b & c & B & C & U) & (a & bc & A & BC & R)). rewrite (texty_one u _ _ BC U) in R. exists (match app3 a b with Some s => VText s | None => VNull end).
      split; [exists a, b; unfold texty; auto|]. exists (app3 a b), c. rewrite app3_assoc. unfold texty in *. auto.
Qed.
Lemma bin_value o a b z : evaluates (SBin o a b) z <-> exists x y, evaluates a x /\ evaluates b y /\ gives o x y z.
Proof. split; [intros H; inversion H; subst; eauto|intros (x & y & A & B & G); econstructor; eassumption]. Qed.
Lemma regroup_value t t' : regroup t t' -> forall v, evaluates t v <-> evaluates t' v.
Proof.
  induction 1 as [t|a b c _ IH1 _ IH2|o a b c A|o a b a' b' _ IHa _ IHb|f a a' _ IH|f a b a' b' _ IHa _ IHb|f a a' _ IH|a b a' b' _ IHa _ IHb|f a a' _ IH]; intros v.
  - reflexivity.
  - rewrite IH1. apply IH2.
  - rewrite !bin_value. split.
    + intros (u & z & U & Z & G). apply bin_value in U as (x & y & X & Y & G').
      destruct (proj1 (gives_assoc o x y z v A) (ex_intro _ u (conj G' G))) as (w & W & W'). exists x, w. split; [exact X|]. split; [|exact W']. apply bin_value. eauto.
    + intros (x & u & X & U & G). apply bin_value in U as (y & z & Y & Z & G').
      destruct (proj2 (gives_assoc o x y z v A) (ex_intro _ u (conj G' G))) as (w & W & W'). exists w, z. split; [|split; [exact Z|exact W']]. apply bin_value. eauto.
  - rewrite !bin_value. split; intros (x & y & X & Y & G); exists x, y; (split; [apply IHa; exact X|split; [apply IHb; exact Y|exact G]]).
  - split; intros H; inversion H; subst; match goal with K : evaluates _ _ |- _ => apply IH in K end; eauto using X_length, X_lower, X_upper, X_null.
  - split; intros H; inversion H.
  - split; intros H; inversion H.
  - split; intros H; inversion H; subst; econstructor; try (apply IHa; eassumption); try (apply IHb; eassumption); assumption.
  - split; intros H; inversion H.
Qed.
End Select.
