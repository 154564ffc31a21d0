(** Proofs about OdEval.v: methods, logic, members, casts *)
From Coq Require Import ZArith Reals QArith Qreals List Lia Lra Bool String Floats.SpecFloat.
From Flocq Require Import Core BinarySingleNaN.
From Verif Require Import Py Iso OdExpr OdEval OdEvalSpec OdEvalSpecF OdEvalTypes OdEvalFloat OdEvalFloat2 OdEvalFloat3 OdEvalProofs OdEvalProofs2 OdEvalProofs3 OdEvalProofs4 OdEvalProofs5 OdEvalProofs6 OdEvalProofs7.
Import ListNotations.
Open Scope Z_scope.
Open Scope list_scope.

Section G.
Variable lower_char upper_char : Z -> Z.
Variable space : Z -> bool.
Variable E : Type.
Variable property : E -> str -> option (field E).
Variable e_len : E -> Z.
Variable e_type : E -> str.
Variable e_set : E -> Z.
Variable e_key : E -> result (list (option pyv)).
Notation Ev := (Evaluate lower_char upper_char space E property e_len e_type e_set e_key).
Notation bm := (binary_method E e_set e_key).
Notation methods := (call_methods lower_char upper_char space E).
Notation evals := (fun ctx => Forall2 (fun p x => Ev p ctx = Ok x)).

(** ** Methods *)
Ltac f2 H := let x := fresh "x" in let y := fresh "y" in
  match type of H with
  | Forall2 _ [] _ => inversion H; subst; clear H
  | Forall2 _ (_ :: _) _ => inversion H as [|? x ? y ?A H']; subst; clear H; rename H' into H
  end.
Lemma vtyped t v : typed v -> v_type v = Some t -> v = mkV (Some t) None \/ exists x, v = mkV (Some t) (Some x) /\ of_type t x.
Proof. destruct v as [a [x|]]; unfold typed; cbn [v_val v_type]; intros T ->; [right; eauto|left; reflexivity]. Qed.
Lemma typed_str v : typed v -> v_type v = Some TString -> exists s, v = mkV (Some TString) (option_map PStr s).
Proof.
  intros T H. destruct (vtyped _ _ T H) as [->|(x & -> & X)]; [exists None; reflexivity|]. destruct x as [| | | |[]]; cbn in X; try discriminate X; try (intuition discriminate). exists (Some s). reflexivity.
Qed.
Lemma typed_int v : typed v -> v_type v = Some TInt32 -> exists n, v = mkV (Some TInt32) (option_map PInt n) /\ (forall m, n = Some m -> in_type TInt32 m).
Proof.
  intros T H. destruct (vtyped _ _ T H) as [->|(x & -> & X)]; [exists None; split; [reflexivity|discriminate]|]. destruct x as [| | | |[]]; cbn in X; try discriminate X; try (intuition discriminate). exists (Some n). split; [reflexivity|]. intros m Hm. injection Hm as <-. exact X.
Qed.
Lemma typed_date v : typed v -> v_type v = Some TDateTime -> exists p, v = mkV (Some TDateTime) (option_map (fun p => PX (XT p)) p).
Proof.
  intros T H. destruct (vtyped _ _ T H) as [->|(x & -> & X)]; [exists None; reflexivity|]. destruct x as [| | | |[]]; cbn in X; try discriminate X; try (intuition discriminate); try contradiction. exists (Some p). reflexivity.
Qed.
Lemma typed_dec v : typed v -> v_type v = Some TDecimal -> exists d, v = mkV (Some TDecimal) (option_map (fun d => PX (XD d)) d) /\ (forall x, d = Some x -> dec_ok x).
Proof.
  intros T H. destruct (vtyped _ _ T H) as [->|(x & -> & X)]; [exists None; split; [reflexivity|discriminate]|]. destruct x as [| | | |[]]; cbn in X; try discriminate X; try (intuition discriminate); try contradiction. exists (Some d). split; [reflexivity|]. intros y Hy. injection Hy as <-. apply X.
Qed.
Lemma typed_double v : typed v -> v_type v = Some TDouble -> exists d, v = mkV (Some TDouble) (option_map (fun d => PX (XF d)) d) /\ (forall x, d = Some x -> valid x).
Proof.
  intros T H. destruct (vtyped _ _ T H) as [->|(x & -> & X)]; [exists None; split; [reflexivity|discriminate]|]. destruct x as [| | | |[]]; cbn in X; try discriminate X; try (intuition discriminate); try contradiction. exists (Some f). split; [reflexivity|]. intros y Hy. injection Hy as <-. apply X.
Qed.
(** the function of a method *)
Definition method (m : string) : list (data E) -> result (data E) :=
  match find (fun p => str_eqb (fst p) (lit m)) methods with Some p => snd p | None => fun _ => Err KeyError end.
Lemma method_eval m ps xs ctx : find (fun p => str_eqb (fst p) (lit m)) methods = Some (lit m, method m) -> evals ctx ps xs -> Ev (call m ps) ctx = method m xs.
Proof. intros H L. apply call_eval; assumption. Qed.
Lemma signature_found m ts r : In (m, ts, r) signatures -> find (fun p => str_eqb (fst p) (lit m)) methods = Some (lit m, method m).
Proof.
  intros H. unfold signatures in H. cbn [In] in H. repeat (destruct H as [H|H]; [injection H as <- <- <-; reflexivity|]). contradiction.
Qed.
(** NULL among the arguments, and the type of the result *)
Lemma signature_spec m ts r vs : In (m, ts, r) signatures -> Forall2 (fun t v => v_type v = Some t /\ typed v) ts vs ->
  (Exists (fun v => v_val v = None) vs -> method m (map (DSimple E) vs) = Ok (null_v (Some r))) /\
  (forall d, method m (map (DSimple E) vs) = Ok d -> exists u, d = DSimple E (mkV (Some r) u)).
Proof.
  intros H F. unfold signatures in H. cbn [In] in H.
  assert (NV : forall t x d, new_value E t x = Ok d -> exists u, d = DSimple E (mkV (Some t) u)).
  { intros t x d Hd. unfold new_value in Hd. destruct (set_value t x); [|discriminate Hd]. injection Hd as <-. eexists. reflexivity. }
  assert (OTs : forall t f a b d, of_texts E t f a b = Ok d -> exists u, d = DSimple E (mkV (Some t) u)).
  { intros t f a b d Hd. unfold of_texts in Hd. destruct a, b; try (injection Hd as <-; eexists; reflexivity). eapply NV; exact Hd. }
  assert (OT : forall t f a d, of_text E t f a = Ok d -> exists u, d = DSimple E (mkV (Some t) u)).
  { intros t f a d Hd. unfold of_text in Hd. destruct a; [eapply NV; exact Hd|injection Hd as <-; eexists; reflexivity]. }
  assert (S2 : forall strict s t, texts E strict (DSimple E (mkV (Some TString) (option_map PStr s))) (DSimple E (mkV (Some TString) (option_map PStr t))) = Ok (s, t)).
  { intros strict s t. destruct strict, s, t; reflexivity. }
  assert (TWO : forall vs, Forall2 (fun t v => v_type v = Some t /\ typed v) [TString; TString] vs -> exists s t, vs = [mkV (Some TString) (option_map PStr s); mkV (Some TString) (option_map PStr t)]).
  { intros us Hu. f2 Hu. f2 Hu. f2 Hu. destruct A as [A1 A2], A0 as [B1 B2]. destruct (typed_str _ A2 A1) as (s & ->). destruct (typed_str _ B2 B1) as (t & ->). eauto. }
  assert (EX2 : forall s t, Exists (fun v : simple => v_val v = None) [mkV (Some TString) (option_map PStr s); mkV (Some TString) (option_map PStr t)] -> s = None \/ t = None).
  { intros s t Hx. inversion Hx as [? ? Q|? ? Q]; subst; [destruct s; [discriminate Q|auto]|]. inversion Q as [? ? Q'|? ? Q']; subst; [destruct t; [discriminate Q'|auto]|inversion Q']. }
  assert (ONE : forall vs, Forall2 (fun t v => v_type v = Some t /\ typed v) [TString] vs -> exists s, vs = [mkV (Some TString) (option_map PStr s)]).
  { intros us Hu. f2 Hu. f2 Hu. destruct A as [A1 A2]. destruct (typed_str _ A2 A1) as (s & ->). eauto. }
  assert (EX1 : forall v : simple, Exists (fun v : simple => v_val v = None) [v] -> v_val v = None).
  { intros v Hx. inversion Hx as [? ? Q|? ? Q]; subst; [exact Q|inversion Q]. }
  assert (PT : forall f vs, Forall2 (fun t v => v_type v = Some t /\ typed v) [TDateTime] vs ->
    (Exists (fun v => v_val v = None) vs -> of_point E f (map (DSimple E) vs) = Ok (null_v (Some TInt32))) /\
    (forall d, of_point E f (map (DSimple E) vs) = Ok d -> exists u, d = DSimple E (mkV (Some TInt32) u))).
  { intros f us Hu. f2 Hu. f2 Hu. destruct A as [A1 A2]. destruct (typed_date _ A2 A1) as (p & ->). split.
    - intros Hx. apply EX1 in Hx. destruct p; [discriminate Hx|]. reflexivity.
    - intros d Hd. unfold of_point in Hd. cbn [map CheckStrictParameter v_type type_eqb bind] in Hd. destruct p as [p|]; cbn [option_map point_of v_val bind] in Hd; [|injection Hd as <-; eexists; reflexivity].
      destruct (f p) as [n|]; [|discriminate Hd]. cbn [bind] in Hd. eapply NV; exact Hd. }
  assert (TX : forall f vs, Forall2 (fun t v => v_type v = Some t /\ typed v) [TString] vs ->
    (Exists (fun v => v_val v = None) vs -> one_text E f (map (DSimple E) vs) = Ok (null_v (Some TString))) /\
    (forall d, one_text E f (map (DSimple E) vs) = Ok d -> exists u, d = DSimple E (mkV (Some TString) u))).
  { intros f us Hu. destruct (ONE us Hu) as (s & ->). split.
    - intros Hx. apply EX1 in Hx. destruct s; [discriminate Hx|reflexivity].
    - intros d Hd. destruct s; cbn in Hd; injection Hd as <-; eexists; reflexivity. }
  assert (RD : forall fd ff vs, Forall2 (fun t v => v_type v = Some t /\ typed v) [TDecimal] vs ->
    (Exists (fun v => v_val v = None) vs -> integral E fd ff (map (DSimple E) vs) = Ok (null_v (Some TDecimal))) /\
    (forall d, integral E fd ff (map (DSimple E) vs) = Ok d -> exists u, d = DSimple E (mkV (Some TDecimal) u))).
  { intros fd ff us Hu. f2 Hu. f2 Hu. destruct A as [A1 A2]. destruct (typed_dec _ A2 A1) as (q & -> & _). split.
    - intros Hx. apply EX1 in Hx. destruct q; [discriminate Hx|reflexivity].
    - intros d Hd. unfold integral in Hd. cbn [map PromoteParameter CanCastMethodArgument v_type type_eqb SimpleCast bind v_val simple_v] in Hd. destruct q as [q|]; cbn [option_map] in Hd; [|injection Hd as <-; eexists; reflexivity].
      destruct (new_value E TDecimal (Some (PD (dec_integral fd q)))) as [z|[]] eqn:N; try discriminate Hd; [injection Hd as <-; eapply NV; exact N|].
      exfalso. unfold new_value in N. cbn [set_value] in N. unfold set_dec in N. cbn [num_of PD bind] in N. destruct (dec_compare _ _) in N; discriminate N. }
  assert (RF : forall fd ff vs, Forall2 (fun t v => v_type v = Some t /\ typed v) [TDouble] vs ->
    (Exists (fun v => v_val v = None) vs -> integral E fd ff (map (DSimple E) vs) = Ok (null_v (Some TDouble))) /\
    (forall d, integral E fd ff (map (DSimple E) vs) = Ok d -> exists u, d = DSimple E (mkV (Some TDouble) u))).
  { intros fd ff us Hu. f2 Hu. f2 Hu. destruct A as [A1 A2]. destruct (typed_double _ A2 A1) as (q & -> & _). split.
    - intros Hx. apply EX1 in Hx. destruct q; [discriminate Hx|reflexivity].
    - intros d Hd. unfold integral in Hd. cbn in Hd. destruct q as [q|]; cbn in Hd; [|injection Hd as <-; eexists; reflexivity]. eapply NV; exact Hd. }
  repeat (destruct H as [H|H]; [injection H as <- <- <-; try (exact (PT _ vs F)); try (exact (TX _ vs F)); try (exact (RD _ _ vs F)); try (exact (RF _ _ vs F));
    try (destruct (TWO vs F) as (s & t & ->); split; [intros Hx; apply EX2 in Hx; destruct Hx as [-> | ->]; [destruct t|destruct s]; reflexivity
      |intros d Hd; destruct s, t; cbn [option_map] in Hd; first [injection Hd as <-; eexists; reflexivity|eapply NV; exact Hd]])|]); [..|contradiction].
  (* replace, substring, length *)
  - f2 F. f2 F. f2 F. f2 F. destruct A as [D1 D2], A0 as [B1 B2], A1 as [C1 C2]. destruct (typed_str _ D2 D1) as (s & ->). destruct (typed_str _ B2 B1) as (t & ->). destruct (typed_str _ C2 C1) as (q & ->). split.
    + intros Hx. assert (N : s = None \/ t = None \/ q = None).
      { destruct s; [|auto]. destruct t; [|auto]. destruct q; [|auto]. exfalso. inversion Hx as [? ? Q|? ? Q]; subst; [discriminate Q|]. inversion Q as [? ? Q'|? ? Q']; subst; [discriminate Q'|]. inversion Q' as [? ? R|? ? R]; subst; [discriminate R|inversion R]. }
      destruct N as [->|[->| ->]]; [destruct t, q|destruct s, q|destruct s, t]; reflexivity.
    + intros d Hd. destruct s, t, q; cbn in Hd; injection Hd as <-; eexists; reflexivity.
  - f2 F. f2 F. f2 F. destruct A as [A1 A2], A0 as [B1 B2]. destruct (typed_str _ A2 A1) as (s & ->). destruct (typed_int _ B2 B1) as (n & -> & _). split.
    + intros Hx. assert (N : s = None \/ n = None).
      { destruct s; [|auto]. destruct n; [|auto]. exfalso. inversion Hx as [? ? Q|? ? Q]; subst; [discriminate Q|]. inversion Q as [? ? Q'|? ? Q']; subst; [discriminate Q'|]. inversion Q'. }
      destruct N as [->| ->]; [destruct n|destruct s]; reflexivity.
    + intros d Hd. destruct s, n; cbn in Hd; injection Hd as <-; eexists; reflexivity.
  - destruct (ONE vs F) as (s & ->). split.
    + intros Hx. apply EX1 in Hx. destruct s; [discriminate Hx|reflexivity].
    + intros d Hd. destruct s; cbn [option_map] in Hd; [eapply NV; exact Hd|injection Hd as <-; eexists; reflexivity].
Qed.
End G.
