(** Lemmas: the control structure of rules *)
From Coq Require Import QArith Qcanon.
From Verif Require Import Py Dec XmlUtils Xsd Imscp QtiValue QtiExpr QtiSpec QtiProofs QtiProofs2 QtiProofs3 QtiProofs4
  QtiProc QtiProcSpec.
Open Scope Z_scope.
Open Scope list_scope.

Section RuleInd.
Variables (A : Type) (P : rule A -> Prop).
Hypothesis HC : forall ps els, Forall (fun p => Forall P (snd p)) ps -> Forall P els -> P (Cond ps els).
Hypothesis HA : forall a, P (Act a).
Hypothesis HE : P Exit.
Fixpoint rule_ind2 (r : rule A) : P r :=
  match r with
  | Cond ps els =>
      let all := fix all (rs : list (rule A)) : Forall P rs :=
        match rs with [] => Forall_nil P | r :: rs' => Forall_cons r (rule_ind2 r) (all rs') end in
      HC ps els
        ((fix ps_all (ps : list (option expr * list (rule A))) : Forall (fun p => Forall P (snd p)) ps :=
            match ps with
            | [] => Forall_nil _
            | p :: ps' => Forall_cons p (all (snd p)) (ps_all ps')
            end) ps)
        (all els)
  | Act a => HA a
  | Exit => HE
  end.
Lemma rules_ind2 rs : Forall P rs.
Proof. induction rs; constructor; [apply rule_ind2|assumption]. Qed.
End RuleInd.

Section Control.
Context {X : Ext}.
Variables (A : Type) (act : A -> state -> eff).

Fixpoint run_parts (ps : list (option expr * list (rule A))) (els : list (rule A)) (st : state) : state * flow :=
  match ps with
  | [] => run_rules A act els st
  | (c, rs) :: ps' =>
      match condition st c with
      | Err e => (st, FErr e)
      | Ok true => run_rules A act rs st
      | Ok false => run_parts ps' els st
      end
  end.
Lemma run_cond ps els st : run_rule A act (Cond ps els) st = run_parts ps els st.
Proof.
  induction ps as [|[c rs] ps IH]; [reflexivity|]. cbn [run_parts]. rewrite <- IH. cbn [run_rule].
  destruct (condition st c) as [[]|]; reflexivity.
Qed.

Lemma check_base_bool b : is_ok (CheckBaseTypes [b; Some BBoolean]) = true <-> b = None \/ b = Some BBoolean.
Proof. destruct b as [[]|]; cbn; intuition congruence. Qed.
Lemma check_card_single c : is_ok (CheckCardinalities [c; Some CSingle]) = true <-> c = None \/ c = Some CSingle.
Proof. destruct c as [[]|]; cbn; intuition congruence. Qed.

Lemma condition_true st c : condition st c = Ok true <-> is_true st c.
Proof.
  unfold condition, is_true. split.
  - destruct c as [e|]; [|discriminate]. destruct (eval st e) as [v|] eqn:Ee; cbn [bind]; [|discriminate].
    destruct (CheckBaseTypes _) eqn:E1; cbn [bind]; [|discriminate].
    destruct (CheckCardinalities _) eqn:E2; cbn [bind]; [|discriminate].
    pose proof (proj1 (check_base_bool (base v))) as H1. rewrite E1 in H1. specialize (H1 eq_refl).
    destruct v as [| |bt [at_|]| | |]; cbn; try (destruct (negb _); discriminate); try discriminate.
    destruct at_; cbn; try discriminate. intros [= ->]. exists e, bt. auto.
  - intros (e & b & -> & -> & Hb). cbn [bind base card]. destruct Hb as [-> | ->]; reflexivity.
Qed.
Lemma condition_false st c : condition st c = Ok false <-> not_true st c.
Proof.
  unfold condition, not_true. split.
  - destruct c as [e|]; [|discriminate]. destruct (eval st e) as [v|] eqn:Ee; cbn [bind]; [|discriminate].
    destruct (CheckBaseTypes _) eqn:E1; cbn [bind]; [|discriminate].
    destruct (CheckCardinalities _) eqn:E2; cbn [bind]; [|discriminate].
    pose proof (proj1 (check_base_bool (base v))) as H1. rewrite E1 in H1. specialize (H1 eq_refl).
    pose proof (proj1 (check_card_single (card v))) as H2. rewrite E2 in H2. specialize (H2 eq_refl).
    intros H. exists e, v. repeat split; auto.
    destruct (non_null v) eqn:En; [|auto]. right. cbn [negb] in H. destruct v as [| |bt [at_|]| | |]; cbn in *; try discriminate.
    destruct at_; cbn in *; try discriminate. exists bt. congruence.
  - intros (e & v & -> & -> & Hb & Hc & Hv). cbn [bind].
    apply check_base_bool in Hb. apply check_card_single in Hc.
    destruct (CheckBaseTypes _); [|discriminate]. destruct (CheckCardinalities _); [|discriminate]. cbn [bind].
    destruct Hv as [-> | [b ->]]; reflexivity.
Qed.

Definition perform (a : A) (st st' : state) : Prop := act a st = (st', None).
Notation runs := (runs perform).

Lemma selects_parts st els ps body : selects st els ps body -> run_parts ps els st = run_rules A act body st.
Proof.
  induction 1 as [|c rs ps H|c rs ps rs' H S IH]; cbn [run_parts]; [reflexivity| |].
  - apply condition_true in H. rewrite H. reflexivity.
  - apply condition_false in H. rewrite H. exact IH.
Qed.

Lemma runs_complete st rs st' b : runs st rs st' b ->
  run_rules A act rs st = (st', if b then FStop else FNext).
Proof.
  induction 1 as [st|st rs|st st' st'' a rs b Ha H IH|st st' st'' ps els body rs b S H1 IH1 H2 IH2|st st' ps els body rs S H IH].
  - reflexivity.
  - reflexivity.
  - cbn [run_rules run_rule]. unfold perform in Ha. rewrite Ha. exact IH.
  - cbn [run_rules]. rewrite run_cond, (selects_parts _ _ _ _ S), IH1. exact IH2.
  - cbn [run_rules]. rewrite run_cond, (selects_parts _ _ _ _ S), IH. reflexivity.
Qed.

Definition sound (r : rule A) : Prop := forall st st' f, run_rule A act r st = (st', f) ->
  match f with
  | FNext => forall rs st'' b, runs st' rs st'' b -> runs st (r :: rs) st'' b
  | FStop => forall rs, runs st (r :: rs) st' true
  | FErr _ => True
  end.
Lemma sound_list rs : Forall sound rs -> forall st st' f, run_rules A act rs st = (st', f) ->
  match f with
  | FNext => runs st rs st' false
  | FStop => runs st rs st' true
  | FErr _ => True
  end.
Proof.
  induction 1 as [|r rs Hr Hrs IH]; intros st st' f H; cbn [run_rules] in H.
  - injection H as <- <-. constructor.
  - destruct (run_rule A act r st) as [st1 [| |e]] eqn:E.
    + apply Hr in E. specialize (IH _ _ _ H). destruct f; auto.
    + injection H as <- <-. apply Hr in E. apply E.
    + injection H as <- <-. exact I.
Qed.
Lemma sound_all r : sound r.
Proof.
  induction r as [ps els Hps Hels|a|] using rule_ind2.
  - intros st st' f H. rewrite run_cond in H.
    assert (G : match f with
                | FErr _ => True
                | _ => exists body, selects st els ps body /\ Forall sound body /\ run_rules A act body st = (st', f)
                end).
    { induction Hps as [|[c rs] ps Hc Hps IH]; cbn [run_parts] in H.
      - destruct f; auto; exists els; (split; [constructor|auto]).
      - destruct (condition st c) as [[]|e] eqn:E.
        + apply condition_true in E. destruct f; auto; exists rs; (split; [constructor; exact E|auto]).
        + apply condition_false in E. specialize (IH H).
          destruct f; auto; destruct IH as (body & Hs & Hf & Hr); exists body; (split; [apply sel_later; assumption|auto]).
        + injection H as <- <-. exact I. }
    destruct f; [| |exact I]; destruct G as (body & Hs & Hf & Hr).
    + intros rs st'' b Hrs. eapply runs_cond; [exact Hs| |exact Hrs]. exact (sound_list _ Hf _ _ _ Hr).
    + intros rs. eapply runs_cond_exit; [exact Hs|]. exact (sound_list _ Hf _ _ _ Hr).
  - intros st st' f H. cbn [run_rule] in H. destruct (act a st) as [st1 [e|]] eqn:E; injection H as <- <-; [exact I|].
    intros rs st'' b Hrs. econstructor; eassumption.
  - intros st st' f H. cbn [run_rule] in H. injection H as <- <-. intros rs. constructor.
Qed.

Lemma processing_runs rs st st' :
  processing A act rs st = (st', None) <-> exists b, runs st rs st' b.
Proof.
  unfold processing. split.
  - destruct (run_rules A act rs st) as [st1 f] eqn:E.
    pose proof (sound_list rs (rules_ind2 A sound (fun ps els H1 H2 => sound_all _) (fun a => sound_all _) (sound_all _) rs) _ _ _ E) as H.
    destruct f; intros [= <-]; eauto.
  - intros [b H]. apply runs_complete in H. rewrite H. destruct b; reflexivity.
Qed.

(** An invariant of the actions is one of the rules, exceptions included *)
Lemma run_rules_inv (I : state -> Prop) :
  (forall a st, I st -> I (fst (act a st))) ->
  forall rs st, I st -> I (fst (run_rules A act rs st)).
Proof.
  intros Ha.
  assert (L : forall rs, Forall (fun r => forall st, I st -> I (fst (run_rule A act r st))) rs ->
              forall st, I st -> I (fst (run_rules A act rs st))).
  { induction 1 as [|r rs Hr Hrs IH]; intros st Hi; cbn [run_rules]; [exact Hi|].
    specialize (Hr st Hi). destruct (run_rule A act r st) as [st1 []]; cbn [fst] in *; auto. }
  assert (R : forall r st, I st -> I (fst (run_rule A act r st))).
  { induction r as [ps els Hps Hels|a|] using rule_ind2; intros st Hi.
    - rewrite run_cond. induction Hps as [|[c rs] ps Hc Hps IH]; cbn [run_parts]; [apply L; auto|].
      destruct (condition st c) as [[]|]; cbn [fst]; auto.
    - cbn [run_rule]. specialize (Ha a st Hi). destruct (act a st) as [st1 []]; exact Ha.
    - exact Hi. }
  intros rs. apply L. induction rs; constructor; auto.
Qed.
Lemma processing_inv (I : state -> Prop) :
  (forall a st, I st -> I (fst (act a st))) ->
  forall rs st, I st -> I (fst (processing A act rs st)).
Proof.
  intros Ha rs st Hi. unfold processing. pose proof (run_rules_inv I Ha rs st Hi) as H.
  destruct (run_rules A act rs st) as [st1 []]; exact H.
Qed.

(** Two runs from related states *)
Lemma run_rules_sim (R : state -> state -> Prop) :
  (forall st1 st2 c, R st1 st2 -> condition st1 c = condition st2 c) ->
  (forall a st1 st2, R st1 st2 -> R (fst (act a st1)) (fst (act a st2)) /\ snd (act a st1) = snd (act a st2)) ->
  forall rs st1 st2, R st1 st2 -> R (fst (run_rules A act rs st1)) (fst (run_rules A act rs st2)) /\
    snd (run_rules A act rs st1) = snd (run_rules A act rs st2).
Proof.
  intros Hc Ha.
  set (Q := fun (f g : state -> state * flow) => forall st1 st2, R st1 st2 -> R (fst (f st1)) (fst (g st2)) /\ snd (f st1) = snd (g st2)).
  assert (L : forall rs, Forall (fun r => Q (run_rule A act r) (run_rule A act r)) rs -> Q (run_rules A act rs) (run_rules A act rs)).
  { induction 1 as [|r rs Hr Hrs IH]; intros st1 st2 Hr'; cbn [run_rules]; [auto|].
    destruct (Hr st1 st2 Hr') as [H1 H2].
    destruct (run_rule A act r st1) as [s1 f1], (run_rule A act r st2) as [s2 f2]. cbn [fst snd] in *. subst f2.
    destruct f1; cbn [fst snd]; auto. }
  assert (G : forall r, Q (run_rule A act r) (run_rule A act r)).
  { induction r as [ps els Hps Hels|a|] using rule_ind2; intros st1 st2 Hr.
    - rewrite !run_cond. induction Hps as [|[c rs] ps Hcs Hps IH]; cbn [run_parts]; [apply L; auto|].
      rewrite (Hc _ _ c Hr). destruct (condition st2 c) as [[]|]; cbn [fst snd]; auto. apply L; auto.
    - cbn [run_rule]. destruct (Ha a _ _ Hr) as [H1 H2].
      destruct (act a st1) as [s1 o1], (act a st2) as [s2 o2]. cbn [fst snd] in *. subst o2. destruct o1; auto.
    - cbn [run_rule]. auto. }
  intros rs. apply L. induction rs; constructor; auto.
Qed.
End Control.
