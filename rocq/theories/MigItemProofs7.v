(** The rules of a converted item use and set declared variables only. *)
From Coq Require Import Lia QArith Qcanon.
From Verif Require Import Py Iso Dec XmlUtils XmlChars Xsd Shapes QtiValue QtiExpr
  V1Mig MigWrite MigItem MigItemSpec MigItemProofs MigItemProofs2 MigItemProofs3 MigItemProofs4.
Open Scope Z_scope.
Open Scope list_scope.

Section Closed.
Variable ds : list (str * MigWrite.declaration).
Notation known := (fun n => In n (map fst ds)).
Definition closed_part (p : option MigWrite.expr * list MigWrite.rule) : Prop :=
  (forall e, fst p = Some e -> forall n, In n (expr_vars e) -> known n) /\ Forall (closed ds) (snd p).

Lemma closed_all (l : list MigWrite.rule) : Forall (closed ds) l <->
  (forall n, In n ((fix all l := match l with [] => [] | r :: l' => rule_vars r ++ all l' end) l) -> known n) /\
  (forall n, In n ((fix all l := match l with [] => [] | r :: l' => rule_sets r ++ all l' end) l) -> exists d, In (n, d) ds /\ MigWrite.is_response d = false).
Proof.
  induction l as [|r l IH]; [split; [intros _; split; intros n []|constructor]|]. split.
  - intros H. inversion H as [|? ? [H1 H2] H3]; subst. apply IH in H3 as [H3 H4]. split; intros n Hn; apply in_app_iff in Hn as [Hn|Hn]; auto.
  - intros [H1 H2]. constructor.
    + split; intros n Hn; [apply H1|apply H2]; apply in_app_iff; auto.
    + apply IH. split; intros n Hn; [apply H1|apply H2]; apply in_app_iff; auto.
Qed.
Lemma closed_condition i elifs els : closed ds (ResponseCondition i elifs els) <->
  closed_part i /\ Forall closed_part elifs /\ Forall (closed ds) match els with Some l => l | None => [] end.
Proof.
  assert (P : forall p : option MigWrite.expr * list MigWrite.rule, closed_part p <->
    (forall n, In n (match fst p with Some e => expr_vars e | None => [] end ++ (fix all l := match l with [] => [] | r :: l' => rule_vars r ++ all l' end) (snd p)) -> known n) /\
    (forall n, In n ((fix all l := match l with [] => [] | r :: l' => rule_sets r ++ all l' end) (snd p)) -> exists d, In (n, d) ds /\ MigWrite.is_response d = false)).
  { intros p. unfold closed_part. rewrite closed_all. destruct (fst p) as [e|].
    - split.
      + intros (H1 & H2 & H3). split; [|exact H3]. intros n Hn. apply in_app_iff in Hn as [Hn|Hn]; eauto.
      + intros (H1 & H2). split; [intros x [= <-] n Hn; apply H1, in_app_iff; auto|]. split; [|exact H2]. intros n Hn. apply H1, in_app_iff. auto.
    - cbn [app]. split; [intros (_ & H1 & H2); auto|]. intros (H1 & H2). split; [discriminate|]. auto. }
  assert (L : Forall closed_part elifs <->
    (forall n, In n ((fix parts l := match l with [] => [] | p :: l' => (match fst p with Some e => expr_vars e | None => [] end ++ (fix all l := match l with [] => [] | r :: l' => rule_vars r ++ all l' end) (snd p)) ++ parts l' end) elifs) -> known n) /\
    (forall n, In n ((fix parts (l : list (option MigWrite.expr * list MigWrite.rule)) := match l with [] => [] | p :: l' => (fix all l := match l with [] => [] | r :: l' => rule_sets r ++ all l' end) (snd p) ++ parts l' end) elifs) -> exists d, In (n, d) ds /\ MigWrite.is_response d = false)).
  { induction elifs as [|q l IH]; [split; [intros _; split; intros n []|constructor]|]. split.
    - intros H. inversion H as [|? ? Hq Hl]; subst. apply P in Hq as [Hq1 Hq2]. apply IH in Hl as [Hl1 Hl2].
      split; intros n Hn; apply in_app_iff in Hn as [Hn|Hn]; auto.
    - intros [H1 H2]. constructor; [apply P|apply IH]; split; intros n Hn; ((apply H1; apply in_app_iff; auto) || (apply H2; apply in_app_iff; auto)). }
  assert (E : Forall (closed ds) match els with Some l => l | None => [] end <->
    (forall n, In n match els with Some l => (fix all l := match l with [] => [] | r :: l' => rule_vars r ++ all l' end) l | None => [] end -> known n) /\
    (forall n, In n match els with Some l => (fix all l := match l with [] => [] | r :: l' => rule_sets r ++ all l' end) l | None => [] end -> exists d, In (n, d) ds /\ MigWrite.is_response d = false)).
  { destruct els as [l|]; [apply closed_all|]. split; [intros _; split; intros n []|constructor]. }
  rewrite P, L, E. unfold closed. cbn [rule_vars rule_sets]. split.
  - intros [H1 H2]. split; [|split]; split; intros n Hn; ((apply H1; rewrite !in_app_iff; auto; tauto) || (apply H2; rewrite !in_app_iff; auto; tauto) || (apply H1; rewrite !in_app_iff; rewrite !in_app_iff in Hn; tauto)).
  - intros ((A1 & A2) & (B1 & B2) & C1 & C2). split; intros n Hn.
    + apply in_app_iff in Hn as [Hn|Hn]; [auto|]. apply in_app_iff in Hn as [Hn|Hn]; auto.
    + apply in_app_iff in Hn as [Hn|Hn]; [auto|]. apply in_app_iff in Hn as [Hn|Hn]; auto.
Qed.

(** Placing keeps rules closed *)
Definition keeps_closed (f : list MigWrite.rule -> result (list MigWrite.rule)) : Prop :=
  forall l l', Forall (closed ds) l -> f l = Ok l' -> Forall (closed ds) l'.
Lemma rev_closed l i elifs els before : Forall (closed ds) l -> rev l = ResponseCondition i elifs els :: before ->
  Forall (closed ds) (rev before) /\ closed ds (ResponseCondition i elifs els).
Proof.
  intros H E. apply Forall_rev in H. rewrite E in H. inversion H as [|? ? H1 H2]; subst. split; [apply Forall_rev, H2|exact H1].
Qed.
Lemma at_depth_closed d f : keeps_closed f -> keeps_closed (at_depth d f).
Proof.
  intros Hf. induction d as [|d IH]; [exact Hf|]. intros l l' Hl H. cbn [at_depth] in H.
  destruct (rev l) as [|[| i elifs els] before] eqn:E; try discriminate. destruct (rev_closed _ _ _ _ _ Hl E) as [H1 H2].
  destruct (at_depth d f _) as [l1|] eqn:E1; cbn [bind] in H; [|discriminate]. injection H as <-. apply closed_condition in H2 as (A & B & C).
  apply Forall_app. split; [exact H1|]. constructor; [|constructor]. apply closed_condition. split; [exact A|]. split; [exact B|]. eapply IH; eassumption.
Qed.
Lemma add_closed p : closed_part p -> keeps_closed (add_condition p).
Proof.
  intros Hp l l' Hl [= <-]. apply Forall_app. split; [exact Hl|]. constructor; [|constructor]. apply closed_condition. split; [exact Hp|]. split; constructor.
Qed.
Lemma else_closed p : closed_part p -> keeps_closed (MigItem.add_else_if p).
Proof.
  intros Hp l l' Hl H. unfold MigItem.add_else_if in H. destruct (rev l) as [|[| i elifs els] before] eqn:E; try discriminate. injection H as <-.
  destruct (rev_closed _ _ _ _ _ Hl E) as [H1 H2]. apply closed_condition in H2 as (A & B & C). apply Forall_app. split; [exact H1|]. constructor; [|constructor].
  apply closed_condition. split; [exact A|]. split; [apply Forall_app; auto|exact C].
Qed.
Lemma add_resp_closed p c m pt l l' pt' : closed_part p -> Forall (closed ds) l -> AddRespCondition p c m pt l = Ok (l', pt') -> Forall (closed ds) l'.
Proof.
  intros Hp Hl H. unfold AddRespCondition in H.
  assert (T : forall d f q, keeps_closed f -> ('(r) <- at_depth d f l ;; Ok (r, q)) = Ok (l', pt') -> Forall (closed ds) l').
  { intros d f q Hf H0. destruct (at_depth d f l) as [r|] eqn:E; cbn [bind] in H0; [|discriminate]. injection H0 as <- _. eapply at_depth_closed; eassumption. }
  destruct c.
  - destruct m; cbn [bind] in H.
    + destruct pt; [|discriminate]. eapply T; [apply add_closed, Hp|exact H].
    + destruct pt; cbn [bind] in H; [discriminate|]. eapply T; [apply add_closed, Hp|exact H].
  - destruct m; destruct pt; try discriminate; (eapply T; [|exact H]); [apply add_closed, Hp|apply else_closed, Hp].
Qed.
Lemma placed_closed : forall ps m pt l l', Forall (fun q => closed_part (snd q)) ps -> Forall (closed ds) l -> placed ps m pt l = Ok l' -> Forall (closed ds) l'.
Proof.
  induction ps as [|[c p] ps IH]; intros m pt l l' Hps Hl H; cbn [placed] in H; [injection H as <-; exact Hl|].
  destruct (AddRespCondition p c m pt l) as [[l1 pt1]|] eqn:E; cbn [bind] in H; [|discriminate]. inversion Hps; subst.
  eapply IH; [eassumption| |exact H]. eapply add_resp_closed; [|exact Hl|exact E]. assumption.
Qed.
End Closed.

(** ** The expressions *)
Section Tests.
Variables (s : MigItem.state) (K : str -> Prop).
Hypothesis Hget : forall id d, GetResponse s id = Some d -> K (decl_identifier d).
Definition sound (e : MigWrite.expr) : Prop := forall n, In n (expr_vars e) -> K n.
Lemma variable_sound id index x c t : MakeVariableExpression s id index = Ok (x, c, t) -> sound x.
Proof.
  unfold MakeVariableExpression. destruct (GetResponse s id) as [d|] eqn:E; [|intros [= <- <- <-] n []]. specialize (Hget _ _ E).
  assert (H : sound (VariableOperator (decl_identifier d))) by (intros n [<-|[]]; exact Hget).
  destruct index as [n|]; [|intros [= <- <- <-]; exact H]. destruct (n =? 0); [intros [= <- <- <-]; exact H|].
  destruct (str_eqb _ _); [discriminate|]. destruct (str_eqb _ _); intros [= <- <- <-]; exact H.
Qed.
Lemma literal_sound t text x : MakeSingleValue Vv t text = Ok x -> expr_vars x = [].
Proof. unfold MakeSingleValue. match goal with |- bind ?e _ = _ -> _ => destruct e; cbn [bind]; [|discriminate] end. intros [= <-]. reflexivity. Qed.
Lemma multi_vars o l : expr_vars (MultiOperator o l) = flat_map expr_vars l.
Proof. cbn [expr_vars]. induction l as [|e l IH]; [reflexivity|]. cbn [flat_map]. rewrite <- IH. reflexivity. Qed.
Lemma sounds_multi o l : Forall sound l -> sound (MultiOperator o l).
Proof.
  intros H n Hn. rewrite multi_vars in Hn. apply in_flat_map in Hn as (e & He & Hn). rewrite Forall_forall in H. exact (H e He n Hn).
Qed.
Ltac pair H1 H2 := intros m Hm; unfold MatchOperator, MemberOperator in Hm; cbn [expr_vars] in Hm; rewrite ?in_app_iff, ?app_nil_r in Hm; rewrite ?H2 in Hm; cbn [In] in Hm; try (apply H1; tauto); try tauto.
Lemma map_concat_all {A B} (P : B -> Prop) (f : A -> result (list B)) l : Forall (fun x => forall ys, f x = Ok ys -> Forall P ys) l ->
  forall ys, map_concat f l = Ok ys -> Forall P ys.
Proof.
  induction 1 as [|x l Hx _ IH]; intros ys H; cbn [map_concat] in H; [injection H as <-; constructor|].
  destruct (f x) as [a|] eqn:E; cbn [bind] in H; [|discriminate]. fold (map_concat f) in H. destruct (map_concat f l) as [b|] eqn:E1; cbn [bind] in H; [|discriminate].
  injection H as <-. apply Forall_app. split; [apply Hx; reflexivity|apply IH; reflexivity].
Qed.
Ltac some H e := destruct e as [?|] eqn:?E; cbn [bind] in H; [|discriminate].
Lemma test_sound e : forall es, CloseTest Vv s e = Ok es -> Forall sound es.
Proof.
  induction e as [c id n t|o id n t|id n t|c id n t|a id n t|id| |l IH|l IH|l IH|] using test_ind'; intros es H; cbn [CloseTest] in H.
  - some H (ReadAttribute Vv id RESPONSE_PREFIX). unfold CloseEqual in H. destruct (MakeVariableExpression s _ n) as [[[x c0] t0]|] eqn:E1; cbn [bind] in H; [|discriminate].
    apply variable_sound in E1. destruct (MakeSingleValue Vv t0 t) as [v|] eqn:E2; cbn [bind] in H; [|discriminate]. apply literal_sound in E2.
    destruct (str_eqb c0 _); [destruct (is_type _ t0); [|destruct (str_eqb t0 _); [|destruct (str_eqb t0 _)]]|destruct (is_type _ t0)]; cbn [bind] in H; try discriminate; injection H as <-;
      (constructor; [|constructor]); pair E1 E2.
  - some H (ReadAttribute Vv id RESPONSE_PREFIX). unfold CloseIneq in H. destruct (MakeVariableExpression s _ n) as [[[x c0] t0]|] eqn:E1; cbn [bind] in H; [|discriminate].
    apply variable_sound in E1. destruct (MakeSingleValue Vv t0 t) as [v|] eqn:E2; cbn [bind] in H; [|discriminate]. apply literal_sound in E2.
    destruct (str_eqb c0 _); [destruct (is_type _ t0); [|destruct (str_eqb t0 _)]|]; cbn [bind] in H; try discriminate; injection H as <-;
      (constructor; [|constructor]); pair E1 E2.
  - some H (ReadAttribute Vv id RESPONSE_PREFIX). unfold CloseSubset in H. destruct (MakeVariableExpression s _ None) as [[[x c0] t0]|] eqn:E1; cbn [bind] in H; [|discriminate].
    apply variable_sound in E1. destruct (MakeSingleValue Vv t0 t) as [v|] eqn:E2; cbn [bind] in H; [|discriminate]. apply literal_sound in E2.
    destruct (str_eqb c0 _); [match type of H with context [match ?z with Some _ => _ | None => _ end] => destruct z end|]; cbn [bind] in H; try discriminate; injection H as <-;
      (constructor; [|constructor]); pair E1 E2.
  - some H (ReadAttribute Vv id RESPONSE_PREFIX). unfold CloseSubstring in H. destruct (MakeVariableExpression s _ n) as [[[x c0] t0]|] eqn:E1; cbn [bind] in H; [|discriminate].
    apply variable_sound in E1. destruct (MakeSingleValue Vv t0 t) as [v|] eqn:E2; cbn [bind] in H; [|discriminate]. apply literal_sound in E2.
    destruct (str_eqb t0 _); cbn [negb] in H; [destruct (str_eqb c0 _); cbn [negb] in H|]; cbn [bind] in H; injection H as <-; (constructor; [|constructor]); pair E1 E2.
  - some H (ReadAttribute Vv id RESPONSE_PREFIX). unfold CloseInside in H. destruct (ConvertAreaCoords a t) as [[sh cs]|]; cbn [bind] in H; [|discriminate].
    destruct (MakeVariableExpression s _ n) as [[[x c0] t0]|] eqn:E1; cbn [bind] in H; [|discriminate]. apply variable_sound in E1. injection H as <-. constructor; [|constructor]. exact E1.
  - some H (ReadAttribute Vv id RESPONSE_PREFIX). destruct (GetResponse s _) as [d|] eqn:E1; injection H as <-; (constructor; [|constructor]).
    + intros m [<-|[]]. exact (Hget _ _ E1).
    + intros m [].
  - injection H as <-. constructor; [|constructor]. intros m [].
  - destruct (map_concat (CloseTest Vv s) l) as [xs|] eqn:E; cbn [bind] in H; [|discriminate]. pose proof (map_concat_all _ _ _ IH _ E) as Hx.
    destruct xs as [|x [|y xs]]; injection H as <-; (constructor; [|constructor]).
    + intros m [].
    + inversion Hx; assumption.
    + change (sound (MultiOperator (lit "and") (x :: y :: xs))). apply sounds_multi, Hx.
  - destruct (map_concat (CloseTest Vv s) l) as [xs|] eqn:E; cbn [bind] in H; [|discriminate]. injection H as <-. constructor; [|constructor]. apply sounds_multi. eapply map_concat_all; eassumption.
  - destruct (map_concat (CloseTest Vv s) l) as [xs|] eqn:E; cbn [bind] in H; [|discriminate]. injection H as <-. constructor; [|constructor]. apply sounds_multi. eapply map_concat_all; eassumption.
  - injection H as <-. constructor.
Qed.
Lemma condition_sound l e : CloseConditionVar Vv s l = Ok e -> sound e.
Proof.
  intros H. unfold CloseConditionVar in H. destruct (map_concat (CloseTest Vv s) l) as [xs|] eqn:E; cbn [bind] in H; [|discriminate].
  assert (Hx : Forall sound xs). { eapply map_concat_all; [|exact E]. apply Forall_forall. intros x _. apply test_sound. }
  destruct xs as [|x [|y xs]]; injection H as <-; [intros n []|inversion Hx; assumption|apply sounds_multi, Hx].
Qed.
End Tests.

(** ** The item *)
Lemma rules_closed uc sf rs ps p s' : ConvertItem Vv uc sf rs (ps ++ [p]) = Ok s' ->
  (forall r, In r rs -> r_split r = 0%nat) -> (forall q, In q ps -> no_feedback q) ->
  exists l, rules s' = Some l /\ Forall (closed (declared s')) l.
Proof.
  intros H Hsp Hfb. destruct (converts uc sf rs ps p s' H) as (s1 & s & C & ->).
  pose proof (v_phase _ _ _ _ _ _ C) as PP. pose proof (p_phase _ _ _ _ PP) as P. pose proof (o_inv _ _ _ _ _ P) as I.
  destruct (p_parts _ _ _ _ PP) as (qs & body & H1 & H2 & H3). change (declared (CloseBounds sf s)) with (declared s).
  eexists. split; [unfold CloseBounds; cbn [set_rules rules]; rewrite H3; reflexivity|].
  assert (Kd : forall n d, In (n, d) (declared s) -> In n (map fst (declared s))) by (intros n d Hd; apply in_map_iff; exists (n, d); auto).
  assert (Hget : forall id d, GetResponse s id = Some d -> In (decl_identifier d) (map fst (declared s))).
  { intros [id|] d Hd; [|discriminate]. unfold GetResponse in Hd. destruct (dget id (responses s)) as [n|] eqn:E; [|discriminate].
    destruct (i_response s I _ _ (dget_in _ _ _ E)) as (d' & K1 & K2 & K3). rewrite K1 in Hd. injection Hd as ->. rewrite K2. eapply Kd, K3.
    assert (Hk : In id (flat_map response_ids rs)).
    { rewrite <- (v_keys _ _ _ _ _ _ C), <- (o_responses _ _ _ _ _ P). apply in_map_iff. exists (id, n). split; [reflexivity|apply dget_in, E]. }
    apply in_flat_map in Hk as (r & Hr & Hk). unfold response_ids in Hk. rewrite (Hsp r Hr) in Hk. cbn [seq map app] in Hk. destruct Hk as [<-|[]].
    destruct (v_responses _ _ _ _ _ _ C r Hr) as [W _]. rewrite (Hsp r Hr) in W. apply (response_now _ _ _ _ _ _ _ _ C) in W as (n' & W1 & W2).
    rewrite E in W1. injection W1 as <-. rewrite K1 in W2. injection W2 as ->. reflexivity. }
  assert (Hset : forall n d, In (n, d) (declared s) -> MigWrite.is_response d = false -> forall e, (forall m, In m (expr_vars e) -> In m (map fst (declared s))) ->
            closed (declared s) (SetOutcomeValue n e)).
  { intros n d Hd Hr e He. split.
    - intros m [<-|Hm]; [eapply Kd, Hd|auto].
    - intros m [<-|[]]. eauto. }
  apply Forall_app. split.
  - eapply placed_closed; [|constructor|exact H2]. apply Forall_forall. intros [c q] Hq. cbn [snd].
    assert (G : exists c0, In c0 (rp_conditions p) /\ part_in uc s1 s c0 q).
    { clear - H1 Hq. revert Hq. generalize (map MigItem.rc_continue (rp_conditions p)). induction H1 as [|c0 q0 l qs Hc _ IH]; intros [|b bs] Hq; try (destruct Hq; fail).
      destruct Hq as [[= <- <-]|Hq]; [exists c0; split; [now left|exact Hc]|]. destruct (IH _ Hq) as (c1 & K1 & K2). exists c1. split; [now right|exact K2]. }
    destruct G as (c0 & Hc0 & e & sets & K1 & K2 & ->). split; cbn [fst snd].
    + intros e0 [= <-]. rewrite <- (condition_ext Vv s s1) in K1 by (apply get_same_responses; [apply C|apply P|apply P]).
      exact (condition_sound s (fun n => In n (map fst (declared s))) Hget _ _ K1).
    + apply Forall_app. split.
      * clear - K2 I Kd Hset. induction K2 as [|v r l sets (d & (n & v0 & D1 & D2 & D3 & D4) & ->) _ IH]; constructor; [|exact IH].
        destruct (i_outcome s I _ _ (dget_in _ _ _ D1)) as (d' & v' & E1 & E2 & E3 & E4). rewrite D2 in E1. injection E1 as <- <-.
        unfold rule_of. rewrite D3. apply (Hset n d E4 D4). intros m Hm. assert (m = n) as ->; [|eapply Kd, E4].
        rewrite ?D3 in Hm. destruct (MigItem.sv_action v); cbn in Hm; try contradiction; rewrite ?D3 in Hm; destruct Hm as [Hm|[]]; congruence.
      * apply Forall_forall. intros r Hr. apply in_map_iff in Hr as (f & <- & Hf).
        assert (Hfl : In (FEEDBACK, feedback_declaration) (declared s)).
        { apply (p_flag _ _ _ _ PP); [apply (v_fresh _ _ _ _ _ _ C Hfb)|]. apply (p_some _ _ _ _ PP). exists c0. split; [exact Hc0|]. intros E. rewrite E in Hf. destruct Hf. }
        apply (Hset _ _ Hfl eq_refl). intros m Hm. rewrite multi_vars in Hm. apply in_flat_map in Hm as (x & [<-|[<-|[]]] & Hm).
        -- destruct Hm as [<-|[]]. eapply Kd, Hfl.
        -- destruct Hm.
  - apply Forall_forall. intros r Hr. apply in_flat_map in Hr as ([id n] & Ho & Hr). cbn [snd] in Hr.
    destruct (i_outcome s I _ _ Ho) as (d & v & E1 & E2 & E3 & E4). unfold outcome_bounds in Hr. rewrite E1 in Hr. destruct v as [v|]; [|destruct Hr].
    assert (B : forall op b, In r (bound_rule sf d v op b) -> closed (declared s) r).
    { intros op [q|] Hb; [|destruct Hb]. unfold bound_rule in Hb. destruct (Qc_eq_bool q 0); [destruct Hb|]. destruct Hb as [<-|[]]. rewrite E2.
      apply closed_condition. split; [|split; constructor]. split; cbn [fst snd].
      - intros e [= <-] m Hm. cbn [expr_vars] in Hm. assert (m = n) as ->; [|eapply Kd, E4]. destruct (str_eqb _ _); cbn in Hm; destruct Hm as [Hm|[]]; congruence.
      - constructor; [|constructor]. apply (Hset _ _ E4 E3). intros m Hm. destruct (str_eqb _ _); destruct Hm. }
    apply in_app_iff in Hr as [Hr|Hr]; eapply B, Hr.
Qed.
