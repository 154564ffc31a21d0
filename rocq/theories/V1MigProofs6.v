(** Proofs that migrated conditions and actions do not fail. *)
From Coq Require Import QArith Qcanon Lia.
From Verif Require Import Py Dec XmlUtils XmlChars Xsd Shapes QtiValue QtiExpr QtiSpec QtiProc QtiProcSpec
  QtiProofs QtiProofs2 QtiProofs3 QtiProofs4 QtiProcProofs QtiProcProofs2 V1Mig V1MigSpec V1MigProofs V1MigProofs2 V1MigProofs3 V1MigProofs4 V1MigProofs5.
Open Scope Z_scope.
Open Scope list_scope.

Section Total.
Context {X : Ext}.
Variables (i : item) (st : state).
Hypothesis Hw : wf_state st.
Hypothesis Ht : typed st.
Hypothesis Hi : declares i st.

Lemma simple_variable d index v0 : simple_index index -> assoc (d_id d) (s_map st) = Some v0 ->
  MigrateV2Variable d index = Ok (EVariable (d_id d), []) /\ eval st (EVariable (d_id d)) = Ok v0.
Proof.
  intros Hx Hv. split.
  - destruct Hx as [->| ->]; reflexivity.
  - cbn [eval]. unfold ev_variable, get_var. rewrite Hv. reflexivity.
Qed.
Lemma readable_literal d id text : assoc (v2id id) (i_decls (s_item st)) = Some d -> readable st id text -> d_base d <> None ->
  exists b oa, d_base d = Some b /\ b <> BDuration /\ eval st (MigrateV2Value d text) = Ok (VSingle (Some b) oa) /\
    forall a, oa = Some a -> match b, a with BString, AStr _ | BInteger, AInt _ | BFloat, AFloat _ => True | BString, _ | BInteger, _ | BFloat, _ => False | _, _ => True end.
Proof.
  intros Hd Hr Hb. destruct (d_base d) as [b|] eqn:Eb; [|congruence].
  destruct (Hr b) as (Hnd & oa & Hoa). { exists d. auto. }
  exists b, oa. split; [reflexivity|]. split; [exact Hnd|]. split.
  2:{ intros a ->. apply parse_class in Hoa. destruct b, a; auto. }
  unfold MigrateV2Value. rewrite Eb. cbn [eval].
  destruct b; cbn [new_single written] in *; try discriminate Hoa; unfold commas_to_spaces; rewrite Hoa; reflexivity.
Qed.

Lemma equal_total case id index text e w : MigrateVarEqual i case id index text = Ok (e, w) -> Forall harmless w ->
  testable st (VarEqual case id index text) -> exists v, eval st e = Ok v.
Proof.
  intros Hm Hh (Hx & Hr & Hk). unfold MigrateVarEqual in Hm. destruct (find_decl i (v2id id)) as [d|] eqn:Ed.
  2:{ injection Hm as <- <-. exists VNull. reflexivity. }
  destruct (find_declared i st Hi _ _ Ed) as [Eid Hd].
  assert (Hcb : d_base d <> None /\ (d_card d = Some CSingle \/ d_card d = Some CMultiple \/ d_card d = Some COrdered)).
  { destruct Hk as [(d' & b & Hd' & Hc & Hb)|[(d' & b & Hd' & Hc & Hb)|(d' & b & Hd' & Hc & Hb)]];
      (assert (d' = d) by congruence); subst d'; (split; [congruence|auto]). }
  destruct Hcb as [Hb Hc]. destruct (readable_literal d id text Hd Hr Hb) as (b & oa & Eb & Hnd & El & Hcl).
  destruct (Ht _ _ Hd) as (v0 & Ev0 & Hc0 & Hb0). rewrite <- Eid in Ev0.
  destruct (simple_variable d index v0 Hx Ev0) as [Evar Evv]. rewrite Evar in Hm. unfold lbind, say, lret in Hm.
  pose proof (Hw _ _ Ev0) as Hwf.
  destruct Hc as [Hc|Hc].
  - rewrite Hc in *. destruct v0 as [| |bt o0| | |]; try discriminate Hc0. cbn [base] in Hb0. rewrite Eb in Hb0. subst bt.
    rewrite Eb in Hm. assert (Hbb : baseType_eqb b b = true) by (destruct b; reflexivity).
    destruct b; cbn [bind app] in Hm; try discriminate; injection Hm as <- <-; cbn [eval mapM]; 
      change (ev_variable st (d_id d)) with (eval st (EVariable (d_id d))); rewrite Evv, El; cbn [bind].
    + destruct o0 as [a|], oa as [a'|]; try (eexists; reflexivity). destruct a; cbn in Hwf; try contradiction.
      specialize (Hcl _ eq_refl). destruct a'; try contradiction. eexists. reflexivity.
    + unfold op_match, value_eq. cbn. destruct o0, oa; cbn; eauto.
    + unfold op_match, value_eq. cbn. destruct o0, oa; cbn; eauto.
    + unfold op_match, value_eq. cbn. destruct o0, oa; cbn; eauto.
    + destruct o0 as [a|], oa as [a'|]; try (eexists; reflexivity). destruct a; cbn in Hwf; try contradiction.
      specialize (Hcl _ eq_refl). destruct a'; try contradiction. eexists. reflexivity.
  - assert (He : e = EMember [MigrateV2Value d text; EVariable (d_id d)]).
    { destruct Hc as [Hc|Hc]; rewrite Hc in Hm; cbn [bind app] in Hm; injection Hm as <- <-; reflexivity. }
    subst e. cbn [eval mapM]. fold (eval st (MigrateV2Value d text)). rewrite El. cbn [bind].
    change (ev_variable st (d_id d)) with (eval st (EVariable (d_id d))). rewrite Evv. cbn [bind].
    assert (Hb0' : base v0 = Some b). { rewrite Hb0, <- Eb. destruct Hc as [->| ->]; reflexivity. }
    destruct oa as [a|].
    2:{ unfold op_member. cbn [two bind base]. rewrite Hb0', baseType_eqb_refl. cbn [negb].
        destruct (baseType_eqb b BDuration) eqn:E; [apply baseType_eqb_eq in E; contradiction|]. cbn [non_null andb]. eauto. }
    destruct (non_null v0) eqn:En.
    + destruct (op_member_ok b a v0 Hwf Hb0' Hnd) as (r & Hop & _); [rewrite Hc0; tauto|exact En|]. eauto.
    + unfold op_member. cbn [two bind base]. rewrite Hb0', baseType_eqb_refl. cbn [negb].
      destruct (baseType_eqb b BDuration) eqn:E; [apply baseType_eqb_eq in E; contradiction|].
      rewrite En, andb_false_r. eauto.
Qed.

Lemma compare_total op id index text e w : MigrateVarInequality i op id index text = Ok (e, w) ->
  testable st (VarInequality op id index text) -> exists v, eval st e = Ok v.
Proof.
  intros Hm (Hx & Hr). unfold MigrateVarInequality in Hm. destruct (find_decl i (v2id id)) as [d|] eqn:Ed.
  2:{ injection Hm as <- <-. exists VNull. reflexivity. }
  destruct (find_declared i st Hi _ _ Ed) as [Eid Hd].
  assert (Hc : d_card d = Some CSingle /\ (d_base d = Some BInteger \/ d_base d = Some BFloat)).
  { destruct (d_card d) as [[]|]; try discriminate; destruct (d_base d) as [[]|]; try discriminate; auto. }
  destruct Hc as [Hc Hb]. destruct (readable_literal d id text Hd Hr ltac:(destruct Hb; congruence)) as (b & oa & Eb & Hnd & El & Hcl).
  destruct (Ht _ _ Hd) as (v0 & Ev0 & Hc0 & Hb0). rewrite <- Eid in Ev0. rewrite Hc in *.
  destruct (simple_variable d index v0 Hx Ev0) as [Evar Evv]. rewrite Evar in Hm. unfold lbind, say, lret in Hm. cbn [bind app] in Hm.
  pose proof (Hw _ _ Ev0) as Hwf. destruct v0 as [| |bt o0| | |]; try discriminate Hc0. cbn [base] in Hb0. rewrite Eb in Hb0. subst bt.
  assert (He : e = ECompare op [EVariable (d_id d); MigrateV2Value d text]).
  { destruct Hb as [Hb|Hb]; rewrite Hb in Hm; injection Hm as <- <-; reflexivity. }
  subst e. cbn [eval mapM]. change (ev_variable st (d_id d)) with (eval st (EVariable (d_id d))). rewrite Evv, El. cbn [bind].
  destruct Hb as [Hb|Hb]; rewrite Hb in Eb; injection Eb as <-;
    (destruct o0 as [a|], oa as [a'|]; try (eexists; reflexivity); destruct a; cbn in Hwf; try contradiction;
      specialize (Hcl _ eq_refl); destruct a'; try contradiction; eexists; reflexivity).
Qed.
Lemma inside_total a id index text e w : MigrateVarInside i a id index text = Ok (e, w) ->
  testable st (VarInside a id index text) -> exists v, eval st e = Ok v.
Proof.
  intros Hm (Hx & Hr). unfold MigrateVarInside in Hm. destruct (find_decl i (v2id id)) as [d|] eqn:Ed.
  2:{ injection Hm as <- <-. exists VNull. reflexivity. }
  destruct (find_declared i st Hi _ _ Ed) as [Eid Hd].
  assert (Hc : d_card d = Some CSingle /\ d_base d = Some BPoint).
  { destruct (d_card d) as [[]|]; try discriminate; destruct (d_base d) as [[]|]; try discriminate; auto. }
  destruct Hc as [Hc Hb]. rewrite Hc, Hb in Hm. destruct (MigrateV2AreaCoords a text) as [[shape coords]|] eqn:Ea; cbn [bind] in Hm; [|discriminate].
  destruct (Ht _ _ Hd) as (v0 & Ev0 & Hc0 & Hb0). pose proof Ev0 as Ev1. rewrite <- Eid in Ev0. rewrite Hc in *.
  destruct (simple_variable d index v0 Hx Ev0) as [Evar Evv]. rewrite Evar in Hm. unfold lbind, say, lret in Hm. cbn [bind app] in Hm.
  pose proof (Hw _ _ Ev0) as Hwf. destruct v0 as [| |bt o0| | |]; try discriminate Hc0. cbn [base] in Hb0. rewrite Hb in Hb0. subst bt.
  injection Hm as <- _. cbn [eval]. change (ev_variable st (d_id d)) with (eval st (EVariable (d_id d))). rewrite Evv. cbn [bind].
  unfold op_inside. cbn [base CheckBaseTypes check_bases baseType_eqb bind]. destruct o0 as [[]|]; cbn in Hwf; try contradiction; [|eauto].
  destruct (Hr x y) as (sh & cs & r & Hs & Hp). { unfold answers. rewrite Ev1. left. reflexivity. }
  injection Hs as <- <-. cbn [test_atom fst snd]. rewrite Hp. cbn [bind]. eauto.
Qed.

(** A migrated expression has a value, which is a truth value *)
Lemma op_and_total vs obs : Forall2 bool_operand vs obs -> exists v, op_and vs = Ok v.
Proof. intros H. unfold op_and. rewrite (check_booleans_ok _ _ H). cbn [bind]. eauto. Qed.
Lemma op_or_total vs obs : Forall2 bool_operand vs obs -> exists v, op_or vs = Ok v.
Proof. intros H. unfold op_or. rewrite (check_booleans_ok _ _ H). cbn [bind]. eauto. Qed.

Lemma several_total es : Forall (fun e => forall e' w, MigrateV2Expression i e = Ok (e', w) -> Forall harmless w -> testable st e ->
    exists v, eval st e' = Ok v) es -> Forall (testable st) es ->
  forall es' w, lmapM (MigrateV2Expression i) es = Ok (es', w) -> Forall harmless w -> exists vs, mapM (eval st) es' = Ok vs.
Proof.
  intros IH Ht' es' w Hl Hh. apply lmapM_inv in Hl.
  revert IH Ht'. induction Hl as [|e e' es es' (w1 & He & Hi1) Hl IHl]; intros IH Ht'; [exists []; reflexivity|].
  inversion IH as [|? ? IHe IHes]; subst. inversion Ht' as [|? ? Hte Htes]; subst.
  destruct (IHe _ _ He) as (v & Ev); [rewrite Forall_forall in *; auto|exact Hte|].
  destruct (IHl IHes Htes) as (vs & Evs). exists (v :: vs). cbn [mapM]. rewrite Ev. cbn [bind]. rewrite Evs. reflexivity.
Qed.
Lemma expression_total e : forall e' w, MigrateV2Expression i e = Ok (e', w) -> Forall harmless w -> testable st e ->
  exists v, eval st e' = Ok v.
Proof.
  induction e as [c id n t|o id n t|a id n t| |e IH|es IH|es IH| |] using v1expr_ind2; intros e' w Hm Hh Hte; cbn [MigrateV2Expression] in Hm.
  - eapply equal_total; eassumption.
  - eapply compare_total; eassumption.
  - eapply inside_total; eassumption.
  - injection Hm as <- <-. exists VNull. reflexivity.
  - unfold lbind, say in Hm. destruct (MigrateV2Expression i e) as [[e1 w1]|] eqn:E1; cbn [bind lret] in Hm; [|discriminate].
    injection Hm as <- <-. rewrite app_nil_r in Hh. destruct (IH _ _ eq_refl Hh Hte) as (v & Ev). cbn [eval]. rewrite Ev. cbn [bind].
    destruct (expression_means i st Hw Ht Hi True e ltac:(auto) _ _ _ E1 Hh Ev) as (ob & Hb & _).
    unfold op_not. destruct Hb as [->|(-> & [->|[->|[->| ->]]])]; cbn; eauto.
  - destruct es as [|e0 es0]; [injection Hm as <- <-; exists VNull; reflexivity|].
    remember (e0 :: es0) as es. clear Heqes e0 es0. cbn [testable] in Hte. rewrite all_fix in Hte.
    unfold lbind, say in Hm. destruct (lmapM _ es) as [[es' w1]|] eqn:E1; cbn [bind lret] in Hm; [|discriminate].
    injection Hm as <- <-. rewrite app_nil_r in Hh. destruct (several_total es IH Hte _ _ E1 Hh) as (vs & Evs). cbn [eval]. rewrite Evs. cbn [bind].
    destruct (several i st True es) with (es' := es') (w := w1) (vs := vs) as (obs & Hb & _); auto.
    { apply Forall_forall. intros x _. apply expression_means; assumption. }
    eapply op_and_total; eassumption.
  - destruct es as [|e0 es0]; [injection Hm as <- <-; exists VNull; reflexivity|].
    remember (e0 :: es0) as es. clear Heqes e0 es0. cbn [testable] in Hte. rewrite all_fix in Hte.
    unfold lbind, say in Hm. destruct (lmapM _ es) as [[es' w1]|] eqn:E1; cbn [bind lret] in Hm; [|discriminate].
    injection Hm as <- <-. rewrite app_nil_r in Hh. destruct (several_total es IH Hte _ _ E1 Hh) as (vs & Evs). cbn [eval]. rewrite Evs. cbn [bind].
    destruct (several i st True es) with (es' := es') (w := w1) (vs := vs) as (obs & Hb & _); auto.
    { apply Forall_forall. intros x _. apply expression_means; assumption. }
    eapply op_or_total; eassumption.
  - injection Hm as <- <-. eexists. reflexivity.
  - discriminate.
Qed.
Lemma bool_condition v ob : bool_operand v ob -> exists b,
  (' _ <- CheckBaseTypes [base v; Some BBoolean];; ' _ <- CheckCardinalities [card v; Some CSingle];;
   (if negb (non_null v) then Ok false else match bool_of v with Some b => Ok b | None => Err Unmodelled end)) = Ok b.
Proof. intros [->|(-> & [->|[->|[->| ->]]])]; cbn; eauto. destruct ob as [[]|]; cbn; eauto. Qed.
Lemma condition_total es e w : MigrateConditionVar i es = Ok (e, w) -> Forall harmless w -> Forall (testable st) es ->
  exists b, condition st (Some e) = Ok b.
Proof.
  intros Hm Hh Hte. cbn [condition].
  assert (G : exists v ob, eval st e = Ok v /\ bool_operand v ob).
  { destruct es as [|e1 [|e2 es]]; cbn [MigrateConditionVar] in Hm.
    - injection Hm as <- <-. exfalso. eapply harmless_not; [|exact Hh]. auto.
    - inversion Hte; subst. destruct (expression_total _ _ _ Hm Hh) as (v & Ev); [assumption|].
      destruct (expression_means i st Hw Ht Hi True e1 ltac:(auto) _ _ _ Hm Hh Ev) as (ob & Hb & _). eauto.
    - remember (e1 :: e2 :: es) as l. clear Heql e1 e2 es.
      unfold lbind, say in Hm. destruct (lmapM _ l) as [[es' w1]|] eqn:E1; cbn [bind lret] in Hm; [|discriminate].
      injection Hm as <- <-. rewrite app_nil_r in Hh.
      destruct (several_total l ltac:(apply Forall_forall; intros x _; apply expression_total) Hte _ _ E1 Hh) as (vs & Evs).
      cbn [eval]. rewrite Evs. cbn [bind].
      destruct (several i st True l) with (es' := es') (w := w1) (vs := vs) as (obs & Hb & _); auto.
      { apply Forall_forall. intros x _. apply expression_means; assumption. }
      destruct (op_and_total _ _ Hb) as (v & Ev). destruct (op_and_ok _ _ _ Hb Ev) as (ob & Hbo & _). eauto. }
  destruct G as (v & ob & Ev & Hb). rewrite Ev. cbn [bind]. eapply bool_condition; eassumption.
Qed.

(** ** Actions *)
Lemma outcome_known n d v : assoc n (i_decls (s_item st)) = Some d -> d_kind d = KOutcome -> assoc n (s_map st) = Some v -> IsOutcome st n = Ok true.
Proof. intros Hd Hk Hv. unfold IsOutcome, GetDeclaration. rewrite Hv, Hd. cbn [bind]. unfold is_outcome. rewrite Hk. reflexivity. Qed.
Lemma store_single n b old oa : assoc n (s_map st) = Some (VSingle (Some b) old) ->
  (forall a, oa = Some a -> parse_single b (raw_of a) = Ok oa) ->
  set_item n (VSingle (Some b) oa) st = (put st n (VSingle (Some b) oa), None).
Proof.
  intros Ho Hp. unfold set_item, lift, get_var. rewrite Ho. cbn [card base cardinality_eqb opt_eqb negb]. rewrite baseType_eqb_refl. cbn [negb].
  destruct oa as [a|]; cbn [payload_of set_value]; [|destruct b; reflexivity]. rewrite (Hp a eq_refl). destruct b; reflexivity.
Qed.
Lemma literal_wf b t l : parse_single b (RText t) = Ok l -> (forall n, l = Some (AInt n) -> int32 n) -> forall a, l = Some a -> wf_atom b a.
Proof.
  intros H H32 a ->. destruct (match b with BInteger => true | _ => false end) eqn:E.
  - destruct b; try discriminate E. pose proof (parse_class _ _ _ H) as Hc. destruct a; try contradiction. cbn. apply H32. reflexivity.
  - eapply parse_wf; [exact H| | |reflexivity]; destruct b; try exact I; discriminate E.
Qed.
Lemma mkint_ok n : int32 n -> mkint (Some n) = Ok (VSingle (Some BInteger) (Some (AInt n))).
Proof. intros H. unfold mkint. apply in_range_iff in H. rewrite H. reflexivity. Qed.

Lemma set_total s a : MigrateSetVar i s = Ok a -> settable st s -> exists st', run_set_outcome a st = (st', None).
Proof.
  intros Hm (d & b & old & l & Hd & Hk & Hc & Hb & Hv & Hl & H32 & Hact). unfold MigrateSetVar in Hm.
  destruct (find_decl i (v2id (sv_name s))) as [d'|] eqn:Ed; [|discriminate].
  assert (d' = d) as -> by (pose proof (Hi _ _ Ed); congruence). rewrite Hc in Hm. injection Hm as <-. rewrite Hb.
  set (n := v2id (sv_name s)) in *. set (t := strip (sv_text s)) in *.
  pose proof (literal_wf _ _ _ Hl H32) as Hlw. pose proof (Hw _ _ Hv) as Hwold.
  assert (Elit : new_single (Some b) (Some (RText t)) = Ok (VSingle (Some b) l)).
  { unfold new_single. rewrite Hl. destruct b; try reflexivity. discriminate Hl. }
  assert (Evar : ev_variable st n = Ok (VSingle (Some b) old)). { unfold ev_variable, get_var. rewrite Hv. reflexivity. }
  assert (G : forall e w, eval st e = Ok (VSingle (Some b) w) -> (forall a, w = Some a -> wf_atom b a) ->
    exists st', run_set_outcome (SetOutcome n (Some e)) st = (st', None)).
  { intros e w He Hwf. unfold run_set_outcome. cbn [so_expr so_id]. rewrite He. unfold lift at 1. rewrite (outcome_known n d _ Hd Hk Hv). unfold lift.
    eexists. apply store_single with (old := old); [exact Hv|]. intros a Ha. rewrite Ha. apply parse_raw, Hwf, Ha. }
  assert (Hnum : sv_action s <> ASet -> b = BFloat \/ b = BInteger).
  { intros Hn. destruct (sv_action s); try tauto. }
  destruct (sv_action s) eqn:Eact.
  - eapply G; [cbn [eval]; exact Elit|exact Hlw].
  - destruct Hact as [->|[-> Hov]]; (destruct l as [a'|]; [|apply parse_null in Hl as [? _]; discriminate]); destruct old as [a|];
      try (eapply G; [cbn [eval mapM]; rewrite Evar, Elit; reflexivity|intros; discriminate]);
      destruct a; cbn in Hwold; try contradiction; specialize (Hlw _ eq_refl); destruct a'; cbn in Hlw; try contradiction.
    + eapply G; [cbn [eval mapM]; rewrite Evar, Elit; reflexivity|]. intros a [= <-]. exact I.
    + eapply (G _ (Some (AInt (n0 + n1)))).
      * cbn [eval mapM]. rewrite Evar, Elit. cbn [bind]. unfold op_sum, op_fold. cbn. apply mkint_ok. apply Hov; reflexivity.
      * intros a [= <-]. cbn. apply Hov; reflexivity.
  - destruct Hact as [->|[-> Hov]]; (destruct l as [a'|]; [|apply parse_null in Hl as [? _]; discriminate]); destruct old as [a|];
      try (eapply G; [cbn [eval mapM]; rewrite Evar, Elit; reflexivity|intros; discriminate]);
      destruct a; cbn in Hwold; try contradiction; specialize (Hlw _ eq_refl); destruct a'; cbn in Hlw; try contradiction.
    + eapply G; [cbn [eval mapM]; rewrite Evar, Elit; reflexivity|]. intros a [= <-]. exact I.
    + eapply (G _ (Some (AInt (n0 - n1)))).
      * cbn [eval mapM]. rewrite Evar, Elit. cbn [bind]. unfold op_subtract. cbn. apply mkint_ok. apply Hov; reflexivity.
      * intros a [= <-]. cbn. apply Hov; reflexivity.
  - destruct Hact as [->|[-> Hov]]; (destruct l as [a'|]; [|apply parse_null in Hl as [? _]; discriminate]); destruct old as [a|];
      try (eapply G; [cbn [eval mapM]; rewrite Evar, Elit; reflexivity|intros; discriminate]);
      destruct a; cbn in Hwold; try contradiction; specialize (Hlw _ eq_refl); destruct a'; cbn in Hlw; try contradiction.
    + eapply G; [cbn [eval mapM]; rewrite Evar, Elit; reflexivity|]. intros a [= <-]. exact I.
    + eapply (G _ (Some (AInt (n0 * n1)))).
      * cbn [eval mapM]. rewrite Evar, Elit. cbn [bind]. unfold op_product, op_fold. cbn [map card app base CheckCardinalities check_cards cardinality_eqb bind CheckNumericalTypes check_numeric numeric negb baseType_eqb num_loop non_null to_int].
        replace (1 * n0 * n1) with (n0 * n1) by lia. apply mkint_ok. apply Hov; reflexivity.
      * intros a [= <-]. cbn. apply Hov; reflexivity.
  - subst b. (destruct l as [a'|]; [|apply parse_null in Hl as [? _]; discriminate]); destruct old as [a|];
      try (eapply G; [cbn [eval mapM]; rewrite Evar, Elit; reflexivity|intros; discriminate]).
    destruct a; cbn in Hwold; try contradiction; specialize (Hlw _ eq_refl); destruct a'; cbn in Hlw; try contradiction.
    destruct (qc_eqb q0 QtiExpr.q0) eqn:Eq.
    + eapply (G _ None); [|intros; discriminate]. cbn [eval mapM]. rewrite Evar, Elit. cbn [bind]. unfold op_divide. cbn. rewrite Eq. reflexivity.
    + eapply (G _ (Some (AFloat (Qcdiv q q0)))).
      * cbn [eval mapM]. rewrite Evar, Elit. cbn [bind]. unfold op_divide. cbn. rewrite Eq. reflexivity.
      * intros a [= <-]. exact I.
Qed.
Lemma feedback_total s i' a d : x_ncname s = true -> MigrateDisplayFeedback i (Some s) = Ok (i', a) ->
  assoc FEEDBACK (i_decls (s_item st)) = Some d -> d_kind d = KOutcome -> d_card d = Some CMultiple -> d_base d = Some BIdentifier ->
  exists st', run_set_outcome a st = (st', None).
Proof.
  intros Hx Hm Hd Hk Hc Hb. unfold MigrateDisplayFeedback in Hm.
  match type of Hm with bind ?e _ = _ => destruct e as [i1|]; cbn [bind] in Hm; [|discriminate] end. injection Hm as <- <-.
  destruct (Ht _ _ Hd) as (v0 & Ev0 & Hc0 & Hb0). rewrite Hc in Hc0, Hb0. destruct v0 as [| | | |bt m0|]; try discriminate Hc0. cbn [base] in Hb0. rewrite Hb in Hb0. subst bt.
  pose proof (Hw _ _ Ev0) as Hwf.
  destruct (op_multiple_ok BIdentifier [VMultiple (Some BIdentifier) m0; VSingle (Some BIdentifier) (Some (AIdent s))]) as (bt & r & Eop & Hbt & Hwr & _ & Hne).
  { constructor; [exact Hwf|]. constructor; [|constructor]. exact Hx. }
  { constructor; [|constructor; [|constructor]]; right; (split; [reflexivity|]); right; [right|left]; reflexivity. }
  destruct (multiple_base _ _ _ _ Eop) as (m & Em). injection Em as -> ->.
  unfold run_set_outcome. cbn [so_expr so_id eval mapM]. unfold ev_variable, get_var. rewrite Ev0. cbn [catch_key bind new_single parse_single].
  rewrite Hx. cbn [bind]. rewrite Eop. cbn [lift]. rewrite (outcome_known _ _ _ Hd Hk Ev0). cbn [lift].
  unfold set_item, lift, get_var. rewrite Ev0. cbn [card base cardinality_eqb opt_eqb negb baseType_eqb].
  destruct m as [l|]; cbn [payload_of set_value]; [|eauto].
  replace (map (fun p : option atom * Z => option_map raw_of (fst p)) l) with (map (option_map raw_of) (map fst l)) by (rewrite map_map; reflexivity).
  rewrite set_multiple_raws; [eauto|]. destruct Hwr as (_ & _ & Hwr). clear Eop Hne.
  induction Hwr as [|[o k] l (_ & a & Ho & Ha) Hl IH]; [constructor|]. cbn in Ho. subst o. cbn. constructor; [exact Ha|exact IH].
Qed.
End Total.
