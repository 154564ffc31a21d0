(** Proofs that migrated conditions test what the version 1 conditions tested: the other tests
    and the connectives. *)
From Coq Require Import QArith Qcanon Lia.
From Verif Require Import Py Dec XmlUtils XmlChars Xsd Shapes QtiValue QtiExpr QtiSpec QtiProc QtiProcSpec
  QtiProofs QtiProofs2 QtiProofs3 QtiProofs4 QtiProcProofs QtiProcProofs2 V1Mig V1MigSpec V1MigProofs V1MigProofs2.
Open Scope Z_scope.
Open Scope list_scope.

Section Leaf.
Context {X : Ext}.
Variables (i : item) (st : state).
Hypothesis Hw : wf_state st.
Hypothesis Ht : typed st.
Hypothesis Hi : declares i st.
Ltac ob_is b := exists b; split; [apply boolean_op|].

Lemma cmp_related op x y : cmp_qc op x y = true <-> related op x y.
Proof. destruct op; cbn; first [apply qc_ltb_lt|apply qc_leb_le]. Qed.
Lemma numeral_inj a x y : numeral a x -> numeral a y -> x = y.
Proof. intros [(n & -> & ->)| ->] [(m & K & ->)|K]; congruence. Qed.

(** An index that is kept without a message selects from an ordered response *)
Lemma single_variable d index var wv v : MigrateV2Variable d index = Ok (var, wv) -> Forall harmless wv ->
  assoc (d_id d) (i_decls (s_item st)) = Some d -> d_card d = Some CSingle -> eval st var = Ok v ->
  exists b oa, d_base d = b /\ v = VSingle b oa /\ assoc (d_id d) (s_map st) = Some v /\ wf_value v /\ (index = None \/ index = Some 0).
Proof.
  intros Hv Hh Hd Hc He.
  destruct (variable_value st d index v _ Hw Ht Hv Hh Hd He) as (v0 & Ev0 & Hwf & Hcv & Hbv & Hsel).
  destruct Hsel as [[-> Hix]|(b & l & n & -> & _)]; [|cbn in Hcv; congruence].
  rewrite Hc in Hcv, Hbv. destruct v0 as [| |bt oa| | |]; cbn in Hcv; try discriminate. cbn in Hbv.
  exists bt, oa. auto.
Qed.

Lemma compare_leaf other op id index text e w v :
  MigrateVarInequality i op id index text = Ok (e, w) -> Forall harmless w -> eval st e = Ok v ->
  exists ob, bool_operand v ob /\
    verdict (holds other st (VarInequality op id index text)) (answered st id index text) ob.
Proof.
  intros Hm Hh Hv. unfold MigrateVarInequality in Hm. destruct (find_decl i (v2id id)) as [d|] eqn:Ed.
  2:{ injection Hm as <- <-. inversion Hh as [|? ? [K|[K|K]]]; discriminate. }
  destruct (find_declared i st Hi _ _ Ed) as [Eid Hd].
  assert (Hk : exists b var wv, d_card d = Some CSingle /\ d_base d = Some b /\ (b = BInteger \/ b = BFloat) /\
    MigrateV2Variable d index = Ok (var, wv) /\ w = wv /\ e = ECompare op [var; MigrateV2Value d text]).
  { destruct (d_card d) as [[]|]; try discriminate; destruct (d_base d) as [[]|]; try discriminate;
      unfold lbind, say in Hm; destruct (MigrateV2Variable d index) as [[var wv]|]; cbn [bind lret] in Hm; try discriminate;
      injection Hm as <- <-; eexists _, var, wv; rewrite app_nil_r; auto 8. }
  destruct Hk as (b & var & wv & Hc & Hb & Hnum & Hvar & -> & ->).
  assert (Hd' : assoc (d_id d) (i_decls (s_item st)) = Some d) by (rewrite Eid; exact Hd).
  cbn [eval mapM] in Hv.
  destruct (eval st var) as [v1|] eqn:E1; cbn [bind] in Hv; [|discriminate].
  destruct (eval st (MigrateV2Value d text)) as [v2|] eqn:E2; cbn [bind] in Hv; [|discriminate].
  destruct (single_variable d index var wv v1 Hvar Hh Hd' Hc E1) as (b' & oa & Hb' & -> & Ev0 & Hwf & Hix).
  rewrite Hb in Hb'. subst b'. apply literal_value in E2. rewrite Hb in E2. destruct E2 as (oa' & -> & Hp).
  pose proof (selected_all st id index Hix) as Hsa. rewrite (answers_of st id d _ Eid Ev0) in Hsa.
  assert (Hclass : forall a, oa = Some a -> match b with BInteger => exists n, a = AInt n | _ => exists q, a = AFloat q end).
  { intros a ->. destruct Hnum as [->| ->]; cbn in Hwf; destruct a; try contradiction; eauto. }
  assert (Hclass' : exists a', oa' = Some a' /\ match b with BInteger => exists n, a' = AInt n | _ => exists q, a' = AFloat q end).
  { destruct oa' as [a'|]; [|apply parse_null in Hp as [-> _]; destruct Hnum; discriminate]. exists a'. split; [reflexivity|].
    apply parse_class in Hp. destruct Hnum as [->| ->]; destruct a'; try contradiction; eauto. }
  destruct Hclass' as (a' & -> & Ha'). destruct oa as [a|].
  - specialize (Hclass a eq_refl).
    assert (Hn : exists x y, numeral a x /\ numeral a' y /\ v = mkbool (Some (cmp_qc op x y))).
    { unfold op_compare, two_numbers in Hv. destruct Hnum as [->| ->]; destruct Hclass as (n & ->); destruct Ha' as (m & ->); cbn in Hv;
        injection Hv as <-; eexists _, _; (split; [|split; [|reflexivity]]).
      - left. eauto.
      - left. eauto.
      - right. reflexivity.
      - right. reflexivity. }
    destruct Hn as (x & y & Hx & Hy & ->). ob_is (Some (cmp_qc op x y)).
    assert (Hq : holds other st (VarInequality op id index text) <-> related op x y).
    { cbn [holds]. rewrite Hsa. cbn [members]. split.
      - intros (b0 & a0 & a1 & x0 & y0 & Ht0 & [<-|[]] & Hden & Hx0 & Hy0 & Hr).
        apply (answer_type_of st _ _ _ Hd) in Ht0. assert (b0 = b) by congruence. subst b0.
        unfold denotes in Hden. rewrite Hp in Hden. injection Hden as <-.
        rewrite (numeral_inj _ _ _ Hx Hx0), (numeral_inj _ _ _ Hy Hy0). exact Hr.
      - intros Hr. exists b, a, a', x, y. split; [apply (answer_type_of st _ _ _ Hd); exact Hb|]. split; [left; reflexivity|].
        split; [exact Hp|]. auto. }
    destruct (cmp_qc op x y) eqn:Ec; cbn [verdict].
    + apply Hq, cmp_related, Ec.
    + intros H. apply Hq, cmp_related in H. congruence.
  - unfold op_compare, two_numbers in Hv. assert (v = mkbool None) as ->.
    { destruct Hnum as [->| ->]; cbn in Hv; congruence. }
    ob_is (@None bool). split.
    + cbn [holds]. rewrite Hsa. intros (? & ? & ? & ? & ? & _ & [] & _).
    + intros [H _]. apply H, Hsa.
Qed.

Lemma inside_leaf other a id index text e w v :
  MigrateVarInside i a id index text = Ok (e, w) -> Forall harmless w -> eval st e = Ok v ->
  exists ob, bool_operand v ob /\
    verdict (holds other st (VarInside a id index text)) (answered st id index text) ob.
Proof.
  intros Hm Hh Hv. unfold MigrateVarInside in Hm. destruct (find_decl i (v2id id)) as [d|] eqn:Ed.
  2:{ injection Hm as <- <-. inversion Hh as [|? ? [K|[K|K]]]; discriminate. }
  destruct (find_declared i st Hi _ _ Ed) as [Eid Hd].
  assert (Hk : exists shape coords var wv, d_card d = Some CSingle /\ d_base d = Some BPoint /\
    MigrateV2AreaCoords a text = Ok (shape, coords) /\ MigrateV2Variable d index = Ok (var, wv) /\ w = area_log a text ++ wv /\
    e = EInside (fun p => TestPoint shape coords (fst p) (snd p) None None) var).
  { destruct (d_card d) as [[]|]; try discriminate; destruct (d_base d) as [[]|]; try discriminate.
    destruct (MigrateV2AreaCoords a text) as [[shape coords]|]; cbn [bind] in Hm; [|discriminate].
    unfold lbind, say in Hm; destruct (MigrateV2Variable d index) as [[var wv]|]; cbn [bind lret] in Hm; [|discriminate].
    injection Hm as <- <-. exists shape, coords, var, wv. rewrite app_nil_r. auto 8. }
  destruct Hk as (shape & coords & var & wv & Hc & Hb & Hsh & Hvar & -> & ->).
  apply Forall_app in Hh as [_ Hh].
  assert (Hd' : assoc (d_id d) (i_decls (s_item st)) = Some d) by (rewrite Eid; exact Hd).
  cbn [eval] in Hv. destruct (eval st var) as [v1|] eqn:E1; cbn [bind] in Hv; [|discriminate].
  destruct (single_variable d index var wv v1 Hvar Hh Hd' Hc E1) as (b' & oa & Hb' & -> & Ev0 & Hwf & Hix).
  rewrite Hb in Hb'. subst b'.
  pose proof (selected_all st id index Hix) as Hsa. rewrite (answers_of st id d _ Eid Ev0) in Hsa.
  unfold op_inside in Hv. cbn [base CheckBaseTypes check_bases baseType_eqb bind] in Hv.
  destruct oa as [at0|].
  - cbn in Hwf. destruct at0 as [?|? ?|?|?|?|? ?|x y|?]; try contradiction. cbn [test_atom fst snd] in Hv.
    destruct (TestPoint shape coords x y None None) as [r|] eqn:Er; cbn [bind] in Hv; [|discriminate]. injection Hv as <-.
    ob_is (Some r). destruct r; cbn [verdict holds]; rewrite Hsa; cbn [members].
    + exists x, y, shape, coords. auto using in_eq.
    + intros (x0 & y0 & sh0 & cs0 & [[= <- <-]|[]] & Hsh0 & Hr0). rewrite Hsh in Hsh0. injection Hsh0 as <- <-. congruence.
  - injection Hv as <-. ob_is (@None bool). split.
    + cbn [holds]. rewrite Hsa. intros (? & ? & ? & ? & [] & _).
    + intros [H _]. apply H, Hsa.
Qed.
End Leaf.

(** ** The connectives *)
Section Connectives.
Context {X : Ext}.

Lemma all_fix {A} (P : A -> Prop) l :
  (fix all l := match l with [] => True | e :: l' => P e /\ all l' end) l <-> Forall P l.
Proof.
  induction l as [|x l IH]; [split; auto|]. split.
  - intros [H1 H2]. constructor; [exact H1|]. apply IH, H2.
  - intros H. inversion H; subst. split; [assumption|]. apply IH. assumption.
Qed.
Lemma any_fix {A} (P : A -> Prop) l :
  (fix any l := match l with [] => False | e :: l' => P e \/ any l' end) l <-> Exists P l.
Proof.
  induction l as [|x l IH]; [split; [contradiction|intros H; inversion H]|]. split.
  - intros [H|H]; [left; exact H|right; apply IH, H].
  - intros H. inversion H; subst; [left; assumption|right; apply IH; assumption].
Qed.
Lemma any_fixb {A} (f : A -> bool) l :
  (fix any l := match l with [] => false | e :: l' => f e || any l' end) l = existsb f l.
Proof. induction l as [|x l IH]; [reflexivity|]. cbn. rewrite IH. reflexivity. Qed.

Variables (i : item) (st : state).
Hypothesis Hw : wf_state st.
Hypothesis Ht : typed st.
Hypothesis Hi : declares i st.

(** What the value of a migrated condition says *)
Definition says (other : Prop) (e : v1expr) (ob : option bool) : Prop :=
  (ob = Some true -> holds other st e) /\ (ob = Some false -> ~ holds other st e) /\
  (each_test (answered st) e -> ob <> None) /\
  (under_not (answered st) e -> ob = None -> ~ holds other st e).

Lemma verdict_says other e H ans ob : (H <-> holds other st e) -> (each_test (answered st) e <-> ans) -> verdict H ans ob -> says other e ob.
Proof.
  intros HH Ha Hv. unfold says. destruct ob as [[]|]; cbn [verdict] in Hv.
  - repeat split; try discriminate; intros; tauto.
  - repeat split; try discriminate; intros; tauto.
  - destruct Hv as [Hv1 Hv2]. repeat split; try discriminate; tauto.
Qed.

Lemma Forall2_In_l {A B} (P : A -> B -> Prop) l m a : Forall2 P l m -> In a l -> exists b, In b m /\ P a b.
Proof. induction 1 as [|x y l m Hh H IH]; [intros []|]; intros [->|Hin]; [eauto using in_eq|]. destruct (IH Hin) as (b & ? & ?). eauto using in_cons. Qed.
Lemma Forall2_In_r {A B} (P : A -> B -> Prop) l m b : Forall2 P l m -> In b m -> exists a, In a l /\ P a b.
Proof. induction 1 as [|x y l m Hh H IH]; [intros []|]; intros [->|Hin]; [eauto using in_eq|]. destruct (IH Hin) as (a & ? & ?). eauto using in_cons. Qed.

Lemma and_says other es obs ob : Forall2 (says other) es obs ->
  match ob with
  | Some true => Forall (fun o => o = Some true) obs
  | Some false => Exists (fun o => o = Some false) obs
  | None => Exists (fun o => o = None) obs
  end -> says other (V1And es) ob.
Proof.
  intros Hs Hob. unfold says. cbn [holds each_test under_not]. rewrite !all_fix. destruct ob as [[]|].
  - repeat split; try discriminate. intros _. apply Forall_forall. intros e He.
    destruct (Forall2_In_l _ _ _ _ Hs He) as (o & Ho & Hso & _). rewrite Forall_forall in Hob. apply Hso, Hob, Ho.
  - repeat split; try discriminate. intros _ Hall. apply Exists_exists in Hob as (o & Ho & ->).
    destruct (Forall2_In_r _ _ _ _ Hs Ho) as (e & He & _ & Hse & _). apply Hse; [reflexivity|]. rewrite Forall_forall in Hall. apply Hall, He.
  - apply Exists_exists in Hob as (o & Ho & ->). destruct (Forall2_In_r _ _ _ _ Hs Ho) as (e & He & H1 & H2 & H3 & H4).
    repeat split; try discriminate.
    + intros Hall _. rewrite Forall_forall in Hall. exact (H3 (Hall e He) eq_refl).
    + intros Hu _ Hall. rewrite Forall_forall in Hall, Hu. exact (H4 (Hu e He) eq_refl (Hall e He)).
Qed.
Lemma or_says other es obs ob : Forall2 (says other) es obs ->
  match ob with
  | Some true => Exists (fun o => o = Some true) obs
  | Some false => Forall (fun o => o = Some false) obs
  | None => Exists (fun o => o = None) obs /\ Forall (fun o => o <> Some true) obs
  end -> says other (V1Or es) ob.
Proof.
  intros Hs Hob. unfold says. cbn [holds each_test under_not]. rewrite !all_fix, any_fix. destruct ob as [[]|].
  - repeat split; try discriminate. intros _. apply Exists_exists in Hob as (o & Ho & ->).
    destruct (Forall2_In_r _ _ _ _ Hs Ho) as (e & He & Hse & _). apply Exists_exists. exists e. split; [exact He|]. apply Hse. reflexivity.
  - repeat split; try discriminate. intros _ Hany. apply Exists_exists in Hany as (e & He & Hh).
    destruct (Forall2_In_l _ _ _ _ Hs He) as (o & Ho & H1 & H2 & _). rewrite Forall_forall in Hob. exact (H2 (Hob o Ho) Hh).
  - destruct Hob as [Hex Hno]. repeat split; try discriminate.
    + intros Hall _. apply Exists_exists in Hex as (o & Ho & ->).
      destruct (Forall2_In_r _ _ _ _ Hs Ho) as (e & He & _ & _ & H3 & _). rewrite Forall_forall in Hall. exact (H3 (Hall e He) eq_refl).
    + intros Hu _ Hany. apply Exists_exists in Hany as (e & He & Hh).
      destruct (Forall2_In_l _ _ _ _ Hs He) as (o & Ho & H1 & H2 & H3 & H4). rewrite Forall_forall in Hno, Hu.
      destruct o as [[]|]; [apply (Hno _ Ho); reflexivity|exact (H2 eq_refl Hh)|exact (H4 (Hu e He) eq_refl Hh)].
Qed.

Lemma op_and_ok vs obs v : Forall2 bool_operand vs obs -> op_and vs = Ok v -> exists ob, bool_operand v ob /\
  match ob with
  | Some true => Forall (fun o => o = Some true) obs
  | Some false => Exists (fun o => o = Some false) obs
  | None => Exists (fun o => o = None) obs
  end.
Proof.
  intros Ho H. unfold op_and in H. rewrite (check_booleans_ok _ _ Ho) in H. cbn [bind] in H. injection H as <-.
  exists (and_loop (Some true) vs). split; [apply boolean_op|].
  pose proof (and_loop_cases _ _ Ho (Some true) (or_introl eq_refl)) as G. destruct (and_loop (Some true) vs) as [[]|].
  - apply G. - exact G. - destruct G as [G|G]; [discriminate|exact G].
Qed.
Lemma op_or_ok vs obs v : Forall2 bool_operand vs obs -> op_or vs = Ok v -> exists ob, bool_operand v ob /\
  match ob with
  | Some true => Exists (fun o => o = Some true) obs
  | Some false => Forall (fun o => o = Some false) obs
  | None => Exists (fun o => o = None) obs /\ Forall (fun o => o <> Some true) obs
  end.
Proof.
  intros Ho H. unfold op_or in H. rewrite (check_booleans_ok _ _ Ho) in H. cbn [bind] in H. injection H as <-.
  exists (or_loop (Some false) vs). split; [apply boolean_op|].
  pose proof (or_loop_cases _ _ Ho (Some false) (or_introl eq_refl)) as G. destruct (or_loop (Some false) vs) as [[]|].
  - exact G. - apply G. - destruct G as [[G|G] G2]; [discriminate|auto].
Qed.

Definition means (other : Prop) (e : v1expr) : Prop := (mentions_other e = true -> other) ->
  forall e' w v, MigrateV2Expression i e = Ok (e', w) -> Forall harmless w -> eval st e' = Ok v ->
  exists ob, bool_operand v ob /\ says other e ob.

(** Several sub-expressions *)
Lemma several other es : Forall (means other) es -> (existsb mentions_other es = true -> other) ->
  forall es' w vs, lmapM (MigrateV2Expression i) es = Ok (es', w) -> Forall harmless w -> mapM (eval st) es' = Ok vs ->
  exists obs, Forall2 bool_operand vs obs /\ Forall2 (says other) es obs.
Proof.
  intros Hm Hoth es' w vs Hl Hh Hv. apply lmapM_inv in Hl. apply mapM_inv in Hv.
  revert vs Hv. revert Hm Hoth. induction Hl as [|e e' es es' (w1 & He & Hi1) Hl IH]; intros Hm Hoth vs Hv.
  - inversion Hv; subst. exists []. auto.
  - inversion Hv as [|? v ? vs' Hev Hvs]; subst. inversion Hm as [|? ? Hme Hms]; subst. cbn [existsb] in Hoth.
    destruct (IH Hms) with (vs := vs') as (obs & Hb & Hs); [intros K; apply Hoth; rewrite K; apply orb_true_r|exact Hvs|].
    destruct (Hme ltac:(intros K; apply Hoth; rewrite K; reflexivity) e' w1 v He) as (ob & Hb1 & Hs1); [|exact Hev|].
    + rewrite Forall_forall in *. intros x Hx. apply Hh, Hi1, Hx.
    + exists (ob :: obs). auto.
Qed.
Lemma harmless_not w : w = WEmptyNot \/ w = WEmptyAnd \/ w = WEmptyOr \/ w = WEmptyCondition -> Forall harmless [w] -> False.
Proof. intros H K. inversion K as [|? ? [G|[G|G]]]; subst; intuition discriminate. Qed.

Lemma expression_means other e : means other e.
Proof.
  induction e as [c id n t|o id n t|a id n t| |e IH|es IH|es IH| |] using v1expr_ind2; intros Hoth e' w v Hm Hh Hv; cbn [MigrateV2Expression] in Hm.
  - destruct (equal_leaf i st Hw Ht Hi other _ _ _ _ _ _ _ Hm Hh Hv) as (ob & Hb & Hvd). exists ob. split; [exact Hb|].
    eapply verdict_says; [| |exact Hvd]; reflexivity.
  - destruct (compare_leaf i st Hw Ht Hi other _ _ _ _ _ _ _ Hm Hh Hv) as (ob & Hb & Hvd). exists ob. split; [exact Hb|].
    eapply verdict_says; [| |exact Hvd]; reflexivity.
  - destruct (inside_leaf i st Hw Ht Hi other _ _ _ _ _ _ _ Hm Hh Hv) as (ob & Hb & Hvd). exists ob. split; [exact Hb|].
    eapply verdict_says; [| |exact Hvd]; reflexivity.
  - injection Hm as <- <-. exfalso. eapply harmless_not; [|exact Hh]. auto.
  - unfold lbind, say in Hm. destruct (MigrateV2Expression i e) as [[e1 w1]|] eqn:E1; cbn [bind lret] in Hm; [|discriminate].
    injection Hm as <- <-. rewrite app_nil_r in Hh. cbn [eval] in Hv.
    destruct (eval st e1) as [v1|] eqn:Ev; cbn [bind] in Hv; [|discriminate].
    destruct (IH Hoth _ _ _ E1 Hh Ev) as (ob & Hb & H1 & H2 & H3 & H4).
    assert (Hn : v = mkbool (option_map negb ob)).
    { rewrite <- (bool_operand_of _ _ Hb). unfold op_not in Hv.
      destruct (CheckBaseTypes _); cbn [bind] in Hv; [|discriminate]. destruct (CheckCardinalities _); cbn [bind] in Hv; [|discriminate].
      congruence. }
    subst v. exists (option_map negb ob). split; [apply boolean_op|]. unfold says. cbn [holds each_test under_not].
    destruct ob as [[]|]; cbn [option_map negb]; (split; [|split; [|split]]); try (intros; discriminate).
    + intros _ H. apply H, H1. reflexivity.
    + intros _. apply H2. reflexivity.
    + intros H _. exact (H3 H eq_refl).
    + intros H _. exfalso. exact (H3 H eq_refl).
  - destruct es as [|e0 es0].
    + injection Hm as <- <-. exfalso. eapply harmless_not; [|exact Hh]. auto.
    + remember (e0 :: es0) as es. clear Heqes e0 es0. cbn [mentions_other] in Hoth. rewrite any_fixb in Hoth.
      unfold lbind, say in Hm. destruct (lmapM _ es) as [[es' w1]|] eqn:E1; cbn [bind lret] in Hm; [|discriminate].
      injection Hm as <- <-. rewrite app_nil_r in Hh. cbn [eval] in Hv.
      destruct (mapM (eval st) es') as [vs|] eqn:Ev; cbn [bind] in Hv; [|discriminate].
      destruct (several other es IH Hoth _ _ _ E1 Hh Ev) as (obs & Hb & Hs).
      destruct (op_and_ok _ _ _ Hb Hv) as (ob & Hbo & Hk). exists ob. split; [exact Hbo|]. eapply and_says; eassumption.
  - destruct es as [|e0 es0].
    + injection Hm as <- <-. exfalso. eapply harmless_not; [|exact Hh]. auto.
    + remember (e0 :: es0) as es. clear Heqes e0 es0. cbn [mentions_other] in Hoth. rewrite any_fixb in Hoth.
      unfold lbind, say in Hm. destruct (lmapM _ es) as [[es' w1]|] eqn:E1; cbn [bind lret] in Hm; [|discriminate].
      injection Hm as <- <-. rewrite app_nil_r in Hh. cbn [eval] in Hv.
      destruct (mapM (eval st) es') as [vs|] eqn:Ev; cbn [bind] in Hv; [|discriminate].
      destruct (several other es IH Hoth _ _ _ E1 Hh Ev) as (obs & Hb & Hs).
      destruct (op_or_ok _ _ _ Hb Hv) as (ob & Hbo & Hk). exists ob. split; [exact Hbo|]. eapply or_says; eassumption.
  - injection Hm as <- <-. cbn in Hv. injection Hv as <-. exists (Some true). split; [apply (boolean_op (Some true))|].
    unfold says. cbn [holds]. repeat split; try discriminate. intros _. apply Hoth. reflexivity.
  - discriminate.
Qed.

(** The condition of a respcondition *)
Lemma condition_means (other : Prop) es e w b : (existsb mentions_other es = true -> other) ->
  MigrateConditionVar i es = Ok (e, w) -> Forall harmless w -> Forall (under_not (answered st)) es ->
  condition st (Some e) = Ok b -> (b = true <-> all_hold other st es).
Proof.
  intros Hoth Hm Hh Hu Hc.
  assert (G : exists v ob, eval st e = Ok v /\ bool_operand v ob /\ (ob = Some true <-> Forall (holds other st) es)).
  { cbn [condition] in Hc. destruct (eval st e) as [v|] eqn:Ev; cbn [bind] in Hc; [|discriminate]. exists v.
    destruct es as [|e1 [|e2 es]]; cbn [MigrateConditionVar] in Hm.
    - injection Hm as <- <-. exfalso. eapply harmless_not; [|exact Hh]. auto.
    - cbn [existsb] in Hoth. rewrite orb_false_r in Hoth.
      destruct (expression_means other e1 Hoth _ _ _ Hm Hh Ev) as (ob & Hb & H1 & H2 & H3 & H4). exists ob. split; [reflexivity|].
      split; [exact Hb|]. inversion Hu; subst. split.
      + intros E. constructor; [apply H1, E|constructor].
      + intros E. inversion E; subst. destruct ob as [[]|]; [reflexivity|exfalso; apply H2; auto|exfalso; apply H4; auto].
    - remember (e1 :: e2 :: es) as l. clear Heql e1 e2 es.
      unfold lbind, say in Hm. destruct (lmapM _ l) as [[es' w1]|] eqn:E1; cbn [bind lret] in Hm; [|discriminate].
      injection Hm as <- <-. rewrite app_nil_r in Hh. cbn [eval] in Ev.
      destruct (mapM (eval st) es') as [vs|] eqn:Evs; cbn [bind] in Ev; [|discriminate].
      destruct (several other l) with (es' := es') (w := w1) (vs := vs) as (obs & Hb & Hs); try assumption.
      { apply Forall_forall. intros x _. apply expression_means. }
      destruct (op_and_ok _ _ _ Hb Ev) as (ob & Hbo & Hk). exists ob. split; [reflexivity|]. split; [exact Hbo|].
      destruct (and_says other _ _ _ Hs Hk) as (H1 & H2 & H3 & H4). cbn [holds under_not] in *. rewrite !all_fix in H1; rewrite !all_fix in H2; rewrite !all_fix in H4.
      split; [exact H1|]. intros K. destruct ob as [[]|]; [reflexivity|exfalso; exact (H2 eq_refl K)|exfalso; exact (H4 Hu eq_refl K)]. }
  destruct G as (v & ob & Ev & Hb & Hk). unfold all_hold. rewrite <- Hk. cbn [condition] in Hc. rewrite Ev in Hc. cbn [bind] in Hc.
  destruct (CheckBaseTypes _); cbn [bind] in Hc; [|discriminate]. destruct (CheckCardinalities _); cbn [bind] in Hc; [|discriminate].
  pose proof (bool_operand_of _ _ Hb) as Eb. rewrite Eb in Hc. destruct (non_null v) eqn:En; cbn [negb] in Hc.
  - destruct ob as [b'|]; [|discriminate]. injection Hc as ->. split; [intros ->; reflexivity|intros [= ->]; reflexivity].
  - injection Hc as <-. split; [discriminate|]. intros ->. destruct Hb as [->|[K _]]; [discriminate|discriminate].
Qed.
End Connectives.
