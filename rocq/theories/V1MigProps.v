(** Properties C118-C125 of migrated version 1 response processing. *)
From Coq Require Import QArith Qcanon Lia.
From Verif Require Import Py Dec XmlUtils XmlChars Xsd XsdProofs2 Shapes QtiValue QtiExpr QtiSpec QtiProofs QtiProofs2 QtiProofs3 QtiProofs4 QtiProofs5 QtiProps QtiProc QtiProcSpec
  QtiProcProofs QtiProcProofs2 QtiProcProps
  V1Mig V1MigSpec V1MigProofs V1MigProofs2 V1MigProofs3 V1MigProofs4 V1MigProofs5 V1MigProofs6 V1MigProofs7 V1MigProofs8.
Open Scope Z_scope.
Open Scope list_scope.

Section Props.
Context {X : Ext}.

(** ** C118: a migrated condition tests what the version 1 condition tested.
    Missing from the full property: negated tests of a response that was not answered, indexed
    tests, and conditions whose migration logged that the meaning changes. *)
Theorem C118_meaning_partial i st (other : Prop) es e w b : wf_state st -> typed st -> declares i st ->
  (existsb mentions_other es = true -> other) ->
  MigrateConditionVar i es = Ok (e, w) -> Forall harmless w -> Forall (under_not (answered st)) es ->
  condition st (Some e) = Ok b -> (b = true <-> all_hold other st es).
Proof. intros Hw Ht Hd. apply (condition_means i st Hw Ht Hd other). Qed.
Theorem C118_total_partial i st es e w : wf_state st -> typed st -> declares i st ->
  MigrateConditionVar i es = Ok (e, w) -> Forall harmless w -> Forall (testable st) es ->
  exists b, condition st (Some e) = Ok b.
Proof. intros Hw Ht Hd. apply (condition_total i st Hw Ht Hd). Qed.

(** An ellipse with two different radii becomes a circle, and the log says so *)
Theorem C118_ellipse_logged i id index text x y a b rest e w : scan text false [] [] = Ok (x :: y :: a :: b :: rest) -> a <> b ->
  MigrateVarInside i Ellipse id index text = Ok (e, w) -> In WEllipse w \/ w = [WMissing (v2id id)].
Proof.
  intros Hs Hab H. unfold MigrateVarInside in H. destruct (find_decl i (v2id id)) as [d|]; [|injection H as <- <-; right; reflexivity].
  destruct (d_card d) as [[]|]; try discriminate; destruct (d_base d) as [[]|]; try discriminate.
  destruct (MigrateV2AreaCoords Ellipse text) as [[shape coords]|]; cbn [bind] in H; [|discriminate].
  unfold lbind, say in H. destruct (MigrateV2Variable d index) as [[var wv]|]; cbn [bind lret] in H; [|discriminate].
  injection H as <- <-. left. unfold area_log. rewrite Hs. destruct (a =? b)%Z eqn:Eab; [apply Z.eqb_eq in Eab; contradiction|]. left. reflexivity.
Qed.

(** ** C119: the rules run like the conditions in sequence, each that holds ending the sequence
    unless it says continue, after the rules for split responses; and placing them never fails. *)
Theorem C119_sequence i l fixups i' rules w :
  MigrateConditions i l true (InRules 0) (map fixup_rule fixups) = Ok ((i', rules), w) ->
  exists ps, migrated i l i' ps w /\
    forall st, run_rules setOutcome run_set_outcome rules st =
      match run_rules setOutcome run_set_outcome (map fixup_rule fixups) st with
      | (st', FNext) => in_sequence ps st'
      | other => other
      end.
Proof.
  intros H. destruct (conditions_run l i true (InRules 0) (map fixup_rule fixups) i' rules w I H) as (ps & Hm & Hr).
  exists ps. split; [exact Hm|]. intros st. rewrite Hr.
  unfold run_at, at_depth, in_rules, thn. destruct (run_rules _ _ (map fixup_rule fixups) st) as [? []]; reflexivity.
Qed.
Theorem C119_total i l fixups i' ps w : migrated i l i' ps w ->
  exists rules, MigrateConditions i l true (InRules 0) (map fixup_rule fixups) = Ok ((i', rules), w).
Proof. apply (conditions_total l i true (InRules 0) (map fixup_rule fixups) i' ps w I). Qed.

(** ** C120: a migrated setvar performs its action.
    Missing from the full property: division of integers, and the bounds of the variable. *)
Theorem C120_action_partial i st s a st' : wf_state st -> well_typed st -> declares i st -> based i ->
  MigrateSetVar i s = Ok a -> run_set_outcome a st = (st', None) -> sets s st st'.
Proof. intros Hw Ht Hd Hb Hm Hr. apply (set_runs i st Hw Ht Hd Hb s a st' Hm Hr). Qed.
Theorem C120_total_partial i st s a : wf_state st -> declares i st ->
  MigrateSetVar i s = Ok a -> settable st s -> exists st', run_set_outcome a st = (st', None).
Proof. intros Hw Hd. apply (set_total i st Hw Hd). Qed.

(** ** C121: a migrated displayfeedback shows the feedback.
    Missing: identifiers that have to be repaired. *)
Theorem C121_shown_partial i st link i' a st' : x_ncname [] = false -> wf_state st -> well_typed st ->
  MigrateDisplayFeedback i link = Ok (i', a) -> run_set_outcome a st = (st', None) -> shows link st st'.
Proof. intros Hx Hw Ht Hm Hr. apply (feedback_runs i st Hw Ht link i' a st' Hx Hm Hr). Qed.
Theorem C121_total_partial i st s i' a : wf_state st -> typed st -> x_ncname s = true ->
  MigrateDisplayFeedback i (Some s) = Ok (i', a) ->
  assoc (lit "FEEDBACK") (i_decls (s_item st)) = Some feedback_decl -> exists st', run_set_outcome a st = (st', None).
Proof. intros Hw Ht Hx Hm Hd. apply (feedback_total i st Hw Ht s i' a feedback_decl Hx Hm Hd); reflexivity. Qed.

(** ** C122: a construct without counterpart is never dropped.
    Missing: the exception is NameError, not the documented one. *)
Theorem C122_never_dropped_partial i r i' rules w : MigrateResProcessing i r = Ok ((i', rules), w) ->
  forall c, In (RespCondition c) (rp_conditions r) -> Forall supported (rc_condition c).
Proof. apply processing_supported. Qed.

(** ** C123: every decvar becomes an outcome of single cardinality with its base type and default.
    Missing: boolean variables. *)
Theorem C123_declared_partial i l i' w : MigrateDecVars i l = Ok (i', w) ->
  (forall v t, In v l -> dv_type v = vartype_code t -> t <> Boolean ->
     find_decl i' (v2id (dv_name v)) = Some (mkDecl (v2id (dv_name v)) (Some CSingle) (Some (v1_base t))
        (option_map (fun s => [mkVE [] None s]) (dv_default v)) KOutcome)) /\
  (forall n, ~ In n (map (fun v => v2id (dv_name v)) l) -> find_decl i' n = find_decl i n).
Proof.
  intros H. destruct (decvars_ok l i i' w H) as (H1 & H2 & _). split; [|exact H2].
  intros v t Hin Ht Hb. destruct (H1 v Hin) as (b & Eb & E). rewrite Ht, (vartype_ok t Hb) in Eb. injection Eb as <-. exact E.
Qed.
Theorem C123_total i l : NoDup (map (fun v => v2id (dv_name v)) l) ->
  (forall v, In v l -> find_decl i (v2id (dv_name v)) = None /\ exists t, dv_type v = vartype_code t) ->
  exists i' w, MigrateDecVars i l = Ok (i', w).
Proof. apply decvars_total. Qed.
Theorem C123_clash i l i' w : MigrateDecVars i l = Ok (i', w) ->
  NoDup (map (fun v => v2id (dv_name v)) l) /\ forall v, In v l -> find_decl i (v2id (dv_name v)) = None.
Proof. intros H. apply (decvars_ok l i i' w H). Qed.

(** ** C124: a response is declared once for each of its interactions, under names that are all
    different, and the variable that collects them holds the union of their values.
    Missing: ordered responses and single ones with several interactions, clashing names. *)
Theorem C124_one fuel i ident c bt dv : find_decl i (v2id ident) = None ->
  exists i', MigrateResponse fuel i ident c bt [dv] = Ok (i', None) /\
    find_decl i' (v2id ident) = Some (mkDecl (v2id ident) (Some (MigrateV2Cardinality c)) (Some bt) dv (KResponse None None None)) /\
    (forall n, n <> v2id ident -> find_decl i' n = find_decl i n).
Proof. apply whole_response. Qed.
Theorem C124_several_partial fuel i ident bt (defaults : list (option (list valueElement))) : (2 <= length defaults)%nat ->
  (forall n, (1 <= n <= length defaults)%nat -> find_decl i (numbered (v2id ident) n) = None) -> find_decl i (v2id ident) = None ->
  exists i' names, MigrateResponse (S fuel) i ident Multiple bt defaults = Ok (i', Some (v2id ident, names)) /\
    length names = length defaults /\ NoDup names /\
    (forall n dv, In (n, dv) (combine names defaults) ->
       find_decl i' n = Some (mkDecl n (Some CMultiple) (Some bt) dv (KResponse None None None))) /\
    find_decl i' (v2id ident) = Some (mkDecl (v2id ident) (Some CMultiple) (Some bt) None KOutcome) /\
    (forall n, ~ In n (v2id ident :: names) -> find_decl i' n = find_decl i n).
Proof. intros Hl Hn Hf. apply (split_response fuel i ident bt defaults Multiple (or_introl eq_refl) Hl Hn Hf). Qed.
Theorem C124_union_partial st id names bt : wf_state st -> typed st ->
  assoc id (i_decls (s_item st)) = Some (mkDecl id (Some CMultiple) (Some bt) None KOutcome) ->
  (forall n, In n names -> exists dv, assoc n (i_decls (s_item st)) = Some (mkDecl n (Some CMultiple) (Some bt) dv (KResponse None None None))) ->
  exists st' new, run_rules setOutcome run_set_outcome [fixup_rule (id, names)] st = (st', FNext) /\
    assoc id (s_map st') = Some new /\
    (forall a, In a (members new) <-> exists n v, In n names /\ assoc n (s_map st) = Some v /\ In a (members v)) /\
    only_changes id st st'.
Proof.
  intros Hw Ht Hd Hn. apply (fixup_runs st id names bt _ Hw Ht Hd); try reflexivity.
  intros n Hin. destruct (Hn n Hin) as [dv E]. eexists. split; [exact E|]. split; reflexivity.
Qed.
(** With ordered cardinality the rule that collects the values always fails *)
Theorem C124_ordered_refuted st id names bt : typed st -> names <> [] ->
  assoc id (i_decls (s_item st)) = Some (mkDecl id (Some COrdered) (Some bt) None KOutcome) ->
  (forall n, In n names -> exists dv, assoc n (i_decls (s_item st)) = Some (mkDecl n (Some COrdered) (Some bt) dv (KResponse None None None))) ->
  exists e, run_rules setOutcome run_set_outcome [fixup_rule (id, names)] st = (st, FErr e).
Proof.
  intros Ht Hne Hd Hn. apply (fixup_ordered st id names bt _ Ht Hne Hd eq_refl).
  intros n Hin. destruct (Hn n Hin) as [dv E]. eexists. split; [exact E|]. split; reflexivity.
Qed.
(** A declared name in place of a numbered one makes the search for a free name run for ever *)
Theorem C124_clash_refuted i ident bt dv1 dv2 l d : find_decl i (v2id ident ++ lit "_01") = Some d ->
  forall fuel, MigrateResponse fuel i ident Multiple bt (dv1 :: dv2 :: l) = Err OutOfFuel.
Proof.
  intros H fuel. unfold MigrateResponse. cbn [length response_names free_names].
  assert (E : free_name fuel i (v2id ident) 1 = Err OutOfFuel).
  { induction fuel as [|fuel IH]; cbn [free_name]; [reflexivity|]. change (numbered (v2id ident) 1) with (v2id ident ++ lit "_01"). rewrite H. exact IH. }
  rewrite E. reflexivity.
Qed.
(** A response of single cardinality with several interactions is not declared at all *)
Theorem C124_single_refuted fuel i ident bt dv1 dv2 l : MigrateResponse fuel i ident Single bt (dv1 :: dv2 :: l) = Ok (i, None).
Proof. reflexivity. Qed.

(** ** C125: migrated response processing has the effect of the version 1 response processing.
    Missing: see C118-C121; other after a condition that continues. *)
Theorem C125_processing_partial i r i' rules w st st' : x_ncname [] = false -> rp_fixups r = [] ->
  MigrateResProcessing i r = Ok ((i', rules), w) -> Forall harmless w -> based i' ->
  wf_state st -> well_typed st -> declares i' st ->
  (forall c, In (RespCondition c) (rp_conditions r) -> Forall (under_not (answered_response st)) (rc_condition c)) ->
  other_last (rp_conditions r) ->
  ResponseProcessing rules st = (st', None) -> v1_run false (rp_conditions r) st st'.
Proof. apply processing_means. Qed.
(** It raises no exception if, whatever the outcomes are, its tests can be made and its actions
    performed. *)
Theorem C125_total_partial i r i' rules w st : x_ncname [] = false -> rp_fixups r = [] ->
  MigrateResProcessing i r = Ok ((i', rules), w) -> Forall harmless w -> based i' ->
  wf_state st -> well_typed st -> declares i' st -> (forall c, In (RespCondition c) (rp_conditions r) -> performable st c) ->
  exists st', ResponseProcessing rules st = (st', None).
Proof. apply processing_total. Qed.
End Props.

(** ** Concrete cases *)
#[local] Existing Instance demo.
(** Two responses, three decvars, three conditions *)
Definition v1_item : item := mkItem [] [resp (lit "R") CSingle BIdentifier; resp (lit "M") CMultiple BIdentifier] [] false.
Definition v1_rp : resProcessing := mkRes []
  [mkDecVar (lit "SCORE") 1 (Some (lit "0")) None None false; mkDecVar (lit "Q") 3 None None None false]
  [RespCondition (mkResp true [VarEqual true (lit "R") None (lit " A ")] [mkSetVar (lit "SCORE") AAdd (lit "2")] []);
   ItemProcExtension;
   RespCondition (mkResp false [VarEqual true (lit "M") None (lit "B"); V1Not (Some (VarEqual true (lit "R") None (lit "C")))]
     [mkSetVar (lit "SCORE") AMultiply (lit "5")] [Some (lit "OK")]);
   RespCondition (mkResp false [V1Or [VarInequality OpLT (lit "SCORE") None (lit "3"); VarEqual true (lit "R") None (lit "B")]]
     [mkSetVar (lit "SCORE") ASet (lit "-1")] [Some (lit "NO")])].
Definition migrated_v1 : item * list responseRule :=
  match MigrateResProcessing v1_item v1_rp with Ok (p, _) => p | Err _ => (v1_item, []) end.
Definition start : state := match ItemSessionState (fst migrated_v1) with Ok st => st | Err _ => mkState v1_item [] end.
Definition picked (r m : str) : state :=
  put (put (put start (lit "R") (VSingle (Some BIdentifier) (Some (AIdent r))))
    (lit "M") (VMultiple (Some BIdentifier) (Some [(Some (AIdent m), 1)]))) (lit "SCORE") (integer 0).

Ltac wfs := let n := fresh "n" in let v := fresh "v" in let H := fresh "H" in
  intros n v H; apply assoc_In' in H; vm_compute in H;
  repeat (destruct H as [H|H]; [injection H as _ <-;
    first [exact I | reflexivity | unfold wf_value, wf_atom, int32; cbn; lia
      | cbn; split; [discriminate|]; split; [apply NoDup_cons; [intros []|apply NoDup_nil]|];
        apply Forall_cons; [split; [reflexivity|eexists; split; reflexivity]|apply Forall_nil]]|]); contradiction.
Example ex_C125 : (exists p, MigrateResProcessing v1_item v1_rp = Ok (p, [])) /\
  based (fst migrated_v1) /\ wf_state (picked (lit "A") (lit "B")) /\ well_typed (picked (lit "A") (lit "B")) /\
  declares (fst migrated_v1) (picked (lit "A") (lit "B")) /\
  (forall c, In (RespCondition c) (rp_conditions v1_rp) ->
     Forall (under_not (answered_response (picked (lit "A") (lit "B")))) (rc_condition c)) /\
  other_last (rp_conditions v1_rp) /\
  exists st', ResponseProcessing (snd migrated_v1) (picked (lit "A") (lit "B")) = (st', None) /\
    assoc (lit "SCORE") (s_map st') = Some (integer 10) /\ shown st' (lit "OK") /\ ~ shown st' (lit "NO").
Proof.
  split; [eexists; vm_compute; reflexivity|]. split.
  { intros n d H _. apply assoc_In' in H. vm_compute in H. repeat (destruct H as [H|H]; [injection H as _ <-; discriminate|]). contradiction. }
  split; [wfs|]. split.
  { intros n r H. vm_compute in H. repeat (destruct H as [H|H]; [injection H as <- <-; vm_compute; reflexivity|]). contradiction. }
  split; [intros n d H; exact H|]. split.
  { intros c H. destruct H as [H|[H|[H|[H|[]]]]]; try discriminate; injection H as <-; cbn [rc_condition].
    - constructor; [exact I|constructor].
    - constructor; [exact I|]. constructor; [|constructor]. cbn. split; [split; vm_compute; discriminate|]. eexists. split; vm_compute; reflexivity.
    - constructor; [cbn; auto|constructor]. }
  split; [cbn; repeat split; intros _ r' H; repeat (destruct H as [H|H]; [try discriminate; injection H as <-; reflexivity|]); contradiction|].
  eexists. split; [vm_compute; reflexivity|]. split; [vm_compute; reflexivity|]. split.
  - eexists. split; [vm_compute; reflexivity|]. left. reflexivity.
  - intros (v & E & H). vm_compute in E. injection E as <-. vm_compute in H. destruct H as [H|[]]. discriminate.
Qed.
(** A condition that can be performed in every later state *)
Example ex_C125_total : performable (picked (lit "A") (lit "B"))
  (mkResp false [VarEqual true (lit "R") None (lit "A"); V1Not (Some (VarEqual true (lit "M") None (lit "C")))]
     [mkSetVar (lit "SCORE") ASet (lit "5")] [Some (lit "OK")]).
Proof.
  split; [|split].
  - intros st (Hit & Hw & Ht & _). split.
    + assert (T : forall n t b, answer_type (picked (lit "A") (lit "B")) n b -> b = BIdentifier -> x_ncname (v2id (strip t)) = true -> readable st n t).
      { intros n t b (d & D1 & D2) -> Hx b' (d' & D1' & D2'). rewrite Hit in D1'. rewrite D1 in D1'. injection D1' as <-. rewrite D2 in D2'. injection D2' as <-.
        split; [discriminate|]. cbn [written parse_single]. rewrite Hx. eauto. }
      constructor; [|constructor; [|constructor]]; cbn [testable]; (split; [left; reflexivity|]); split;
        try (eapply T; [eexists; split; vm_compute; reflexivity|reflexivity|vm_compute; reflexivity]);
        unfold declared_as; rewrite Hit; [left|right; left]; eexists _, _; split; try (vm_compute; reflexivity); split; reflexivity.
    + constructor; [|constructor]. destruct (well_typed_typed _ Ht (lit "SCORE") (mkDecl (lit "SCORE") (Some CSingle) (Some BInteger) (Some [mkVE [] None (lit "0")]) KOutcome)) as (v & V1 & V2 & V3);
        [rewrite Hit; vm_compute; reflexivity|]. cbn [d_card d_base] in V2, V3. destruct v as [| |bt o| | |]; try discriminate. cbn [base] in V3. subst bt.
      eexists _, BInteger, o, (Some (AInt 5)). rewrite Hit. split; [vm_compute; reflexivity|]. split; [reflexivity|]. split; [reflexivity|]. split; [reflexivity|].
      split; [exact V1|]. split; [vm_compute; reflexivity|]. split; [intros n [= <-]; unfold int32; lia|exact I].
  - intros f [<-|[]]. exists (lit "OK"). split; [reflexivity|vm_compute; reflexivity].
  - intros _. eexists. split; [vm_compute; reflexivity|]. repeat split.
Qed.
(** other answers take other branches *)
Example ex_C119 : assoc (lit "SCORE") (s_map (fst (ResponseProcessing (snd migrated_v1) (picked (lit "B") (lit "B"))))) = Some (integer 0) /\
  assoc (lit "SCORE") (s_map (fst (ResponseProcessing (snd migrated_v1) (picked (lit "A") (lit "C"))))) = Some (integer (-1)) /\
  assoc (lit "SCORE") (s_map (fst (ResponseProcessing (snd migrated_v1) (picked (lit "C") (lit "B"))))) = Some (integer (-1)).
Proof. vm_compute. repeat split. Qed.
Example ex_C118 : exists e w, MigrateConditionVar (fst migrated_v1) [V1Not (Some (VarEqual true (lit "R") None (lit "C")))] = Ok (e, w) /\
  condition (picked (lit "A") (lit "B")) (Some e) = Ok true /\ condition (picked (lit "C") (lit "B")) (Some e) = Ok false /\
  testable (picked (lit "A") (lit "B")) (VarEqual true (lit "R") None (lit "C")).
Proof.
  eexists _, _. split; [vm_compute; reflexivity|]. split; [vm_compute; reflexivity|]. split; [vm_compute; reflexivity|].
  cbn. split; [left; reflexivity|]. split; [|left; eexists _, _; split; [vm_compute; reflexivity|split; reflexivity]].
  intros b (d & Hd & Hb). vm_compute in Hd. injection Hd as <-. injection Hb as <-. split; [discriminate|]. eexists. vm_compute. reflexivity.
Qed.
Lemma start_typed : well_typed start.
Proof. intros n r H. vm_compute in H. repeat (destruct H as [H|H]; [injection H as <- <-; vm_compute; reflexivity|]). contradiction. Qed.
(** A negated test of a response that was not answered: it holds, the rule is not chosen *)
Theorem C118_not_refuted : exists (X : Ext) i st es e, wf_state st /\ typed st /\ declares i st /\
  MigrateConditionVar i es = Ok (e, []) /\ condition st (Some e) = Ok false /\ all_hold True st es.
Proof.
  exists demo, (fst migrated_v1), start, [V1Not (Some (VarEqual true (lit "R") None (lit "A")))]. eexists.
  split; [wfs|]. split; [apply well_typed_typed, start_typed|].
  split; [intros n d H; exact H|]. split; [vm_compute; reflexivity|]. split; [vm_compute; reflexivity|].
  constructor; [|constructor]. cbn. intros (b & a & _ & H & _). vm_compute in H. contradiction.
Qed.
(** A test of one element of an ordered response: it holds, the rules fail *)
Definition sorted_item : item := mkItem [] [resp (lit "R") COrdered BIdentifier] [] false.
Definition sorted_state : state :=
  match ItemSessionState sorted_item with
  | Ok st => put st (lit "R") (VOrdered (Some BIdentifier) (Some [Some (AIdent (lit "A")); Some (AIdent (lit "B"))]))
  | Err _ => mkState sorted_item []
  end.
Lemma sorted_typed : well_typed sorted_state.
Proof. intros n r H. vm_compute in H. repeat (destruct H as [H|H]; [injection H as <- <-; vm_compute; reflexivity|]). contradiction. Qed.
Theorem C118_index_refuted : exists (X : Ext) i st es e, typed st /\ declares i st /\
  MigrateConditionVar i es = Ok (e, []) /\ all_hold True st es /\ condition st (Some e) = Err ProcessingError.
Proof.
  exists demo, sorted_item, sorted_state, [VarEqual true (lit "R") (Some 2) (lit "B")]. eexists.
  split; [apply well_typed_typed, sorted_typed|].
  split; [intros n d H; exact H|]. split; [vm_compute; reflexivity|]. split; [|vm_compute; reflexivity].
  constructor; [|constructor]. cbn [holds]. exists BIdentifier, (AIdent (lit "B")).
  split; [eexists; split; vm_compute; reflexivity|]. split; [left; reflexivity|]. exists (AIdent (lit "B")). split; [vm_compute; reflexivity|left; reflexivity].
Qed.

Example ex_C120 : exists a st', MigrateSetVar (fst migrated_v1) (mkSetVar (lit "SCORE") ASubtract (lit " 3 ")) = Ok a /\
  settable (picked (lit "A") (lit "B")) (mkSetVar (lit "SCORE") ASubtract (lit " 3 ")) /\
  run_set_outcome a (picked (lit "A") (lit "B")) = (st', None) /\ assoc (lit "SCORE") (s_map st') = Some (integer (-3)).
Proof.
  eexists _, _. split; [vm_compute; reflexivity|]. split; [|split; vm_compute; reflexivity].
  eexists _, BInteger, (Some (AInt 0)), (Some (AInt 3)). split; [vm_compute; reflexivity|]. split; [reflexivity|]. split; [reflexivity|].
  split; [reflexivity|]. split; [vm_compute; reflexivity|]. split; [vm_compute; reflexivity|].
  split; [intros n [= <-]; unfold int32; lia|]. right. split; [reflexivity|]. intros p q [= <-] [= <-]. unfold int32. cbn. lia.
Qed.
(** Dividing an integer variable: the result would be 2, the rule fails *)
Theorem C120_divide_refuted : exists (X : Ext) i st s a, wf_state st /\ declares i st /\
  MigrateSetVar i s = Ok a /\ sv_action s = ADivide /\ assoc (v2id (sv_name s)) (s_map st) = Some (integer 4) /\
  parse_single BInteger (RText (strip (sv_text s))) = Ok (Some (AInt 2)) /\
  exists e, run_set_outcome a st = (st, Some e).
Proof.
  exists demo, (fst migrated_v1), (put start (lit "SCORE") (integer 4)), (mkSetVar (lit "SCORE") ADivide (lit "2")). eexists.
  split; [wfs|]. split; [intros n d H; exact H|]. split; [vm_compute; reflexivity|]. split; [reflexivity|].
  split; [vm_compute; reflexivity|]. split; [vm_compute; reflexivity|]. eexists. vm_compute. reflexivity.
Qed.
(** A variable of maximum 1 is set to 5 *)
Theorem C120_bounds_refuted : exists (X : Ext) v i' st s a st', dv_max v = Some (qz 1) /\
  MigrateDecVars (mkItem [] [] [] false) [v] = Ok (i', []) /\ ItemSessionState i' = Ok st /\
  MigrateSetVar i' s = Ok a /\ sv_name s = dv_name v /\ run_set_outcome a st = (st', None) /\
  assoc (v2id (dv_name v)) (s_map st') = Some (integer 5).
Proof.
  exists demo, (mkDecVar (lit "S") 1 (Some (lit "0")) None (Some (qz 1)) false). eexists. eexists.
  exists (mkSetVar (lit "S") ASet (lit "5")). eexists. eexists.
  split; [reflexivity|]. split; [vm_compute; reflexivity|]. split; [vm_compute; reflexivity|]. split; [vm_compute; reflexivity|].
  split; [reflexivity|]. split; vm_compute; reflexivity.
Qed.

Example ex_C121 : exists i' a st', MigrateDisplayFeedback (fst migrated_v1) (Some (lit "F")) = Ok (i', a) /\
  run_set_outcome a start = (st', None) /\ shown st' (lit "F").
Proof. eexists _, _, _. split; [vm_compute; reflexivity|]. split; [vm_compute; reflexivity|]. eexists. split; [vm_compute; reflexivity|left; reflexivity]. Qed.
(** The feedback "1" becomes "FEEDBACK_1" (item.py 2039), the rule to show it fails *)
Theorem C121_repair_refuted : exists (X : Ext) i st i' a e, declares i st /\
  MigrateDisplayFeedback i (Some (lit "1")) = Ok (i', a) /\ ValidateIdentifier (lit "1") (lit "FEEDBACK_") = lit "FEEDBACK_1" /\
  run_set_outcome a st = (st, Some e).
Proof.
  exists demo, (fst migrated_v1), start. eexists _, _, _. split; [intros n d H; exact H|]. split; [vm_compute; reflexivity|].
  split; vm_compute; reflexivity.
Qed.

Example ex_C122 : (exists p, MigrateResProcessing v1_item v1_rp = Ok (p, [])) /\
  exists e, MigrateConditionVar v1_item [V1And [VarEqual true (lit "R") None (lit "A"); V1Not (Some Unsupported)]] = Err e.
Proof. split; eexists; vm_compute; reflexivity. Qed.
(** The exception that reports it is not defined where it is raised *)
Theorem C122_exception_refuted i es : In Unsupported es -> (forall e, In e es -> e = Unsupported) ->
  MigrateConditionVar i es = Err NameError.
Proof.
  intros Hin Hall. destruct es as [|e es]; [contradiction|]. rewrite (Hall e (or_introl eq_refl)). destruct es as [|e' es]; reflexivity.
Qed.

Example ex_C123 : exists i' w, MigrateDecVars v1_item [mkDecVar (lit "SCORE") 1 (Some (lit "0")) None None false;
    mkDecVar (lit "2 Q") 3 None None None false; mkDecVar (lit "E") 6 (Some (lit "x")) None None true] = Ok (i', w) /\
  map d_id (i_outcomes i') = [lit "SCORE"; lit "_2_Q"; lit "E"] /\ w = [WSet; WMembers].
Proof. eexists _, _. split; [vm_compute; reflexivity|]. split; vm_compute; reflexivity. Qed.
Theorem C123_boolean_refuted : exists i v i' w, MigrateDecVars i [v] = Ok (i', w) /\ dv_type v = vartype_code Boolean /\
  v1_base Boolean = BBoolean /\ exists d, find_decl i' (v2id (dv_name v)) = Some d /\ d_base d = Some BIdentifier.
Proof.
  exists v1_item, (mkDecVar (lit "B") 5 (Some (lit "true")) None None false). eexists _, _.
  split; [vm_compute; reflexivity|]. split; [reflexivity|]. split; [reflexivity|]. eexists. split; vm_compute; reflexivity.
Qed.

Definition split_item : item * option (str * list str) :=
  match MigrateResponse 1 (mkItem [] [] [] false) (lit "R") Multiple BIdentifier [None; None; None] with
  | Ok p => p | Err _ => (mkItem [] [] [] false, None) end.
Definition split_state : state :=
  match ItemSessionState (fst split_item) with
  | Ok st => put (put st (lit "R_01") (VMultiple (Some BIdentifier) (Some [(Some (AIdent (lit "A")), 1)])))
      (lit "R_03") (VMultiple (Some BIdentifier) (Some [(Some (AIdent (lit "C")), 1)]))
  | Err _ => mkState v1_item []
  end.
Example ex_C124 : snd split_item = Some (lit "R", [lit "R_01"; lit "R_02"; lit "R_03"]) /\
  wf_state split_state /\ well_typed split_state /\
  exists st', run_rules setOutcome run_set_outcome [fixup_rule (lit "R", [lit "R_01"; lit "R_02"; lit "R_03"])] split_state = (st', FNext) /\
    assoc (lit "R") (s_map st') = Some (VMultiple (Some BIdentifier) (Some [(Some (AIdent (lit "A")), 1); (Some (AIdent (lit "C")), 1)])).
Proof.
  split; [vm_compute; reflexivity|]. split; [wfs|]. split.
  { intros n r H. vm_compute in H. repeat (destruct H as [H|H]; [injection H as <- <-; vm_compute; reflexivity|]). contradiction. }
  eexists. split; vm_compute; reflexivity.
Qed.
Print Assumptions C118_meaning_partial.
Print Assumptions C118_total_partial.
Print Assumptions C118_ellipse_logged.
Print Assumptions C119_sequence.
Print Assumptions C119_total.
Print Assumptions C120_action_partial.
Print Assumptions C120_total_partial.
Print Assumptions C121_shown_partial.
Print Assumptions C121_total_partial.
Print Assumptions C122_never_dropped_partial.
Print Assumptions C123_declared_partial.
Print Assumptions C123_total.
Print Assumptions C123_clash.
Print Assumptions C124_one.
Print Assumptions C124_several_partial.
Print Assumptions C124_union_partial.
Print Assumptions C124_ordered_refuted.
Print Assumptions C124_clash_refuted.
Print Assumptions C124_single_refuted.
Print Assumptions C125_processing_partial.
Print Assumptions C125_total_partial.
Print Assumptions C118_not_refuted.
Print Assumptions C118_index_refuted.
Print Assumptions C120_divide_refuted.
Print Assumptions C120_bounds_refuted.
Print Assumptions C121_repair_refuted.
Print Assumptions C122_exception_refuted.
Print Assumptions C123_boolean_refuted.
