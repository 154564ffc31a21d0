(** Properties C48-C52, C88 and C89 of item sessions, response and template processing. *)
From Coq Require Import QArith Qcanon.
From Verif Require Import Py Dec XmlUtils Xsd XsdProofs XsdProofs2 Imscp QtiValue QtiExpr QtiSpec QtiProofs QtiProofs2
  QtiProofs3 QtiProofs4 QtiProps QtiProc QtiProcSpec QtiProcProofs QtiProcProofs2 QtiProcProofs3 QtiProcProofs4.
Open Scope Z_scope.
Open Scope list_scope.

Section Props.
Context {X : Ext}.

(** C48: after any history the variables are there and have the types of their declarations.
    Missing from the full property: items in which two variables have the same name. *)
Theorem C48_partial i p evs st0 : distinct_names i -> well_sorted i -> ItemSessionState i = Ok st0 ->
  s_item (history p evs st0) = i /\ well_typed (history p evs st0).
Proof. intros Hd Hs H. destruct (init_typed i Hd st0 H) as [H1 H2]. apply (history_typed i Hd Hs); assumption. Qed.

(** C49 *)
Theorem C49_partial rp st n r : distinct_names (s_item st) -> well_sorted (s_item st) ->
  In (n, r) (variables (s_item st)) -> (forall d, r <> Outcome d) -> r <> Status ->
  same_value st (fst (ResponseProcessing rp st)) n /\ s_item (fst (ResponseProcessing rp st)) = s_item st.
Proof.
  intros Hd Hs Hn H1 H2. destruct (ResponseProcessing_step _ Hd Hs rp st eq_refl) as [[T G] _].
  split; [|exact T]. apply (G n r Hn). intros [[d K]|K]; [eapply H1|apply H2]; eassumption.
Qed.

(** C50 *)
Theorem C50_response rp st st' : ResponseProcessing rp st = (st', None) <->
  exists stopped, runs (fun a s s' => run_set_outcome a s = (s', None)) st rp st' stopped.
Proof. apply processing_runs. Qed.
Theorem C50_template tp st st' : TemplateProcessing tp st = (st', None) <->
  exists stopped, runs (fun a s s' => run_template_action a s = (s', None)) st tp st' stopped.
Proof. apply processing_runs. Qed.
(** whatever follows an exit rule that is reached is irrelevant *)
Theorem C50_exit rp rs1 rs2 st : ResponseProcessing (rp ++ Exit :: rs1) st = ResponseProcessing (rp ++ Exit :: rs2) st.
Proof.
  unfold ResponseProcessing, processing.
  assert (G : run_rules setOutcome run_set_outcome (rp ++ Exit :: rs1) st = run_rules setOutcome run_set_outcome (rp ++ Exit :: rs2) st).
  { revert st. induction rp as [|r rp IH]; intros st; cbn [app run_rules run_rule]; [reflexivity|].
    destruct (run_rule _ _ r st) as [st1 []]; [apply IH|reflexivity|reflexivity]. }
  rewrite G. reflexivity.
Qed.

(** C51 *)
Theorem C51_partial tp st n r : distinct_names (s_item st) -> well_sorted (s_item st) ->
  In (n, r) (variables (s_item st)) -> (forall d, r <> Template d /\ r <> Correct d /\ r <> Default d) ->
  same_value st (fst (TemplateProcessing tp st)) n /\ s_item (fst (TemplateProcessing tp st)) = s_item st.
Proof.
  intros Hd Hs Hn H1. destruct (TemplateProcessing_step _ Hd Hs tp st eq_refl) as [[T G] _].
  split; [|exact T]. apply (G n r Hn). intros [d [K|[K|K]]]; destruct (H1 d) as (A & B & C); auto.
Qed.

(** C52: the number of attempts *)
Theorem C52_attempts_partial i p evs0 evs st0 : distinct_names i -> well_sorted i -> ItemSessionState i = Ok st0 ->
  let st := history p evs0 st0 in
  returning p (EvBeginSession :: evs) st -> Forall no_direct evs ->
  assoc (lit "numAttempts") (s_map (history p (EvBeginSession :: evs) st)) = Some (integer (attempts 0 evs)).
Proof.
  intros Hd Hs H st [Hr1 Hr2] Hn. destruct (C48_partial i p evs0 st0 Hd Hs H) as [Hi Hw]. fold st in Hi, Hw.
  specialize (Hr1 (or_introl eq_refl)). cbn [history apply_event] in *.
  destruct (BeginSession_step i Hd st Hi) as [[T _] W].
  destruct (BeginSession st) as [st1 o] eqn:E. cbn [fst snd] in *. subst o.
  apply (history_attempts i Hd Hs p evs st1 0); auto; [congruence|]. eapply BeginSession_count; eauto.
Qed.
(** C52: earlier outcomes do not matter.  [st1] and [st2] have the same variables, which have the
    same values except perhaps the declared outcomes. *)
Theorem C52_outcomes_partial prefix rp ps st1 st2 : distinct_names (s_item st1) -> well_sorted (s_item st1) ->
  i_adaptive (s_item st1) = false -> s_item st2 = s_item st1 ->
  (forall n, ~ In n (map d_id (i_outcomes (s_item st1))) -> assoc n (s_map st1) = assoc n (s_map st2)) ->
  (forall n, assoc n (s_map st1) = None <-> assoc n (s_map st2) = None) ->
  snd (SubmitSession prefix rp ps st1) = snd (SubmitSession prefix rp ps st2) /\
  (snd (SubmitSession prefix rp ps st1) = None -> forall n,
   assoc n (s_map (fst (SubmitSession prefix rp ps st1))) = assoc n (s_map (fst (SubmitSession prefix rp ps st2)))).
Proof.
  intros Hd Hs Ha Hi H1 H2.
  destruct (submit_agree (s_item st1) Hd Hs prefix rp ps st1 st2 Ha eq_refl) as [E A].
  - split; [congruence|]. split; [exact H1|exact H2].
  - split; [exact E|]. intros K n. destruct (A K) as (_ & G & _). apply G. exact I.
Qed.

(** C88: an assignment rule that raises nothing stores the value of its expression.  In a
    multiple container each member is kept once, whatever its multiplicity was. *)
Theorem C88_outcome_partial a st st' : wf_state st -> (forall e, so_expr a = Some e -> literals_ok e) ->
  run_set_outcome a st = (st', None) ->
  exists e v, so_expr a = Some e /\ eval st e = Ok v /\ assigned st (so_id a) v st'.
Proof. apply set_outcome_assigned. Qed.
Theorem C88_item_partial n v st st' : wf_value v -> set_item n v st = (st', None) -> assigned st n v st'.
Proof. apply set_item_assigned. Qed.
Theorem C88_type n v st old : assoc n (s_map st) = Some old ->
  (card v <> None /\ card v <> card old) \/ (base v <> None /\ base v <> base old) ->
  set_item n v st = (st, Some ValueError).
Proof.
  intros Ho H. unfold set_item, get_var. rewrite Ho. cbn [lift].
  destruct H as [[H1 H2]|[H1 H2]].
  - destruct (card v) as [c|] eqn:E; [|congruence].
    destruct (opt_eqb cardinality_eqb (Some c) (card old)) eqn:E2; [apply opt_card_eqb in E2; congruence|reflexivity].
  - destruct (match card v with None => false | _ => _ end); [reflexivity|].
    destruct (base v) as [c|] eqn:E; [|congruence].
    destruct (opt_eqb baseType_eqb (Some c) (base old)) eqn:E2; [apply opt_base_eqb in E2; congruence|reflexivity].
Qed.

(** C89: what a submission that raises nothing stores *)
Theorem C89_untouched prefix rp ps st st' d : distinct_names (s_item st) -> well_sorted (s_item st) -> well_typed st ->
  In d (i_responses (s_item st)) -> ~ In 46 (d_id d) -> SubmitSession prefix rp ps st = (st', None) ->
  (forall q y, In (q, y) ps -> ~ addresses prefix (d_id d) q) ->
  assoc (d_id d ++ lit ".SAVED") (s_map st) = None -> same_value st st' (d_id d).
Proof.
  intros Hd Hs Hw Hin Hdot H. exact (proj1 (submit_value (s_item st) Hd Hs d Hin Hdot prefix rp ps st st' eq_refl Hw H)).
Qed.
Theorem C89_single_partial prefix rp ps st st' d b x : distinct_names (s_item st) -> well_sorted (s_item st) -> well_typed st ->
  In d (i_responses (s_item st)) -> ~ In 46 (d_id d) -> SubmitSession prefix rp ps st = (st', None) ->
  d_card d = Some CSingle -> d_base d = Some b -> last_for prefix (d_id d) ps x ->
  exists s v, x = PvText s /\ new_single (Some b) (Some (RText s)) = Ok v /\ assoc (d_id d) (s_map st') = Some v.
Proof.
  intros Hd Hs Hw Hin Hdot H. exact (submit_single (s_item st) Hd Hs d Hin Hdot prefix rp ps st st' b x eq_refl Hw H).
Qed.
Theorem C89_multiple_partial prefix rp ps st st' d b x : distinct_names (s_item st) -> well_sorted (s_item st) -> well_typed st ->
  In d (i_responses (s_item st)) -> ~ In 46 (d_id d) -> SubmitSession prefix rp ps st = (st', None) ->
  d_card d = Some CMultiple -> d_base d = Some b -> last_for prefix (d_id d) ps x ->
  exists v, assoc (d_id d) (s_map st') = Some v /\ (card v, base v) = (Some CMultiple, Some b) /\
    forall a, In a (members v) <->
      exists s, In s (match x with PvText s => [s] | PvList l => l end) /\
        new_single (Some b) (Some (RText s)) = Ok (VSingle (Some b) (Some a)).
Proof.
  intros Hd Hs Hw Hin Hdot H. exact (submit_multiple (s_item st) Hd Hs d Hin Hdot prefix rp ps st st' b x eq_refl Hw H).
Qed.

(** C90: each event touches only the variables of its roles, even if it raises *)
Theorem C90_frame p ev st n r : distinct_names (s_item st) -> well_sorted (s_item st) ->
  In (n, r) (variables (s_item st)) ->
  match ev with
  | EvSelectClone | EvTemplateDefault _ _ => forall d, r <> Template d /\ r <> Correct d /\ r <> Default d
  | EvBeginSession => (forall d, r <> Outcome d) /\ r <> Status /\ r <> Attempts /\ r <> Duration
  | EvBeginAttempt => (forall d, r <> Response d) /\ r <> Status /\ r <> Attempts
  | EvSave _ => forall d, r <> Saved d
  | EvSubmit _ => (forall d, r <> Saved d /\ r <> Response d /\ r <> Outcome d) /\ r <> Status
  | EvSet m _ => n <> m
  end -> same_value st (fst (apply_event p ev st)) n.
Proof.
  intros Hd Hs Hn H. destruct (event_step _ Hd Hs p ev st eq_refl) as [[T G] _].
  destruct ev as [| | |ps|ps|m v|m v]; [| | | | |clear G|]; try (apply (G n r Hn); cbn [r_event]).
  - intros [d [K|[K|K]]]; destruct (H d) as (A & B & C); auto.
  - destruct H as (A & B & C & D). intros [[d K]|[K|[K|K]]]; auto. eapply A; eassumption.
  - destruct H as (A & B & C). intros [[d K]|[K|K]]; auto. eapply A; eassumption.
  - intros [d K]. eapply H; eassumption.
  - destruct H as (A & B). intros [[d [K|K]]|[[d K]|K]]; auto; destruct (A d) as (A1 & A2 & A3); auto.
  - cbn [apply_event]. unfold same_value, set_item, lift. destruct (get_var st m); [|reflexivity].
    destruct (match card v with None => _ | _ => _ end); [reflexivity|].
    destruct (match base v with None => _ | _ => _ end); [reflexivity|]. destruct (set_value _ _).
    cbn [fst put s_map]. apply assoc_sset_other. exact H.
  - intros [d [K|[K|K]]]; destruct (H d) as (A & B & C); auto.
Qed.
End Props.

(** ** Refutations and examples *)
#[local] Existing Instance demo.
Definition resp (s : str) (c : cardinality) (b : baseType) := mkDecl s (Some c) (Some b) None (KResponse None None None).
Definition outc (s : str) (c : cardinality) (b : baseType) := mkDecl s (Some c) (Some b) None KOutcome.
Definition tmpl (s : str) (c : cardinality) (b : baseType) := mkDecl s (Some c) (Some b) None KTemplate.

(** An outcome whose name is that of a built-in variable loses its type when the first attempt
    begins: "completionStatus" declared as an integer. *)
Theorem C48_refuted : exists (X : Ext) i p evs st0 d v, well_sorted i /\ NoDup (map fst (i_decls i)) /\
  ItemSessionState i = Ok st0 /\ In d (i_outcomes i) /\
  assoc (d_id d) (s_map (history p evs st0)) = Some v /\ base v <> d_base d.
Proof.
  exists demo, (mkItem [] [] [outc completionStatus CSingle BInteger] false), (mkProgram [] [] []),
    [EvBeginSession; EvBeginAttempt]. eexists. exists (outc completionStatus CSingle BInteger). eexists.
  split; [split; [|split]; intros d K; cbn in K; try contradiction; destruct K as [<-|[]]; reflexivity|].
  split; [repeat constructor; cbn; tauto|].
  split; [vm_compute; reflexivity|]. split; [left; reflexivity|]. split; [vm_compute; reflexivity|]. vm_compute. discriminate.
Qed.
(** An outcome named "R.DEFAULT" is also the default value of the response R. *)
Definition collide : item := mkItem [] [resp (lit "R") CSingle BInteger] [outc (lit "R.DEFAULT") CSingle BInteger] false.
Theorem C49_refuted : exists (X : Ext) rp st d v, well_sorted (s_item st) /\ NoDup (map fst (i_decls (s_item st))) /\
  ItemSessionState (s_item st) = Ok st /\ In d (i_responses (s_item st)) /\
  assoc (d_id d ++ lit ".DEFAULT") (s_map st) = Some (VSingle (Some BInteger) None) /\
  ResponseProcessing rp st = (v, None) /\
  assoc (d_id d ++ lit ".DEFAULT") (s_map v) = Some (integer 7).
Proof.
  exists demo, [Act (SetOutcome (lit "R.DEFAULT") (Some (int_lit (lit "7"))))].
  eexists (mkState collide _). exists (resp (lit "R") CSingle BInteger). eexists.
  split; [split; [|split]; intros d K; cbn in K; try contradiction; destruct K as [<-|[]]; try reflexivity; do 3 eexists; reflexivity|].
  split; [repeat constructor; cbn; intuition discriminate|].
  split; [vm_compute; reflexivity|]. split; [left; reflexivity|]. split; [vm_compute; reflexivity|].
  split; vm_compute; reflexivity.
Qed.
(** setCorrectResponse for R writes the outcome "R.CORRECT" *)
Definition collide2 : item := mkItem [] [resp (lit "R") CSingle BInteger] [outc (lit "R.CORRECT") CSingle BInteger] false.
Theorem C51_refuted : exists (X : Ext) tp st d v, well_sorted (s_item st) /\ NoDup (map fst (i_decls (s_item st))) /\
  ItemSessionState (s_item st) = Ok st /\ In d (i_outcomes (s_item st)) /\
  TemplateProcessing tp st = (v, None) /\
  assoc (d_id d) (s_map st) = Some (VSingle (Some BInteger) None) /\ assoc (d_id d) (s_map v) = Some (integer 7).
Proof.
  exists demo, [Act (SetCorrect (lit "R") (Some (int_lit (lit "7"))))].
  eexists (mkState collide2 _). exists (outc (lit "R.CORRECT") CSingle BInteger). eexists.
  split; [split; [|split]; intros d K; cbn in K; try contradiction; destruct K as [<-|[]]; try reflexivity; do 3 eexists; reflexivity|].
  split; [repeat constructor; cbn; intuition discriminate|].
  split; [vm_compute; reflexivity|]. split; [left; reflexivity|]. split; [vm_compute; reflexivity|].
  split; vm_compute; reflexivity.
Qed.
(** completionStatus is not among the outcomes that are reset: it survives the next submission. *)
Definition status_rules : list responseRule :=
  [Cond [(Some (EMatch [EVariable (lit "R"); int_lit (lit "1")]),
          [Act (SetOutcome completionStatus (Some (id_lit (lit "completed"))))])] []].
Definition status_item : item := mkItem [] [resp (lit "R") CSingle BInteger] [outc (lit "SCORE") CSingle BFloat] false.
Theorem C52_refuted : exists (X : Ext) i p st0 v, well_sorted i /\ distinct_names i /\ i_adaptive i = false /\
  ItemSessionState i = Ok st0 /\
  let start := [EvBeginSession; EvBeginAttempt] in
  let later := [EvBeginAttempt; EvSubmit [(lit "R", PvText (lit "2"))]] in
  assoc (lit "completionStatus") (s_map (history p (start ++ [EvSubmit [(lit "R", PvText (lit "1"))]] ++ later) st0)) = Some v /\
  assoc (lit "completionStatus") (s_map (history p (start ++ [EvSubmit [(lit "R", PvText (lit "2"))]] ++ later) st0)) <> Some v.
Proof.
  exists demo, status_item, (mkProgram [] status_rules []). eexists. eexists.
  split; [split; [|split]; intros d K; cbn in K; try contradiction; destruct K as [<-|[]]; try reflexivity; do 3 eexists; reflexivity|].
  split; [unfold distinct_names; repeat constructor; cbn; intuition discriminate|].
  split; [reflexivity|]. split; [vm_compute; reflexivity|]. cbn zeta. split; [vm_compute; reflexivity|]. vm_compute. discriminate.
Qed.
(** The second copy of a member disappears when a multiple container is assigned. *)
Theorem C88_refuted : exists (X : Ext) st st' n v new a, wf_value v /\ set_item n v st = (st', None) /\
  assoc n (s_map st') = Some new /\ occurs a v = 2%nat /\ occurs a new = 1%nat.
Proof.
  exists demo, (mkState (mkItem [] [] [] false) [(lit "O", VMultiple (Some BInteger) None)]). eexists.
  exists (lit "O"), (VMultiple (Some BInteger) (Some [(Some (AInt 7), 2)])). eexists. exists (AInt 7).
  split; [cbn; split; [discriminate|]; split; [apply NoDup_cons; [intros []|apply NoDup_nil]|]; apply Forall_cons; [split; [reflexivity|exists (AInt 7); split; [reflexivity|cbn; unfold int32; lia]]|apply Forall_nil]|].
  split; [vm_compute; reflexivity|]. split; [vm_compute; reflexivity|]. split; vm_compute; reflexivity.
Qed.
(** Responses of ordered cardinality cannot be submitted: "R.1" raises AttributeError and "R"
    is dropped.  A repeated choice is counted once. *)
Definition ordered_item : item := mkItem [] [resp (lit "R") COrdered BIdentifier; resp (lit "M") CMultiple BIdentifier] [] false.
Theorem C89_refuted : exists (X : Ext) i st, well_sorted i /\ distinct_names i /\
  (exists st0, ItemSessionState i = Ok st0 /\ history (mkProgram [] [] []) [EvBeginSession; EvBeginAttempt] st0 = st) /\
  snd (SubmitSession [] [] [(lit "R.1", PvText (lit "A"))] st) = Some AttributeError /\
  (snd (SubmitSession [] [] [(lit "R", PvList [lit "A"; lit "B"])] st) = None /\
   assoc (lit "R") (s_map (fst (SubmitSession [] [] [(lit "R", PvList [lit "A"; lit "B"])] st))) = Some (VOrdered (Some BIdentifier) None)) /\
  (snd (SubmitSession [] [] [(lit "M", PvList [lit "A"; lit "A"])] st) = None /\
   assoc (lit "M") (s_map (fst (SubmitSession [] [] [(lit "M", PvList [lit "A"; lit "A"])] st))) =
     Some (VMultiple (Some BIdentifier) (Some [(Some (AIdent (lit "A")), 1)]))).
Proof.
  exists demo, ordered_item. eexists.
  split; [split; [|split]; intros d K; cbn in K; try contradiction; destruct K as [<-|[<-|[]]]; try reflexivity; do 3 eexists; reflexivity|].
  split; [unfold distinct_names; repeat constructor; cbn; intuition discriminate|].
  split; [eexists; split; [vm_compute; reflexivity|reflexivity]|].
  vm_compute. repeat split.
Qed.

(** A session with a template variable, two responses and two outcomes *)
Definition ex_item : item := mkItem [tmpl (lit "T") CSingle BInteger]
  [resp (lit "R") CSingle BInteger; resp (lit "M") CMultiple BIdentifier]
  [outc (lit "SCORE") CSingle BFloat; outc (lit "N") CSingle BInteger] false.
Definition ex_program : program := mkProgram
  [Act (SetTemplate (lit "T") (Some (int_lit (lit "4")))); Act (SetCorrect (lit "R") (Some (EVariable (lit "T"))));
   Act (SetDefault (lit "N") (Some (int_lit (lit "2"))))]
  [Cond [(Some (EMatch [EVariable (lit "R"); ECorrect (lit "R")]), [Act (SetOutcome (lit "SCORE") (Some (EIntegerToFloat (int_lit (lit "1"))))); Exit]);
         (Some (EIsNull (EVariable (lit "M"))), [Act (SetOutcome (lit "N") (Some (ESum [EVariable (lit "N"); int_lit (lit "5")])))])]
        [Act (SetOutcome (lit "N") (Some (int_lit (lit "9"))))];
   Act (SetOutcome (lit "N") (Some (ESum [EVariable (lit "N"); int_lit (lit "1")])))]
  (lit "p_").
Definition ex_events : list event :=
  [EvSelectClone; EvBeginSession; EvBeginAttempt; EvSave [(lit "p_R", PvText (lit "3"))];
   EvSubmit [(lit "p_R", PvText (lit "5")); (lit "other", PvList [])];
   EvBeginAttempt; EvSubmit [(lit "p_R", PvText (lit "4")); (lit "p_M", PvList [lit "A"; lit "B"])]].
Lemma ex_sorted : well_sorted ex_item.
Proof. split; [|split]; intros d K; cbn in K; repeat destruct K as [<-|K]; try contradiction; try reflexivity; do 3 eexists; reflexivity. Qed.
Lemma ex_distinct : distinct_names ex_item.
Proof. unfold distinct_names. repeat constructor; cbn; intuition discriminate. Qed.
Example ex_C48 : exists st0, ItemSessionState ex_item = Ok st0 /\
  let st := history ex_program ex_events st0 in
  assoc (lit "numAttempts") (s_map st) = Some (integer 2) /\
  assoc (lit "SCORE") (s_map st) = Some (VSingle (Some BFloat) (Some (AFloat (qz 1)))) /\
  assoc (lit "N") (s_map st) = Some (integer 2) /\
  assoc (lit "M") (s_map st) = Some (VMultiple (Some BIdentifier) (Some [(Some (AIdent (lit "A")), 1); (Some (AIdent (lit "B")), 1)])) /\
  assoc (lit "N") (s_map (history ex_program (firstn 5 ex_events) st0)) = Some (integer 8).
Proof. eexists. split; [vm_compute; reflexivity|]. vm_compute. repeat split. Qed.
Example ex_C52 : exists st0, ItemSessionState ex_item = Ok st0 /\
  returning ex_program (EvBeginSession :: tl (tl ex_events)) (history ex_program [EvSelectClone] st0) /\
  Forall no_direct (tl (tl ex_events)) /\ attempts 0 (tl (tl ex_events)) = 2.
Proof.
  eexists. split; [vm_compute; reflexivity|]. split; [|split; [repeat constructor|reflexivity]].
  cbn [returning tl ex_events]. repeat split; intros _; vm_compute; reflexivity.
Qed.
Example ex_C52_outcomes : exists st0 st1 st2, ItemSessionState ex_item = Ok st0 /\
  st1 = history ex_program (firstn 3 ex_events) st0 /\ st2 = put st1 (lit "N") (integer 77) /\
  (forall n, ~ In n (map d_id (i_outcomes (s_item st1))) -> assoc n (s_map st1) = assoc n (s_map st2)) /\
  (forall n, assoc n (s_map st1) = None <-> assoc n (s_map st2) = None) /\
  assoc (lit "N") (s_map st1) = Some (integer 2) /\
  snd (SubmitSession (lit "p_") (pr_response ex_program) [(lit "p_R", PvText (lit "5"))] st2) = None /\
  assoc (lit "N") (s_map (fst (SubmitSession (lit "p_") (pr_response ex_program) [(lit "p_R", PvText (lit "5"))] st2))) = Some (integer 8).
Proof.
  eexists. eexists. eexists. split; [vm_compute; reflexivity|]. split; [reflexivity|]. split; [reflexivity|].
  split; [|split].
  - intros n Hn. cbn [put s_map]. rewrite assoc_sset_other; [reflexivity|]. intros ->. apply Hn. vm_compute. auto.
  - intros n. cbn [put s_map]. rewrite assoc_sset. destruct (str_eqb n (lit "N")) eqn:E; [|tauto].
    apply str_eqb_eq in E. subst n. split; intros K; vm_compute in K; discriminate.
  - vm_compute. repeat split.
Qed.
Example ex_C89 : addresses (lit "p_") (lit "M") (lit "p_M") /\ addresses (lit "p_") (lit "M") (lit "p_M.2") /\
  ~ addresses (lit "p_") (lit "M") (lit "p_MM") /\
  last_for (lit "p_") (lit "R") [(lit "p_R", PvText (lit "5")); (lit "other", PvList [])] (PvText (lit "5")).
Proof.
  split; [exists []; auto|]. split; [exists (lit ".2"); split; [reflexivity|right; eexists; reflexivity]|]. split.
  - intros (r & H & [->|[r' ->]]); discriminate.
  - exists [], (lit "p_R"), [(lit "other", PvList [])]. split; [reflexivity|]. split; [exists []; auto|].
    intros q y [E|[]] (r & H & _). injection E as <- <-. discriminate.
Qed.

Print Assumptions C48_partial.
Print Assumptions C48_refuted.
Print Assumptions C49_partial.
Print Assumptions C49_refuted.
Print Assumptions C50_response.
Print Assumptions C50_template.
Print Assumptions C50_exit.
Print Assumptions C51_partial.
Print Assumptions C51_refuted.
Print Assumptions C52_attempts_partial.
Print Assumptions C52_outcomes_partial.
Print Assumptions C52_refuted.
Print Assumptions C88_outcome_partial.
Print Assumptions C88_item_partial.
Print Assumptions C88_type.
Print Assumptions C88_refuted.
Print Assumptions C89_untouched.
Print Assumptions C89_single_partial.
Print Assumptions C89_multiple_partial.
Print Assumptions C89_refuted.
Print Assumptions C90_frame.
