(** Proofs that the migrated response processing runs like the version 1 response processing. *)
From Coq Require Import QArith Qcanon Lia.
From Verif Require Import Py Dec XmlUtils XmlChars Xsd Shapes QtiValue QtiExpr QtiSpec QtiProc QtiProcSpec
  QtiProofs QtiProofs2 QtiProofs3 QtiProofs4 QtiProcProofs QtiProcProofs2 V1Mig V1MigSpec V1MigProofs V1MigProofs2 V1MigProofs3 V1MigProofs4.
Open Scope Z_scope.
Open Scope list_scope.

Section Run.
Context {X : Ext}.
Notation rr := (run_rules setOutcome run_set_outcome).

(** ** The declarations grow *)
Definition grows (i i' : item) : Prop := forall n d, find_decl i n = Some d -> find_decl i' n = Some d.
Lemma grows_refl i : grows i i. Proof. intros n d H. exact H. Qed.
Lemma grows_trans i j k : grows i j -> grows j k -> grows i k.
Proof. intros H1 H2 n d H. apply H2, H1, H. Qed.
Lemma assoc_app {A} n (l m : list (str * A)) : assoc n (l ++ m) = match assoc n l with Some x => Some x | None => assoc n m end.
Proof. induction l as [|[k v] l IH]; [reflexivity|]. cbn. destruct (str_eqb n k); [reflexivity|exact IH]. Qed.
Lemma add_outcome_find i d n : find_decl i (d_id d) = None ->
  find_decl (add_outcome i d) n = if str_eqb n (d_id d) then Some d else find_decl i n.
Proof.
  unfold find_decl, i_decls, add_outcome. cbn [i_responses i_outcomes i_templates]. rewrite !map_app, !assoc_app. cbn [map assoc].
  intros H. destruct (assoc (d_id d) (map _ (i_responses i))) eqn:E1; [discriminate|].
  destruct (assoc (d_id d) (map _ (i_outcomes i))) eqn:E2; [discriminate|].
  destruct (str_eqb n (d_id d)) eqn:E.
  - apply str_eqb_eq in E as ->. rewrite E1, E2. reflexivity.
  - destruct (assoc n (map _ (i_responses i))); [reflexivity|]. destruct (assoc n (map _ (i_outcomes i))); reflexivity.
Qed.
Lemma declare_grows i d i' : declare_outcome i d = Ok i' -> grows i i' /\ find_decl i' (d_id d) = Some d.
Proof.
  unfold declare_outcome. destruct (find_decl i (d_id d)) eqn:E; [discriminate|]. intros [= <-]. split.
  - intros n d' H. rewrite add_outcome_find by exact E. destruct (str_eqb n (d_id d)) eqn:En; [|exact H].
    apply str_eqb_eq in En as ->. congruence.
  - rewrite add_outcome_find by exact E. rewrite str_eqb_refl. reflexivity.
Qed.
Lemma display_grows i x i' a : MigrateDisplayFeedback i x = Ok (i', a) -> grows i i'.
Proof.
  unfold MigrateDisplayFeedback. destruct (find_decl i FEEDBACK) eqn:E; cbn [bind].
  - intros [= <- _]. apply grows_refl.
  - destruct (declare_outcome i feedback_decl) as [i1|] eqn:E1; cbn [bind]; [|discriminate]. intros [= <- _].
    apply (declare_grows _ _ _ E1).
Qed.
Lemma feedback_grows l : forall i i' rs, feedback_rules i l = Ok (i', rs) -> grows i i'.
Proof.
  induction l as [|x l IH]; intros i i' rs H; cbn [feedback_rules] in H; [injection H as <- _; apply grows_refl|].
  destruct (MigrateDisplayFeedback i x) as [[i1 a]|] eqn:E; cbn [bind] in H; [|discriminate].
  destruct (feedback_rules i1 l) as [[i2 rs2]|] eqn:E2; cbn [bind] in H; [|discriminate]. injection H as <- _.
  eapply grows_trans; [eapply display_grows; exact E|eapply IH; exact E2].
Qed.
Lemma part_inv i r i1 p w : MigratePart i r = Ok ((i1, p), w) -> exists e acts fb,
  p = (Some e, map Act acts ++ fb) /\ MigrateConditionVar i (rc_condition r) = Ok (e, w) /\
  map_result (MigrateSetVar i) (rc_setvars r) = Ok acts /\ feedback_rules i (rc_feedback r) = Ok (i1, fb).
Proof.
  unfold MigratePart. destruct (MigrateConditionVar i (rc_condition r)) as [[e w1]|]; cbn [bind]; [|discriminate].
  destruct (map_result _ _) as [acts|]; cbn [bind]; [|discriminate].
  destruct (feedback_rules i (rc_feedback r)) as [[i2 fb]|]; cbn [bind]; [|discriminate].
  intros [= <- <- <-]. exists e, acts, fb. auto.
Qed.
Lemma migrated_grows i l i' ps w : migrated i l i' ps w -> grows i i'.
Proof.
  induction 1 as [i|i l i' ps w H IH|i r i1 p w1 l i' ps w Hp H IH]; [apply grows_refl|exact IH|].
  apply part_inv in Hp as (e & acts & fb & -> & _ & _ & Hf). eapply grows_trans; [eapply feedback_grows; exact Hf|exact IH].
Qed.

(** ** What a run leaves alone *)
Definition responses_kept (st st' : state) : Prop := forall n d, assoc n (i_decls (s_item st)) = Some d ->
  is_response (Some d) = true -> same_value st st' n.
Definition healthy (i : item) (st : state) : Prop := wf_state st /\ well_typed st /\ declares i st.

Lemma outcome_kept a st st' : run_set_outcome a st = (st', None) -> responses_kept st st'.
Proof.
  intros H n d Hd Hr. unfold run_set_outcome in H. destruct (so_expr a) as [e|]; [|discriminate]. unfold lift in H.
  destruct (eval st e) as [v|]; [|discriminate]. destruct (IsOutcome st (so_id a)) as [[]|] eqn:Eo; try discriminate.
  destruct (set_item_ok _ _ _ _ H) as (old & new & Ho & _ & _ & _ & ->). unfold same_value. cbn [put s_map].
  apply assoc_sset_other. intros ->. unfold IsOutcome, GetDeclaration in Eo. rewrite Ho, Hd in Eo. cbn [bind] in Eo.
  unfold is_response in Hr. unfold is_outcome in Eo. destruct (d_kind d); discriminate.
Qed.
Lemma kept_refl st : responses_kept st st. Proof. intros n d _ _. reflexivity. Qed.
Lemma kept_trans st st1 st2 : s_item st1 = s_item st -> responses_kept st st1 -> responses_kept st1 st2 -> responses_kept st st2.
Proof. intros Hi H1 H2 n d Hd Hr. unfold same_value. rewrite (H2 n d), (H1 n d); auto. rewrite Hi. exact Hd. Qed.
Lemma declares_same i st st' : s_item st' = s_item st -> declares i st -> declares i st'.
Proof. intros E H n d Hd. rewrite E. apply H, Hd. Qed.
Lemma declares_grows i i' st : grows i i' -> declares i' st -> declares i st.
Proof. intros H H1 n d Hd. apply H1, H, Hd. Qed.
Lemma based_grows i i' : grows i i' -> based i' -> based i.
Proof. intros H H1 n d Hd. apply (H1 n d), H, Hd. Qed.

(** ** The actions *)
Lemma run_act a rs st : rr (Act a :: rs) st = match run_set_outcome a st with (st', None) => rr rs st' | (st', Some e) => (st', FErr e) end.
Proof. cbn [run_rules run_rule]. destruct (run_set_outcome a st) as [st' [e|]]; reflexivity. Qed.

Lemma sets_run i svs acts : map_result (MigrateSetVar i) svs = Ok acts -> based i ->
  forall rs st st' f, healthy i st -> rr (map Act acts ++ rs) st = (st', f) -> (forall e, f <> FErr e) ->
  exists st1, in_turn sets svs st st1 /\ healthy i st1 /\ responses_kept st st1 /\ s_item st1 = s_item st /\ rr rs st1 = (st', f).
Proof.
  intros Hm Hb. revert acts Hm. induction svs as [|s svs IH]; intros acts Hm rs st st' f Hh Hr Hf; cbn [map_result] in Hm.
  - injection Hm as <-. exists st. split; [constructor|]. split; [exact Hh|]. split; [apply kept_refl|]. auto.
  - destruct (MigrateSetVar i s) as [a|] eqn:Ea; cbn [bind] in Hm; [|discriminate].
    destruct (map_result (MigrateSetVar i) svs) as [acts'|] eqn:Es; cbn [bind] in Hm; [|discriminate]. injection Hm as <-.
    cbn [map app] in Hr. rewrite run_act in Hr. destruct (run_set_outcome a st) as [st1 [e|]] eqn:E1.
    { injection Hr as _ <-. exfalso. eapply Hf. reflexivity. }
    destruct Hh as (Hw & Ht & Hi). destruct (set_runs i st Hw Ht Hi Hb s a st1 Ea E1) as (Hs & Hw1 & Ht1 & Hi1).
    destruct (IH _ eq_refl rs st1 st' f) as (st2 & H1 & H2 & H3 & H4 & H5); try assumption.
    { split; [exact Hw1|]. split; [exact Ht1|]. eapply declares_same; eassumption. }
    exists st2. split; [econstructor; eassumption|]. split; [exact H2|]. split; [|split; [congruence|exact H5]].
    eapply kept_trans; [exact Hi1|eapply outcome_kept; exact E1|exact H3].
Qed.
Lemma shows_run l : x_ncname [] = false -> forall i i' fb st st' f, feedback_rules i l = Ok (i', fb) ->
  wf_state st -> well_typed st -> rr fb st = (st', f) -> (forall e, f <> FErr e) ->
  in_turn shows l st st' /\ wf_state st' /\ well_typed st' /\ responses_kept st st' /\ s_item st' = s_item st /\ f = FNext.
Proof.
  intros Hx. induction l as [|x l IH]; intros i i' fb st st' f Hm Hw Ht Hr Hf; cbn [feedback_rules] in Hm.
  - injection Hm as <- <-. injection Hr as <- <-. split; [constructor|]. auto using kept_refl.
  - destruct (MigrateDisplayFeedback i x) as [[i1 a]|] eqn:Ea; cbn [bind] in Hm; [|discriminate].
    destruct (feedback_rules i1 l) as [[i2 fb']|] eqn:Es; cbn [bind] in Hm; [|discriminate]. injection Hm as <- <-.
    rewrite run_act in Hr. destruct (run_set_outcome a st) as [st1 [e|]] eqn:E1.
    { injection Hr as _ <-. exfalso. eapply Hf. reflexivity. }
    destruct (feedback_runs i st Hw Ht x i1 a st1 Hx Ea E1) as (Hs & Hw1 & Ht1 & Hi1).
    destruct (IH _ _ _ _ _ _ Es Hw1 Ht1 Hr Hf) as (H1 & H2 & H3 & H4 & H5 & H6).
    split; [econstructor; eassumption|]. split; [exact H2|]. split; [exact H3|]. split; [|split; [congruence|exact H6]].
    eapply kept_trans; [exact Hi1|eapply outcome_kept; exact E1|exact H4].
Qed.
Lemma part_performs i r i1 e rs w st st' f : x_ncname [] = false -> MigratePart i r = Ok ((i1, (e, rs)), w) -> based i ->
  healthy i st -> rr rs st = (st', f) -> (forall e, f <> FErr e) ->
  performs r st st' /\ wf_state st' /\ well_typed st' /\ responses_kept st st' /\ s_item st' = s_item st /\ f = FNext.
Proof.
  intros Hx Hp Hb Hh Hr Hf. apply part_inv in Hp as (e0 & acts & fb & [= -> ->] & _ & Ha & Hfb).
  destruct (sets_run i _ _ Ha Hb _ _ _ _ Hh Hr Hf) as (st1 & H1 & (H2 & H2' & _) & H3 & H4 & H5).
  destruct (shows_run _ Hx _ _ _ _ _ _ Hfb H2 H2' H5 Hf) as (G1 & G2 & G3 & G4 & G5 & G6).
  split; [exists st1; auto|]. split; [exact G2|]. split; [exact G3|]. split; [|split; [congruence|exact G6]].
  eapply kept_trans; eassumption.
Qed.

(** ** The conditions *)
(** A test of a response that was answered *)
Definition answered_response (st : state) (id : str) (index : option Z) (text : str) : Prop :=
  answered st id index text /\ exists d, assoc (v2id id) (i_decls (s_item st)) = Some d /\ is_response (Some d) = true.

Lemma each_mono (P Q : str -> option Z -> str -> Prop) : (forall id n t, P id n t -> Q id n t) -> forall e, each_test P e -> each_test Q e.
Proof.
  intros H e. induction e as [c id n t|o id n t|a id n t| |e IH|es IH|es IH| |] using v1expr_ind2; cbn [each_test]; auto.
  - rewrite !all_fix. rewrite !Forall_forall. rewrite Forall_forall in IH. auto.
  - rewrite !all_fix. rewrite !Forall_forall. rewrite Forall_forall in IH. auto.
Qed.
Lemma under_mono (P Q : str -> option Z -> str -> Prop) : (forall id n t, P id n t -> Q id n t) -> forall e, under_not P e -> under_not Q e.
Proof.
  intros H e. induction e as [c id n t|o id n t|a id n t| |e IH|es IH|es IH| |] using v1expr_ind2; cbn [under_not]; auto.
  - apply each_mono, H.
  - rewrite !all_fix. rewrite !Forall_forall. rewrite Forall_forall in IH. auto.
  - rewrite !all_fix. rewrite !Forall_forall. rewrite Forall_forall in IH. auto.
Qed.
Lemma answered_kept st st' id n t : responses_kept st st' -> answered_response st id n t -> answered st' id n t.
Proof.
  intros Hk [[H1 H2] (d & Hd & Hr)]. split; [|exact H2]. intros E. apply H1. rewrite <- E. unfold selected, answers.
  rewrite (Hk _ _ Hd Hr). reflexivity.
Qed.

Lemma sequence_runs st0 : x_ncname [] = false ->
  forall i l i' ps w, migrated i l i' ps w -> forall st st' f fired, healthy i' st -> based i' ->
  Forall harmless w -> s_item st = s_item st0 -> responses_kept st0 st ->
  (forall r, In (RespCondition r) l -> Forall (under_not (answered_response st0)) (rc_condition r)) ->
  other_last l -> (fired = true -> forall r, In (RespCondition r) l -> existsb mentions_other (rc_condition r) = false) ->
  in_sequence ps st = (st', f) -> (forall e, f <> FErr e) ->
  v1_run fired l st st' /\ wf_state st' /\ well_typed st' /\ s_item st' = s_item st /\ f = FNext.
Proof.
  intros Hx. induction 1 as [i|i l i' ps w H IH|i r i1 [c rs] w1 l i' ps w Hp H IH]; intros st st' f fired Hh Hb Hw Hs0 Hk Hu Ho Hfi Hr Hf.
  - injection Hr as <- <-. destruct Hh as (? & ? & _). split; [constructor|auto].
  - destruct (IH st st' f fired) as (K & K'); eauto.
    + intros r Hr'. apply Hu. right. exact Hr'.
    + intros Hfr r Hr'. apply (Hfi Hfr). right. exact Hr'.
    + split; [constructor; exact K|exact K'].
  - pose proof (migrated_grows _ _ _ _ _ H) as G2.
    assert (G1 : grows i i1). { apply part_inv in Hp as (? & ? & ? & _ & _ & _ & Hfb). eapply feedback_grows, Hfb. }
    pose proof (grows_trans _ _ _ G1 G2) as G. apply Forall_app in Hw as [Hw1 Hw].
    assert (Hhi : healthy i st). { destruct Hh as (? & ? & Hd). split; [assumption|]. split; [assumption|]. eapply declares_grows; eassumption. }
    assert (Hbi : based i) by (eapply based_grows; eassumption).
    cbn [in_sequence] in Hr. destruct (condition st c) as [b|] eqn:Ec.
    2:{ injection Hr as _ <-. exfalso. eapply Hf. reflexivity. }
    pose proof Hp as Hp'. apply part_inv in Hp' as (e & acts & fb & [= -> _] & Hcv & _ & _).
    assert (Hc : b = true <-> all_hold (fired = false) st (rc_condition r)).
    { destruct Hhi as (K1 & K2 & K3). eapply (condition_means i st K1 (well_typed_typed _ K2) K3); try eassumption.
      - intros Hm. destruct fired; [|reflexivity]. rewrite (Hfi eq_refl r) in Hm by (left; reflexivity). discriminate.
      - specialize (Hu r (or_introl eq_refl)). rewrite Forall_forall in *. intros x Hxx. eapply under_mono; [|apply Hu, Hxx].
        intros id n t Ha. eapply answered_kept; [|exact Ha]. exact Hk. }
    destruct Ho as [Ho1 Ho2].
    assert (Hu' : forall r0, In (RespCondition r0) l -> Forall (under_not (answered_response st0)) (rc_condition r0)).
    { intros r0 Hr0. apply Hu. right. exact Hr0. }
    destruct b.
    + destruct (rr rs st) as [st1 f1] eqn:Er.
      assert (Hf1 : forall e0, f1 <> FErr e0). { intros e0 ->. injection Hr as _ <-. eapply Hf. reflexivity. }
      destruct (part_performs _ _ _ _ _ _ _ _ _ Hx Hp Hbi Hhi Er Hf1) as (Hpf & Hw' & Ht' & Hk' & Hi' & ->).
      destruct (rc_continue r) eqn:Ecn.
      * destruct (IH st1 st' f true) as (K & K1 & K2 & K3 & K4); eauto.
        -- destruct Hh as (_ & _ & Hd). split; [exact Hw'|]. split; [exact Ht'|]. eapply declares_same; eassumption.
        -- congruence.
        -- eapply kept_trans; eauto.
        -- split; [eapply run_continue; [apply Hc; reflexivity|exact Ecn|exact Hpf|exact K]|]. repeat split; auto; congruence.
      * injection Hr as <- <-. split; [eapply run_stop; [apply Hc; reflexivity|exact Ecn|exact Hpf]|]. auto.
    + destruct (IH st st' f fired) as (K & K1); eauto.
      * intros Hfr r0 Hr0. apply (Hfi Hfr). right. exact Hr0.
      * split; [|exact K1]. eapply run_skip; [|exact K]. intros K2. apply Hc in K2. discriminate.
Qed.

Lemma conditions_mean i l i' rules w st st' f : x_ncname [] = false ->
  MigrateConditions i l true (InRules 0) [] = Ok ((i', rules), w) -> Forall harmless w -> based i' -> healthy i' st ->
  (forall c, In (RespCondition c) l -> Forall (under_not (answered_response st)) (rc_condition c)) ->
  other_last l -> rr rules st = (st', f) -> (forall e, f <> FErr e) ->
  v1_run false l st st' /\ healthy i' st' /\ s_item st' = s_item st /\ f = FNext.
Proof.
  intros Hx E Hh Hb Hst Hu Ho Hr Hf.
  destruct (conditions_run _ _ true (InRules 0) [] _ _ _ ltac:(repeat split) E) as (ps & Hps & Hrun).
  rewrite Hrun in Hr. change (run_at (InRules 0) [] (in_sequence ps) st) with (in_sequence ps st) in Hr.
  destruct (sequence_runs st Hx _ _ _ _ _ Hps st st' f false) as (K1 & K2 & K3 & K4 & K5); auto using kept_refl.
  - discriminate.
  - split; [exact K1|]. split; [|auto]. split; [exact K2|]. split; [exact K3|]. eapply declares_same; [exact K4|apply Hst].
Qed.

(** The response processing as a whole, in an item without split responses *)
Lemma processing_means i r i' rules w st st' : x_ncname [] = false -> rp_fixups r = [] ->
  MigrateResProcessing i r = Ok ((i', rules), w) -> Forall harmless w -> based i' ->
  wf_state st -> well_typed st -> declares i' st ->
  (forall c, In (RespCondition c) (rp_conditions r) -> Forall (under_not (answered_response st)) (rc_condition c)) ->
  other_last (rp_conditions r) ->
  ResponseProcessing rules st = (st', None) -> v1_run false (rp_conditions r) st st'.
Proof.
  intros Hx Hfx Hm Hh Hb Hw Ht Hi Hu Ho Hr. unfold MigrateResProcessing in Hm. rewrite Hfx in Hm. cbn [map] in Hm.
  unfold lbind, say in Hm. destruct (MigrateDecVars i (rp_decvars r)) as [[i0 w0]|]; cbn [bind] in Hm; [|discriminate].
  destruct (MigrateConditions i0 (rp_conditions r) true (InRules 0) []) as [[[i1 rules1] w1]|] eqn:E; cbn [bind] in Hm; [|discriminate].
  injection Hm as <- <- <-. apply Forall_app in Hh as [_ Hh].
  destruct (conditions_run _ _ true (InRules 0) [] _ _ _ ltac:(repeat split) E) as (ps & Hps & Hrun).
  unfold ResponseProcessing, processing in Hr. rewrite Hrun in Hr. change (run_at (InRules 0) [] (in_sequence ps) st) with (in_sequence ps st) in Hr.
  destruct (in_sequence ps st) as [st1 f] eqn:Es.
  assert (st1 = st' /\ forall e, f <> FErr e) as [-> Hf].
  { destruct f; try discriminate; injection Hr as ->; split; try reflexivity; discriminate. }
  eapply (proj1 (A := v1_run _ _ _ _)), (sequence_runs st); eauto.
  - split; [exact Hw|]. split; [exact Ht|exact Hi].
  - apply kept_refl.
  - discriminate.
Qed.
End Run.
