(** Migrated response processing does not fail. *)
From Coq Require Import QArith Qcanon Lia.
From Verif Require Import Py Dec XmlUtils XmlChars Xsd Shapes QtiValue QtiExpr QtiSpec QtiProc QtiProcSpec
  QtiProofs QtiProofs2 QtiProofs3 QtiProofs4 QtiProcProofs QtiProcProofs2 V1Mig V1MigSpec V1MigProofs V1MigProofs2 V1MigProofs3 V1MigProofs4 V1MigProofs5 V1MigProofs6.
Open Scope Z_scope.
Open Scope list_scope.

Section Runs.
Context {X : Ext}.
Notation rr := (run_rules setOutcome run_set_outcome).

(** The states a run can reach from [st0]: only outcomes change *)
Definition later (st0 st : state) : Prop :=
  s_item st = s_item st0 /\ wf_state st /\ well_typed st /\ responses_kept st0 st.
(** Whatever the outcomes are, the tests can be made, the actions performed and the feedback shown *)
Definition performable (st0 : state) (r : respCondition) : Prop :=
  (forall st, later st0 st -> Forall (testable st) (rc_condition r) /\ Forall (settable st) (rc_setvars r)) /\
  (forall f, In f (rc_feedback r) -> exists s, f = Some s /\ x_ncname s = true) /\
  (rc_feedback r <> [] -> exists d, assoc FEEDBACK (i_decls (s_item st0)) = Some d /\ d_kind d = KOutcome /\
     d_card d = Some CMultiple /\ d_base d = Some BIdentifier).

Lemma later_set i s a st0 st st' : later st0 st -> declares i st -> based i -> MigrateSetVar i s = Ok a -> run_set_outcome a st = (st', None) ->
  later st0 st' /\ s_item st' = s_item st.
Proof.
  intros (H1 & H2 & H3 & H4) Hi Hb Hm Hr. destruct (set_runs i st H2 H3 Hi Hb s a st' Hm Hr) as (_ & Hw & Ht & Hit). split; [|exact Hit].
  split; [congruence|]. split; [exact Hw|]. split; [exact Ht|]. eapply kept_trans; [exact H1|exact H4|eapply outcome_kept, Hr].
Qed.
Lemma sets_total i svs acts st0 : map_result (MigrateSetVar i) svs = Ok acts -> based i -> (forall st, later st0 st -> Forall (settable st) svs) ->
  forall rs st, later st0 st -> declares i st -> exists st1, later st0 st1 /\ s_item st1 = s_item st /\ rr (map Act acts ++ rs) st = rr rs st1.
Proof.
  intros Hm Hb. revert acts Hm. induction svs as [|s svs IH]; intros acts Hm Hs rs st Hl Hi; cbn [map_result] in Hm.
  - injection Hm as <-. exists st. auto.
  - destruct (MigrateSetVar i s) as [a|] eqn:Ea; cbn [bind] in Hm; [|discriminate].
    destruct (map_result (MigrateSetVar i) svs) as [acts'|] eqn:Es; cbn [bind] in Hm; [|discriminate]. injection Hm as <-.
    pose proof (Hs st Hl) as Hst. inversion Hst as [|? ? Hs1 Hs2]; subst. pose proof Hl as (_ & Hw & Ht & _).
    destruct (set_total i st Hw Hi s a Ea Hs1) as (st1 & E1). destruct (later_set i s a st0 st st1 Hl Hi Hb Ea E1) as (Hl1 & Hi1).
    destruct (IH _ eq_refl ltac:(intros st2 H2; specialize (Hs st2 H2); inversion Hs; assumption) rs st1 Hl1 ltac:(eapply declares_same; eassumption)) as (st2 & K1 & K2 & K3).
    exists st2. split; [exact K1|]. split; [congruence|]. cbn [map app]. rewrite run_act, E1. exact K3.
Qed.
Lemma shows_total l st0 : x_ncname [] = false -> (forall f, In f l -> exists s, f = Some s /\ x_ncname s = true) ->
  (l <> [] -> exists d, assoc FEEDBACK (i_decls (s_item st0)) = Some d /\ d_kind d = KOutcome /\ d_card d = Some CMultiple /\ d_base d = Some BIdentifier) ->
  forall i i' fb st, feedback_rules i l = Ok (i', fb) -> later st0 st -> exists st', later st0 st' /\ rr fb st = (st', FNext).
Proof.
  intros Hx. induction l as [|x l IH]; intros Hf Hd i i' fb st Hm Hl; cbn [feedback_rules] in Hm.
  - injection Hm as <- <-. exists st. auto.
  - destruct (MigrateDisplayFeedback i x) as [[i1 a]|] eqn:Ea; cbn [bind] in Hm; [|discriminate].
    destruct (feedback_rules i1 l) as [[i2 fb']|] eqn:Es; cbn [bind] in Hm; [|discriminate]. injection Hm as <- <-.
    destruct (Hf x (or_introl eq_refl)) as (s & -> & Hs). destruct (Hd ltac:(discriminate)) as (d & D1 & D2 & D3 & D4). pose proof Hl as (L1 & L2 & L3 & L4).
    destruct (feedback_total i st L2 (well_typed_typed _ L3) s i1 a d Hs Ea) as (st1 & E1); try assumption; [rewrite L1; exact D1|].
    destruct (feedback_runs i st L2 L3 (Some s) i1 a st1 Hx Ea E1) as (_ & Hw1 & Ht1 & Hi1).
    assert (Hl1 : later st0 st1). { split; [congruence|]. split; [exact Hw1|]. split; [exact Ht1|]. eapply kept_trans; [exact L1|exact L4|eapply outcome_kept, E1]. }
    destruct (IH ltac:(intros f Hin; apply Hf; now right) ltac:(intros _; eauto 10) _ _ _ st1 Es Hl1) as (st2 & K1 & K2).
    exists st2. split; [exact K1|]. rewrite run_act, E1. exact K2.
Qed.
Lemma sequence_total st0 : x_ncname [] = false -> forall i l i' ps w, migrated i l i' ps w -> based i' -> Forall harmless w -> declares i' st0 ->
  (forall r, In (RespCondition r) l -> performable st0 r) -> forall st, later st0 st -> exists st', in_sequence ps st = (st', FNext) /\ later st0 st'.
Proof.
  intros Hx. induction 1 as [i|i l i' ps w H IH|i r i1 [c rs] w1 l i' ps w Hp H IH]; intros Hb Hw Hd Hr st Hl.
  - exists st. auto.
  - apply IH; auto. intros r Hin. apply Hr. now right.
  - pose proof (migrated_grows _ _ _ _ _ H) as G2.
    assert (G1 : grows i i1). { apply part_inv in Hp as (? & ? & ? & _ & _ & _ & Hfb). eapply feedback_grows, Hfb. }
    pose proof (grows_trans _ _ _ G1 G2) as G. apply Forall_app in Hw as [Hw1 Hw].
    assert (Hdi : declares i st). { eapply declares_same; [apply Hl|]. eapply declares_grows; eassumption. }
    apply part_inv in Hp as (e & acts & fb & [= -> ->] & Hc & Ha & Hfb).
    destruct (Hr r (or_introl eq_refl)) as (P1 & P2 & P3). pose proof Hl as (L1 & L2 & L3 & L4).
    destruct (condition_total i st L2 (well_typed_typed _ L3) Hdi _ _ _ Hc Hw1 (proj1 (P1 st Hl))) as (b & Eb).
    cbn [in_sequence]. rewrite Eb. destruct b; [|apply IH; auto; intros r0 Hin; apply Hr; now right].
    pose proof (based_grows _ _ G Hb) as Hbi.
    destruct (sets_total i _ _ st0 Ha Hbi (fun st1 H1 => proj2 (P1 st1 H1)) fb st Hl Hdi) as (st1 & K1 & _ & K3).
    destruct (shows_total _ st0 Hx P2 P3 _ _ _ st1 Hfb K1) as (st2 & M1 & M2). rewrite K3, M2. destruct (rc_continue r); [|eauto].
    apply IH; auto. intros r0 Hin. apply Hr. now right.
Qed.
Lemma conditions_run_total i l i' rules w st : x_ncname [] = false ->
  MigrateConditions i l true (InRules 0) [] = Ok ((i', rules), w) -> Forall harmless w -> based i' -> healthy i' st ->
  (forall r, In (RespCondition r) l -> performable st r) -> exists st', rr rules st = (st', FNext) /\ later st st'.
Proof.
  intros Hx E Hh Hb (H1 & H2 & H3) Hr.
  destruct (conditions_run _ _ true (InRules 0) [] _ _ _ ltac:(repeat split) E) as (ps & Hps & Hrun). rewrite Hrun.
  change (run_at (InRules 0) [] (in_sequence ps) st) with (in_sequence ps st).
  eapply sequence_total; eauto. split; [reflexivity|]. split; [exact H1|]. split; [exact H2|apply kept_refl].
Qed.
Lemma processing_total i r i' rules w st : x_ncname [] = false -> rp_fixups r = [] ->
  MigrateResProcessing i r = Ok ((i', rules), w) -> Forall harmless w -> based i' ->
  wf_state st -> well_typed st -> declares i' st -> (forall c, In (RespCondition c) (rp_conditions r) -> performable st c) ->
  exists st', ResponseProcessing rules st = (st', None).
Proof.
  intros Hx Hfx Hm Hh Hb Hw Ht Hi Hr. unfold MigrateResProcessing in Hm. rewrite Hfx in Hm. cbn [map] in Hm.
  unfold lbind, say in Hm. destruct (MigrateDecVars i (rp_decvars r)) as [[i0 w0]|]; cbn [bind] in Hm; [|discriminate].
  destruct (MigrateConditions i0 (rp_conditions r) true (InRules 0) []) as [[[i1 rules1] w1]|] eqn:E; cbn [bind] in Hm; [|discriminate].
  injection Hm as <- <- <-. apply Forall_app in Hh as [_ Hh].
  destruct (conditions_run_total _ _ _ _ _ st Hx E Hh Hb ltac:(split; [|split]; assumption) Hr) as (st' & K & _).
  exists st'. unfold ResponseProcessing, processing. rewrite K. reflexivity.
Qed.
End Runs.
