(** The response processing of a converted item agrees with the migration of [V1Mig] on the
    renamed program, and so has its meaning. *)
From Coq Require Import Lia QArith Qcanon.
From Verif Require Import Py Iso Dec XmlUtils XmlChars Xsd Shapes QtiValue QtiExpr QtiSpec QtiProc QtiProcSpec
  V1Mig V1MigSpec V1MigProofs V1MigProofs2 V1MigProofs4 V1MigProofs5 V1MigProofs6 V1MigProofs8 MigWrite MigItem MigItemSpec MigItemProofs MigItemProofs2 MigItemProofs3 MigItemProofs4.
Open Scope Z_scope.
Open Scope list_scope.

(** ** Reading lists *)
Lemma all_some_app {A B} (f : A -> option B) l m : all_some f (l ++ m) =
  match all_some f l, all_some f m with Some a, Some b => Some (a ++ b) | _, _ => None end.
Proof.
  induction l as [|x l IH]; cbn [app all_some]; [fold (all_some f); destruct (all_some f m); reflexivity|]. fold (all_some f). rewrite IH.
  destruct (f x), (all_some f l), (all_some f m); reflexivity.
Qed.
Lemma all_some_rev {A B} (f : A -> option B) l m : all_some f l = Some m -> all_some f (rev l) = Some (rev m).
Proof.
  revert m. induction l as [|x l IH]; intros m H; cbn [all_some] in H; [injection H as <-; reflexivity|]. fold (all_some f) in H.
  destruct (f x) as [y|] eqn:E; [|discriminate]. destruct (all_some f l) as [ys|]; [|discriminate]. injection H as <-.
  cbn [rev]. rewrite all_some_app, (IH _ eq_refl). cbn [all_some]. rewrite E. reflexivity.
Qed.
Definition reads_part (p : option MigWrite.expr * list MigWrite.rule) : option (option QtiExpr.expr * list responseRule) :=
  match reads_test (fst p), all_some reads_rule (snd p) with Some e, Some l => Some (e, l) | _, _ => None end.
Lemma reads_condition i elifs els : reads_rule (ResponseCondition i elifs els) =
  match reads_part i, all_some reads_part elifs, match els with None => Some [] | Some l => reads_rules l end with
  | Some p, Some ps, Some l => Some (Cond (p :: ps) l)
  | _, _, _ => None
  end.
Proof. reflexivity. Qed.

(** ** Placing *)
Definition container_of (pt : MigItem.point) : container :=
  match pt with MigItem.InRules d => V1Mig.InRules d | MigItem.InCond d => V1Mig.InCond d end.
Definition tracks (f : list MigWrite.rule -> result (list MigWrite.rule)) (g : list responseRule -> result (list responseRule)) : Prop :=
  forall rs ls rs', reads_rules rs = Some ls -> f rs = Ok rs' -> exists ls', g ls = Ok ls' /\ reads_rules rs' = Some ls'.
Lemma reads_last rs ls : reads_rules rs = Some ls -> forall i elifs els before, rev rs = ResponseCondition i elifs els :: before ->
  exists p ps l b, reads_part i = Some p /\ all_some reads_part elifs = Some ps /\ match els with None => Some [] | Some l => reads_rules l end = Some l /\
    reads_rules (rev before) = Some (rev b) /\ rev ls = Cond (p :: ps) l :: b.
Proof.
  intros H i elifs els before E. apply all_some_rev in H. rewrite E in H. cbn [all_some] in H. fold (all_some reads_rule) in H.
  rewrite reads_condition in H. destruct (reads_part i) as [p|]; [|discriminate]. destruct (all_some reads_part elifs) as [ps|]; [|discriminate].
  destruct (match els with None => Some [] | Some l => reads_rules l end) as [l|]; [|discriminate].
  destruct (all_some reads_rule before) as [b|] eqn:Eb; [|discriminate]. injection H as H. apply all_some_rev in Eb.
  exists p, ps, l, b. auto.
Qed.
Lemma at_depth_tracks d f g : tracks f g -> tracks (at_depth d f) (at_rules d g).
Proof.
  intros Hfg. induction d as [|d IH]; [exact Hfg|]. intros rs ls rs' Hr H. cbn [at_depth at_rules] in *.
  destruct (rev rs) as [|[| i elifs els] before] eqn:E; try discriminate.
  destruct (reads_last _ _ Hr _ _ _ _ E) as (p & ps & l & b & H1 & H2 & H3 & H4 & ->).
  destruct (at_depth d f _) as [l'|] eqn:E1; cbn [bind] in H; [|discriminate]. injection H as <-.
  assert (H5 : reads_rules match els with Some l => l | None => [] end = Some l) by (destruct els; [exact H3|injection H3 as <-; reflexivity]).
  destruct (IH _ _ _ H5 E1) as (ls' & H6 & H7). rewrite H6. cbn [bind]. eexists. split; [reflexivity|].
  unfold reads_rules. rewrite all_some_app. unfold reads_rules in H4. rewrite H4. cbn [all_some]. rewrite reads_condition, H1, H2, H7. reflexivity.
Qed.
Lemma add_tracks p q : reads_part p = Some q -> tracks (add_condition p) (add_if q).
Proof.
  intros Hp rs ls rs' Hr [= <-]. eexists. split; [reflexivity|]. unfold reads_rules in *. rewrite all_some_app, Hr. cbn [all_some]. rewrite reads_condition, Hp. reflexivity.
Qed.
Lemma else_tracks p q : reads_part p = Some q -> tracks (MigItem.add_else_if p) (V1Mig.add_else_if q).
Proof.
  intros Hp rs ls rs' Hr H. unfold MigItem.add_else_if, V1Mig.add_else_if in *.
  destruct (rev rs) as [|[| i elifs els] before] eqn:E; try discriminate. injection H as <-.
  destruct (reads_last _ _ Hr _ _ _ _ E) as (p0 & ps & l & b & H1 & H2 & H3 & H4 & ->). eexists. split; [reflexivity|].
  unfold reads_rules in H4. unfold reads_rules at 1. rewrite all_some_app, H4. cbn [all_some]. rewrite reads_condition, H1, all_some_app, H2. cbn [all_some]. rewrite Hp, H3. reflexivity.
Qed.
Lemma place_agrees p q c m pt rs ls rs' pt' : reads_part p = Some q -> reads_rules rs = Some ls ->
  AddRespCondition p c m pt rs = Ok (rs', pt') ->
  exists ls', place c m (container_of pt) q ls = Ok (ls', container_of pt') /\ reads_rules rs' = Some ls'.
Proof.
  intros Hp Hr H. unfold AddRespCondition in H. unfold place.
  assert (T : forall d f g, tracks f g -> forall pt1, ('(rs0) <- at_depth d f rs ;; Ok (rs0, pt1)) = Ok (rs', pt') ->
             exists ls', ('(rp') <- at_rules d g ls ;; Ok (rp', container_of pt1)) = Ok (ls', container_of pt') /\ reads_rules rs' = Some ls').
  { intros d f g Hfg pt1 H1. destruct (at_depth d f rs) as [rs0|] eqn:E; cbn [bind] in H1; [|discriminate]. injection H1 as <- <-.
    destruct (at_depth_tracks d f g Hfg _ _ _ Hr E) as (ls' & K1 & K2). exists ls'. rewrite K1. auto. }
  destruct c.
  - destruct m; cbn [bind] in *.
    + destruct pt as [d|d]; [|discriminate]. cbn [container_of]. apply (T d _ _ (add_tracks _ _ Hp) (MigItem.InRules d) H).
    + destruct pt as [d|d]; cbn [bind container_of] in *; [discriminate|]. apply (T (S d) _ _ (add_tracks _ _ Hp) (MigItem.InRules (S d)) H).
  - destruct m.
    + destruct pt as [d|d]; [|discriminate]. cbn [container_of]. apply (T d _ _ (add_tracks _ _ Hp) (MigItem.InCond d) H).
    + destruct pt as [d|d]; [discriminate|]. cbn [container_of]. apply (T d _ _ (else_tracks _ _ Hp) (MigItem.InCond d) H).
Qed.

(** ** The parts *)
Definition known_decvar (e : decvar_element) : Prop := base_of (de_baseType e) <> None.
Section Program.
Variables (uc : bool) (rs : list response) (ps : list resprocessing) (p : resprocessing) (s1 s : MigItem.state).
Hypothesis C : converted uc rs ps p s1 s.
Hypothesis Htyped : Forall typed_response rs.
Hypothesis Hdec : Forall known_decvar (rp_decvars p).
Hypothesis Hfb : forall q, In q ps -> no_feedback q.
Let i := reads_item s.
Let R := name_in (responses s).
Let O := name_in (outcomes s).
Let P := p_phase _ _ _ _ (v_phase _ _ _ _ _ _ C).
Let I := o_inv _ _ _ _ _ P.

Lemma responses_in r : In r rs -> response_in s r.
Proof.
  intros Hin. destruct (v_responses _ _ _ _ _ _ C r Hin) as [H1 H2]. split; [eapply response_now; [exact C|exact H1]|].
  intros j Hj. eapply response_now; [exact C|apply H2, Hj].
Qed.
Lemma keys_now : map fst (responses s) = flat_map response_ids rs.
Proof. rewrite (o_responses _ _ _ _ _ P). apply C. Qed.
Lemma outcome_known id d : In id (outcome_ids uc p) -> outcome_has s id d ->
  O id = decl_identifier d /\ v2id (O id) = O id /\ In (O id, d) (declared s) /\ decl_cardinality d = lit "single" /\ exists b, base_of (decl_baseType d) = Some b.
Proof.
  intros Hid (n & v & H1 & H2 & H3 & H4). assert (HO : O id = n) by (unfold O, name_in; rewrite H1; reflexivity). rewrite HO. split; [auto|].
  assert (Hgood : ident id).
  { apply in_app_iff in Hid as [Hid|Hid].
    - apply in_map_iff in Hid as (e & <- & _). apply decvar_id_ident.
    - unfold setvar_ids in Hid. apply in_flat_map in Hid as (c & _ & Hc). apply in_map_iff in Hc as (x & <- & _). apply outcome_named_ident. }
  split; [apply ident_v2id; eapply renamed_ident; [exact Hgood|]; apply (i_origin s I); right; apply dget_in, H1|].
  destruct (i_outcome s I _ _ (dget_in _ _ _ H1)) as (d' & v' & K1 & K2 & K3 & K4). rewrite H2 in K1. injection K1 as <- <-. split; [exact K4|].
  assert (T : exists t df v0, outcome_is s id t df v0 /\ base_of t <> None).
  { destruct (in_dec str_eq_dec id (map (decvar_id uc) (rp_decvars p))) as [Hd|Hd].
    - apply in_map_iff in Hd as (e & <- & He). pose proof (o_decvars _ _ _ _ _ P) as HD. rewrite Forall_forall in HD, Hdec.
      eexists _, _, _. split; [apply (HD e He)|apply (Hdec e He)].
    - exists (lit "float"), None, None. split; [|discriminate]. apply (o_implicit _ _ _ _ _ P); [|exact Hd]. apply in_app_iff in Hid as [Hid|Hid]; [contradiction|exact Hid]. }
  destruct T as (t & df & v0 & (n' & T1 & T2) & Tb). rewrite H1 in T1. injection T1 as <-. rewrite H2 in T2. injection T2 as -> _.
  split; [reflexivity|]. cbn [decl_baseType]. destruct (base_of t) as [b|]; [eauto|congruence].
Qed.
Lemma set_agrees v r : In (outcome_named uc (MigItem.sv_varname v)) (outcome_ids uc p) -> Shapes.strip (MigItem.sv_text v) = MigItem.sv_text v ->
  set_rule_in uc s v r -> exists a, MigrateSetVar i (v1_setvar uc O v) = Ok a /\ reads_rule r = Some (Act a).
Proof.
  intros Hid Hst (d & Hd & ->). destruct (outcome_known _ _ Hid Hd) as (H1 & H2 & H3 & H4 & b & H5).
  unfold MigrateSetVar. cbn [v1_setvar V1Mig.sv_name V1Mig.sv_text V1Mig.sv_action]. rewrite H2.
  unfold i. rewrite (find_reads s _ _ I H3). assert (Hc : d_card (reads_declaration d) = Some CSingle).
  { destruct d; cbn [reads_declaration d_card]; cbn [decl_cardinality] in H4; rewrite H4; reflexivity. }
  assert (Hb : d_base (reads_declaration d) = Some b) by (destruct d; exact H5). rewrite Hc, Hb, Hst, H1. eexists. split; [reflexivity|].
  unfold rule_of. destruct (MigItem.sv_action v); cbn [reads_rule reads v1_action option_map all_some]; rewrite H5; reflexivity.
Qed.
Lemma sets_agree l srs : (forall v, In v l -> In (outcome_named uc (MigItem.sv_varname v)) (outcome_ids uc p) /\ Shapes.strip (MigItem.sv_text v) = MigItem.sv_text v) ->
  Forall2 (set_rule_in uc s) l srs -> exists acts, map_result (MigrateSetVar i) (map (v1_setvar uc O) l) = Ok acts /\ all_some reads_rule srs = Some (map Act acts).
Proof.
  intros Hl H. induction H as [|v r l srs Hv _ IH]; [exists []; split; reflexivity|].
  destruct (set_agrees v r (proj1 (Hl v (or_introl eq_refl))) (proj2 (Hl v (or_introl eq_refl))) Hv) as (a & H1 & H2).
  destruct IH as (acts & H3 & H4); [intros x Hx; apply Hl; now right|]. exists (a :: acts). cbn [map map_result]. rewrite H1. cbn [bind]. rewrite H3. split; [reflexivity|].
  cbn [all_some]. rewrite H2. fold (all_some reads_rule). rewrite H4. reflexivity.
Qed.
Lemma shows_agree l : (l <> [] -> In (MigItem.FEEDBACK, feedback_declaration) (declared s)) ->
  exists fb, feedback_rules i (map (fun f => Some (feedback_id f)) l) = Ok (i, fb) /\ all_some reads_rule (map show_rule l) = Some fb.
Proof.
  intros H. destruct l as [|f l]; [exists []; split; reflexivity|]. specialize (H ltac:(discriminate)). apply (find_reads s) in H; [|exact I].
  assert (G : forall l, exists fb, feedback_rules i (map (fun f => Some (feedback_id f)) l) = Ok (i, fb) /\ all_some reads_rule (map show_rule l) = Some fb).
  { induction l0 as [|g l0 (fb & H1 & H2)]; [exists []; split; reflexivity|]. cbn [map feedback_rules]. unfold MigrateDisplayFeedback.
    change V1Mig.FEEDBACK with MigItem.FEEDBACK. fold i in H. rewrite H. cbn [bind]. rewrite H1. cbn [bind]. eexists. split; [reflexivity|].
    cbn [all_some]. fold (all_some reads_rule). rewrite H2. reflexivity. }
  apply G.
Qed.
Lemma part_agrees c q : In c (rp_conditions p) -> faithful_condition rs c -> part_in uc s1 s c q -> exists r,
  v1_condition uc rs R O c = RespCondition r /\ V1Mig.rc_continue r = MigItem.rc_continue c /\
  exists w q', MigratePart i r = Ok ((i, q'), w) /\ reads_part q = Some q' /\ Forall harmless w.
Proof.
  intros Hin (Ht & Hf & Hs) (e & sets & H1 & H2 & ->). eexists. split; [reflexivity|]. split; [reflexivity|].
  unfold MigratePart. cbn [V1Mig.rc_condition V1Mig.rc_setvars V1Mig.rc_feedback].
  rewrite <- (condition_ext Vv s s1) in H1.
  2:{ apply get_same_responses; [apply C|apply P|apply P]. }
  destruct (condition_agrees rs s R I (fun _ => eq_refl) keys_now responses_in Htyped _ _ Ht Hf H1) as (y & w & K1 & K2 & K3). fold i in K1. rewrite K1. cbn [bind].
  assert (Hv : forall v, In v (MigItem.rc_setvars c) -> In (outcome_named uc (MigItem.sv_varname v)) (outcome_ids uc p) /\ Shapes.strip (MigItem.sv_text v) = MigItem.sv_text v).
  { intros v Hv. split; [|apply Hs, Hv]. apply in_app_iff. right. apply in_flat_map. exists c. split; [exact Hin|]. apply in_map_iff. exists v. auto. }
  destruct (sets_agree _ _ Hv H2) as (acts & G1 & G2). rewrite G1. cbn [bind].
  assert (Hfl : MigItem.rc_feedback c <> [] -> In (MigItem.FEEDBACK, feedback_declaration) (declared s)).
  { intros Hn. apply (p_flag _ _ _ _ (v_phase _ _ _ _ _ _ C)); [apply (v_fresh _ _ _ _ _ _ C Hfb)|]. apply (p_some _ _ _ _ (v_phase _ _ _ _ _ _ C)). eauto. }
  destruct (shows_agree _ Hfl) as (fb & F1 & F2). rewrite F1. cbn [bind]. eexists _, _. split; [reflexivity|]. split; [|exact K3].
  unfold reads_part. cbn [fst snd reads_test]. rewrite K2. cbn [option_map]. rewrite all_some_app, G2, F2. reflexivity.
Qed.
Lemma conditions_agree : forall l qs m pt rules0 rules' ls, (forall c, In c l -> In c (rp_conditions p) /\ faithful_condition rs c) ->
  Forall2 (part_in uc s1 s) l qs -> placed (combine (map MigItem.rc_continue l) qs) m pt rules0 = Ok rules' -> reads_rules rules0 = Some ls ->
  exists ls' w, MigrateConditions i (map (v1_condition uc rs R O) l) m (container_of pt) ls = Ok ((i, ls'), w) /\
    reads_rules rules' = Some ls' /\ Forall harmless w.
Proof.
  intros l qs m pt rules0 rules' ls Hl H. revert m pt rules0 rules' ls. induction H as [|c q l qs Hc _ IH]; intros m pt rules0 rules' ls Hp Hr.
  { cbn in Hp. injection Hp as <-. exists ls, []. split; [reflexivity|]. split; [exact Hr|constructor]. }
  cbn [map combine placed] in Hp. destruct (AddRespCondition q _ m pt rules0) as [[rules1 pt1]|] eqn:E; cbn [bind] in Hp; [|discriminate].
  destruct (Hl c (or_introl eq_refl)) as [Hin Hfc].
  destruct (part_agrees c q Hin Hfc Hc) as (r & H1 & H2 & w & q' & H3 & H4 & H5).
  destruct (place_agrees _ _ _ _ _ _ _ _ _ H4 Hr E) as (ls1 & H6 & H7).
  destruct (IH ltac:(intros x Hx; apply Hl; now right) _ _ _ _ _ Hp H7) as (ls' & w' & H8 & H9 & H10).
  cbn [map]. rewrite H1. cbn [MigrateConditions]. rewrite H3. unfold lbind. cbn [bind]. rewrite H2, H6. cbn [bind]. rewrite H8. cbn [say bind].
  eexists _, _. split; [reflexivity|]. split; [exact H9|]. apply Forall_app. auto.
Qed.

Lemma assoc_in {A} k (v : A) m : assoc k m = Some v -> In (k, v) m.
Proof.
  induction m as [|[k' v'] m IH]; cbn [assoc In]; [discriminate|]. destruct (str_eqb k k') eqn:E; [|auto].
  apply str_eqb_eq in E as ->. intros [= ->]. auto.
Qed.
(** All declarations have a base type *)
Lemma find_declared n d : find_decl i n = Some d -> exists d0, In (n, d0) (declared s) /\ d = reads_declaration d0.
Proof.
  intros H. apply assoc_in in H. unfold i, reads_item, QtiExpr.i_decls in H. cbn [QtiExpr.i_responses QtiExpr.i_outcomes QtiExpr.i_templates] in H.
  rewrite ?app_nil_r, map_app, <- !map_app in H.
  assert (G : exists d0, In d0 (map snd (declared s)) /\ n = decl_identifier d0 /\ d = reads_declaration d0).
  { apply in_map_iff in H as (d1 & [= <- <-] & H). apply in_map_iff in H as (d0 & <- & H). exists d0. rewrite reads_id.
    apply in_app_iff in H as [H|H]; apply filter_In in H as [H _]; auto. }
  destruct G as (d0 & Hin & -> & ->). apply in_map_iff in Hin as ([k d1] & <- & Hin). exists d1. cbn [snd]. 
  destruct (i_declared s I _ _ Hin) as [-> _]. auto.
Qed.
Lemma declared_base n d : In (n, d) (declared s) -> base_of (decl_baseType d) <> None.
Proof.
  intros Hin. destruct (i_declared s I _ _ Hin) as [Hid [(-> & _ & ->)|Hv]]; [discriminate|].
  assert (Hn : In n (names s)).
  { apply (i_keys s I), in_map_iff. destruct Hv as [Hv|(_ & v & Hv)]; apply dget_in in Hv; eexists (_, _); (split; [|exact Hv]); reflexivity. }
  unfold names in Hn. cbn [In] in Hn. rewrite in_app_iff in Hn. destruct Hn as [<-|[Hn|Hn]].
  - pose proof (i_feedback s I) as Hf. destruct Hv as [Hv|(_ & v & Hv)]; congruence.
  - apply in_map_iff in Hn as ([id m] & Hm & Hn). cbn [snd] in Hm. subst m.
    assert (Hk : In id (flat_map response_ids rs)) by (rewrite <- keys_now; apply in_map_iff; exists (id, n); auto).
    apply in_flat_map in Hk as (r & Hr & Hk). destruct (responses_in r Hr) as [H1 H2]. rewrite Forall_forall in Htyped. destruct (Htyped r Hr) as [_ Hb].
    assert (G : forall mk, response_is s id mk -> (forall m, decl_baseType (mk m) = r_baseType r) -> base_of (decl_baseType d) <> None).
    { intros mk (m & G1 & G2) Hmk. apply (in_dget _ _ _ (i_resp s I)) in Hn. rewrite Hn in G1. injection G1 as <-.
      destruct Hv as [Hv|(_ & v & Hv)]; rewrite Hv in G2; [injection G2 as ->|discriminate]. rewrite Hmk. exact Hb. }
    apply in_app_iff in Hk as [Hk|[<-|[]]].
    + apply in_map_iff in Hk as (j & <- & Hj). apply in_seq in Hj. eapply G; [apply H2; lia|reflexivity].
    + eapply G; [exact H1|]. intros m. destruct (r_split r); reflexivity.
  - apply in_map_iff in Hn as ([id m] & Hm & Hn). cbn [snd] in Hm. subst m.
    assert (Hk : In id (outcome_ids uc p)) by (apply (o_keys _ _ _ _ _ P), in_map_iff; exists (id, n); auto).
    destruct (i_outcome s I _ _ Hn) as (d' & v' & K1 & K2 & K3 & K4).
    assert (d' = d) as -> by (destruct Hv as [Hv|(_ & v & Hv)]; congruence).
    destruct (outcome_known id d Hk) as (_ & _ & _ & _ & b & Hb); [|congruence].
    exists n, v'. split; [apply in_dget; [apply I|exact Hn]|]. auto.
Qed.
Lemma all_based : based i.
Proof.
  intros n d Hd _. destruct (find_declared n d Hd) as (d0 & Hin & ->). apply declared_base in Hin. destruct d0; exact Hin.
Qed.

Context {X : Ext}.
Notation rr := (run_rules setOutcome run_set_outcome).
Lemma program_means : Forall (faithful_condition rs) (rp_conditions p) -> x_ncname [] = false ->
  exists body l, rules s = Some body /\ reads_rules body = Some l /\
  (forall st st' f, healthy i st ->
    (forall c, In (RespCondition c) (v1_program uc rs R O p) -> Forall (under_not (answered_response st)) (V1Mig.rc_condition c)) ->
    other_last (v1_program uc rs R O p) -> rr l st = (st', f) -> (forall e, f <> FErr e) ->
    v1_run false (v1_program uc rs R O p) st st' /\ healthy i st' /\ s_item st' = s_item st /\ f = FNext) /\
  (forall st, healthy i st -> (forall c, In (RespCondition c) (v1_program uc rs R O p) -> performable st c) ->
    exists st', rr l st = (st', FNext) /\ healthy i st').
Proof.
  intros Hf Hx. destruct (p_parts _ _ _ _ (v_phase _ _ _ _ _ _ C)) as (qs & body & H1 & H2 & H3).
  destruct (conditions_agree _ _ _ _ _ _ [] ltac:(intros c Hc; split; [exact Hc|rewrite Forall_forall in Hf; apply Hf, Hc]) H1 H2 eq_refl) as (l & w & H4 & H5 & H6).
  exists body, l. split; [exact H3|]. split; [exact H5|]. change (container_of (MigItem.InRules 0)) with (V1Mig.InRules 0) in H4. split.
  - intros st st' f Hh Hu Ho Hr He. apply (conditions_mean i (v1_program uc rs R O p) i l w st st' f); auto. apply all_based.
  - intros st Hh Hp. destruct (conditions_run_total i (v1_program uc rs R O p) i l w st Hx H4 H6 all_based Hh Hp) as (st' & K1 & K2 & K3 & K4 & _).
    exists st'. split; [exact K1|]. split; [exact K3|]. split; [exact K4|]. eapply declares_same; [exact K2|apply Hh].
Qed.
End Program.
