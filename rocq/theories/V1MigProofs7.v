(** Proofs about the declarations of migrated variables and responses. *)
From Coq Require Import QArith Qcanon Lia.
From Verif Require Import Py Iso Dec XmlUtils XmlChars Xsd Shapes QtiValue QtiExpr QtiSpec QtiProc QtiProcSpec
  QtiProofs QtiProofs2 QtiProofs3 QtiProofs4 QtiProcProofs QtiProcProofs2 QtiProcProofs3
  V1Mig V1MigSpec V1MigProofs V1MigProofs2 V1MigProofs3 V1MigProofs4 V1MigProofs5 V1MigProofs6.
Open Scope Z_scope.
Open Scope list_scope.

Section Decls.
Context {X : Ext}.

(** ** Numbered names *)
Lemma dval_pad w s : dval (Iso.pad w s) = dval s.
Proof.
  unfold Iso.pad. rewrite dval_app. replace (dval (repeat 48 (w - length s))) with 0; [lia|].
  induction (w - length s)%nat as [|k IH]; [reflexivity|]. cbn [repeat]. change (48 :: repeat 48 k) with ([48] ++ repeat 48 k).
  rewrite dval_app, <- IH. reflexivity.
Qed.
Lemma numbered_inj b n m : numbered b n = numbered b m -> n = m.
Proof.
  unfold numbered. intros H. apply app_inv_head in H. apply app_inv_head in H. apply (f_equal dval) in H.
  rewrite !dval_pad, !dval_fmt in H by lia. lia.
Qed.
Lemma numbered_neq b n : numbered b n <> b.
Proof.
  unfold numbered. intros H. apply (f_equal (@length Z)) in H. rewrite !app_length in H. change (length (lit "_")) with 1%nat in H. lia.
Qed.
Lemma free_names_ok fuel i b k : forall n, (forall m, (n < m <= n + k)%nat -> find_decl i (numbered b m) = None) ->
  free_names (S fuel) i b n k = Ok (map (numbered b) (seq (S n) k)).
Proof.
  induction k as [|k IH]; intros n H; [reflexivity|]. cbn [free_names free_name seq map]. rewrite H by lia. cbn [bind].
  change (free_names (S fuel) i b (S n) k) with (free_names (S fuel) i b (S n) k). rewrite IH by (intros m Hm; apply H; lia). reflexivity.
Qed.
Lemma names_nodup b n k : NoDup (map (numbered b) (seq n k)).
Proof. apply FinFun.Injective_map_NoDup; [intros x y; apply numbered_inj|apply seq_NoDup]. Qed.

(** ** Declarations *)
Lemma add_response_find i d n : find_decl i (d_id d) = None ->
  find_decl (add_response i d) n = if str_eqb n (d_id d) then Some d else find_decl i n.
Proof.
  unfold find_decl, i_decls, add_response. cbn [i_responses i_outcomes i_templates]. rewrite !map_app, !assoc_app. cbn [map assoc].
  intros H. destruct (assoc (d_id d) (map _ (i_responses i))) eqn:E1; [discriminate|].
  destruct (str_eqb n (d_id d)) eqn:E.
  - apply str_eqb_eq in E as ->. rewrite E1. reflexivity.
  - destruct (assoc n (map _ (i_responses i))); reflexivity.
Qed.
Lemma declare_responses_ok c bt l : forall i, NoDup (map fst l) -> (forall n, In n (map fst l) -> find_decl i n = None) ->
  exists i', declare_responses i c bt l = Ok i' /\
    (forall n dv, In (n, dv) l -> find_decl i' n = Some (mkDecl n (Some c) (Some bt) dv (KResponse None None None))) /\
    (forall n, ~ In n (map fst l) -> find_decl i' n = find_decl i n).
Proof.
  induction l as [|[r dv] l IH]; intros i Hn Hf; cbn [declare_responses].
  - exists i. split; [reflexivity|]. split; [intros n dv []|reflexivity].
  - cbn [map fst] in *. inversion Hn as [|? ? Hni Hn']; subst. unfold declare_response at 1. cbn [d_id].
    rewrite (Hf r (or_introl eq_refl)). cbn [bind]. set (d := mkDecl r (Some c) (Some bt) dv (KResponse None None None)).
    assert (Ha : forall n, find_decl (add_response i d) n = if str_eqb n r then Some d else find_decl i n).
    { intros n. apply (add_response_find i d n). apply (Hf r (or_introl eq_refl)). }
    destruct (IH (add_response i d) Hn') as (i' & E & H1 & H2).
    { intros n Hin. rewrite Ha. destruct (str_eqb n r) eqn:En; [apply str_eqb_eq in En as ->; contradiction|]. apply Hf. right. exact Hin. }
    exists i'. split; [exact E|]. split.
    + intros n dv' [[= <- <-]|Hin]; [|apply H1, Hin]. rewrite (H2 r Hni), Ha, str_eqb_refl. reflexivity.
    + intros n Hnin. rewrite H2 by (intros K; apply Hnin; right; exact K). rewrite Ha. destruct (str_eqb n r) eqn:En; [|reflexivity].
      apply str_eqb_eq in En as ->. exfalso. apply Hnin. left. reflexivity.
Qed.

Lemma map_fst_combine {A B} (l : list A) : forall d : list B, length l = length d -> map fst (combine l d) = l.
Proof. induction l as [|x l IH]; intros [|y d] H; try discriminate; [reflexivity|]. cbn. f_equal. apply IH. injection H as H. exact H. Qed.
Lemma split_response fuel i ident bt (defaults : list (option (list valueElement))) c : (c = Multiple \/ c = Ordered) ->
  (2 <= length defaults)%nat ->
  (forall n, (1 <= n <= length defaults)%nat -> find_decl i (numbered (v2id ident) n) = None) -> find_decl i (v2id ident) = None ->
  exists i' names, MigrateResponse (S fuel) i ident c bt defaults = Ok (i', Some (v2id ident, names)) /\
    length names = length defaults /\ NoDup names /\
    (forall n dv, In (n, dv) (combine names defaults) ->
       find_decl i' n = Some (mkDecl n (Some (MigrateV2Cardinality c)) (Some bt) dv (KResponse None None None))) /\
    find_decl i' (v2id ident) = Some (mkDecl (v2id ident) (Some (MigrateV2Cardinality c)) (Some bt) None KOutcome) /\
    (forall n, ~ In n (v2id ident :: names) -> find_decl i' n = find_decl i n).
Proof.
  intros Hc Hl Hn Hf. set (b := v2id ident) in *. set (k := length defaults) in *. set (names := map (numbered b) (seq 1 k)).
  assert (En : response_names (S fuel) i ident c k = Ok names).
  { unfold response_names. destruct k as [|[|k']]; try lia. destruct Hc as [->| ->]; apply free_names_ok; intros m Hm; apply Hn; lia. }
  assert (Hln : length names = k) by (unfold names; rewrite map_length, seq_length; reflexivity).
  assert (Hfst : map fst (combine names defaults) = names).
  { apply map_fst_combine. exact Hln. }
  assert (Hnames : forall n, In n names -> find_decl i n = None /\ n <> b).
  { intros n Hin. apply in_map_iff in Hin as (m & <- & Hm). apply in_seq in Hm. split; [apply Hn; lia|apply numbered_neq]. }
  destruct (declare_responses_ok (MigrateV2Cardinality c) bt (combine names defaults) i) as (i1 & E1 & H1 & H2).
  { rewrite Hfst. apply names_nodup. }
  { rewrite Hfst. intros n Hin. apply Hnames, Hin. }
  rewrite Hfst in H2. assert (Hb1 : find_decl i1 b = None). { rewrite H2; [exact Hf|]. intros Hin. apply Hnames in Hin as [_ Hin]. congruence. }
  set (d := mkDecl b (Some (MigrateV2Cardinality c)) (Some bt) None KOutcome).
  exists (add_outcome i1 d), names. split.
  { unfold MigrateResponse. fold k. rewrite En. cbn [bind]. rewrite E1. cbn [bind]. rewrite Hln.
    replace (1 <? k)%nat with true by (symmetry; apply Nat.ltb_lt; lia). unfold declare_outcome. fold b. cbn [d_id]. rewrite Hb1. reflexivity. }
  split; [exact Hln|]. split; [apply names_nodup|].
  assert (Ha : forall n, find_decl (add_outcome i1 d) n = if str_eqb n b then Some d else find_decl i1 n) by (intros n; apply (add_outcome_find i1 d n Hb1)).
  split; [|split].
  - intros n dv Hin. rewrite Ha. assert (Hinn : In n names) by (eapply in_combine_l; exact Hin).
    destruct (str_eqb n b) eqn:E; [apply str_eqb_eq in E as ->; apply Hnames in Hinn as [_ K]; congruence|]. apply H1, Hin.
  - rewrite Ha, str_eqb_refl. reflexivity.
  - intros n Hnin. rewrite Ha. destruct (str_eqb n b) eqn:E; [apply str_eqb_eq in E as ->; exfalso; apply Hnin; left; reflexivity|].
    apply H2. intros K. apply Hnin. right. exact K.
Qed.
Lemma whole_response fuel i ident c bt dv : find_decl i (v2id ident) = None ->
  exists i', MigrateResponse fuel i ident c bt [dv] = Ok (i', None) /\
    find_decl i' (v2id ident) = Some (mkDecl (v2id ident) (Some (MigrateV2Cardinality c)) (Some bt) dv (KResponse None None None)) /\
    (forall n, n <> v2id ident -> find_decl i' n = find_decl i n).
Proof.
  intros Hf. destruct (declare_responses_ok (MigrateV2Cardinality c) bt [(v2id ident, dv)] i) as (i' & E & H1 & H2).
  { constructor; [intros []|constructor]. } { intros n [<-|[]]. exact Hf. }
  exists i'. split; [unfold MigrateResponse; cbn [length response_names bind combine]; rewrite E; reflexivity|].
  split; [apply H1; left; reflexivity|]. intros n Hn. apply H2. intros [K|[]]. cbn in K. congruence.
Qed.

(** ** The value of a split response *)
Lemma fixup_runs st id names bt d : wf_state st -> typed st ->
  assoc id (i_decls (s_item st)) = Some d -> d_kind d = KOutcome -> d_card d = Some CMultiple -> d_base d = Some bt ->
  (forall n, In n names -> exists dn, assoc n (i_decls (s_item st)) = Some dn /\ d_card dn = Some CMultiple /\ d_base dn = Some bt) ->
  exists st' new, run_rules setOutcome run_set_outcome [fixup_rule (id, names)] st = (st', FNext) /\
    assoc id (s_map st') = Some new /\
    (forall a, In a (members new) <-> exists n v, In n names /\ assoc n (s_map st) = Some v /\ In a (members v)) /\
    only_changes id st st'.
Proof.
  intros Hw Ht Hd Hk Hc Hb Hn. destruct (Ht _ _ Hd) as (old & Eo & Hco & Hbo). rewrite Hc in Hco, Hbo. rewrite Hb in Hbo.
  assert (Hvs : exists vs, mapM (eval st) (map EVariable names) = Ok vs /\ Forall wf_value vs /\ Forall (operand_of CMultiple bt) vs /\
    forall a, In a (flat_map members vs) <-> exists n v, In n names /\ assoc n (s_map st) = Some v /\ In a (members v)).
  { clear Hd Hk Hc Hb Eo Hco Hbo old. induction names as [|n names IH]; cbn [map mapM].
    - exists []. split; [reflexivity|]. split; [constructor|]. split; [constructor|]. intros a. split; [intros []|intros (? & ? & [] & _)].
    - destruct IH as (vs & E & Hwf & Hop & Hin). { intros m Hm. apply Hn. right. exact Hm. }
      destruct (Hn n (or_introl eq_refl)) as (dn & Hdn & Hcn & Hbn). destruct (Ht _ _ Hdn) as (v & Ev & Hcv & Hbv). rewrite Hcn in Hcv, Hbv.
      exists (v :: vs). assert (Ee : eval st (EVariable n) = Ok v) by (cbn [eval]; unfold ev_variable, get_var; rewrite Ev; reflexivity).
      rewrite Ee. cbn [bind]. rewrite E. split; [reflexivity|]. split; [constructor; [exact (Hw _ _ Ev)|exact Hwf]|].
      split; [constructor; [|exact Hop]; right; split; [congruence|auto]|]. intros a. cbn [flat_map]. rewrite in_app_iff, Hin. split.
      + intros [H|(m & v' & Hm & Hv' & Ha)]; [exists n, v; auto using in_eq|exists m, v'; auto using in_cons].
      + intros (m & v' & [<-|Hm] & Hv' & Ha); [left; congruence|right; eauto]. }
  destruct Hvs as (vs & Evs & Hwf & Hop & Hin). destruct (op_multiple_ok bt vs Hwf Hop) as (bt' & r & Eop & Hbt & Hwr & Hocc & _).
  destruct old as [| | | |obt om|]; try discriminate Hco. cbn [base] in Hbo. subst obt.
  assert (Hset : exists new, set_value (VMultiple (Some bt) om) (payload_of (VMultiple bt' r)) = (new, None)).
  { destruct r as [l|]; cbn [payload_of set_value]; [|eauto]. destruct bt' as [b'|]; [|contradiction].
    destruct Hbt as [Hbt|Hbt]; [discriminate|]. injection Hbt as ->.
    replace (map (fun p : option atom * Z => option_map raw_of (fst p)) l) with (map (option_map raw_of) (map fst l)) by (rewrite map_map; reflexivity).
    rewrite set_multiple_raws; [eauto|]. destruct Hwr as (_ & _ & Hwr). clear Eop Hocc.
    induction Hwr as [|[o k] l (_ & a & Ho & Ha) Hl IH]; [constructor|]. cbn in Ho. subst o. cbn. constructor; [exact Ha|exact IH]. }
  destruct Hset as (new & Hset).
  destruct (set_value_assigned (VMultiple (Some bt) om) (VMultiple bt' r) new Hwr ltac:(right; reflexivity) Hbt Hset) as (_ & _ & _ & Hmem & _).
  exists (put st id new), new. split; [|split; [cbn [put s_map]; apply assoc_sset_same|split; [|apply put_only]]].
  - unfold fixup_rule. cbn [fst snd]. rewrite run_act. unfold run_set_outcome. cbn [so_expr so_id]. cbn [eval].
    change ((fix go (l : list expr) := match l with [] => Ok [] | x :: l' => ' y <- eval st x;; ' ys <- go l';; Ok (y :: ys) end)) with (mapM (eval st)) || idtac.
    rewrite Evs. cbn [bind]. rewrite Eop. cbn [lift]. rewrite (outcome_known st id d _ Hd Hk Eo). cbn [lift].
    unfold set_item, lift, get_var. rewrite Eo. cbn [card base cardinality_eqb opt_eqb negb].
    assert (Hbase : match bt' with Some _ => negb (opt_eqb baseType_eqb bt' (Some bt)) | None => false end = false).
    { destruct Hbt as [->| ->]; [reflexivity|]. cbn. rewrite baseType_eqb_refl. reflexivity. }
    rewrite Hbase, Hset. reflexivity.
  - intros a. rewrite Hmem, <- Hin. rewrite !(count_occ_In atom_eq_dec). fold (occurs a (VMultiple bt' r)). rewrite Hocc. reflexivity.
Qed.
(** The rule for an ordered response always fails *)
Lemma fixup_ordered st id names bt d : typed st -> names <> [] ->
  assoc id (i_decls (s_item st)) = Some d -> d_card d = Some COrdered ->
  (forall n, In n names -> exists dn, assoc n (i_decls (s_item st)) = Some dn /\ d_card dn = Some COrdered /\ d_base dn = Some bt) ->
  exists e, run_rules setOutcome run_set_outcome [fixup_rule (id, names)] st = (st, FErr e).
Proof.
  intros Ht Hne Hd Hc Hn. destruct (Ht _ _ Hd) as (old & Eo & Hco & Hbo).
  unfold fixup_rule. cbn [fst snd]. rewrite run_act. unfold run_set_outcome. cbn [so_expr so_id].
  destruct (eval st (EMultiple (map EVariable names))) as [v|e] eqn:Ev; cbn [lift]; [|eauto].
  assert (Hm : card v = Some CMultiple).
  { cbn [eval] in Ev. match type of Ev with bind ?e _ = _ => destruct e as [vs|]; cbn [bind] in Ev; [|discriminate] end.
    unfold op_multiple in Ev. destruct (gather CMultiple None [] vs) as [[b l]|]; cbn [bind] in Ev; [|discriminate].
    unfold set_multiple in Ev. destruct (multiple_loop _ _ _) as [ms [e|]]; [destruct ms; discriminate|].
    destruct ms; cbn [finish] in Ev; injection Ev as <-; reflexivity. }
  destruct (IsOutcome st id) as [[]|]; cbn [lift]; eauto.
  unfold set_item, lift, get_var. rewrite Eo, Hm, Hco, Hc. cbn. eauto.
Qed.

(** ** decvar *)
Lemma vartype_ok t : t <> Boolean -> MigrateV2VarType (vartype_code t) = Ok (v1_base t).
Proof. destruct t; try reflexivity. congruence. Qed.
Lemma decvars_ok l : forall i i' w, MigrateDecVars i l = Ok (i', w) ->
  (forall v, In v l -> exists b, MigrateV2VarType (dv_type v) = Ok b /\
     find_decl i' (v2id (dv_name v)) = Some (mkDecl (v2id (dv_name v)) (Some CSingle) (Some b)
        (option_map (fun s => [mkVE [] None s]) (dv_default v)) KOutcome)) /\
  (forall n, ~ In n (map (fun v => v2id (dv_name v)) l) -> find_decl i' n = find_decl i n) /\
  NoDup (map (fun v => v2id (dv_name v)) l) /\ (forall v, In v l -> find_decl i (v2id (dv_name v)) = None).
Proof.
  induction l as [|v l IH]; intros i i' w H; cbn [MigrateDecVars] in H.
  - injection H as <- _. split; [intros v []|]. split; [reflexivity|]. split; [constructor|intros v []].
  - unfold lbind, say in H. destruct (MigrateDecVar i v) as [[i1 w1]|] eqn:E; cbn [bind] in H; [|discriminate].
    destruct (MigrateDecVars i1 l) as [[i2 w2]|] eqn:E2; cbn [bind] in H; [|discriminate]. injection H as <- _.
    destruct (IH _ _ _ E2) as (H1 & H2 & H3 & H4). unfold MigrateDecVar in E.
    destruct (MigrateV2VarType (dv_type v)) as [b|] eqn:Eb; cbn [bind] in E; [|discriminate].
    set (d := mkDecl (v2id (dv_name v)) (Some CSingle) (Some b) (option_map (fun s => [mkVE [] None s]) (dv_default v)) KOutcome) in *.
    destruct (declare_outcome i d) as [i1'|] eqn:Ed; cbn [bind] in E; [|discriminate]. injection E as <- _.
    unfold declare_outcome in Ed. destruct (find_decl i (d_id d)) eqn:Ef; [discriminate|]. injection Ed as <-.
    assert (Ha : forall n, find_decl (add_outcome i d) n = if str_eqb n (v2id (dv_name v)) then Some d else find_decl i n).
    { intros n. apply (add_outcome_find i d n Ef). }
    assert (Hni : ~ In (v2id (dv_name v)) (map (fun v => v2id (dv_name v)) l)).
    { intros Hin. apply in_map_iff in Hin as (v' & Ev & Hin). specialize (H4 _ Hin). rewrite Ha, Ev, str_eqb_refl in H4. discriminate. }
    split; [|split; [|split]].
    + intros v' [<-|Hin]; [|apply H1, Hin]. exists b. split; [exact Eb|]. rewrite (H2 _ Hni), Ha, str_eqb_refl. reflexivity.
    + intros n Hn. cbn [map] in Hn. rewrite H2 by (intros K; apply Hn; right; exact K). rewrite Ha.
      destruct (str_eqb n (v2id (dv_name v))) eqn:En; [|reflexivity]. apply str_eqb_eq in En as ->. exfalso. apply Hn. left. reflexivity.
    + constructor; assumption.
    + intros v' [<-|Hin]; [exact Ef|]. specialize (H4 _ Hin). rewrite Ha in H4. destruct (str_eqb _ _); [discriminate|exact H4].
Qed.
(** A construct without a migration is never dropped *)
Lemma migrated_supported i e : forall e' w, MigrateV2Expression i e = Ok (e', w) -> supported e.
Proof.
  assert (L : forall es, Forall (fun e => forall e' w, MigrateV2Expression i e = Ok (e', w) -> supported e) es ->
    forall es' w, lmapM (MigrateV2Expression i) es = Ok (es', w) -> Forall supported es).
  { intros es IH es' w H. apply lmapM_inv in H. revert IH. induction H as [|x y es es' (w1 & Hx & _) H IHl]; intros IH; constructor; inversion IH; subst; eauto. }
  induction e as [c id n t|o id n t|a id n t| |e IH|es IH|es IH| |] using v1expr_ind2; intros e' w Hm; cbn [MigrateV2Expression supported] in *; auto.
  - unfold lbind, say in Hm. destruct (MigrateV2Expression i e) as [[e1 w1]|] eqn:E1; cbn [bind] in Hm; [|discriminate]. eauto.
  - rewrite all_fix. destruct es as [|e0 es0]; [constructor|]. remember (e0 :: es0) as es. clear Heqes. unfold lbind, say in Hm.
    destruct (lmapM _ es) as [[es' w1]|] eqn:E1; cbn [bind] in Hm; [|discriminate]. eapply L; eassumption.
  - rewrite all_fix. destruct es as [|e0 es0]; [constructor|]. remember (e0 :: es0) as es. clear Heqes. unfold lbind, say in Hm.
    destruct (lmapM _ es) as [[es' w1]|] eqn:E1; cbn [bind] in Hm; [|discriminate]. eapply L; eassumption.
  - discriminate.
Qed.
Lemma processing_supported i r i' rules w : MigrateResProcessing i r = Ok ((i', rules), w) ->
  forall c, In (RespCondition c) (rp_conditions r) -> Forall supported (rc_condition c).
Proof.
  unfold MigrateResProcessing, lbind, say. destruct (MigrateDecVars i (rp_decvars r)) as [[i1 w1]|]; cbn [bind]; [|discriminate].
  destruct (MigrateConditions _ _ _ _ _) as [[[i2 rp] w2]|] eqn:E; cbn [bind]; [|discriminate]. intros _.
  destruct (conditions_run (rp_conditions r) i1 true (InRules 0) (map fixup_rule (rp_fixups r)) i2 rp w2 I E) as (ps & Hm & _).
  revert Hm. clear. induction 1 as [|j l j' ps w Hm IH|j r0 j1 p w1 l j' ps w Hp Hm IH]; intros c Hc; [contradiction| |].
  - destruct Hc as [Hc|Hc]; [discriminate|auto].
  - destruct Hc as [Hc|Hc]; [|auto]. injection Hc as ->. unfold MigratePart in Hp.
    destruct (MigrateConditionVar j (rc_condition c)) as [[e w0]|] eqn:Ec; cbn [bind] in Hp; [|discriminate]. clear Hp.
    revert Ec. unfold MigrateConditionVar. destruct (rc_condition c) as [|e0 [|e1 es]]; [constructor| |].
    + intros Ec. constructor; [eapply migrated_supported; exact Ec|constructor].
    + unfold lbind, say. destruct (lmapM _ _) as [[es' w3]|] eqn:El; cbn [bind]; [|discriminate]. intros _.
      apply lmapM_inv in El. induction El as [|x y l1 l2 (w4 & Hx & _) Hl IHl]; constructor; [eapply migrated_supported; exact Hx|exact IHl].
Qed.
Lemma decvars_total l : forall i, NoDup (map (fun v => v2id (dv_name v)) l) ->
  (forall v, In v l -> find_decl i (v2id (dv_name v)) = None /\ exists t, dv_type v = vartype_code t) ->
  exists i' w, MigrateDecVars i l = Ok (i', w).
Proof.
  induction l as [|v l IH]; intros i Hn H; cbn [MigrateDecVars]; [unfold lret; eauto|].
  cbn [map] in Hn. inversion Hn as [|? ? Hni Hn']; subst. destruct (H v (or_introl eq_refl)) as [Hf [t Ht]].
  unfold lbind, say, MigrateDecVar. assert (Hb : exists b, MigrateV2VarType (dv_type v) = Ok b) by (rewrite Ht; destruct t; vm_compute; eauto).
  destruct Hb as [b Hb]. rewrite Hb. cbn [bind]. unfold declare_outcome. cbn [d_id]. rewrite Hf. cbn [bind].
  set (d := mkDecl _ _ _ _ _). destruct (IH (add_outcome i d) Hn') as (i' & w & E).
  - intros v' Hin. destruct (H v' (or_intror Hin)) as [Hf' Ht']. split; [|exact Ht']. rewrite (add_outcome_find i d _ Hf).
    destruct (str_eqb _ _) eqn:Es; [|exact Hf']. apply str_eqb_eq in Es. exfalso. apply Hni. cbn [d_id d] in Es. rewrite <- Es.
    apply in_map_iff. eauto.
  - rewrite E. cbn [bind]. eauto.
Qed.
End Decls.
