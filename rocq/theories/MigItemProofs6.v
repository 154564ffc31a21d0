(** The rules for bounds keep the outcomes within them; together with the conditions they give the
    meaning of a converted item. *)
From Coq Require Import Lia QArith Qcanon.
From Verif Require Import Py Iso Dec XmlUtils XmlChars Xsd XsdSpec XsdProofs Shapes QtiValue QtiExpr QtiSpec QtiProc QtiProcSpec
  QtiProofs QtiProofs2 QtiProcProofs QtiProcProofs2 V1Mig V1MigSpec V1MigProofs V1MigProofs2 V1MigProofs4 V1MigProofs5 V1MigProofs6 V1MigProofs8 MigWrite MigItem MigItemSpec MigItemProofs MigItemProofs2 MigItemProofs3 MigItemProofs4 MigItemProofs5.
Open Scope Z_scope.
Open Scope list_scope.

Lemma DecodeInteger_pystr n : DecodeInteger (pystr n) = Ok n.
Proof.
  apply DecodeInteger_ok. unfold pystr, lex_integer. destruct (n <? 0) eqn:E.
  - exists [45], (-1), (fmt (- n)). split; [reflexivity|]. split; [constructor|]. split; [apply fmt_not_nil|]. split; [apply fmt_digits; lia|]. rewrite dval_fmt by lia. lia.
  - exists [], 1, (fmt n). split; [reflexivity|]. split; [constructor|]. split; [apply fmt_not_nil|]. split; [apply fmt_digits; lia|]. rewrite dval_fmt by lia. lia.
Qed.
Lemma int_of_qz m : MigItem.int_of (qz m) = m.
Proof.
  unfold MigItem.int_of, qz. cbn [this Q2Qc]. assert (E : Qred (inject_Z m) = inject_Z m).
  { unfold inject_Z. unfold Qred. pose proof (Z.ggcd_gcd m 1) as H. pose proof (Z.ggcd_correct_divisors m 1) as H2.
    destruct (Z.ggcd m 1) as [g [a b]]. cbn [fst snd] in *. rewrite Z.gcd_1_r in H. subst g. destruct H2 as [-> H2].
    rewrite Z.mul_1_l in *. subst b. reflexivity. }
  rewrite E. cbn. apply Z.quot_1_r.
Qed.
Section Bounds.
Context {X : Ext}.
Notation rr := (run_rules setOutcome run_set_outcome).
(** A bound as the literal of a base type *)
Definition bound_literal (b : baseType) (t : str) (q : Qc) (a : atom) : Prop :=
  parse_single b (RText t) = Ok (Some a) /\ wf_atom b a /\ numeral a q.
Definition limit_rule (n : str) (b : baseType) (op : cmpOp) (t : str) : responseRule :=
  Cond [(Some (ECompare op [EVariable n; EBaseValue (Some b) t]), [Act (SetOutcome n (Some (EBaseValue (Some b) t)))])] [].
Definition out_of (op : cmpOp) (x q : Qc) : bool := cmp_qc op x q.

Lemma limit_step n b op t q a st d oa : b = BInteger \/ b = BFloat -> bound_literal b t q a ->
  assoc n (QtiExpr.i_decls (s_item st)) = Some d -> d_kind d = KOutcome -> assoc n (s_map st) = Some (VSingle (Some b) oa) -> wf_state st ->
  rr [limit_rule n b op t] st =
    (match oa with
     | None => st
     | Some x => match x with
                 | AInt z => if cmp_qc op (qz z) q then QtiProc.put st n (VSingle (Some b) (Some a)) else st
                 | AFloat y => if cmp_qc op y q then QtiProc.put st n (VSingle (Some b) (Some a)) else st
                 | _ => st
                 end
     end, FNext).
Proof.
  intros Hb (Hl & Hwa & Hnum) Hd Hk Hv Hw. cbn [run_rules]. unfold limit_rule. rewrite run_cond. cbn [run_parts].
  assert (Elit : eval st (EBaseValue (Some b) t) = Ok (VSingle (Some b) (Some a))).
  { cbn [eval new_single]. destruct Hb; subst b; rewrite Hl; reflexivity. }
  assert (Evar : eval st (EVariable n) = Ok (VSingle (Some b) oa)).
  { cbn [eval]. unfold ev_variable, get_var. rewrite Hv. reflexivity. }
  assert (Eset : run_rule setOutcome run_set_outcome (Act (SetOutcome n (Some (EBaseValue (Some b) t)))) st = (QtiProc.put st n (VSingle (Some b) (Some a)), FNext)).
  { cbn [run_rule]. unfold run_set_outcome. cbn [so_expr so_id]. rewrite Elit. unfold lift at 1. rewrite (V1MigProofs6.outcome_known st n d _ Hd Hk Hv). unfold lift at 1.
    rewrite (store_single st n b oa (Some a) Hv); [reflexivity|]. intros x [= <-]. apply parse_raw, Hwa. }
  pose proof (Hw _ _ Hv) as Hwo.
  assert (Ec : condition st (Some (ECompare op [EVariable n; EBaseValue (Some b) t])) =
    Ok match oa with Some (AInt z) => cmp_qc op (qz z) q | Some (AFloat y) => cmp_qc op y q | _ => false end).
  { unfold condition. change (eval st (ECompare op [EVariable n; EBaseValue (Some b) t])) with
      (vs <- mapM (eval st) [EVariable n; EBaseValue (Some b) t] ;; op_compare op vs). cbn [mapM]. rewrite Evar, Elit. cbn [bind].
    destruct oa as [x|]; [|destruct Hb; subst b; reflexivity].
    destruct Hb; subst b; destruct x; cbn in Hwo; try contradiction; destruct a; cbn in Hwa; try contradiction;
      (destruct Hnum as [(z & [= <-] & ->)|[= <-]] || destruct Hnum as [(z & [=] & _)|[= <-]]);
      unfold op_compare; cbn -[cmp_qc qz]; destruct (cmp_qc op _ _); reflexivity. }
  rewrite Ec. destruct oa as [[]|]; try reflexivity; destruct (cmp_qc op _ q); cbn [run_rules]; rewrite ?Eset; reflexivity.
Qed.

(** ** One bound *)
Definition beyond (op : cmpOp) (b : option Qc) (x : Qc) : Qc :=
  match b with Some m => if cmp_qc op x m then m else x | None => x end.
Lemma limited_beyond lo hi x : beyond OpGT hi (beyond OpLT lo x) = limited lo hi x.
Proof.
  assert (E : forall a b (A : Type) (u v : A), (if qc_ltb a b then u else v) = if Qclt_le_dec a b then u else v).
  { intros a b A u v. destruct (Qclt_le_dec a b) as [H|H]; [apply qc_ltb_lt in H|apply qc_ltb_nlt in H]; rewrite H; reflexivity. }
  unfold limited, beyond, cmp_qc. destruct lo, hi; rewrite ?E; reflexivity.
Qed.
(** The variable [n] moves from the value [oa] to one within the bound *)
Definition moved (n : str) (b : baseType) (f : Qc -> Qc) (st st' : QtiExpr.state) : Prop :=
  forall oa, assoc n (s_map st) = Some (VSingle (Some b) oa) -> exists oa', assoc n (s_map st') = Some (VSingle (Some b) oa') /\
    (oa = None -> oa' = None) /\ forall a x, oa = Some a -> numeral a x -> exists a', oa' = Some a' /\ numeral a' (f x).
Lemma moved_id n b st : moved n b (fun x => x) st st.
Proof. intros oa H. exists oa. split; [exact H|]. split; [auto|]. intros a x Ha Hx. exists a. auto. Qed.
Lemma moved_trans n b f g st st1 st2 : moved n b f st st1 -> moved n b g st1 st2 -> moved n b (fun x => g (f x)) st st2.
Proof.
  intros H1 H2 oa Ho. destruct (H1 oa Ho) as (oa1 & Ho1 & N1 & X1). destruct (H2 oa1 Ho1) as (oa2 & Ho2 & N2 & X2).
  exists oa2. split; [exact Ho2|]. split; [auto|]. intros a x Ha Hx. destruct (X1 a x Ha Hx) as (a1 & Ha1 & Hx1). eauto.
Qed.
Lemma numeral_fun a x y : numeral a x -> numeral a y -> x = y.
Proof. intros [(n & -> & ->)| ->] [(m & [=] & ->)|[=]]; subst; auto. Qed.

Section Item.
Variables (i : QtiExpr.item).
Lemma put_healthy st n b oa a : healthy i st -> assoc n (s_map st) = Some (VSingle (Some b) oa) -> wf_atom b a ->
  healthy i (QtiProc.put st n (VSingle (Some b) (Some a))).
Proof.
  intros (H1 & H2 & H3) Ho Ha. split; [apply put_wf; [exact H1|exact Ha]|]. split; [|eapply declares_same; [|exact H3]; reflexivity].
  apply put_typed; [exact H2|]. intros r Hr. specialize (H2 _ _ Hr). rewrite Ho in H2. exact H2.
Qed.
Lemma one_bound n b op t m st a oa d : b = BInteger \/ b = BFloat -> bound_literal b t m a ->
  assoc n (QtiExpr.i_decls (s_item st)) = Some d -> d_kind d = KOutcome -> assoc n (s_map st) = Some (VSingle (Some b) oa) -> healthy i st ->
  exists st', rr [limit_rule n b op t] st = (st', FNext) /\ healthy i st' /\ only_changes n st st' /\ moved n b (beyond op (Some m)) st st'.
Proof.
  intros Hb Hl Hd Hk Ho Hh. eexists. split; [eapply limit_step; eauto; apply Hh|].
  assert (Hput : healthy i (QtiProc.put st n (VSingle (Some b) (Some a))) /\ only_changes n st (QtiProc.put st n (VSingle (Some b) (Some a)))).
  { split; [eapply put_healthy; [exact Hh|exact Ho|apply Hl]|apply put_only]. }
  assert (Hsame : only_changes n st st) by (split; [reflexivity|intros; reflexivity]).
  assert (Hwo := proj1 Hh _ _ Ho).
  assert (Hval : forall z, oa <> None -> (forall x, oa = Some x -> numeral x z) -> cmp_qc op z m = true -> moved n b (beyond op (Some m)) st (QtiProc.put st n (VSingle (Some b) (Some a)))).
  { intros z Hn Hz Hc oa0 Ho0. assert (oa0 = oa) as -> by congruence. exists (Some a). cbn [QtiProc.put s_map]. rewrite assoc_sset_same. split; [reflexivity|].
    destruct oa as [x|]; [|congruence]. split; [discriminate|]. intros a0 x0 [= <-] Hx0.
    assert (x0 = z) as -> by (eapply numeral_fun; [exact Hx0|auto]). exists a. split; [reflexivity|]. cbn [beyond]. rewrite Hc. apply Hl. }
  assert (Hstay : forall z, (forall x, oa = Some x -> numeral x z) -> cmp_qc op z m = false -> moved n b (beyond op (Some m)) st st).
  { intros z Hz Hc oa0 Ho0. assert (oa0 = oa) as -> by congruence. exists oa. split; [exact Ho|]. split; [auto|]. intros a0 x0 -> Hx0.
    assert (x0 = z) as -> by (eapply numeral_fun; [exact Hx0|auto]). exists a0. split; [reflexivity|]. cbn [beyond]. rewrite Hc. exact Hx0. }
  destruct oa as [x|].
  2:{ split; [exact Hh|]. split; [exact Hsame|]. intros oa0 Ho0. exists None. split; [exact Ho|]. split; [auto|]. intros a0 x0 -> _. congruence. }
  destruct x; try (destruct Hb; subst b; contradiction).
  - destruct (cmp_qc op q m) eqn:E; [split; [apply Hput|]; split; [apply Hput|]; apply (Hval q)|split; [exact Hh|]; split; [exact Hsame|]; apply (Hstay q)]; auto;
      try discriminate; intros x [= <-]; right; reflexivity.
  - destruct (cmp_qc op (qz n0) m) eqn:E; [split; [apply Hput|]; split; [apply Hput|]; apply (Hval (qz n0))|split; [exact Hh|]; split; [exact Hsame|]; apply (Hstay (qz n0))]; auto;
      try discriminate; intros x [= <-]; left; eauto.
Qed.
End Item.

(** ** The bounds of one outcome *)
Definition cmp_name (op : cmpOp) : string :=
  match op with OpLT => "lt" | OpGT => "gt" | OpLTE => "lte" | OpGTE => "gte" end%string.
Lemma bound_reads sf d v op q : q <> qz 0 ->
  (dv_baseType v = lit "integer" /\ (exists m, q = qz m /\ int32 m) \/ dv_baseType v = lit "float" /\ x_double (sf q) = Ok q) ->
  exists b t a, reads_rules (bound_rule sf d v (cmp_name op) (Some q)) = Some [limit_rule (decl_identifier d) b op t] /\
    base_of (dv_baseType v) = Some b /\ (b = BInteger \/ b = BFloat) /\ bound_literal b t q a.
Proof.
  intros Hq H. unfold bound_rule. destruct (Qc_eq_bool q 0) eqn:E; [exfalso; apply Hq; apply Qc_eq_bool_correct in E; exact E|].
  destruct H as [[-> (m & -> & Hm)]|[-> Hx]].
  - exists BInteger, (pystr m), (AInt m). rewrite int_of_qz.
    split; [destruct op; reflexivity|]. split; [reflexivity|]. split; [auto|]. split; [cbn [parse_single]; rewrite DecodeInteger_pystr; reflexivity|].
    split; [exact Hm|]. left. eauto.
  - exists BFloat, (sf q), (AFloat q).
    split; [destruct op; reflexivity|]. split; [reflexivity|]. split; [auto|]. split; [cbn [parse_single]; rewrite Hx; reflexivity|].
    split; [exact I|]. right. reflexivity.
Qed.
Lemma only_trans n st st1 st2 : only_changes n st st1 -> only_changes n st1 st2 -> only_changes n st st2.
Proof.
  intros [H1 H2] [H3 H4]. split; [congruence|]. intros m Hm. unfold same_value in *. rewrite (H4 m Hm). apply H2, Hm.
Qed.
Lemma only_refl n st : only_changes n st st.
Proof. split; [reflexivity|]. intros; reflexivity. Qed.

Section Outcomes.
Variables (sf : Qc -> str) (i : QtiExpr.item).
Lemma optional_bound d v op b bnd : base_of (dv_baseType v) = Some b ->
  (forall q, bnd = Some q -> q <> qz 0 /\
    (dv_baseType v = lit "integer" /\ (exists m, q = qz m /\ int32 m) \/ dv_baseType v = lit "float" /\ x_double (sf q) = Ok q)) ->
  exists l, reads_rules (bound_rule sf d v (cmp_name op) bnd) = Some l /\ (bnd = None -> l = []) /\
  forall st d' oa, assoc (decl_identifier d) (QtiExpr.i_decls (s_item st)) = Some d' -> d_kind d' = KOutcome ->
    assoc (decl_identifier d) (s_map st) = Some (VSingle (Some b) oa) -> healthy i st ->
    exists st', rr l st = (st', FNext) /\ healthy i st' /\ only_changes (decl_identifier d) st st' /\ moved (decl_identifier d) b (beyond op bnd) st st'.
Proof.
  intros Hb Hq. destruct bnd as [q|].
  - destruct (Hq q eq_refl) as [H1 H2]. destruct (bound_reads sf d v op q H1 H2) as (b' & t & a & R1 & R2 & R3 & R4). rewrite Hb in R2. injection R2 as <-.
    eexists. split; [exact R1|]. split; [discriminate|]. intros st d' oa Hd Hk Ho Hh. eapply one_bound; eauto.
  - exists []. split; [reflexivity|]. split; [auto|]. intros st d' oa Hd Hk Ho Hh. exists st. split; [reflexivity|]. split; [exact Hh|]. split; [apply only_refl|apply moved_id].
Qed.
Lemma both_bounds d v b : base_of (dv_baseType v) = Some b ->
  (forall q, dv_min v = Some q \/ dv_max v = Some q -> q <> qz 0 /\
    (dv_baseType v = lit "integer" /\ (exists m, q = qz m /\ int32 m) \/ dv_baseType v = lit "float" /\ x_double (sf q) = Ok q)) ->
  exists l, reads_rules (bound_rule sf d v "lt" (dv_min v) ++ bound_rule sf d v "gt" (dv_max v)) = Some l /\
  (dv_min v = None -> dv_max v = None -> l = []) /\
  forall st d' oa, assoc (decl_identifier d) (QtiExpr.i_decls (s_item st)) = Some d' -> d_kind d' = KOutcome ->
    assoc (decl_identifier d) (s_map st) = Some (VSingle (Some b) oa) -> healthy i st ->
    exists st', rr l st = (st', FNext) /\ healthy i st' /\ only_changes (decl_identifier d) st st' /\
      moved (decl_identifier d) b (limited (dv_min v) (dv_max v)) st st'.
Proof.
  intros Hb Hq. destruct (optional_bound d v OpLT b (dv_min v) Hb ltac:(auto)) as (l1 & R1 & N1 & S1).
  destruct (optional_bound d v OpGT b (dv_max v) Hb ltac:(auto)) as (l2 & R2 & N2 & S2).
  exists (l1 ++ l2). split; [unfold reads_rules in *; rewrite all_some_app; change (lit "lt") with (lit (cmp_name OpLT)); cbn [cmp_name] in *; rewrite R1, R2; reflexivity|].
  split; [intros E1 E2; rewrite N1, N2 by assumption; reflexivity|].
  intros st d' oa Hd Hk Ho Hh. destruct (S1 st d' oa Hd Hk Ho Hh) as (st1 & A1 & A2 & A3 & A4).
  destruct (A4 oa Ho) as (oa1 & Ho1 & _). destruct (S2 st1 d' oa1) as (st2 & B1 & B2 & B3 & B4); try assumption; [rewrite (proj1 A3); exact Hd|].
  exists st2. split; [rewrite rr_app, A1; exact B1|]. split; [exact B2|]. split; [eapply only_trans; eassumption|].
  intros oa0 Ho0. destruct (moved_trans _ _ _ _ _ _ _ A4 B4 oa0 Ho0) as (oa' & C1 & C2 & C3). exists oa'. split; [exact C1|]. split; [exact C2|].
  intros a x Ha Hx. destruct (C3 a x Ha Hx) as (a' & D1 & D2). exists a'. split; [exact D1|]. rewrite <- limited_beyond. exact D2.
Qed.
End Outcomes.
End Bounds.

(** ** All bounds *)
Section AllBounds.
Context {X : Ext}.
Notation rr := (run_rules setOutcome run_set_outcome).
Variables (uc : bool) (sf : Qc -> str) (rs : list response) (ps : list resprocessing) (p : resprocessing) (s1 s : MigItem.state).
Hypothesis C : converted uc rs ps p s1 s.
Hypothesis Hdec : Forall known_decvar (rp_decvars p).
Hypothesis Hkeep : Forall (keepable sf) (rp_decvars p).
Let i := reads_item s.
Let O := name_in (outcomes s).
Let P := p_phase _ _ _ _ (v_phase _ _ _ _ _ _ C).
Let I := o_inv _ _ _ _ _ P.

Lemma NoDup_outs : NoDup (map snd (outcomes s)).
Proof. pose proof (i_names s I) as HN. apply NoDup_parts in HN as (_ & H & _). exact H. Qed.
(** What happens to the outcome [n] *)
Definition brought (n : str) (st st' : QtiExpr.state) : Prop :=
  (forall e, In e (rp_decvars p) -> n = O (decvar_id uc e) ->
     (holds_null st n -> holds_null st' n) /\
     (forall x, holds_number st n x -> holds_number st' n (limited (de_min e) (de_max e) x)) /\
     (de_min e = None -> de_max e = None -> same_value st st' n)) /\
  ((forall e, In e (rp_decvars p) -> n <> O (decvar_id uc e)) -> same_value st st' n).
Lemma outcome_brought id n : In (id, n) (outcomes s) ->
  exists l, reads_rules (outcome_bounds sf s n) = Some l /\
  forall st, healthy i st -> exists st', rr l st = (st', FNext) /\ healthy i st' /\ only_changes n st st' /\ brought n st st'.
Proof.
  intros Hin. assert (Hk : In id (outcome_ids uc p)) by (apply (o_keys _ _ _ _ _ P), in_map_iff; exists (id, n); auto).
  assert (Hn := in_dget _ _ _ (i_outs s I) Hin). assert (HO : O id = n) by (unfold O, name_in; rewrite Hn; reflexivity).
  destruct (i_outcome s I _ _ Hin) as (d & v & K1 & K2 & K3 & K4).
  assert (Hdecl : forall st, healthy i st -> assoc n (QtiExpr.i_decls (s_item st)) = Some (reads_declaration d)).
  { intros st (_ & _ & Hd). apply Hd. apply find_reads; assumption. }
  assert (Hkind : d_kind (reads_declaration d) = KOutcome) by (destruct d; [discriminate K3|reflexivity]).
  unfold outcome_bounds. rewrite K1.
  destruct (in_dec str_eq_dec id (map (decvar_id uc) (rp_decvars p))) as [Hd|Hd].
  - apply in_map_iff in Hd as (e & <- & He). pose proof (o_decvars _ _ _ _ _ P) as HD. rewrite Forall_forall in HD, Hdec, Hkeep.
    destruct (HD e He) as (n' & T1 & T2). rewrite Hn in T1. injection T1 as <-. rewrite K1 in T2. injection T2 as -> ->.
    pose proof (Hdec e He) as Hb. unfold known_decvar in Hb. destruct (base_of (de_baseType e)) as [b|] eqn:Eb; [|congruence].
    destruct (both_bounds sf i (OutcomeDeclaration n (lit "single") (de_baseType e) (MigItemSpec.default_of (de_default e)) None None) (read_decvar uc e) b Eb (Hkeep e He)) as (l & R & N & S).
    exists l. split; [exact R|]. intros st Hh. cbn [decl_identifier] in S.
    destruct (well_typed_typed st (proj1 (proj2 Hh)) _ _ (Hdecl st Hh)) as (v0 & Ev & Hc & Hb0).
    cbn [reads_declaration d_card d_base] in Hc, Hb0. change (card_of (lit "single")) with (Some CSingle) in Hc, Hb0. destruct v0; try discriminate Hc. cbn [base] in Hb0. rewrite Eb in Hb0. 
    assert (bt = Some b) as -> by exact Hb0.
    destruct (S st _ _ (Hdecl st Hh) Hkind Ev Hh) as (st' & A1 & A2 & A3 & A4). exists st'. split; [exact A1|]. split; [exact A2|]. split; [exact A3|].
    destruct (A4 _ Ev) as (oa' & B1 & B2 & B3). split; [|intros Hno; exfalso; apply (Hno e He); auto].
    intros e' He' HO'. assert (decvar_id uc e' = decvar_id uc e) as Eid.
    { assert (Hin' : In (decvar_id uc e', n) (outcomes s)).
      { destruct (HD e' He') as (n' & T1 & _). apply dget_in in T1. rewrite HO'. unfold O, name_in. rewrite (in_dget _ _ _ (i_outs s I) T1). exact T1. }
      eapply (snd_inj (outcomes s)); [|exact Hin'|exact Hin]. apply NoDup_outs. }
    assert (Eb' : de_min e' = de_min e /\ de_max e' = de_max e).
    { destruct (HD e' He') as (n' & T1 & T2). rewrite Eid, Hn in T1. injection T1 as <-. rewrite K1 in T2. injection T2 as _ _ _ H1 H2; auto. }
    destruct Eb' as [-> ->]. split; [|split].
    + intros (b' & Hnull). rewrite Ev in Hnull. injection Hnull as _ ->. exists (Some b). rewrite B1, B2; reflexivity.
    + intros x (b' & a & Ha & Hx). rewrite Ev in Ha. injection Ha as <- ->. destruct (B3 a x eq_refl Hx) as (a' & -> & Hx'). exists (Some b), a'. auto.
    + intros E1 E2. rewrite (N E1 E2) in A1. cbn in A1. injection A1 as <-. reflexivity.
  - assert (T : outcome_is s id (lit "float") None None).
    { apply (o_implicit _ _ _ _ _ P); [|exact Hd]. apply in_app_iff in Hk as [Hk|Hk]; [contradiction|exact Hk]. }
    destruct T as (n' & T1 & T2). rewrite Hn in T1. injection T1 as <-. rewrite K1 in T2. injection T2 as -> ->.
    exists []. split; [reflexivity|]. intros st Hh. exists st. split; [reflexivity|]. split; [exact Hh|]. split; [apply only_refl|].
    split; [|intros _; reflexivity]. intros e He HOe. exfalso. apply Hd. apply in_map_iff. exists e. split; [|exact He].
    pose proof (o_decvars _ _ _ _ _ P) as HD. rewrite Forall_forall in HD. destruct (HD e He) as (n' & T1 & _). apply dget_in in T1.
    eapply (snd_inj (outcomes s)); [apply NoDup_outs|exact T1|]. replace n' with n; [exact Hin|].
    rewrite HOe. unfold O, name_in. rewrite (in_dget _ _ _ (i_outs s I) T1). reflexivity.
Qed.
Lemma all_brought L : (forall o, In o L -> In o (outcomes s)) -> NoDup (map snd L) ->
  exists l, reads_rules (flat_map (fun o => outcome_bounds sf s (snd o)) L) = Some l /\
  forall st, healthy i st -> exists st', rr l st = (st', FNext) /\ healthy i st' /\ s_item st' = s_item st /\
    (forall n, ~ In n (map snd L) -> same_value st st' n) /\ (forall n, In n (map snd L) -> brought n st st').
Proof.
  induction L as [|[id n] L IH]; intros HL HN.
  - exists []. split; [reflexivity|]. intros st Hh. exists st. split; [reflexivity|]. split; [exact Hh|]. split; [reflexivity|]. split; [intros; reflexivity|intros n []].
  - cbn [map snd] in HN. inversion HN as [|? ? Hn HN']; subst. destruct (outcome_brought id n (HL _ (or_introl eq_refl))) as (l1 & R1 & S1).
    destruct IH as (l2 & R2 & S2); [intros o Ho; apply HL; now right|exact HN'|]. exists (l1 ++ l2).
    split; [cbn [flat_map snd]; unfold reads_rules in *; rewrite all_some_app, R1, R2; reflexivity|].
    intros st Hh. destruct (S1 st Hh) as (st1 & A1 & A2 & A3 & A4). destruct (S2 st1 A2) as (st2 & B1 & B2 & B3 & B4 & B5).
    exists st2. split; [rewrite rr_app, A1; exact B1|]. split; [exact B2|]. split; [rewrite B3; apply A3|]. cbn [map snd In].
    split.
    + intros m Hm. unfold same_value in *. rewrite B4 by tauto. apply A3. intros ->. tauto.
    + intros m [<-|Hm].
      * specialize (B4 n Hn). unfold brought, holds_null, holds_number, same_value in *. rewrite B4. exact A4.
      * specialize (B5 m Hm). assert (E : assoc m (s_map st1) = assoc m (s_map st)) by (apply A3; intros ->; contradiction).
        unfold brought, holds_null, holds_number, same_value in *. rewrite E in B5. exact B5.
Qed.
Lemma bounds_run : exists l, reads_rules (flat_map (fun o => outcome_bounds sf s (snd o)) (outcomes s)) = Some l /\
  forall st, healthy i st -> exists st', rr l st = (st', FNext) /\ healthy i st' /\ bounded uc p O st st'.
Proof.
  destruct (all_brought (outcomes s) (fun o H => H) NoDup_outs) as (l & R & S). exists l. split; [exact R|]. intros st Hh.
  destruct (S st Hh) as (st' & A1 & A2 & A3 & A4 & A5). exists st'. split; [exact A1|]. split; [exact A2|].
  assert (HO : forall e, In e (rp_decvars p) -> In (O (decvar_id uc e)) (map snd (outcomes s))).
  { intros e He. pose proof (o_decvars _ _ _ _ _ P) as HD. rewrite Forall_forall in HD. destruct (HD e He) as (n' & T1 & _). apply dget_in in T1.
    unfold O, name_in. rewrite (in_dget _ _ _ (i_outs s I) T1). apply in_map_iff. eexists. split; [|exact T1]. reflexivity. }
  split.
  - exact A3.
  - intros e He. exact (proj1 (proj1 (A5 _ (HO e He)) e He eq_refl)).
  - intros e x He. exact (proj1 (proj2 (proj1 (A5 _ (HO e He)) e He eq_refl)) x).
  - intros n Hn. destruct (in_dec str_eq_dec n (map snd (outcomes s))) as [Hin|Hin]; [|apply A4, Hin].
    destruct (in_dec str_eq_dec n (map (fun e => O (decvar_id uc e)) (rp_decvars p))) as [Hd|Hd].
    + apply in_map_iff in Hd as (e & <- & He). destruct (Hn e He eq_refl) as [E1 E2]. exact (proj2 (proj2 (proj1 (A5 _ Hin) e He eq_refl)) E1 E2).
    + apply (A5 _ Hin). intros e He ->. apply Hd, in_map_iff. exists e. auto.
Qed.
End AllBounds.

(** ** The meaning of a converted item *)
Lemma conversion_means {X : Ext} uc sf rs ps p s' : ConvertItem Vv uc sf rs (ps ++ [p]) = Ok s' ->
  Forall typed_response rs -> Forall known_decvar (rp_decvars p) -> Forall (keepable sf) (rp_decvars p) ->
  Forall (faithful_condition rs) (rp_conditions p) -> (forall q, In q ps -> no_feedback q) -> x_ncname [] = false ->
  exists R O rules' l, named uc rs p R O (declared s') /\ rules s' = Some rules' /\ reads_rules rules' = Some l /\
  (forall st st', wf_state st -> well_typed st -> declares (reads_item s') st ->
    (forall c, In (RespCondition c) (v1_program uc rs R O p) -> Forall (under_not (answered_response st)) (V1Mig.rc_condition c)) ->
    other_last (v1_program uc rs R O p) -> ResponseProcessing l st = (st', None) ->
    exists st1, v1_run false (v1_program uc rs R O p) st st1 /\ bounded uc p O st1 st' /\ healthy (reads_item s') st1) /\
  (forall st, wf_state st -> well_typed st -> declares (reads_item s') st ->
    (forall c, In (RespCondition c) (v1_program uc rs R O p) -> performable st c) ->
    exists st', ResponseProcessing l st = (st', None)).
Proof.
  intros Hc Ht Hd Hk Hf Hfb Hx. destruct (converts uc sf rs ps p s' Hc) as (s1 & s & C & ->).
  destruct (program_means uc rs ps p s1 s C Ht Hd Hfb Hf Hx) as (body & l1 & B1 & B2 & B3 & B4).
  destruct (bounds_run uc sf rs ps p s1 s C Hd Hk) as (l2 & D1 & D2).
  exists (name_in (responses s)), (name_in (outcomes s)), (body ++ flat_map (fun o => outcome_bounds sf s (snd o)) (outcomes s)), (l1 ++ l2).
  split; [exact (named_of uc rs ps p s1 s C)|]. split; [unfold CloseBounds; cbn [set_rules rules]; rewrite B1; reflexivity|].
  split; [unfold reads_rules in *; rewrite all_some_app, B2, D1; reflexivity|].
  split.
  2:{ intros st Hw Hty Hde Hp. destruct (B4 st ltac:(split; [exact Hw|]; split; [exact Hty|exact Hde]) Hp) as (st1 & E1 & G2). destruct (D2 st1 G2) as (st2 & E2 & _ & _).
      exists st2. unfold ResponseProcessing, processing. rewrite rr_app, E1. cbn [thn]. rewrite E2. reflexivity. }
  intros st st' Hw Hty Hde Hu Ho Hr. assert (Hh : healthy (reads_item s) st) by (split; [exact Hw|]; split; [exact Hty|exact Hde]).
  unfold ResponseProcessing, processing in Hr. rewrite rr_app in Hr. destruct (run_rules setOutcome run_set_outcome l1 st) as [st1 f] eqn:E1.
  assert (Hnf : forall e, f <> FErr e) by (intros e ->; discriminate Hr).
  destruct (B3 st st1 f Hh Hu Ho E1 Hnf) as (G1 & G2 & G3 & ->). cbn [thn] in Hr. destruct (D2 st1 G2) as (st2 & E2 & _ & E3).
  rewrite E2 in Hr. injection Hr as <-. exists st1. split; [exact G1|]. split; [exact E3|exact G2].
Qed.
