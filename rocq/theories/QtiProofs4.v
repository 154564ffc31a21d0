(** Type soundness and non-interference of expression evaluation. *)
From Coq Require Import QArith Qcanon Qround.
From Verif Require Import Py Dec XmlUtils Xsd XsdSpec XsdProofs XsdProofs2 ImscpProofs QtiValue QtiExpr QtiSpec
  QtiProofs QtiProofs2 QtiProofs3.
Open Scope Z_scope.
Open Scope list_scope.

Definition subs (e : expr) : list expr :=
  match e with
  | EMultiple es | EOrdered es | EMember es | EDelete es | EContains es | ESubString _ es
  | EAnd es | EOr es | EAnyN _ _ es | EMatch es | EStringMatch _ _ es | EEqual _ _ _ _ es
  | EEqualRounded _ _ es | ECompare _ es | EDurationLT es | EDurationGTE es | ESum es
  | EProduct es | ESubtract es | EDivide es | EPower es | EIntegerDivide es
  | EIntegerModulus es | ECustomOperator es => es
  | EContainerSize e | EIsNull e | EIndex _ e | EFieldValue _ e | ERandom _ e | ENot e
  | EPatternMatch _ e | EInside _ e | ETruncate e | ERound e | EIntegerToFloat e => [e]
  | _ => []
  end.
Lemma expr_ind2 (P : expr -> Prop) : (forall e, Forall P (subs e) -> P e) -> forall e, P e.
Proof.
  intros H. fix IH 1. intros e. apply H.
  destruct e; cbn [subs]; try (constructor; fail);
    try (constructor; [apply IH|constructor]);
    (induction es as [|x es IHes]; constructor; [apply IH|exact IHes]).
Qed.

Section P.
Context {X : Ext}.

Lemma literals_subs e : literals_ok e -> Forall literals_ok (subs e).
Proof.
  destruct e; cbn [subs literals_ok]; intros H; try (constructor; fail); try (constructor; [exact H|constructor]);
    (induction es as [|x es IHes]; constructor; [apply H|apply IHes; apply H]).
Qed.
Lemma mentions_subs e n : In n (flat_map mentions (subs e)) -> In n (mentions e).
Proof.
  destruct e; cbn [subs mentions flat_map]; intros H; try contradiction; try (rewrite app_nil_r in H; exact H);
    (induction es as [|x es IHes]; [exact H|]; cbn [flat_map] in H; apply in_app_or in H; apply in_or_app;
     destruct H; auto).
Qed.

Lemma mapM_Forall {A B} (f : A -> result B) (P : B -> Prop) l : forall vs,
  Forall (fun x => forall v, f x = Ok v -> P v) l -> mapM f l = Ok vs -> Forall P vs.
Proof.
  induction l as [|x l IH]; intros vs H E; cbn [mapM] in E.
  - injection E as <-. constructor.
  - inversion H as [|y l' Hx Hl]; subst. destruct (f x) as [y|] eqn:Ex; [|discriminate]. cbn [bind] in E.
    destruct (mapM f l) as [ys|] eqn:El; [|discriminate]. cbn [bind] in E. injection E as <-.
    constructor; [apply Hx; reflexivity|]. apply IH; [exact Hl|reflexivity].
Qed.

(** ** Each operator preserves well-formedness *)
Lemma mkbool_wf ob : wf_value (mkbool ob). Proof. destruct ob; exact I. Qed.
Lemma mkfloat_wf oq : wf_value (mkfloat oq). Proof. destruct oq; exact I. Qed.
Lemma mkint_wf on v : mkint on = Ok v -> wf_value v.
Proof.
  destruct on as [n|]; cbn [mkint]; [|intros H; injection H as <-; exact I].
  destruct (in_range n) eqn:E; [|discriminate]. intros H; injection H as <-. cbn. apply in_range_iff. exact E.
Qed.
Lemma new_single_none_wf bt v : new_single bt None = Ok v -> v = VSingle bt None.
Proof. destruct bt as [[]|]; cbn; intros H; try discriminate; injection H as <-; reflexivity. Qed.
Lemma finish_set_single b oa oa' v : (forall a, oa' = Some a -> wf_atom b a) ->
  finish (set_value (VSingle (Some b) oa) (opayload oa')) = Ok v -> v = VSingle (Some b) oa'.
Proof.
  intros Hw. destruct oa' as [a|].
  - cbn [opayload]. rewrite set_single_raw by (apply Hw; reflexivity). cbn. intros H; injection H as <-; reflexivity.
  - cbn. destruct b; cbn; intros H; injection H as <-; reflexivity.
Qed.
Lemma wf_single_opt b oa : (forall a, oa = Some a -> wf_atom b a) -> wf_value (VSingle (Some b) oa).
Proof. destruct oa as [a|]; cbn; auto. Qed.

(** The values gathered by multiple and ordered *)
Lemma gather_inv want vs : Forall wf_value vs -> forall bt acc bt' l,
  gather want bt acc vs = Ok (bt', l) ->
  (bt = None -> somes acc = []) -> (forall b, bt = Some b -> Forall (wf_atom b) (somes acc)) ->
  (bt' = None -> somes l = []) /\ (forall b, bt' = Some b -> Forall (wf_atom b) (somes l)).
Proof.
  induction 1 as [|v vs Hv Hvs IH]; intros bt acc bt' l H Hn Hs; cbn [gather] in H.
  - injection H as <- <-. auto.
  - destruct (base v) as [b|] eqn:Eb; [|eapply IH; eassumption].
    destruct (negb _) eqn:E1 in H; [discriminate|].
    assert (Hbt : bt = None \/ bt = Some b).
    { destruct bt as [b'|]; [|auto]. right. f_equal. apply baseType_eqb_eq. apply negb_false_iff in E1. exact E1. }
    assert (Hacc : Forall (wf_atom b) (somes acc)).
    { destruct Hbt as [->| ->]; [rewrite Hn by reflexivity; constructor|auto]. }
    pose proof (members_wf v Hv b Eb) as Hm.
    destruct (non_null v) eqn:Enn; cbn [negb] in H.
    2:{ eapply IH; [exact H|discriminate|]. intros b0 E0. injection E0 as <-. exact Hacc. }
    pose proof (somes_GetValues v) as Hg.
    destruct v as [|bt0|bt0 [a|]|bt0 [l0|]|bt0 [m|]|[l0|]]; cbn [card non_null] in *; try discriminate.
    + eapply IH; [exact H|discriminate|]. intros b0 E0. injection E0 as <-. rewrite somes_app.
      apply Forall_app. split; [exact Hacc|exact Hm].
    + destruct (cardinality_eqb COrdered want); [|discriminate].
      eapply IH; [exact H|discriminate|]. intros b0 E0. injection E0 as <-. rewrite somes_app.
      apply Forall_app. split; [exact Hacc|rewrite <- Hg; exact Hm].
    + destruct (cardinality_eqb CMultiple want); [|discriminate].
      eapply IH; [exact H|discriminate|]. intros b0 E0. injection E0 as <-. rewrite somes_app.
      apply Forall_app. split; [exact Hacc|rewrite <- Hg; exact Hm].
Qed.
Lemma set_multiple_wf bt l v : (bt = None -> somes l = []) -> (forall b, bt = Some b -> Forall (wf_atom b) (somes l)) ->
  finish (set_multiple bt (map (option_map raw_of) l)) = Ok v -> wf_value v.
Proof.
  intros Hn Hs H. destruct bt as [b|].
  - specialize (Hs b eq_refl). rewrite set_multiple_raws in H by exact Hs. cbn [finish] in H. injection H as <-.
    destruct (somes l) eqn:E; [exact I|]. apply bag_value; [apply bag_of_wf; exact Hs|].
    intros H. apply bag_of_nil in H. discriminate.
  - unfold set_multiple in H. rewrite multiple_loop_nones in H by auto. cbn in H. injection H as <-. exact I.
Qed.
Lemma set_ordered_wf bt l v : (bt = None -> somes l = []) -> (forall b, bt = Some b -> Forall (wf_atom b) (somes l)) ->
  finish (set_ordered bt (map (option_map raw_of) l)) = Ok v -> wf_value v.
Proof.
  intros Hn Hs H. destruct bt as [b|].
  - specialize (Hs b eq_refl). rewrite set_ordered_raws in H by exact Hs. cbn [finish] in H. injection H as <-.
    destruct (somes l) eqn:E; [exact I|]. cbn [wf_value]. split; [discriminate|].
    clear - Hs. induction Hs; cbn; constructor; eauto.
  - unfold set_ordered in H. rewrite ordered_loop_nones in H by auto. cbn in H. injection H as <-. exact I.
Qed.
Ltac unres H := repeat match type of H with
  | bind ?r _ = Ok _ => let E := fresh "E" in destruct r eqn:E; [cbn [bind] in H|discriminate]
  end.
Lemma op_multiple_wf vs v : Forall wf_value vs -> op_multiple vs = Ok v -> wf_value v.
Proof.
  intros Hw H. unfold op_multiple in H. destruct (gather _ _ _ _) as [[bt l]|] eqn:E; [|discriminate]. cbn [bind] in H.
  eapply gather_inv in E as [E1 E2]; [|exact Hw|reflexivity|discriminate]. eapply set_multiple_wf; eauto.
Qed.
Lemma op_ordered_wf vs v : Forall wf_value vs -> op_ordered vs = Ok v -> wf_value v.
Proof.
  intros Hw H. unfold op_ordered in H. destruct (gather _ _ _ _) as [[bt l]|] eqn:E; [|discriminate]. cbn [bind] in H.
  eapply gather_inv in E as [E1 E2]; [|exact Hw|reflexivity|discriminate]. eapply set_ordered_wf; eauto.
Qed.
Lemma op_index_wf n v w : wf_value v -> op_index n v = Ok w -> wf_value w.
Proof.
  intros Hw H. destruct v as [|bt|bt oa|bt ol|bt m|m]; cbn [op_index] in H; try discriminate.
  destruct (new_single bt None) as [r|] eqn:E; [|discriminate]. cbn [bind] in H. apply new_single_none_wf in E. subst r.
  destruct ol as [l|]; [|injection H as <-; destruct bt; exact I].
  destruct bt as [b|]; [|contradiction]. destruct n as [n|]; [|discriminate]. destruct (n <? 1); [discriminate|].
  destruct (n <=? Z.of_nat (length l)); [|injection H as <-; exact I].
  assert (Ha : forall a, nth (Z.to_nat (n - 1)) l None = Some a -> wf_atom b a).
  { intros a Ea. pose proof (members_wf _ Hw b eq_refl) as Hm. destruct Hw as [_ Hl].
    rewrite (nth_somes b l Hl) in Ea. apply nth_error_In in Ea.
    rewrite Forall_forall in Hm. apply Hm. exact Ea. }
  apply finish_set_single in H; [|exact Ha]. subst w. apply wf_single_opt. exact Ha.
Qed.
Lemma op_random_wf n v w : wf_value v -> op_random n v = Ok w -> wf_value w.
Proof.
  intros Hw H.
  assert (G : forall bt, base v = bt -> non_null v = true -> bt <> None ->
     (match GetValues v with [] => Err IndexError
      | l => finish (set_value (VSingle bt None) (opayload (nth (Nat.modulo n (length l)) l None))) end) = Ok w -> wf_value w).
  { intros bt Hb Hnn Hne G. destruct bt as [b|]; [|congruence].
    pose proof (GetValues_somes b v Hw Hb) as Eg. pose proof (members_wf v Hw b Hb) as Hm.
    pose proof (somes_GetValues v) as Hs.
    assert (Hc : Forall (wf_atom b) (somes (GetValues v))).
    { destruct v; cbn [card] in Hs; try (cbn; constructor; fail); rewrite <- Hs; exact Hm. }
    destruct (GetValues v) as [|x l] eqn:E; [discriminate|]. rewrite <- E in *. clear E x l.
    assert (Ha : forall a i, nth i (GetValues v) None = Some a -> wf_atom b a).
    { intros a i Ea. rewrite Eg in Ea. destruct (nth_in_or_default i (map Some (somes (GetValues v))) None) as [Hi|Hi]; [|congruence].
      rewrite Ea in Hi. apply in_map_iff in Hi as (a' & Ea' & Hi). injection Ea' as ->. eapply Forall_forall in Hc; eauto. }
    apply finish_set_single in G; [|intros a; apply Ha]. subst w. apply wf_single_opt. intros a; apply Ha. }
  destruct v as [|bt|bt oa|bt [l|]|bt [m|]|m]; cbn [op_random] in H; try discriminate; try (injection H as <-; exact I).
  - destruct (new_single bt None) as [r|] eqn:E; [|discriminate]. cbn [bind] in H. apply new_single_none_wf in E. subst r.
    destruct bt as [b|]; [|contradiction]. eapply (G (Some b)); try reflexivity; [discriminate|exact H].
  - destruct (new_single bt None) as [r|] eqn:E; [|discriminate]. cbn [bind] in H. apply new_single_none_wf in E. subst r.
    injection H as <-. destruct bt; exact I.
  - destruct (new_single bt None) as [r|] eqn:E; [|discriminate]. cbn [bind] in H. apply new_single_none_wf in E. subst r.
    destruct bt as [b|]; [|contradiction]. eapply (G (Some b)); try reflexivity; [discriminate|exact H].
  - destruct (new_single bt None) as [r|] eqn:E; [|discriminate]. cbn [bind] in H. apply new_single_none_wf in E. subst r.
    injection H as <-. destruct bt; exact I.
Qed.
Lemma op_field_wf f v w : wf_value v -> op_field_value f v = Ok w -> wf_value w.
Proof.
  intros Hw H. destruct v as [|bt|bt oa|bt ol|bt m|[m|]]; cbn [op_field_value] in H; try discriminate.
  - destruct (assoc f m) as [[b a]|] eqn:E; injection H as <-; [|exact I].
    destruct Hw as (_ & _ & Hf). apply assoc_In' in E. rewrite Forall_forall in Hf. apply Hf in E. exact E.
  - injection H as <-. exact I.
Qed.
Lemma new_container_null c bt v : new_container c bt = Ok v -> wf_value v.
Proof. destruct c as [[]|]; cbn; intros H; try discriminate; injection H as <-; destruct bt; exact I. Qed.
Lemma op_delete_wf vs v : Forall wf_value vs -> op_delete vs = Ok v -> wf_value v.
Proof.
  intros Hw H. unfold op_delete in H. destruct vs as [|s [|c [|]]]; try discriminate. cbn [two bind] in H.
  inversion Hw as [|x y Hs Hw']; subst. inversion Hw' as [|x y Hc Hw'']; subst. clear Hw Hw' Hw''.
  destruct (base c) as [b|] eqn:Eb; [|eapply new_container_null; exact H].
  destruct (base s) as [b1|] eqn:Eb1; [|eapply new_container_null; exact H].
  destruct (negb _) eqn:E1 in H; [discriminate|]. destruct (baseType_eqb b1 BDuration); [discriminate|].
  destruct (negb _) eqn:E2 in H; [discriminate|]. destruct (negb _) eqn:E3 in H; [discriminate|].
  destruct (new_container (card c) (Some b)) as [r|] eqn:Er; [|discriminate]. cbn [bind] in H.
  destruct (non_null s && non_null c) eqn:En; [|injection H as <-; eapply new_container_null; exact Er].
  set (f := filter _ _) in H.
  assert (Hf : Forall (wf_atom b) (somes f)).
  { unfold f. rewrite (GetValues_somes b c Hc Eb), filter_somes. apply filter_Forall.
    pose proof (somes_GetValues c) as Hs2. pose proof (members_wf c Hc b Eb) as Hm.
    destruct c; cbn [card] in Hs2; try (cbn; constructor; fail); rewrite <- Hs2; exact Hm. }
  destruct (card c) as [[]|]; cbn in E3, Er; try discriminate; injection Er as <-; cbn [set_value] in H.
  - eapply set_multiple_wf; [| |exact H]; [discriminate|]. intros b0 E0. injection E0 as <-. exact Hf.
  - eapply set_ordered_wf; [| |exact H]; [discriminate|]. intros b0 E0. injection E0 as <-. exact Hf.
  - discriminate.
Qed.
Lemma base_value_wf bt t v :
  match bt with Some BInteger => forall n, DecodeInteger t = Ok n -> int32 n | _ => True end ->
  new_single bt (Some (RText t)) = Ok v -> wf_value v.
Proof.
  intros Hi H. destruct bt as [b|]; cbn [new_single] in H; [|injection H as <-; exact I].
  destruct (match b with BFile => true | _ => false end) eqn:Eb; [destruct b; discriminate|].
  assert (H' : (oa <- parse_single b (RText t) ;; Ok (VSingle (Some b) oa)) = Ok v) by (destruct b; try discriminate; exact H).
  clear H Eb. destruct (parse_single b (RText t)) as [oa|] eqn:E; [|discriminate]. cbn [bind] in H'. injection H' as <-.
  apply wf_single_opt. intros a ->. eapply parse_wf; [exact E| | |reflexivity]; destruct b; auto.
Qed.
Lemma MapValue_wf m v w : MapValue m v = Ok w -> wf_value w.
Proof.
  unfold MapValue. intros H. unres H. destruct (_ || _); injection H as <-; exact I.
Qed.
Lemma AreaMapValue_wf m v w : AreaMapValue m v = Ok w -> wf_value w.
Proof.
  unfold AreaMapValue. intros H. unres H. destruct (negb _); [discriminate|]. unres H.
  destruct (_ || _); injection H as <-; exact I.
Qed.
Lemma catch_key_ok {A} (r : result A) v : catch_key r = Ok v -> r = Ok v.
Proof. destruct r as [|[]]; cbn; intros H; try discriminate; exact H. Qed.
Lemma op_fold_wf zop zu qop qu vs v : op_fold zop zu qop qu vs = Ok v -> wf_value v.
Proof.
  unfold op_fold. destruct vs as [|x l]; [discriminate|]. intros H. unres H.
  destruct a0 as [[]|]; try (injection H as <-; exact I); unres H; try (eapply mkint_wf; exact H);
    injection H as <-; apply mkfloat_wf.
Qed.

Ltac triv H := repeat first
  [ discriminate
  | match type of H with
    | Ok _ = Ok _ => injection H as <-; first [exact I | apply mkbool_wf | apply mkfloat_wf]
    | mkint _ = Ok _ => eapply mkint_wf; exact H
    | bind ?r _ = Ok _ => let E := fresh "E" in destruct r eqn:E; [cbn [bind] in H|discriminate]
    | (match ?x with _ => _ end) = Ok _ => let E := fresh "E" in destruct x eqn:E
    end ].

Lemma eval_wf st : wf_state st -> forall e, literals_ok e -> forall v, eval st e = Ok v -> wf_value v.
Proof.
  intros Hst. apply (expr_ind2 (fun e => literals_ok e -> forall v, eval st e = Ok v -> wf_value v)).
  intros e IH Hl v H. pose proof (literals_subs e Hl) as Hls.
  assert (IH' : Forall (fun e => forall v, eval st e = Ok v -> wf_value v) (subs e)).
  { apply Forall_forall. intros x Hx. rewrite Forall_forall in IH, Hls. intros w. apply IH; auto. }
  clear IH Hls.
  assert (IHm : forall vs, mapM (eval st) (subs e) = Ok vs -> Forall wf_value vs).
  { intros vs. apply mapM_Forall. exact IH'. }
  destruct e; cbn [subs] in *; cbn [eval] in H; try discriminate;
    try match type of IH' with Forall _ [_] => inversion IH' as [|x y IHe _]; subst; clear IH' end.
  - eapply base_value_wf; [|exact H]. destruct bt as [[]|]; auto.
  - unfold ev_variable in H. apply catch_key_ok in H. unfold get_var in H.
    destruct (assoc id (s_map st)) eqn:E; [|discriminate]. injection H as <-. eapply Hst; exact E.
  - unfold ev_default in H. apply catch_key_ok in H. unres H. unfold get_var in H.
    destruct (assoc _ (s_map st)) eqn:E2; [|discriminate]. injection H as <-. eapply Hst; exact E2.
  - unfold ev_correct in H. apply catch_key_ok in H. unres H. destruct (is_response a); [|discriminate]. unfold get_var in H.
    destruct (assoc _ (s_map st)) eqn:E2; [|discriminate]. injection H as <-. eapply Hst; exact E2.
  - unfold ev_map_response in H. apply catch_key_ok in H. unres H. destruct a as [d|]; [|discriminate].
    destruct (d_kind d) as [c [m|] ar| |]; try discriminate. unres H. eapply MapValue_wf; exact H.
  - unfold ev_map_response_point in H. apply catch_key_ok in H. unres H. destruct a as [d|]; [|discriminate].
    destruct (d_kind d) as [c m ar| |]; try discriminate. destruct (negb _); [discriminate|].
    destruct ar as [ar|]; [|discriminate]. unres H. eapply AreaMapValue_wf; exact H.
  - injection H as <-. exact I.
  - unfold op_random_integer in H. triv H.
  - unfold op_random_float in H. triv H.
  - unres H. eapply op_multiple_wf; [|exact H]; eauto.
  - unres H. eapply op_ordered_wf; [|exact H]; eauto.
  - unres H. unfold op_container_size in H. triv H.
  - unres H. unfold op_is_null in H. triv H.
  - unres H. eapply op_index_wf; [|exact H]; eauto.
  - unres H. eapply op_field_wf; [|exact H]; eauto.
  - unres H. eapply op_random_wf; [|exact H]; eauto.
  - unres H. unfold op_member in H. triv H.
  - unres H. eapply op_delete_wf; [|exact H]; eauto.
  - unres H. unfold op_contains in H. triv H.
  - unres H. unfold op_string_match in H. triv H.
  - unres H. unfold op_not in H. triv H.
  - unres H. unfold op_and in H. triv H.
  - unres H. unfold op_or in H. triv H.
  - unres H. unfold op_anyn in H. triv H.
  - unres H. unfold op_match in H. triv H.
  - unres H. unfold op_string_match in H. triv H.
  - unres H. unfold op_pattern_match in H. triv H.
  - unres H. unfold op_equal in H. triv H.
  - unres H. unfold op_equal_rounded in H. triv H.
  - unres H. unfold op_inside in H. triv H.
  - unres H. unfold op_compare in H. triv H.
  - unres H. unfold op_duration in H. triv H.
  - unres H. unfold op_duration in H. triv H.
  - unres H. eapply op_fold_wf; exact H.
  - unres H. eapply op_fold_wf; exact H.
  - unres H. unfold op_subtract in H. triv H.
  - unres H. unfold op_divide in H. triv H.
  - unres H. unfold op_power in H. triv H.
  - unres H. unfold op_integer in H. triv H.
  - unres H. unfold op_integer in H. triv H.
  - unres H. unfold op_truncate, op_to_integer in H. triv H.
  - unres H. unfold op_round, op_to_integer in H. triv H.
  - unres H. unfold op_integer_to_float in H. triv H.
Qed.

(** ** Evaluation reads only the variables mentioned *)
Lemma eval_ext st st' : s_item st = s_item st' -> forall e,
  (forall n, In n (mentions e) -> assoc n (s_map st) = assoc n (s_map st')) -> eval st e = eval st' e.
Proof.
  intros Hi. apply (expr_ind2 (fun e => (forall n, In n (mentions e) -> assoc n (s_map st) = assoc n (s_map st')) -> eval st e = eval st' e)).
  intros e IH Hm.
  assert (IH' : Forall (fun e => eval st e = eval st' e) (subs e)).
  { apply Forall_forall. intros x Hx. rewrite Forall_forall in IH. apply IH; [exact Hx|].
    intros n Hn. apply Hm. apply mentions_subs. apply in_flat_map. eauto. }
  assert (IHm : mapM (eval st) (subs e) = mapM (eval st') (subs e)).
  { clear - IH'. induction IH' as [|x l Hx Hl IH2]; [reflexivity|]. cbn [mapM]. rewrite Hx, IH2. reflexivity. }
  clear IH.
  destruct e; cbn [subs] in *; cbn [eval]; try reflexivity; try (rewrite IHm; reflexivity);
    try match type of IH' with Forall _ [_] => inversion IH' as [|x y IHe _]; subst; rewrite IHe; reflexivity end;
    cbn [mentions] in Hm.
  - unfold ev_variable, get_var. rewrite Hm by (left; reflexivity). reflexivity.
  - unfold ev_default, GetDeclaration, get_var, DEFAULT. rewrite Hi, (Hm id), (Hm (id ++ lit ".DEFAULT")); cbn; auto.
  - unfold ev_correct, GetDeclaration, get_var, CORRECT. rewrite Hi, (Hm id), (Hm (id ++ lit ".CORRECT")); cbn; auto.
  - unfold ev_map_response, GetDeclaration, get_var. rewrite Hi, (Hm id) by (left; reflexivity). reflexivity.
  - unfold ev_map_response_point, GetDeclaration, get_var. rewrite Hi, (Hm id) by (left; reflexivity). reflexivity.
Qed.
End P.
