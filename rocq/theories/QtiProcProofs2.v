(** Lemmas: which variables an operation of an item session touches, and their types *)
From Coq Require Import QArith Qcanon.
From Verif Require Import Py Dec XmlUtils Xsd XsdProofs XsdProofs2 Imscp QtiValue QtiExpr QtiSpec QtiProofs QtiProofs2 QtiProofs3 QtiProofs4
  QtiProc QtiProcSpec QtiProcProofs.
Open Scope Z_scope.
Open Scope list_scope.

Lemma assoc_sset {A} k (x : A) m k' : assoc k' (sset k x m) = if str_eqb k' k then Some x else assoc k' m.
Proof.
  induction m as [|[k0 y] m IH]; cbn [sset assoc]; [reflexivity|].
  destruct (str_eqb k k0) eqn:E; cbn [assoc].
  - apply str_eqb_eq in E. subst k0. destruct (str_eqb k' k); reflexivity.
  - rewrite IH. destruct (str_eqb k' k0) eqn:E2; [|reflexivity].
    apply str_eqb_eq in E2. subst k0. destruct (str_eqb k' k) eqn:E3; [|reflexivity].
    apply str_eqb_eq in E3. subst. rewrite str_eqb_refl in E. discriminate.
Qed.
Lemma assoc_sset_same {A} k (x : A) m : assoc k (sset k x m) = Some x.
Proof. rewrite assoc_sset, str_eqb_refl. reflexivity. Qed.
Lemma assoc_sset_other {A} k (x : A) m k' : k' <> k -> assoc k' (sset k x m) = assoc k' m.
Proof. intros H. rewrite assoc_sset. destruct (str_eqb k' k) eqn:E; [apply str_eqb_eq in E; contradiction|reflexivity]. Qed.
Lemma assoc_sdel {A} k (m : list (str * A)) k' : assoc k' (sdel k m) = if str_eqb k' k then None else assoc k' m.
Proof.
  induction m as [|[k0 y] m IH]; cbn [sdel assoc]; [destruct (str_eqb k' k); reflexivity|].
  destruct (str_eqb k k0) eqn:E; cbn [assoc]; rewrite IH.
  - apply str_eqb_eq in E. subst k0. destruct (str_eqb k' k); reflexivity.
  - destruct (str_eqb k' k0) eqn:E2; [|reflexivity].
    apply str_eqb_eq in E2. subst k0. destruct (str_eqb k' k) eqn:E3; [|reflexivity].
    apply str_eqb_eq in E3. subst. rewrite str_eqb_refl in E. discriminate.
Qed.

(** Names and roles *)
Lemma role_unique i : distinct_names i -> forall n r r', In (n, r) (variables i) -> In (n, r') (variables i) -> r = r'.
Proof.
  unfold distinct_names. induction (variables i) as [|[k x] l IH]; cbn; intros Hd n r r' H H'; [contradiction|].
  inversion Hd as [|? ? Hk Hl]; subst.
  assert (K : forall r, In (k, r) l -> False) by (intros r0 H0; apply Hk; apply in_map_iff; exists (k, r0); auto).
  destruct H as [H|H], H' as [H'|H'].
  - congruence.
  - injection H as <- <-. destruct (K _ H').
  - injection H' as <- <-. destruct (K _ H).
  - eapply IH; eassumption.
Qed.
Lemma in_template i d : In d (i_templates i) -> In (d_id d, Template d) (variables i).
Proof. intros H. unfold variables. apply in_or_app. left. apply in_map_iff. eauto. Qed.
Lemma in_builtin i n r : In (n, r) [(lit "numAttempts", Attempts); (lit "duration", Duration); (lit "completionStatus", Status)] ->
  In (n, r) (variables i).
Proof. intros H. unfold variables. apply in_or_app. right. apply in_or_app. left. exact H. Qed.
Lemma in_response_all i d : In d (i_responses i) ->
  incl [(d_id d, Response d); (CORRECT (d_id d), Correct d); (DEFAULT (d_id d), Default d); (SAVED (d_id d), Saved d)] (variables i).
Proof.
  intros H x Hx. unfold variables. apply in_or_app. right. apply in_or_app. right. apply in_or_app. left.
  apply in_flat_map. exists d. split; [exact H|exact Hx].
Qed.
Lemma in_outcome_all i d : In d (i_outcomes i) ->
  incl [(d_id d, Outcome d); (DEFAULT (d_id d), Default d)] (variables i).
Proof.
  intros H x Hx. unfold variables. apply in_or_app. right. apply in_or_app. right. apply in_or_app. right.
  apply in_flat_map. exists d. split; [exact H|exact Hx].
Qed.

Lemma declared i n d : assoc n (i_decls i) = Some d -> d_id d = n /\ (In d (i_responses i) \/ In d (i_outcomes i) \/ In d (i_templates i)).
Proof.
  intros H. apply assoc_In' in H. unfold i_decls in H. apply in_map_iff in H. destruct H as (d' & [= Hn Hd] & Hi). subst d'.
  split; [exact Hn|]. rewrite !in_app_iff in Hi. tauto.
Qed.
Lemma is_outcome_in i d : well_sorted i -> (In d (i_responses i) \/ In d (i_outcomes i) \/ In d (i_templates i)) ->
  is_outcome (Some d) = true -> In d (i_outcomes i).
Proof.
  intros (Ht & Ho & Hr) [H|[H|H]] E; [|exact H|].
  - destruct (Hr d H) as (c & m & a & K). cbn in E. rewrite K in E. discriminate.
  - cbn in E. rewrite (Ht d H) in E. discriminate.
Qed.
Lemma is_response_in i d : well_sorted i -> (In d (i_responses i) \/ In d (i_outcomes i) \/ In d (i_templates i)) ->
  is_response (Some d) = true -> In d (i_responses i).
Proof.
  intros (Ht & Ho & Hr) [H|[H|H]] E; [exact H| |].
  - cbn in E. rewrite (Ho d H) in E. discriminate.
  - cbn in E. rewrite (Ht d H) in E. discriminate.
Qed.
Lemma is_template_in i d : well_sorted i -> (In d (i_responses i) \/ In d (i_outcomes i) \/ In d (i_templates i)) ->
  is_template (Some d) = true -> In d (i_templates i).
Proof.
  intros (Ht & Ho & Hr) [H|[H|H]] E; [| |exact H].
  - destruct (Hr d H) as (c & m & a & K). cbn in E. rewrite K in E. discriminate.
  - cbn in E. rewrite (Ho d H) in E. discriminate.
Qed.

Section Touch.
Context {X : Ext}.

(** Types are kept by SetValue *)
Lemma set_value_type v p : card (fst (set_value v p)) = card v /\ base (fst (set_value v p)) = base v.
Proof.
  destruct v as [|bt|bt o|bt o|bt o|o]; cbn [set_value].
  - destruct p; auto.
  - destruct p; auto.
  - destruct bt as [b|]; destruct p as [|r|l|l]; cbn; auto; try (destruct (parse_single b r); cbn; auto); destruct b; cbn; auto.
  - destruct p as [|r|l|l]; cbn; auto. unfold set_ordered. destruct (ordered_loop bt [] l) as [[|x xs] [e|]]; cbn; auto.
  - destruct p as [|r|l|l]; cbn; auto. unfold set_multiple. destruct (multiple_loop bt [] l) as [[|x xs] [e|]]; cbn; auto.
  - destruct p as [|r|l|[|x l]]; cbn; auto.
Qed.
Definition vtype (v : value) : option cardinality * option baseType := (card v, base v).
Lemma new_value_type c bt v : new_value c bt = Ok v -> vtype v = (c, match c with Some CRecord => None | _ => bt end).
Proof.
  destruct c as [[]|]; cbn; try (intros [= <-]; reflexivity); try discriminate.
  unfold new_single. destruct bt as [[]|]; try discriminate; intros [= <-]; reflexivity.
Qed.
Lemma new_single_type bt r v : new_single bt r = Ok v -> vtype v = (Some CSingle, bt).
Proof.
  unfold new_single. destruct bt as [[]|]; try discriminate;
    try (destruct r; [|intros [= <-]; reflexivity]); try (intros [= <-]; reflexivity);
    match goal with |- context [bind ?e _] => destruct e; cbn [bind]; [intros [= <-]; reflexivity|discriminate] end.
Qed.
Lemma base_record v : card v = Some CRecord -> base v = None.
Proof. destruct v; cbn; congruence. Qed.
Lemma CopyValue_type v w : CopyValue v = Ok w -> vtype w = vtype v.
Proof.
  unfold CopyValue. destruct (new_value (card v) (base v)) as [u|] eqn:E; cbn [bind]; [|discriminate].
  apply new_value_type in E. pose proof (set_value_type u (payload_of v)) as [H1 H2].
  destruct (set_value u (payload_of v)) as [u' [e|]]; cbn; [discriminate|]. intros [= <-].
  cbn in H1, H2. unfold vtype in *. rewrite H1, H2, E.
  destruct (card v) as [[]|] eqn:Ec; try reflexivity. rewrite (base_record v Ec). reflexivity.
Qed.
Lemma defined_type d dv v : GetDefinedValue d dv = Ok v -> vtype v = declared_type d.
Proof.
  unfold GetDefinedValue, declared_type. destruct dv as [l|]; [|apply new_value_type].
  assert (G : forall c, c = d_card d -> c <> Some CSingle ->
    (w <- new_value c (d_base d);;
     match w with
     | VRecord m => m' <- defined_record m l;; Ok (VRecord m')
     | _ => finish (set_value w (PList (map (fun x => Some (RText (ve_text x))) l)))
     end) = Ok v -> vtype v = (d_card d, match d_card d with Some CRecord => None | _ => d_base d end)).
  { intros c <- Hc H. destruct (new_value c (d_base d)) as [w|] eqn:E; cbn [bind] in H; [|discriminate].
    apply new_value_type in E.
    assert (S : finish (set_value w (PList (map (fun x => Some (RText (ve_text x))) l))) = Ok v -> vtype v = vtype w).
    { pose proof (set_value_type w (PList (map (fun x => Some (RText (ve_text x))) l))) as [H1 H2].
      destruct (set_value w _) as [u' [e|]]; cbn; [discriminate|]. intros [= <-]. unfold vtype. cbn in H1, H2. congruence. }
    destruct w; try (rewrite (S H); exact E).
    destruct (defined_record v0 l); cbn [bind] in H; [|discriminate]. injection H as <-. exact E. }
  destruct (d_card d) as [c|] eqn:Ec; [|apply G; congruence].
  destruct c; try (apply G; congruence).
  destruct l as [|x l]; [discriminate|]. apply new_single_type.
Qed.

(** What an operation touches *)
Definition touch (ok : role -> Prop) (st st' : state) : Prop :=
  s_item st' = s_item st /\
  forall n r, In (n, r) (variables (s_item st)) -> ~ ok r -> assoc n (s_map st') = assoc n (s_map st).
Lemma touch_refl ok st : touch ok st st.
Proof. split; auto. Qed.
Lemma touch_trans ok s1 s2 s3 : touch ok s1 s2 -> touch ok s2 s3 -> touch ok s1 s3.
Proof.
  intros [H1 G1] [H2 G2]. split; [congruence|]. intros n r Hn Hr. rewrite (G2 n r); [|congruence|assumption]. apply (G1 n r Hn Hr).
Qed.
Lemma touch_weaken (ok ok' : role -> Prop) s1 s2 : (forall r, ok r -> ok' r) -> touch ok s1 s2 -> touch ok' s1 s2.
Proof. intros H [H1 G1]. split; [exact H1|]. intros n r Hn Hr. apply (G1 n r Hn). auto. Qed.
Lemma put_touch (ok : role -> Prop) st n r v : distinct_names (s_item st) -> In (n, r) (variables (s_item st)) -> ok r ->
  touch ok st (put st n v).
Proof.
  intros Hd Hn Hr. split; [reflexivity|]. intros m r' Hm Hk. cbn [put s_map]. apply assoc_sset_other.
  intros ->. apply Hk. rewrite (role_unique _ Hd _ _ _ Hm Hn). exact Hr.
Qed.
Lemma remove_touch (ok : role -> Prop) st n r : distinct_names (s_item st) -> In (n, r) (variables (s_item st)) -> ok r ->
  touch ok st (remove st n).
Proof.
  intros Hd Hn Hr. split; [reflexivity|]. intros m r' Hm Hk. cbn [remove s_map]. rewrite assoc_sdel.
  destruct (str_eqb m n) eqn:E; [|reflexivity]. apply str_eqb_eq in E. subst m.
  destruct Hk. rewrite (role_unique _ Hd _ _ _ Hm Hn). exact Hr.
Qed.

(** A state is good when its item is as hypothesized and its variables have their types *)
Definition good (i : item) (st : state) : Prop := s_item st = i /\ well_typed st.
(** A step keeps the types and touches only some roles *)
Definition step (i : item) (ok : role -> Prop) (st st' : state) : Prop :=
  s_item st = i -> touch ok st st' /\ (well_typed st -> well_typed st').
Lemma step_refl i ok st : step i ok st st.
Proof. intros H. split; [apply touch_refl|auto]. Qed.
Lemma step_trans i ok s1 s2 s3 : step i ok s1 s2 -> step i ok s2 s3 -> step i ok s1 s3.
Proof.
  intros H1 H2 Hi. destruct (H1 Hi) as [T1 W1]. destruct (H2 (eq_trans (proj1 T1) Hi)) as [T2 W2].
  split; [eapply touch_trans; eassumption|auto].
Qed.
Lemma step_weaken i (ok ok' : role -> Prop) s1 s2 : (forall r, ok r -> ok' r) -> step i ok s1 s2 -> step i ok' s1 s2.
Proof. intros H S Hi. destruct (S Hi) as [T W]. split; [eapply touch_weaken; eassumption|exact W]. Qed.

Ltac fs := try match goal with Hi : s_item ?st = ?i |- touch ?ok ?st ?st' /\ _ =>
  cut (step i ok st st'); [intros K; exact (K Hi)|] end.
Lemma put_typed st n v : well_typed st -> (forall r, In (n, r) (variables (s_item st)) -> vtype v = type_of r) ->
  well_typed (put st n v).
Proof.
  intros Hw Hn m r Hm. cbn [put s_item s_map] in *. rewrite assoc_sset. destruct (str_eqb m n) eqn:E.
  - apply str_eqb_eq in E. subst m. apply Hn, Hm.
  - apply Hw, Hm.
Qed.
Lemma put_step i (ok : role -> Prop) st n r v : distinct_names i -> In (n, r) (variables i) -> ok r ->
  (well_typed st -> vtype v = type_of r) -> step i ok st (put st n v).
Proof.
  intros Hd Hn Hr Hv Hi. subst i. split; [eapply put_touch; eassumption|].
  intros Hw. apply put_typed; [exact Hw|]. intros r' Hr'. rewrite (Hv Hw). f_equal. eapply role_unique; eassumption.
Qed.
(** Assigning a value of the type the variable has *)
Lemma put_same_step i (ok : role -> Prop) st n r old v : distinct_names i -> In (n, r) (variables i) -> ok r ->
  assoc n (s_map st) = Some old -> vtype v = vtype old -> s_item st = i -> step i ok st (put st n v).
Proof.
  intros Hd Hn Hr Ho Hv Hi. eapply put_step; try eassumption.
  intros Hw. rewrite Hv. subst i. specialize (Hw n r Hn). rewrite Ho in Hw. exact Hw.
Qed.
Lemma get_var_assoc st n v : get_var st n = Ok v -> assoc n (s_map st) = Some v.
Proof. unfold get_var. destruct (assoc n (s_map st)); congruence. Qed.

Lemma set_item_step i (ok : role -> Prop) n r w st : distinct_names i -> In (n, r) (variables i) -> ok r ->
  step i ok st (fst (set_item n w st)).
Proof.
  intros Hd Hn Hr.
  unfold set_item, lift. destruct (get_var st n) as [v|] eqn:E; [|apply step_refl].
  destruct (match card w with None => _ | _ => _ end); [apply step_refl|].
  destruct (match base w with None => _ | _ => _ end); [apply step_refl|].
  pose proof (set_value_type v (payload_of w)) as [H1 H2]. destruct (set_value v (payload_of w)) as [v' e]. cbn [fst] in *.
  intros Hi. fs. eapply put_same_step; try eassumption; [apply get_var_assoc, E|unfold vtype; congruence].
Qed.
Lemma store_step i (ok : role -> Prop) n r p st : distinct_names i -> In (n, r) (variables i) -> ok r ->
  step i ok st (fst (store n p st)).
Proof.
  intros Hd Hn Hr Hi. unfold store, lift. destruct (get_var st n) as [v|] eqn:E; [|exact (step_refl _ _ _ Hi)].
  pose proof (set_value_type v p) as [H1 H2]. destruct (set_value v p) as [v' e]. cbn [fst] in *.
  fs; eapply put_same_step; try eassumption; [apply get_var_assoc, E|unfold vtype; congruence].
Qed.
(** Any name at all may be set without changing types *)
Lemma set_item_typed n w st : well_typed st -> well_typed (fst (set_item n w st)) /\ s_item (fst (set_item n w st)) = s_item st.
Proof.
  intros Hw. unfold set_item, lift. destruct (get_var st n) as [v|] eqn:E; [|auto].
  destruct (match card w with None => _ | _ => _ end); [auto|].
  destruct (match base w with None => _ | _ => _ end); [auto|].
  pose proof (set_value_type v (payload_of w)) as [H1 H2]. destruct (set_value v (payload_of w)) as [v' e]. cbn [fst] in *.
  split; [|reflexivity]. apply put_typed; [exact Hw|]. intros r Hr. specialize (Hw n r Hr).
  rewrite (get_var_assoc _ _ _ E) in Hw. unfold vtype. congruence.
Qed.

Lemma andthen_step i ok st r k : step i ok st (fst r) -> (forall st', step i ok st' (fst (k st'))) ->
  step i ok st (fst (andthen r k)).
Proof.
  intros H1 H2. destruct r as [st1 [e|]]; cbn [andthen fst] in *; [exact H1|]. eapply step_trans; [exact H1|apply H2].
Qed.
Lemma each_step {A} i ok (f : A -> state -> eff) l : (forall x, In x l -> forall st, step i ok st (fst (f x st))) ->
  forall st, step i ok st (fst (each f l st)).
Proof.
  induction l as [|x l IH]; intros H st; cbn [each]; [apply step_refl|].
  apply andthen_step; [apply H; left; reflexivity|]. apply IH. intros y Hy. apply H. right. exact Hy.
Qed.
Lemma processing_step {A} i ok (act : A -> state -> eff) : (forall a st, step i ok st (fst (act a st))) ->
  forall rs st, step i ok st (fst (processing A act rs st)).
Proof.
  intros Ha rs st. apply (processing_inv A act (fun st' => step i ok st st')); [|apply step_refl].
  intros a st' H. eapply step_trans; [exact H|apply Ha].
Qed.

(** The roles each event may touch *)
Definition r_response (r : role) : Prop := (exists d, r = Outcome d) \/ r = Status.
Definition r_template (r : role) : Prop := exists d, r = Template d \/ r = Correct d \/ r = Default d.

Section Item.
Variable i : item.
Hypothesis Hd : distinct_names i.
Hypothesis Hs : well_sorted i.

Lemma status_in : In (completionStatus, Status) (variables i).
Proof. apply in_builtin. cbn. auto. Qed.
Lemma attempts_in : In (numAttempts, Attempts) (variables i).
Proof. apply in_builtin. cbn. auto. Qed.
Lemma duration_in : In (duration, Duration) (variables i).
Proof. apply in_builtin. cbn. auto. Qed.

Lemma IsOutcome_role st n : s_item st = i -> IsOutcome st n = Ok true -> exists r, In (n, r) (variables i) /\ r_response r.
Proof.
  intros Hi. unfold IsOutcome, GetDeclaration. rewrite Hi. destruct (assoc n (s_map st)); cbn [bind]; [|discriminate].
  destruct (assoc n (i_decls i)) as [d|] eqn:E.
  - intros [= H]. destruct (declared _ _ _ E) as [<- Hin]. pose proof (is_outcome_in i d Hs Hin H) as Ho.
    exists (Outcome d). split; [apply (in_outcome_all i d Ho); left; reflexivity|left; eauto].
  - intros [= H]. apply str_eqb_eq in H. subst n. exists Status. split; [apply status_in|right; reflexivity].
Qed.
Lemma run_set_outcome_step a st : step i r_response st (fst (run_set_outcome a st)).
Proof.
  intros Hi. unfold run_set_outcome, lift. destruct (so_expr a) as [e|]; [|exact (step_refl _ _ _ Hi)].
  destruct (eval st e) as [v|]; [|exact (step_refl _ _ _ Hi)].
  destruct (IsOutcome st (so_id a)) as [[]|] eqn:E; try (exact (step_refl _ _ _ Hi)).
  destruct (IsOutcome_role _ _ Hi E) as (r & Hr & Hk). fs; eapply set_item_step; eassumption.
Qed.
Lemma ResponseProcessing_step rp st : step i r_response st (fst (ResponseProcessing rp st)).
Proof. apply processing_step. apply run_set_outcome_step. Qed.

Lemma run_template_action_step a st : step i r_template st (fst (run_template_action a st)).
Proof.
  intros Hi. unfold run_template_action, lift.
  destruct a as [id [e|]|id [e|]|id [e|]]; try (exact (step_refl _ _ _ Hi));
    (destruct (eval st e) as [v|]; [|exact (step_refl _ _ _ Hi)]).
  - unfold IsTemplate, GetDeclaration. rewrite Hi. destruct (assoc id (s_map st)); cbn [bind]; [|exact (step_refl _ _ _ Hi)].
    destruct (is_template (assoc id (i_decls i))) eqn:E; [|exact (step_refl _ _ _ Hi)].
    destruct (assoc id (i_decls i)) as [d|] eqn:Ed; [|discriminate]. destruct (declared _ _ _ Ed) as [<- Hin].
    pose proof (is_template_in i d Hs Hin E) as Ho. fs; eapply set_item_step; try eassumption; [apply in_template, Ho|]. exists d. auto.
  - unfold GetDeclaration. rewrite Hi. destruct (assoc id (s_map st)); [|exact (step_refl _ _ _ Hi)].
    destruct (is_response (assoc id (i_decls i))) eqn:E; [|exact (step_refl _ _ _ Hi)].
    destruct (assoc id (i_decls i)) as [d|] eqn:Ed; [|discriminate]. destruct (declared _ _ _ Ed) as [<- Hin].
    pose proof (is_response_in i d Hs Hin E) as Ho. fs; eapply (set_item_step i _ _ (Correct d)); try eassumption; [|exists d; auto].
    apply (in_response_all i d Ho). cbn. auto.
  - unfold GetDeclaration. rewrite Hi. destruct (assoc id (s_map st)); [|exact (step_refl _ _ _ Hi)].
    destruct (is_response (assoc id (i_decls i)) || is_outcome (assoc id (i_decls i))) eqn:E; [|exact (step_refl _ _ _ Hi)].
    destruct (assoc id (i_decls i)) as [d|] eqn:Ed; [|discriminate]. destruct (declared _ _ _ Ed) as [<- Hin].
    apply orb_true_iff in E. fs; eapply (set_item_step i _ _ (Default d)); try eassumption; [|exists d; auto]. destruct E as [E|E].
    + pose proof (is_response_in i d Hs Hin E) as Ho. apply (in_response_all i d Ho). cbn. auto.
    + pose proof (is_outcome_in i d Hs Hin E) as Ho. apply (in_outcome_all i d Ho). cbn. auto.
Qed.
Lemma TemplateProcessing_step tp st : step i r_template st (fst (TemplateProcessing tp st)).
Proof. apply processing_step. apply run_template_action_step. Qed.

Definition r_outcome (r : role) : Prop := exists d, r = Outcome d.
Lemma outcome_default_step d st : In d (i_outcomes i) -> step i r_outcome st (fst (outcome_default d st)).
Proof.
  intros Ho Hi. unfold outcome_default, lift. destruct (get_var st (DEFAULT (d_id d))) as [dv|] eqn:E; [|exact (step_refl _ _ _ Hi)].
  destruct (CopyValue dv) as [v|] eqn:Ec; [|exact (step_refl _ _ _ Hi)]. cbn [fst].
  apply CopyValue_type in Ec. apply get_var_assoc in E.
  fs; eapply (put_step i _ _ _ (Outcome d)); try eassumption.
  - apply (in_outcome_all i d Ho). cbn. auto.
  - exists d. reflexivity.
  - intros Hw. assert (T : vtype v = declared_type d).
    { rewrite Ec. specialize (Hw (DEFAULT (d_id d)) (Default d)). rewrite E in Hw. apply Hw.
      rewrite Hi. apply (in_outcome_all i d Ho). cbn. auto. }
    cbn [type_of]. rewrite <- T. destruct v as [| |[[]|] [|]| | |]; reflexivity.
Qed.
Lemma SetOutcomeDefaults_step st : step i r_outcome st (fst (SetOutcomeDefaults st)).
Proof.
  intros Hi. unfold SetOutcomeDefaults. rewrite Hi. fs; apply each_step. intros d H st'. apply outcome_default_step, H.
Qed.
Lemma poke_step (ok : role -> Prop) n r a st : In (n, r) (variables i) -> ok r -> step i ok st (fst (poke n a st)).
Proof.
  intros Hn Hr Hi. unfold poke, lift. destruct (get_var st n) as [v|] eqn:E; [|exact (step_refl _ _ _ Hi)].
  destruct v; try (exact (step_refl _ _ _ Hi)). cbn [fst]. apply get_var_assoc in E. fs; eapply put_same_step; try eassumption. reflexivity.
Qed.
Definition r_begin (r : role) : Prop := (exists d, r = Outcome d) \/ r = Status \/ r = Attempts \/ r = Duration.
Lemma BeginSession_step st : step i r_begin st (fst (BeginSession st)).
Proof.
  unfold BeginSession. apply andthen_step; [apply (poke_step _ _ Status); [apply status_in|unfold r_begin; auto]|intros st1].
  apply andthen_step; [eapply step_weaken; [|apply SetOutcomeDefaults_step]; unfold r_begin, r_outcome; auto|intros st2].
  apply andthen_step; [apply (poke_step _ _ Attempts); [apply attempts_in|unfold r_begin; auto]|intros st3].
  apply (poke_step _ _ Duration); [apply duration_in|unfold r_begin; auto].
Qed.
Definition r_attempt (r : role) : Prop := (exists d, r = Response d) \/ r = Status \/ r = Attempts.
Lemma response_default_step d st : In d (i_responses i) -> step i (fun r => r = Response d) st (fst (response_default d st)).
Proof.
  intros Ho Hi. unfold response_default, lift. destruct (get_var st (DEFAULT (d_id d))) as [dv|] eqn:E; [|exact (step_refl _ _ _ Hi)].
  destruct (CopyValue dv) as [v|] eqn:Ec; [|exact (step_refl _ _ _ Hi)]. cbn [fst].
  apply CopyValue_type in Ec. apply get_var_assoc in E.
  fs; eapply (put_step i _ _ _ (Response d)); try eassumption; [|reflexivity|].
  - apply (in_response_all i d Ho). cbn. auto.
  - intros Hw. cbn [type_of]. rewrite Ec. specialize (Hw (DEFAULT (d_id d)) (Default d)). rewrite E in Hw. apply Hw.
    rewrite Hi. apply (in_response_all i d Ho). cbn. auto.
Qed.
Lemma BeginAttempt_step st : step i r_attempt st (fst (BeginAttempt st)).
Proof.
  intros Hi. unfold BeginAttempt, lift. destruct (get_var st numAttempts) as [v|] eqn:E; [|exact (step_refl _ _ _ Hi)].
  apply get_var_assoc in E.
  destruct v as [| |bt [a|]| | |]; try (exact (step_refl _ _ _ Hi)). destruct a; try (exact (step_refl _ _ _ Hi)).
  pose proof (set_value_type (VSingle bt (Some (AInt n))) (PRaw (RInt (n + 1)))) as [H1 H2].
  destruct (set_value _ (PRaw (RInt (n + 1)))) as [v' e]. cbn [fst] in H1, H2.
  revert Hi. apply andthen_step.
  - intros Hi. cbn [fst]. fs; eapply (put_same_step i _ _ _ Attempts); try eassumption.
    + apply attempts_in.
    + unfold r_attempt. auto.
    + unfold vtype. congruence.
  - intros st1. destruct (n + 1 =? 1); [|apply step_refl].
    apply andthen_step.
    + intros Hi. rewrite Hi. fs; apply each_step.
      intros d H st'. eapply step_weaken; [|apply response_default_step, H]. intros r ->. unfold r_attempt. eauto.
    + intros st2. destruct (new_single (Some BIdentifier) (Some (RText (lit "unknown")))) as [u|] eqn:Eu; [|apply step_refl].
      cbn [fst]. apply new_single_type in Eu. fs; eapply (put_step i _ _ _ Status); [exact Hd|apply status_in|unfold r_attempt; auto|].
      intros _. exact Eu.
Qed.

Definition r_saved (r : role) : Prop := exists d, r = Saved d.
Lemma save_parameter_step prefix p st : step i r_saved st (fst (save_parameter prefix p st)).
Proof.
  destruct p as [p x]. unfold save_parameter.
  destruct (negb (starts_with_prefix prefix p)); [apply step_refl|].
  set (name := hd [] (split_on 46 (skipn (length prefix) p))). intros Hi. unfold lift, GetDeclaration. rewrite Hi.
  destruct (assoc name (s_map st)); [|exact (step_refl _ _ _ Hi)].
  destruct (assoc name (i_decls i)) as [d|] eqn:Ed; [|exact (step_refl _ _ _ Hi)].
  destruct (is_response (Some d)) eqn:Er; cbn [negb]; [|exact (step_refl _ _ _ Hi)].
  destruct (declared _ _ _ Ed) as [Hn Hin]. pose proof (is_response_in i d Hs Hin Er) as Ho.
  assert (Hsv : In (SAVED name, Saved d) (variables i)). { rewrite <- Hn. apply (in_response_all i d Ho). cbn. auto. }
  revert Hi. apply andthen_step.
  - destruct (assoc (SAVED name) (s_map st)); [apply step_refl|].
    destruct (new_value (d_card d) (d_base d)) as [w|] eqn:En; [|apply step_refl]. cbn [fst].
    eapply put_step; try eassumption; [exists d; reflexivity|]. intros _. apply new_value_type in En. exact En.
  - intros st1. destruct (d_card d) as [[]|]; try apply step_refl.
    + eapply store_step; try eassumption. exists d. reflexivity.
    + destruct (Nat.eqb _ _); apply step_refl.
    + destruct x; [|apply step_refl]. eapply store_step; try eassumption. exists d. reflexivity.
Qed.
Lemma SaveParameters_step prefix ps st : step i r_saved st (fst (SaveParameters prefix ps st)).
Proof. apply each_step. intros p _ st'. apply save_parameter_step. Qed.
Definition r_commit (r : role) : Prop := exists d, r = Saved d \/ r = Response d.
Lemma remove_step (ok : role -> Prop) st n r : In (n, r) (variables i) -> ok r -> optional r = true -> step i ok st (remove st n).
Proof.
  intros Hn Hr Hk Hi. split; [rewrite <- Hi in *; eapply remove_touch; eassumption|].
  intros Hw m r' Hm. cbn [remove s_item s_map] in *. rewrite assoc_sdel. destruct (str_eqb m n) eqn:E.
  - apply str_eqb_eq in E. subst m. rewrite Hi in Hm. rewrite (role_unique i Hd _ _ _ Hm Hn). exact Hk.
  - apply Hw, Hm.
Qed.
Lemma commit_saved_step d st : In d (i_responses i) -> step i (fun r => r = Saved d \/ r = Response d) st (fst (commit_saved d st)).
Proof.
  intros Ho. unfold commit_saved. destruct (assoc (SAVED (d_id d)) (s_map st)) as [w|]; [|apply step_refl].
  apply andthen_step.
  - eapply (store_step i _ _ (Response d)); [exact Hd| |right; reflexivity]. apply (in_response_all i d Ho). cbn. auto.
  - intros st1. cbn [fst]. eapply (remove_step _ _ _ (Saved d)); [|left; reflexivity|reflexivity].
    apply (in_response_all i d Ho). cbn. auto.
Qed.
Lemma EndAttempt_step rp st : step i r_response st (fst (EndAttempt rp st)).
Proof.
  unfold EndAttempt. apply andthen_step; [|apply ResponseProcessing_step].
  destruct (i_adaptive (s_item st)); [apply step_refl|]. eapply step_weaken; [|apply SetOutcomeDefaults_step].
  unfold r_outcome, r_response. auto.
Qed.
Definition r_submit (r : role) : Prop := r_commit r \/ r_response r.
Lemma SubmitSession_step prefix rp ps st : step i r_submit st (fst (SubmitSession prefix rp ps st)).
Proof.
  unfold SubmitSession. apply andthen_step.
  - eapply step_weaken; [|apply SaveParameters_step]. unfold r_submit, r_commit, r_saved. intros r [d ->]. eauto.
  - intros st1. apply andthen_step.
    + intros Hi. rewrite Hi. fs; apply each_step. intros d H st'. eapply step_weaken; [|apply commit_saved_step, H].
      unfold r_submit, r_commit. intros r [-> | ->]; eauto.
    + intros st2. eapply step_weaken; [|apply EndAttempt_step]. unfold r_submit. auto.
Qed.
Lemma TemplateDefault_step n v st : step i r_template st (fst (TemplateDefault_Run n v st)).
Proof.
  intros Hi. unfold TemplateDefault_Run, GetDeclaration. rewrite Hi.
  destruct (assoc n (s_map st)); [|exact (step_refl _ _ _ Hi)].
  destruct (assoc n (i_decls i)) as [d|] eqn:Ed; [|exact (step_refl _ _ _ Hi)].
  destruct (is_template (Some d)) eqn:E; [|exact (step_refl _ _ _ Hi)].
  destruct (declared _ _ _ Ed) as [<- Hin]. pose proof (is_template_in i d Hs Hin E) as Ho.
  fs; eapply set_item_step; try eassumption; [apply in_template, Ho|]. exists d. auto.
Qed.

(** The whole list of events *)
Definition r_event (ev : event) (r : role) : Prop :=
  match ev with
  | EvSelectClone | EvTemplateDefault _ _ => r_template r
  | EvBeginSession => r_begin r
  | EvBeginAttempt => r_attempt r
  | EvSave _ => r_saved r
  | EvSubmit _ => r_submit r
  | EvSet _ _ => True
  end.
Lemma event_step p ev st : step i (r_event ev) st (fst (apply_event p ev st)).
Proof.
  destruct ev; cbn [apply_event r_event].
  - apply TemplateProcessing_step.
  - apply BeginSession_step.
  - apply BeginAttempt_step.
  - apply SaveParameters_step.
  - apply SubmitSession_step.
  - intros Hi. split.
    + split; [|intros ? ? ? K; destruct (K I)].
      unfold set_item, lift. destruct (get_var st n); [|reflexivity].
      destruct (match card v with None => _ | _ => _ end); [reflexivity|].
      destruct (match base v with None => _ | _ => _ end); [reflexivity|]. destruct (set_value _ _). reflexivity.
    + intros Hw. apply set_item_typed, Hw.
  - apply TemplateDefault_step.
Qed.
Lemma history_typed p evs : forall st, s_item st = i -> well_typed st ->
  s_item (history p evs st) = i /\ well_typed (history p evs st).
Proof.
  induction evs as [|ev evs IH]; intros st Hi Hw; cbn [history]; [auto|].
  destruct (event_step p ev st Hi) as [[T _] W]. apply IH; [congruence|auto].
Qed.

(** The initial state *)
Definition write (m : list (str * value)) (w : str * value) := sset (fst w) (snd w) m.
Definition typed_writes (ws : list (str * value)) : Prop :=
  Forall (fun w => exists r, In (fst w, r) (variables i) /\ vtype (snd w) = type_of r) ws.
Lemma writes_assoc ws : forall m n v, assoc n (fold_left write ws m) = Some v -> In (n, v) ws \/ assoc n m = Some v.
Proof.
  induction ws as [|[k x] ws IH]; cbn [fold_left]; intros m n v H; [auto|].
  apply IH in H. destruct H as [H|H]; [cbn; auto|]. unfold write in H. cbn [fst snd] in H. rewrite assoc_sset in H.
  destruct (str_eqb n k) eqn:E; [|auto]. apply str_eqb_eq in E. subst. injection H as ->. cbn. auto.
Qed.
Lemma writes_present ws : forall m n, In n (map fst ws) \/ assoc n m <> None -> assoc n (fold_left write ws m) <> None.
Proof.
  induction ws as [|[k x] ws IH]; cbn [fold_left map fst]; intros m n H; [destruct H as [[]|H]; exact H|].
  apply IH. unfold write. cbn [fst snd]. rewrite assoc_sset. destruct (str_eqb n k) eqn:E.
  - right. discriminate.
  - destruct H as [[H|H]|H]; auto. subst. rewrite str_eqb_refl in E. discriminate.
Qed.
Lemma init_templates_writes l : incl l (i_templates i) -> forall m m', init_templates l m = Ok m' ->
  exists ws, m' = fold_left write ws m /\ typed_writes ws /\ (forall d, In d l -> In (d_id d) (map fst ws)).
Proof.
  induction l as [|d l IH]; intros Hl m m' H; cbn [init_templates] in H.
  - injection H as <-. exists []. repeat split; [constructor|intros d []].
  - destruct (GetDefaultValue d) as [v|] eqn:E; cbn [bind] in H; [|discriminate].
    apply IH in H; [|intros x Hx; apply Hl; right; exact Hx]. destruct H as (ws & -> & Ht & Hp).
    exists ((d_id d, v) :: ws). split; [reflexivity|]. split.
    + constructor; [|exact Ht]. exists (Template d). split; [apply in_template, Hl; left; reflexivity|]. apply defined_type in E. exact E.
    + intros d' [<-|Hd']; cbn; auto.
Qed.
Lemma init_responses_writes l : incl l (i_responses i) -> forall m m', init_responses l m = Ok m' ->
  exists ws, m' = fold_left write ws m /\ typed_writes ws /\
    (forall d, In d l -> incl [d_id d; CORRECT (d_id d); DEFAULT (d_id d)] (map fst ws)).
Proof.
  induction l as [|d l IH]; intros Hl m m' H; cbn [init_responses] in H.
  - injection H as <-. exists []. repeat split; [constructor|intros d []].
  - destruct (GetCorrectValue d) as [c|] eqn:Ec; cbn [bind] in H; [|discriminate].
    destruct (GetDefaultValue d) as [v|] eqn:E; cbn [bind] in H; [|discriminate].
    destruct (new_value (d_card d) (d_base d)) as [w|] eqn:Ew; cbn [bind] in H; [|discriminate].
    apply IH in H; [|intros x Hx; apply Hl; right; exact Hx]. destruct H as (ws & -> & Ht & Hp).
    apply defined_type in E. apply defined_type in Ec. apply new_value_type in Ew.
    assert (Hin : In d (i_responses i)) by (apply Hl; left; reflexivity). pose proof (in_response_all i d Hin) as Ha.
    exists ((CORRECT (d_id d), c) :: (DEFAULT (d_id d), v) :: (d_id d, w) :: ws). split; [reflexivity|]. split.
    + repeat constructor; [exists (Correct d)|exists (Default d)|exists (Response d)|exact Ht];
        (split; [apply Ha; cbn; auto|cbn; assumption]).
    + intros d' [<-|Hd'].
      * intros x [<-|[<-|[<-|[]]]]; cbn; auto.
      * intros x Hx. cbn. right. right. right. exact (Hp d' Hd' x Hx).
Qed.
Lemma init_outcomes_writes l : incl l (i_outcomes i) -> forall m m', init_outcomes l m = Ok m' ->
  exists ws, m' = fold_left write ws m /\ typed_writes ws /\
    (forall d, In d l -> incl [d_id d; DEFAULT (d_id d)] (map fst ws)).
Proof.
  induction l as [|d l IH]; intros Hl m m' H; cbn [init_outcomes] in H.
  - injection H as <-. exists []. repeat split; [constructor|intros d []].
  - destruct (GetDefaultValue d) as [v|] eqn:E; cbn [bind] in H; [|discriminate].
    destruct (new_value (d_card d) (d_base d)) as [w|] eqn:Ew; cbn [bind] in H; [|discriminate].
    apply IH in H; [|intros x Hx; apply Hl; right; exact Hx]. destruct H as (ws & -> & Ht & Hp).
    apply defined_type in E. apply new_value_type in Ew.
    assert (Hin : In d (i_outcomes i)) by (apply Hl; left; reflexivity). pose proof (in_outcome_all i d Hin) as Ha.
    exists ((DEFAULT (d_id d), v) :: (d_id d, w) :: ws). split; [reflexivity|]. split.
    + repeat constructor; [exists (Default d)|exists (Outcome d)|exact Ht]; (split; [apply Ha; cbn; auto|cbn; assumption]).
    + intros d' [<-|Hd'].
      * intros x [<-|[<-|[]]]; cbn; auto.
      * intros x Hx. cbn. right. right. exact (Hp d' Hd' x Hx).
Qed.
Lemma init_typed st : ItemSessionState i = Ok st -> s_item st = i /\ well_typed st.
Proof.
  unfold ItemSessionState. destruct (init_templates (i_templates i) []) as [m1|] eqn:E1; cbn [bind]; [|discriminate].
  destruct (init_responses _ _) as [m2|] eqn:E2; cbn [bind]; [|discriminate].
  destruct (init_outcomes _ m2) as [m3|] eqn:E3; cbn [bind]; [|discriminate]. intros [= <-]. split; [reflexivity|].
  apply init_templates_writes in E1; [|apply incl_refl]. destruct E1 as (w1 & -> & T1 & P1).
  apply init_responses_writes in E2; [|apply incl_refl]. destruct E2 as (w2 & -> & T2 & P2).
  apply init_outcomes_writes in E3; [|apply incl_refl]. destruct E3 as (w3 & -> & T3 & P3).
  set (wb := [(numAttempts, VSingle (Some BInteger) None); (duration, VSingle (Some BDuration) None);
              (completionStatus, VSingle (Some BIdentifier) None)]).
  set (ws := w1 ++ wb ++ w2 ++ w3).
  assert (Em : fold_left write w3 (fold_left write w2 (sset completionStatus (VSingle (Some BIdentifier) None)
    (sset duration (VSingle (Some BDuration) None) (sset numAttempts (VSingle (Some BInteger) None) (fold_left write w1 []))))) =
    fold_left write ws []).
  { unfold ws. rewrite !fold_left_app. reflexivity. }
  rewrite Em.
  assert (T : typed_writes ws).
  { unfold ws, typed_writes. rewrite !Forall_app. repeat split; try assumption.
    repeat constructor; [exists Attempts|exists Duration|exists Status]; (split; [|reflexivity]);
      [apply attempts_in|apply duration_in|apply status_in]. }
  intros n r Hn. cbn [s_item s_map] in *. destruct (assoc n (fold_left write ws [])) as [v|] eqn:Ev.
  - apply writes_assoc in Ev. destruct Ev as [Ev|Ev]; [|discriminate].
    unfold typed_writes in T. rewrite Forall_forall in T. apply T in Ev. destruct Ev as (r' & Hr' & Hv). cbn [fst snd] in *.
    rewrite (role_unique i Hd _ _ _ Hn Hr'). exact Hv.
  - destruct (optional r) eqn:Eo; [reflexivity|]. exfalso. revert Ev. apply writes_present. left.
    unfold ws. rewrite !map_app, !in_app_iff.
    unfold variables in Hn. rewrite !in_app_iff in Hn. destruct Hn as [Hn|[Hn|[Hn|Hn]]].
    + apply in_map_iff in Hn. destruct Hn as (d & [= <- <-] & Hn). left. apply P1, Hn.
    + right. left. cbn in Hn. destruct Hn as [[= <- <-]|[[= <- <-]|[[= <- <-]|[]]]]; cbn; auto.
    + apply in_flat_map in Hn. destruct Hn as (d & Hdin & Hn). right. right. left. apply (P2 d Hdin).
      cbn in Hn. destruct Hn as [[= <- <-]|[[= <- <-]|[[= <- <-]|[[= <- <-]|[]]]]]; cbn; auto. discriminate.
    + apply in_flat_map in Hn. destruct Hn as (d & Hdin & Hn). right. right. right. apply (P3 d Hdin).
      cbn in Hn. destruct Hn as [[= <- <-]|[[= <- <-]|[]]]; cbn; auto.
Qed.
End Item.
End Touch.
