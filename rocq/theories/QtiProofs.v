(** Proofs about QTI values and expressions: basics, three-valued logic, arithmetic. *)
From Coq Require Import QArith Qcanon Qround.
From Verif Require Import Py Dec XmlUtils Xsd XsdSpec XsdProofs XsdProofs2 QtiValue QtiExpr QtiSpec.
Open Scope Z_scope.
Open Scope list_scope.

(** ** Equality tests *)
Lemma baseType_eqb_eq a b : baseType_eqb a b = true <-> a = b.
Proof. destruct a, b; cbn; split; intros H; try reflexivity; try discriminate. Qed.
Lemma baseType_eqb_refl a : baseType_eqb a a = true.
Proof. destruct a; reflexivity. Qed.
Lemma cardinality_eqb_eq a b : cardinality_eqb a b = true <-> a = b.
Proof. destruct a, b; cbn; split; intros H; try reflexivity; try discriminate. Qed.
Lemma qc_eqb_eq a b : qc_eqb a b = true <-> a = b.
Proof.
  unfold qc_eqb. split; [apply Qc_eq_bool_correct|]. intros ->.
  unfold Qc_eq_bool. destruct (Qc_eq_dec b b); congruence.
Qed.
Lemma qc_ltb_lt a b : qc_ltb a b = true <-> Qclt a b.
Proof.
  unfold qc_ltb. rewrite Qclt_alt. destruct (Qccompare a b); split; intros H; try reflexivity; discriminate.
Qed.
Lemma qc_leb_le a b : qc_leb a b = true <-> Qcle a b.
Proof.
  unfold qc_leb. rewrite Qcle_alt. destruct (Qccompare a b); split; intros H; try reflexivity; try discriminate; congruence.
Qed.
Lemma qc_ltb_nlt a b : qc_ltb a b = false <-> Qcle b a.
Proof.
  split.
  - intros H. apply Qcnot_lt_le. intros H2. apply qc_ltb_lt in H2. congruence.
  - intros H. destruct (qc_ltb a b) eqn:E; [|reflexivity]. apply qc_ltb_lt in E.
    exfalso. apply (Qclt_not_le _ _ E). exact H.
Qed.
Lemma atom_eqb_eq a b : atom_eqb a b = true <-> a = b.
Proof.
  destruct a, b; cbn [atom_eqb]; split; intros H; try discriminate;
    try (apply andb_true_iff in H as [H1 H2]);
    repeat match goal with
    | H : Bool.eqb _ _ = true |- _ => apply Bool.eqb_prop in H
    | H : str_eqb _ _ = true |- _ => apply str_eqb_eq in H
    | H : qc_eqb _ _ = true |- _ => apply qc_eqb_eq in H
    | H : (_ =? _) = true |- _ => apply Z.eqb_eq in H
    end; subst; try reflexivity;
    injection H; intros; subst;
    rewrite ?Bool.eqb_reflx, ?str_eqb_refl, ?Z.eqb_refl; try reflexivity.
  apply qc_eqb_eq; reflexivity.
Qed.
Lemma oatom_eqb_eq a b : oatom_eqb a b = true <-> a = b.
Proof.
  unfold oatom_eqb, opt_eqb. destruct a as [a|], b as [b|]; try (split; intros; try reflexivity; discriminate).
  rewrite atom_eqb_eq. split; [intros ->; reflexivity|intros H; injection H; auto].
Qed.
Lemma oatom_eqb_refl a : oatom_eqb a a = true.
Proof. apply oatom_eqb_eq; reflexivity. Qed.
Lemma oatom_eqb_neq a b : oatom_eqb a b = false <-> a <> b.
Proof. rewrite <- oatom_eqb_eq. destruct (oatom_eqb a b); split; congruence. Qed.

(** ** The checks *)
Lemma check_bases_ok ret l : forall r, check_bases ret l = Ok r ->
  (forall b, ret = Some b -> r = Some b) /\
  (forall b, In (Some b) l -> r = Some b).
Proof.
  revert ret. induction l as [|[b|] l IH]; intros ret r H; cbn [check_bases] in H.
  - injection H as <-. split; [auto|intros b []].
  - destruct ret as [r0|].
    + destruct (baseType_eqb b r0) eqn:E; [|discriminate]. apply baseType_eqb_eq in E. subst b.
      destruct (IH _ _ H) as [H1 H2]. split; [exact H1|].
      intros b [Hb|Hb]; [injection Hb as ->; apply H1; reflexivity|apply H2; exact Hb].
    + destruct (IH _ _ H) as [H1 H2]. split; [discriminate|].
      intros b' [Hb|Hb]; [injection Hb as ->; apply H1; reflexivity|apply H2; exact Hb].
  - destruct (IH _ _ H) as [H1 H2]. split; [exact H1|].
    intros b [Hb|Hb]; [discriminate|apply H2; exact Hb].
Qed.
Lemma check_bases_all b l : (forall x, In x l -> x = None \/ x = Some b) ->
  forall ret, ret = None \/ ret = Some b ->
  check_bases ret l = Ok (if existsb (fun x => match x with Some _ => true | None => false end) (ret :: l)
                          then Some b else None).
Proof.
  induction l as [|[c|] l IH]; intros Hl ret Hr; cbn [check_bases existsb].
  - destruct Hr as [->| ->]; reflexivity.
  - destruct (Hl (Some c) (or_introl eq_refl)) as [H|H]; [discriminate|]. injection H as ->.
    assert (Hl' : forall x, In x l -> x = None \/ x = Some b) by (intros; apply Hl; right; assumption).
    destruct Hr as [->| ->].
    + rewrite (IH Hl' (Some b)) by auto. reflexivity.
    + rewrite baseType_eqb_refl. rewrite (IH Hl' (Some b)) by auto. reflexivity.
  - rewrite IH; [|intros; apply Hl; right; assumption|exact Hr]. cbn [existsb]. destruct ret; reflexivity.
Qed.
Lemma check_cards_all b l : (forall x, In x l -> x = None \/ x = Some b) ->
  forall ret, ret = None \/ ret = Some b ->
  check_cards ret l = Ok (if existsb (fun x => match x with Some _ => true | None => false end) (ret :: l)
                          then Some b else None).
Proof.
  induction l as [|[c|] l IH]; intros Hl ret Hr; cbn [check_cards existsb].
  - destruct Hr as [->| ->]; reflexivity.
  - destruct (Hl (Some c) (or_introl eq_refl)) as [H|H]; [discriminate|]. injection H as ->.
    assert (Hl' : forall x, In x l -> x = None \/ x = Some b) by (intros; apply Hl; right; assumption).
    destruct Hr as [->| ->].
    + rewrite (IH Hl' (Some b)) by auto. reflexivity.
    + replace (cardinality_eqb b b) with true by (symmetry; apply cardinality_eqb_eq; reflexivity).
      rewrite (IH Hl' (Some b)) by auto. reflexivity.
  - rewrite IH; [|intros; apply Hl; right; assumption|exact Hr]. cbn [existsb]. destruct ret; reflexivity.
Qed.
Lemma check_cards_ok ret l : forall r, check_cards ret l = Ok r ->
  (forall b, ret = Some b -> r = Some b) /\
  (forall b, In (Some b) l -> r = Some b).
Proof.
  revert ret. induction l as [|[b|] l IH]; intros ret r H; cbn [check_cards] in H.
  - injection H as <-. split; [auto|intros b []].
  - destruct ret as [r0|].
    + destruct (cardinality_eqb b r0) eqn:E; [|discriminate]. apply cardinality_eqb_eq in E. subst b.
      destruct (IH _ _ H) as [H1 H2]. split; [exact H1|].
      intros b [Hb|Hb]; [injection Hb as ->; apply H1; reflexivity|apply H2; exact Hb].
    + destruct (IH _ _ H) as [H1 H2]. split; [discriminate|].
      intros b' [Hb|Hb]; [injection Hb as ->; apply H1; reflexivity|apply H2; exact Hb].
  - destruct (IH _ _ H) as [H1 H2]. split; [exact H1|].
    intros b [Hb|Hb]; [discriminate|apply H2; exact Hb].
Qed.
Lemma bases_inv l b r : CheckBaseTypes l = Ok r -> In (Some b) l ->
  forall x, In x l -> x = None \/ x = Some b.
Proof.
  intros H Hb x Hx. unfold CheckBaseTypes in H. destruct (check_bases_ok _ _ _ H) as [_ H2].
  pose proof (H2 _ Hb) as E. destruct x as [c|]; [|auto]. right. rewrite (H2 _ Hx) in E. congruence.
Qed.
Lemma cards_inv l b r : CheckCardinalities l = Ok r -> In (Some b) l ->
  forall x, In x l -> x = None \/ x = Some b.
Proof.
  intros H Hb x Hx. unfold CheckCardinalities in H. destruct (check_cards_ok _ _ _ H) as [_ H2].
  pose proof (H2 _ Hb) as E. destruct x as [c|]; [|auto]. right. rewrite (H2 _ Hx) in E. congruence.
Qed.
Lemma check_numeric_ok l : forall ret r, check_numeric ret l = Ok r ->
  (forall b, ret = Some b -> numeric b = true) ->
  (forall b, In (Some b) l -> numeric b = true) /\
  (r = Some BInteger -> (ret = None \/ ret = Some BInteger) /\ forall b, In (Some b) l -> b = BInteger) /\
  (r = None <-> ret = None /\ forall x, In x l -> x = None) /\
  (forall b, r = Some b -> numeric b = true) /\
  (ret = Some BFloat -> r = Some BFloat) /\
  (In (Some BFloat) l -> r = Some BFloat).
Proof.
  induction l as [|[b|] l IH]; intros ret r H Hret; cbn [check_numeric] in H.
  - injection H as <-. split; [intros b []|]. split; [intros ->; split; [auto|intros b []]|].
    split; [split; [intros ->; split; [reflexivity|intros x []]|intros [-> _]; reflexivity]|].
    split; [exact Hret|]. split; [auto|intros []].
  - destruct (numeric b) eqn:Eb; cbn [negb] in H; [|discriminate].
    destruct ret as [r0|].
    + destruct (baseType_eqb b r0) eqn:E.
      * apply baseType_eqb_eq in E. subst r0.
        destruct (IH _ _ H Hret) as (H1 & H2 & H3 & H4 & H5 & H6).
        split; [intros c [Hc|Hc]; [injection Hc as <-; exact Eb|apply H1; exact Hc]|].
        split. { intros Er. destruct (H2 Er) as [[?|Hb] H7]; [discriminate|]. injection Hb as ->.
          split; [auto|]. intros c [Hc|Hc]; [congruence|apply H7; exact Hc]. }
        split. { split; [intros Er; apply H3 in Er as [? _]; discriminate|intros [? _]; discriminate]. }
        split; [exact H4|]. split; [exact H5|]. intros [Hf|Hf]; [injection Hf as ->; apply H5; reflexivity|apply H6; exact Hf].
      * assert (Hf : forall c, Some BFloat = Some c -> numeric c = true) by (intros c Hc; injection Hc as <-; reflexivity).
        destruct (IH _ _ H Hf) as (H1 & H2 & H3 & H4 & H5 & H6).
        specialize (H5 eq_refl). subst r.
        split; [intros c [Hc|Hc]; [injection Hc as <-; exact Eb|apply H1; exact Hc]|].
        split; [discriminate|]. split; [split; [discriminate|intros [? _]; discriminate]|].
        split; [intros c Hc; injection Hc as <-; reflexivity|]. split; auto.
    + assert (Hb : forall c, Some b = Some c -> numeric c = true) by (intros c Hc; injection Hc as <-; exact Eb).
      destruct (IH _ _ H Hb) as (H1 & H2 & H3 & H4 & H5 & H6).
      split; [intros c [Hc|Hc]; [injection Hc as <-; exact Eb|apply H1; exact Hc]|].
      split. { intros Er. destruct (H2 Er) as [[?|Hbb] H7]; [discriminate|]. injection Hbb as ->.
        split; [auto|]. intros c [Hc|Hc]; [congruence|apply H7; exact Hc]. }
      split. { split; [intros Er; apply H3 in Er as [? _]; discriminate|]. intros [_ Hx].
        specialize (Hx _ (or_introl eq_refl)). discriminate. }
      split; [exact H4|]. split; [discriminate|]. intros [Hf|Hf]; [injection Hf as ->; apply H5; reflexivity|apply H6; exact Hf].
  - destruct (IH _ _ H Hret) as (H1 & H2 & H3 & H4 & H5 & H6).
    split; [intros c [Hc|Hc]; [discriminate|apply H1; exact Hc]|].
    split. { intros Er. destruct (H2 Er) as [Ha Hb]. split; [exact Ha|]. intros c [Hc|Hc]; [discriminate|apply Hb; exact Hc]. }
    split. { rewrite H3. split; intros [Ha Hb]; split; auto. intros x [Hx|Hx]; [auto|apply Hb; exact Hx].
      intros x Hx; apply Hb; right; exact Hx. }
    split; [exact H4|]. split; [exact H5|]. intros [Hf|Hf]; [discriminate|apply H6; exact Hf].
Qed.

(** ** Three-valued logic *)
Lemma bool_operand_base v ob : bool_operand v ob -> base v = None \/ base v = Some BBoolean.
Proof. intros [->|[_ [->|[->|[->| ->]]]]]; cbn; auto. Qed.
Lemma bool_operand_card v ob : bool_operand v ob -> card v = None \/ card v = Some CSingle.
Proof. intros [->|[_ [->|[->|[->| ->]]]]]; cbn; auto. Qed.
Lemma bool_operand_of v ob : bool_operand v ob -> bool_of v = ob.
Proof. intros [->|[-> [->|[->|[->| ->]]]]]; cbn; auto. destruct ob; reflexivity. Qed.

Lemma check_booleans_ok vs obs : Forall2 bool_operand vs obs -> check_booleans vs = Ok tt.
Proof.
  intros H. unfold check_booleans, CheckBaseTypes, CheckCardinalities.
  rewrite (check_cards_all CSingle); [cbn [bind]| |left; reflexivity].
  - rewrite (check_bases_all BBoolean); [reflexivity| |left; reflexivity].
    intros x Hx. apply in_app_or in Hx as [Hx|[<-|[]]]; [|auto].
    apply in_map_iff in Hx as (v & <- & Hv). revert Hv. induction H; intros [].
    + subst. eapply bool_operand_base; eassumption.
    + apply IHForall2; assumption.
  - intros x Hx. apply in_app_or in Hx as [Hx|[<-|[]]]; [|auto].
    apply in_map_iff in Hx as (v & <- & Hv). revert Hv. induction H; intros [].
    + subst. eapply bool_operand_card; eassumption.
    + apply IHForall2; assumption.
Qed.

Lemma completes_ex obs : exists bs, completes obs bs.
Proof.
  induction obs as [|[b|] obs [bs IH]]; [exists []; constructor| |].
  - exists (b :: bs). constructor; auto.
  - exists (true :: bs). constructor; auto.
Qed.
Lemma completes_cons ob obs bs : completes (ob :: obs) bs ->
  exists b bs', bs = b :: bs' /\ (ob = None \/ ob = Some b) /\ completes obs bs'.
Proof. intros H. inversion H as [|x y l l' Hh Ht]; subst. exists y, l'. auto. Qed.

Lemma and_loop_none_or vs obs : Forall2 bool_operand vs obs ->
  and_loop None vs = None \/ and_loop None vs = Some false.
Proof.
  induction 1 as [|v ob vs obs Hv H IH]; [auto|]. cbn [and_loop]. destruct (bool_of v) as [[]|]; auto.
Qed.
Lemma and_loop_best vs obs : Forall2 bool_operand vs obs ->
  forall res, res <> Some false ->
  best_answer (fun bs => match bs with [] => true | b :: bs => b && conj bs end)
              (res :: obs) (and_loop res vs).
Proof.
  induction 1 as [|v ob vs obs Hv H IH]; intros res Hres; cbn [and_loop].
  - destruct res as [[]|]; [|congruence|]; cbn [best_answer].
    + intros bs Hb. apply completes_cons in Hb as (b & bs' & -> & [?|Hb] & Hc); [discriminate|].
      injection Hb as <-. inversion Hc; subst. reflexivity.
    + split; [exists [true]|exists [false]]; (split; [constructor; [auto|constructor]|reflexivity]).
  - rewrite (bool_operand_of _ _ Hv). destruct ob as [[]|].
    + specialize (IH res Hres). destruct (and_loop res vs) as [b|] eqn:E; cbn [best_answer] in *.
      * intros bs Hb. apply completes_cons in Hb as (b1 & bs1 & -> & Hb1 & Hc).
        apply completes_cons in Hc as (b2 & bs2 & -> & [?|Hb2] & Hc); [discriminate|].
        injection Hb2 as <-. specialize (IH (b1 :: bs2)). cbn [conj forallb] in *.
        apply IH. constructor; assumption.
      * destruct IH as [(bs & Hb & Hf) (bs' & Hb' & Hf')].
        apply completes_cons in Hb as (b1 & bs1 & -> & Hb1 & Hc).
        apply completes_cons in Hb' as (b2 & bs2 & -> & Hb2 & Hc2).
        split; [exists (b1 :: true :: bs1)|exists (b2 :: true :: bs2)];
          (split; [constructor; [assumption|constructor; [auto|assumption]]|assumption]).
    + cbn [best_answer]. intros bs Hb.
      apply completes_cons in Hb as (b1 & bs1 & -> & Hb1 & Hc).
      apply completes_cons in Hc as (b2 & bs2 & -> & [?|Hb2] & Hc); [discriminate|].
      injection Hb2 as <-. cbn [conj forallb]. apply andb_false_r.
    + specialize (IH None ltac:(discriminate)).
      destruct (and_loop None vs) as [b|] eqn:E; cbn [best_answer] in *.
      * destruct (and_loop_none_or _ _ H) as [E1|E1]; rewrite E1 in E; [discriminate|]. injection E as <-.
        intros bs Hb. apply completes_cons in Hb as (b1 & bs1 & -> & Hb1 & Hc).
        apply completes_cons in Hc as (b2 & bs2 & -> & Hb2 & Hc).
        specialize (IH (true :: bs2)). cbn [conj forallb andb] in IH |- *.
        unfold conj in IH. rewrite IH by (constructor; auto). rewrite !andb_false_r. reflexivity.
      * destruct IH as [(bs & Hb & Hf) _].
        apply completes_cons in Hb as (b1 & bs1 & -> & Hb1 & Hc).
        apply andb_true_iff in Hf as [_ Hf].
        split.
        -- exists (true :: true :: bs1). split; [|exact Hf].
           constructor; [destruct res as [[]|]; [auto|congruence|auto]|constructor; auto].
        -- exists (true :: false :: bs1). split; [|reflexivity].
           constructor; [destruct res as [[]|]; [auto|congruence|auto]|constructor; auto].
Qed.
Lemma and_best vs obs : Forall2 bool_operand vs obs -> best_answer conj obs (and_loop (Some true) vs).
Proof.
  intros H. pose proof (and_loop_best _ _ H (Some true) ltac:(discriminate)) as B.
  destruct (and_loop (Some true) vs) as [b|]; cbn [best_answer] in *.
  - intros bs Hb. apply (B (true :: bs)). constructor; auto.
  - destruct B as [(bs & Hb & Hf) (bs' & Hb' & Hf')].
    apply completes_cons in Hb as (b1 & bs1 & -> & [?|Hb1] & Hc); [discriminate|]. injection Hb1 as <-.
    apply completes_cons in Hb' as (b2 & bs2 & -> & [?|Hb2] & Hc2); [discriminate|]. injection Hb2 as <-.
    split; [exists bs1|exists bs2]; split; assumption.
Qed.

(** Or is And of the negations *)
Definition flip (v : value) : value :=
  match v with VSingle b (Some (ABool x)) => VSingle b (Some (ABool (negb x))) | _ => v end.
Lemma flip_operand v ob : bool_operand v ob -> bool_operand (flip v) (option_map negb ob).
Proof.
  intros [->|[-> H]].
  - left. destruct ob; reflexivity.
  - right. split; [reflexivity|]. destruct H as [->|[->|[->| ->]]]; cbn; auto.
Qed.
Lemma flip_operands vs obs : Forall2 bool_operand vs obs ->
  Forall2 bool_operand (map flip vs) (map (option_map negb) obs).
Proof. induction 1; constructor; [apply flip_operand|]; assumption. Qed.
Lemma or_and vs : forall res, or_loop res vs = option_map negb (and_loop (option_map negb res) (map flip vs)).
Proof.
  induction vs as [|v vs IH]; intros res; cbn [or_loop and_loop map].
  - destruct res as [[]|]; reflexivity.
  - assert (E : bool_of (flip v) = option_map negb (bool_of v)).
    { destruct v as [| |b [[]|]| | |]; cbn; reflexivity. }
    rewrite E. destruct (bool_of v) as [[]|]; cbn [option_map negb].
    + reflexivity.
    + apply IH.
    + apply (IH None).
Qed.
Lemma completes_neg obs bs : completes obs bs -> completes (map (option_map negb) obs) (map negb bs).
Proof.
  induction 1 as [|ob b obs bs Hh H IH]; constructor; [|assumption].
  destruct Hh as [->| ->]; cbn; auto.
Qed.
Lemma completes_neg' obs bs : completes (map (option_map negb) obs) (map negb bs) -> completes obs bs.
Proof.
  revert bs; induction obs as [|ob obs IH]; intros [|b bs] H; inversion H as [|x y l l' Hh Ht]; subst; constructor.
  - destruct ob as [[]|], b; cbn in Hh; destruct Hh as [?|?]; auto; discriminate.
  - apply IH; assumption.
Qed.
Lemma map_negb_inv (bs : list bool) : map negb (map negb bs) = bs.
Proof. induction bs as [|[] bs IH]; cbn; congruence. Qed.
Lemma disj_conj bs : disj bs = negb (conj (map negb bs)).
Proof. induction bs as [|[] bs IH]; cbn in *; auto. Qed.
Lemma or_best vs obs : Forall2 bool_operand vs obs -> best_answer disj obs (or_loop (Some false) vs).
Proof.
  intros H. rewrite or_and. cbn [option_map negb].
  pose proof (and_best _ _ (flip_operands _ _ H)) as B.
  destruct (and_loop (Some true) (map flip vs)) as [b|]; cbn [best_answer option_map] in *.
  - intros bs Hb. rewrite disj_conj. f_equal. apply B. apply completes_neg. exact Hb.
  - destruct B as [(bs & Hb & Hf) (bs' & Hb' & Hf')].
    rewrite <- (map_negb_inv bs) in Hb. rewrite <- (map_negb_inv bs') in Hb'.
    apply completes_neg' in Hb. apply completes_neg' in Hb'.
    split; [exists (map negb bs')|exists (map negb bs)]; (split; [assumption|]);
      rewrite disj_conj, map_negb_inv, ?Hf, ?Hf'; reflexivity.
Qed.
Lemma not_best v ob : bool_operand v ob -> best_answer negation [ob] (option_map negb (bool_of v)).
Proof.
  intros H. rewrite (bool_operand_of _ _ H). destruct ob as [b|]; cbn [option_map best_answer].
  - intros bs Hb. apply completes_cons in Hb as (b' & bs' & -> & [?|Hb'] & Hc); [discriminate|].
    injection Hb' as <-. inversion Hc; subst. reflexivity.
  - split; [exists [false]|exists [true]]; (split; [constructor; [auto|constructor]|reflexivity]).
Qed.

(** anyN *)
Definition nulls (obs : list (option bool)) : Z :=
  Z.of_nat (length (filter (fun o => match o with None => true | _ => false end) obs)).
Definition knowns (obs : list (option bool)) : Z :=
  Z.of_nat (length (filter (fun o => match o with Some true => true | _ => false end) obs)).
Lemma anyn_loop_eq vs obs : Forall2 bool_operand vs obs -> forall t n,
  anyn_loop t n vs = (t + knowns obs, n + nulls obs).
Proof.
  unfold knowns, nulls.
  induction 1 as [|v ob vs obs Hv H IH]; intros t n; cbn [anyn_loop filter length].
  - f_equal; lia.
  - rewrite (bool_operand_of _ _ Hv). destruct ob as [[]|]; cbn [length]; rewrite IH; f_equal; lia.
Qed.
Lemma nulls_nonneg obs : 0 <= nulls obs. Proof. unfold nulls. lia. Qed.
Lemma trues_range obs bs : completes obs bs -> knowns obs <= trues bs <= knowns obs + nulls obs.
Proof.
  unfold knowns, nulls, trues.
  induction 1 as [|ob b obs bs Hh H IH]; cbn [filter length]; [lia|].
  destruct Hh as [->| ->]; destruct b; cbn [length]; lia.
Qed.
Lemma trues_all obs k : knowns obs <= k <= knowns obs + nulls obs ->
  exists bs, completes obs bs /\ trues bs = k.
Proof.
  unfold knowns, nulls, trues. revert k.
  induction obs as [|[[]|] obs IH]; intros k Hk; cbn [filter length] in Hk.
  - exists []. split; [constructor|cbn; lia].
  - destruct (IH (k - 1)) as (bs & Hb & E); [lia|]. exists (true :: bs).
    split; [constructor; auto|]. cbn [filter length]. lia.
  - destruct (IH k) as (bs & Hb & E); [lia|]. exists (false :: bs).
    split; [constructor; auto|]. cbn [filter length]. lia.
  - destruct (Z_le_gt_dec k (Z.of_nat (length (filter (fun o : option bool => match o with Some true => true | _ => false end) obs)))) as [L|L].
    + destruct (IH k) as (bs & Hb & E); [lia|]. exists (false :: bs).
      split; [constructor; auto|]. cbn [filter length]. lia.
    + destruct (IH (k - 1)) as (bs & Hb & E); [lia|]. exists (true :: bs).
      split; [constructor; auto|]. cbn [filter length]. lia.
Qed.
Lemma anyn_best mn mx obs : mn <= mx ->
  best_answer (between mn mx) obs (anyn_result mn mx (knowns obs) (nulls obs)).
Proof.
  intros Hm. unfold anyn_result, between. pose proof (nulls_nonneg obs) as Hn.
  destruct (knowns obs >=? mn) eqn:E1.
  - destruct (knowns obs >? mx) eqn:E2; [|destruct (knowns obs + nulls obs >? mx) eqn:E3]; cbn [best_answer].
    + intros bs Hb. pose proof (trues_range _ _ Hb). lia.
    + split.
      * destruct (trues_all obs (knowns obs)) as (bs & Hb & E); [lia|]. exists bs. split; [exact Hb|lia].
      * destruct (trues_all obs (knowns obs + nulls obs)) as (bs & Hb & E); [lia|]. exists bs. split; [exact Hb|lia].
    + intros bs Hb. pose proof (trues_range _ _ Hb). lia.
  - destruct (knowns obs + nulls obs >=? mn) eqn:E2; cbn [best_answer].
    + split.
      * destruct (trues_all obs mn) as (bs & Hb & E); [lia|]. exists bs. split; [exact Hb|lia].
      * destruct (trues_all obs (knowns obs)) as (bs & Hb & E); [lia|]. exists bs. split; [exact Hb|lia].
    + intros bs Hb. pose proof (trues_range _ _ Hb). lia.
Qed.

(** Operands of a successful boolean operator are boolean *)
Lemma boolean_operand {X : Ext} v : wf_value v -> base v = None \/ base v = Some BBoolean ->
  card v = None \/ card v = Some CSingle -> exists ob, bool_operand v ob.
Proof.
  intros Hw Hb Hc. destruct v as [|bt|bt oa|bt l|bt m|m]; cbn in Hb, Hc; try (destruct Hc; discriminate).
  - exists None. right. auto.
  - exists None. right. destruct Hb as [->| ->]; auto 10.
  - destruct bt as [b|].
    + destruct Hb as [?|Hb]; [discriminate|]. injection Hb as ->.
      destruct oa as [a|]; [|exists None; left; reflexivity].
      cbn in Hw. destruct a; try contradiction. exists (Some b). left. reflexivity.
    + destruct oa as [a|]; [contradiction|]. exists None. right. auto.
Qed.
Lemma check_booleans_inv {X : Ext} vs : Forall wf_value vs -> check_booleans vs = Ok tt ->
  exists obs, Forall2 bool_operand vs obs.
Proof.
  intros Hw H. unfold check_booleans in H.
  destruct (CheckCardinalities _) as [c|] eqn:Ec; [cbn [bind] in H|discriminate].
  destruct (CheckBaseTypes _) as [b|] eqn:Eb; [|discriminate].
  assert (H1 : forall v, In v vs -> base v = None \/ base v = Some BBoolean).
  { intros v Hv. apply (bases_inv _ _ _ Eb); apply in_or_app; [right; left; reflexivity|left; apply in_map; exact Hv]. }
  assert (H2 : forall v, In v vs -> card v = None \/ card v = Some CSingle).
  { intros v Hv. apply (cards_inv _ _ _ Ec); apply in_or_app; [right; left; reflexivity|left; apply in_map; exact Hv]. }
  clear - Hw H1 H2. induction vs as [|v vs IH]; [exists []; constructor|].
  inversion Hw as [|x y Hv Hvs]; subst.
  destruct IH as [obs Ho]; [assumption|intros; apply H1; right; assumption|intros; apply H2; right; assumption|].
  destruct (boolean_operand v Hv (H1 _ (or_introl eq_refl)) (H2 _ (or_introl eq_refl))) as [ob Hob].
  exists (ob :: obs). constructor; assumption.
Qed.
