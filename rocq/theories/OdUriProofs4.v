(** Resource paths and the options that go with them. *)
From Verif Require Import Py Iso Dec Shapes XmlChars Xsd Imscp Uri OdExpr OdExprSpec ImscpProofs XsdSpec XsdProofs2 OdUri OdUriSpec OdUriProofs.
Open Scope Z_scope.
Open Scope list_scope.

Lemma pathopt_eqb_iff a b : pathopt_eqb a b = true <-> a = b.
Proof. destruct a, b; vm_compute; split; congruence. Qed.
Lemma sysopt_eqb_iff a b : sysopt_eqb a b = true <-> a = b.
Proof. destruct a, b; vm_compute; split; congruence. Qed.
Lemma lower1_ws c : is_ws c = true -> lower1 c = c.
Proof. unfold is_ws, lower1. intros H. destruct ((c >=? 65) && (c <=? 90)) eqn:E; [lia|reflexivity]. Qed.
Lemma trimmed_no_ws s : Forall (fun c => is_ws c = false) s -> trimmed s.
Proof.
  intros H. split; [destruct H; auto|]. apply Forall_rev in H. destruct H; auto.
Qed.
Lemma pathopt_of_iff s o : pathopt_of s = Ok o <-> option_word o (36 :: s).
Proof.
  unfold pathopt_of, option_word. split.
  - destruct (find _ pathopts) as [o'|] eqn:E; [|discriminate]. intros [= ->]. apply find_some in E. destruct E as [_ E]. apply str_eqb_eq in E.
    destruct (strip_inv s) as (p & q & Hp & Hq & S & _). exists p, (Xsd.strip s), q. split; [now f_equal|]. rewrite !forallb_forall. rewrite Forall_forall in Hp, Hq. auto.
  - intros (w1 & k & w2 & [= ->] & H1 & H2 & E).
    assert (trimmed k) as T.
    { apply trimmed_no_ws. apply Forall_forall. intros c I. destruct (is_ws c) eqn:W; [|reflexivity]. exfalso.
      assert (In c (pathopt_name o)) as I' by (rewrite <- E; unfold OdExpr.lower; apply in_map_iff; exists c; split; [now apply lower1_ws|exact I]).
      assert (Forall (fun c => is_ws c = false) (pathopt_name o)) as F by (destruct o; repeat constructor).
      rewrite Forall_forall in F. rewrite (F c I') in W. discriminate. }
    rewrite strip_padded; [|apply Forall_forall; now apply forallb_forall..|exact T]. rewrite E. destruct o; reflexivity.
Qed.
Lemma pathopt_of_err s e : pathopt_of s = Err e -> e = ValueError.
Proof. unfold pathopt_of. destruct (find _ _); congruence. Qed.

Section Paths.
Context {X : Type}.
Variable number : edm_type -> numeric -> result X.
Variable quoted : edm_type -> str -> result (X * str).
Variable start id : Z -> bool.
Notation SplitSegment := (SplitSegment X number quoted start id).
Notation path_loop := (path_loop X number quoted start id).
Notation path_step := (path_step X number quoted start id).
Notation read_path := (read_path X number quoted start id).
Notation names := (names number quoted start id).
Notation path_form := (path_form number quoted start id).
Notation mkPath := (mkPath X).

Lemma step_name nav s x : names s x -> path_step (mkPath nav None None) s = UOk (mkPath (nav ++ [x]) None None).
Proof. intros [D S]. unfold OdUri.path_step. cbn [is_option p_option]. rewrite D, S. reflexivity. Qed.
Lemma loop_names l nav : Forall2 names l nav -> forall nav0 l', path_loop (mkPath nav0 None None) (l ++ l') = path_loop (mkPath (nav0 ++ nav) None None) l'.
Proof.
  induction 1 as [|s x l nav H F IH]; intros nav0 l'; cbn [app]; [now rewrite app_nil_r|].
  cbn [OdUri.path_loop]. rewrite (step_name nav0 s x H). cbn [ubind]. rewrite IH, <- app_assoc. reflexivity.
Qed.
Lemma word_dollar o w : option_word o w -> is_dollar w = true /\ pathopt_of (tl w) = Ok o.
Proof. intros H. pose proof H as (w1 & k & w2 & -> & _). split; [reflexivity|]. cbn [tl]. now apply pathopt_of_iff. Qed.
Lemma step_word nav o w : option_word o w -> path_step (mkPath nav None None) w = UOk (mkPath nav (Some o) None).
Proof. intros H. apply word_dollar in H. destruct H as [D S]. unfold OdUri.path_step. cbn [is_option p_option p_nav p_links]. rewrite D, S. cbn. now rewrite andb_false_r. Qed.
Lemma form_cons s x l p : names s x -> path_form l p -> path_form (s :: l) (mkPath (x :: p_nav X p) (p_option X p) (p_links X p)).
Proof.
  intros H F. destruct F; cbn [p_nav p_option p_links].
  - apply PFplain. now constructor.
  - apply (PFlast number quoted start id (s :: l)); auto.
  - apply (PFlinks number quoted start id (s :: l) (x :: nav)); auto.
Qed.

Definition finished (p : path X) : Prop := is_option X PLinks p = true -> p_links X p <> None.
Lemma loop_iff l : forall nav0 p, (path_loop (mkPath nav0 None None) l = UOk p /\ finished p) <->
  exists p', path_form l p' /\ p = mkPath (nav0 ++ p_nav X p') (p_option X p') (p_links X p').
Proof.
  intros nav0 p. split.
  - revert nav0. induction l as [|s l IH]; intros nav0 [H Fi].
    + cbn in H. injection H as <-. exists (mkPath [] None None). split; [apply PFplain; constructor|]. cbn. now rewrite app_nil_r.
    + cbn [OdUri.path_loop] in H. unfold OdUri.path_step in H. cbn [is_option p_option p_nav p_links] in H. destruct (is_dollar s) eqn:D.
      * destruct s as [|c s]; [discriminate|]. assert (c = 36) as -> by (unfold is_dollar in D; destruct c as [|c|c]; try discriminate; do 6 (destruct c as [c|c|]; try discriminate); reflexivity).
        cbn [tl] in H. destruct (pathopt_of s) as [o|e] eqn:E; cbn [lift ubind] in H; [|discriminate]. apply pathopt_of_iff in E. rewrite andb_false_r in H. cbn [andb ubind] in H.
        destruct (pathopt_eqb o PLinks) eqn:El.
        -- apply pathopt_eqb_iff in El. subst o. destruct l as [|s1 l].
           ++ cbn in H. injection H as <-. now destruct (Fi eq_refl).
           ++ cbn [OdUri.path_loop] in H. unfold OdUri.path_step in H. cbn [is_option p_option p_links p_nav] in H.
              replace (pathopt_eqb PLinks PLinks) with true in H by reflexivity.
              destruct (is_dollar s1) eqn:D1; [discriminate|]. destruct (SplitSegment s1) as [x|] eqn:S1; cbn [lift ubind] in H; [|discriminate].
              destruct l as [|s2 l]; [|discriminate]. cbn in H. injection H as <-.
              exists (mkPath [x] (Some PLinks) (Some (fst x))). split; [|reflexivity].
              apply (PFlinks number quoted start id [] [] (36 :: s) s1 x); [constructor|exact E|now split].
        -- assert (o <> PLinks) as No by (intros ->; discriminate El).
           destruct l as [|s1 l].
           ++ cbn in H. injection H as <-. exists (mkPath [] (Some o) None). split; [|cbn; now rewrite app_nil_r].
              apply (PFlast number quoted start id [] [] o); [constructor|exact E|exact No].
           ++ exfalso. cbn [OdUri.path_loop] in H. unfold OdUri.path_step in H. cbn [is_option p_option p_links p_nav] in H.
              destruct o; try (now destruct No); cbn in H; destruct (is_dollar s1); try discriminate;
                destruct (pathopt_of (tl s1)); discriminate.
      * cbn [orb] in H. destruct (SplitSegment s) as [x|] eqn:S; cbn [lift ubind] in H; [|discriminate].
        destruct (IH (nav0 ++ [x]) (conj H Fi)) as (p' & F & ->). exists (mkPath (x :: p_nav X p') (p_option X p') (p_links X p')).
        split; [apply form_cons; [now split|exact F]|]. cbn [p_nav p_option p_links]. now rewrite <- app_assoc.
  - intros (p' & F & ->). destruct F as [l nav F|l nav o w F W No|l nav w s x F W Hs]; cbn [p_nav p_option p_links].
    + split; [|discriminate]. rewrite <- (app_nil_r l), (loop_names _ _ F). reflexivity.
    + split; [|unfold finished; cbn [is_option p_option]; intros E; apply pathopt_eqb_iff in E; congruence]. rewrite (loop_names _ _ F). cbn [OdUri.path_loop].
      rewrite (step_word _ o w W). reflexivity.
    + split; [|unfold finished; cbn; congruence]. rewrite (loop_names _ _ F). cbn [OdUri.path_loop]. rewrite (step_word _ _ w W). cbn [ubind].
      destruct Hs as [D S]. unfold OdUri.path_step. cbn [is_option p_option p_links p_nav]. replace (pathopt_eqb PLinks PLinks) with true by reflexivity.
      rewrite D, S. cbn. now rewrite <- app_assoc.
Qed.

Lemma slashes_split l : Forall (fun s => ~ In 47 s) l -> tl (split_on 47 (slashes l)) = l.
Proof.
  intros H. destruct l as [|s l]; [reflexivity|]. cbn [slashes flat_map]. change (47 :: s) with ([] ++ 47 :: s). rewrite <- app_assoc. cbn [app].
  cbn [split_on]. rewrite Z.eqb_refl. cbn [tl]. revert s H. induction l as [|t l IH]; intros s H; inversion H; subst; cbn [flat_map].
  - rewrite app_nil_r. now apply split_no.
  - cbn [app]. rewrite split_app_no by assumption. f_equal. apply IH. assumption.
Qed.
Lemma path_eta (p : path X) : mkPath (p_nav X p) (p_option X p) (p_links X p) = p. Proof. destruct p; reflexivity. Qed.
Theorem path_iff l p : Forall (fun s => ~ In 47 s) l -> l <> [[]] -> (read_path (slashes l) = UOk p <-> path_form l p).
Proof.
  intros H N. unfold OdUri.read_path. destruct (str_eqb (slashes l) [47]) eqn:E.
  - exfalso. apply str_eqb_eq in E. destruct l as [|s [|t l]]; [discriminate|..]; cbn in E.
    + rewrite app_nil_r in E. injection E as ->. now apply N.
    + injection E as E. destruct s; discriminate.
  - rewrite slashes_split by exact H. pose proof (loop_iff l [] p) as K. cbn [app] in K. split.
    + intros R. destruct (path_loop _ l) as [q|] eqn:Q; cbn [ubind] in R; [|discriminate].
      assert (q = p /\ finished p) as [-> Fi].
      { unfold finished. destruct (is_option X PLinks q) eqn:Ei; cbn [andb] in R; [destruct (p_links X q) eqn:El; [|discriminate]|]; injection R as <-; split; congruence. }
      destruct K as [K _]. destruct (K (conj eq_refl Fi)) as (p' & F & ->). now rewrite path_eta.
    + intros F. destruct K as [_ K]. destruct K as [-> Fi]; [exists p; split; [exact F|now rewrite path_eta]|]. cbn [ubind].
      unfold finished in Fi. destruct (is_option X PLinks p); [|reflexivity]. destruct (p_links X p); [reflexivity|now destruct Fi].
Qed.

(** ** System query options *)
Section Options.
Variable V : Type.
Notation uquery := (uquery V).
Lemma existsb_iff o l : existsb (sysopt_eqb o) l = true <-> In o l.
Proof. rewrite existsb_exists. split; [intros (x & I & E); apply sysopt_eqb_iff in E; now subst|intros I; exists o; split; [exact I|now apply sysopt_eqb_iff]]. Qed.
Lemma validate_iff form (q : uquery) : validate V form q = UOk tt <-> forall o v, In (o, v) (q_sys V q) -> In o (supported form).
Proof.
  unfold validate. destruct (forallb _ _) eqn:E.
  - split; [|reflexivity]. intros _ o v I. rewrite forallb_forall in E. apply E in I. now apply existsb_iff in I.
  - split; [discriminate|]. intros H. enough (forallb (fun p => existsb (sysopt_eqb (fst p)) (supported form)) (q_sys V q) = true) by congruence.
    apply forallb_forall. intros [o v] I. apply existsb_iff. eauto.
Qed.
Lemma validate_err form (q : uquery) e : validate V form q = UErr e -> e = InvalidSystemQueryOption.
Proof. unfold validate. destruct (forallb _ _); congruence. Qed.
Lemma last_rev {A} (l : list A) d : last l d = hd d (rev l).
Proof. induction l as [|a l IH] using rev_ind; [reflexivity|]. rewrite last_last, rev_app_distr. reflexivity. Qed.
Theorem options_iff (p : path X) (q : uquery) :
  check_options X V p q = UOk tt <-> forall o v, In (o, v) (q_sys V q) -> allowed p o.
Proof.
  unfold check_options, allowed. destruct (p_option X p) as [[]|]; try (rewrite validate_iff); try easy.
  unfold last_key. rewrite last_rev. destruct (rev (p_nav X p)) as [|[n [[|k ks]|]] r]; cbn [hd]; rewrite validate_iff; easy.
Qed.
Theorem options_err (p : path X) (q : uquery) e : check_options X V p q = UErr e -> e = InvalidSystemQueryOption.
Proof.
  unfold check_options. destruct (p_option X p) as [[]|]; try discriminate; try apply validate_err.
  destruct (last_key X p); apply validate_err.
Qed.
End Options.
End Paths.
